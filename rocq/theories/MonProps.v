(* C49 and C50: with sys.monitoring (Python 3.12 and later) line and function
   breakpoints stop the threads reaching them, steps stop where they should, and a
   continued thread only stops at breakpoints and exceptions, whatever the threads of
   the program do, in every order. *)
From Coq Require Import PeanoNat NArith List Bool Lia.
From Verif Require Import Step Mon MonProofs.
Import ListNotations.
Local Open Scope N_scope.

(* ----- What the statements are about ----- *)

(* Every state the program and the client can bring about, from any breakpoints. *)
Definition reached (w : mworld) (s : mstate) : Prop :=
  exists bs fs os, s = m_run w os (m_start bs fs).

(* A thread is stopped, with frame f shown as the current one. *)
Definition stopped_in (t : nat) (s : mstate) (x : wait) (f : mf) : Prop :=
  exists th, nth_error (thrs s) t = Some th /\ wt th = Some x /\ In f (frames th) /\ mid f = shown x.

Definition stopped (t : nat) (s : mstate) (x : wait) : Prop :=
  exists th, nth_error (thrs s) t = Some th /\ wt th = Some x.

(* A thread is not stopped, and has these frames, the current one first. *)
Definition free (t : nat) (s : mstate) (fs : list mf) : Prop :=
  exists th, nth_error (thrs s) t = Some th /\ wt th = None /\ frames th = fs.

(* Nor has anything asked it to stop (a pause, or a stop of another thread). *)
Definition running (t : nat) (s : mstate) (fs : list mf) : Prop :=
  exists th, nth_error (thrs s) t = Some th /\ wt th = None /\ frames th = fs /\ susp (nfo th) = false.

(* The client sends nothing to the thread. *)
Definition undisturbed (t : nat) (os : list mop) : Prop :=
  Forall (fun o => match o with MCmd u _ => u <> t | _ => True end) os.

(* Code which is debugged: not of the debugger, not marked with DontTrace, and not
   filtered out. *)
Definition debugged (w : mworld) (c : N) : Prop :=
  mskip w c = false /\ mdont w c = false /\ (mfilter_on w = true -> mfilt w c = false).

(* A stop which was not the effect of a pause; or a stop at an exception when every
   stop stops all the threads, the way of clients of the debug adapter protocol. *)
Definition steppable (w : mworld) (x : wait) : Prop :=
  why x <> RPause \/ at_evt x = EExc /\ single w = true.

(* A breakpoint which stops. *)
Definition stopping (b : bp) (ok : bool) : Prop :=
  (conditional b = true -> ok = true) /\ logpoint b = false.

(* The functions with which pydevd starts programs are files of the debugger. *)
Definition started_by_debugger (w : mworld) : Prop := forall c, mend w c = true -> mskip w c = true.

(* ----- Helpers ----- *)

Lemma debugged_plain w c : debugged w c <-> plain w c.
Proof.
  unfold debugged, plain. destruct (mfilter_on w), (mfilt w c); cbn; intuition congruence.
Qed.

Lemma reached_ok w s t : reached w s -> wfm w s /\ posted w s t.
Proof.
  intros (bs & fs & os & ->). split; [apply m_run_wfm, m_start_wfm|].
  apply run_posted; [apply m_start_wfm|apply start_posted].
Qed.

Lemma undisturbed_commands t os : undisturbed t os -> Forall (fun o => ~ commands t o) os.
Proof. apply Forall_impl. intros []; cbn; auto. Qed.

Lemma hits_stopping b ok : hits b ok = true <-> stopping b ok.
Proof. unfold hits, stopping. destruct (conditional b), (logpoint b), ok; cbn; intuition congruence. Qed.

Lemma reached_more w s os : reached w s -> reached w (m_run w os s).
Proof.
  intros (bs & fs & os0 & ->). exists bs, fs, (os0 ++ os).
  generalize (m_start bs fs). induction os0 as [|o os0 IH]; intros s; [reflexivity|]. apply IH.
Qed.

Lemma reached_exec w s o : reached w s -> reached w (m_exec w o s).
Proof. apply (reached_more w s [o]). Qed.

Lemma not_gone t s th f : nth_error (thrs s) t = Some th -> In f (frames th) -> ~ gone (mid f) s.
Proof. intros H F [_ G]. apply (G f); [|reflexivity]. eapply thread_live; eauto. Qed.

Ltac line_stops := unfold waits, stopped; intros (th' & T1 & T2); eauto.

(* ----- C49 ----- *)

(* The breakpoints the client set last, as the requests tell. *)
Definition setting (p : breaks * list (N * bp)) (o : mop) : breaks * list (N * bp) :=
  match o with
  | MAdd bs fs => (bs, fs)
  | MDrop bs fs =>
      if forallb (fun b => has_break (fst p) (fst (fst b)) (snd (fst b))) bs
         && forallb (fun b => match find_func (snd p) (fst b) with Some _ => true | None => false end) fs
      then (bs, fs) else p
  | _ => p
  end.

(* No callback answers DISABLE to a change of breakpoints made meanwhile, and
   breakpoints are not put in generators which wait to be resumed and had none. *)
Definition allowed (w : mworld) (s : mstate) (o : mop) : Prop :=
  match o with
  | MRace _ _ _ _ => False
  | MAdd bs _ => forall g, In g (idle s) ->
      (exists l, has_break bs (mfile w (mcode g)) l = true /\ In l (map snd (mlines w (mcode g)))) ->
      exists l, has_break (mbrks s) (mfile w (mcode g)) l = true /\ In l (map snd (mlines w (mcode g)))
  | _ => True
  end.

Fixpoint all_allowed (w : mworld) (os : list mop) (s : mstate) : Prop :=
  match os with
  | [] => True
  | o :: os => allowed w s o /\ all_allowed w os (m_exec w o s)
  end.

Lemma allowed_fair w s o : allowed w s o -> fair w s o.
Proof.
  destruct o as [u a|u c|bs fs|bs fs|u all| |u o bs fs]; cbn; auto.
  intros A g G. rewrite !code_breaks_nonempty. auto.
Qed.

Lemma run_armed w os : forall s, all_allowed w os s -> wfm w s -> armed w s -> armed w (m_run w os s).
Proof.
  induction os as [|o os IH]; intros s A W R; [exact R|]. destruct A as [A1 A2].
  apply IH; [exact A2|apply m_exec_wfm, W|]. apply m_exec_armed; auto. apply allowed_fair, A1.
Qed.

Lemma setting_exec w o s : allowed w s o ->
  (mbrks (m_exec w o s), mfuncs (m_exec w o s)) = setting (mbrks s, mfuncs s) o.
Proof.
  intros A. destruct o as [u a|u c|bs fs|bs fs|u all| |u o bs fs]; cbn [m_exec setting allowed fst snd] in *.
  - destruct (is_waiting u s); [reflexivity|]. pose proof (act_brks w u a s) as [-> ->]. reflexivity.
  - pose proof (m_cmd_keeps w u c s) as K. rewrite (k_brks _ _ K), (k_funcs _ _ K). reflexivity.
  - unfold m_add. cbn [with_mon mbrks mfuncs].
    match goal with |- context [enable_threads w ?ts ?s] => pose proof (enable_threads_tuned w ts s) as T end.
    destruct T as [T1 T2 T3 T4 T5 T6 T7 T8]. rewrite T6, T7. reflexivity.
  - unfold m_drop. destruct (_ && _); reflexivity.
  - destruct (nth_error (thrs s) u) as [th|] eqn:H.
    + pose proof (set_suspend_spec w u true all s th H) as K. rewrite (s_brks _ _ _ _ _ _ K), (s_funcs _ _ _ _ _ _ K).
      reflexivity.
    + unfold set_suspend. rewrite H. reflexivity.
  - reflexivity.
  - destruct A.
Qed.

(* The breakpoints in force are those which were set last. *)
Theorem mon_breakpoints_last_set w os bs fs : all_allowed w os (m_start bs fs) ->
  (mbrks (m_run w os (m_start bs fs)), mfuncs (m_run w os (m_start bs fs))) = fold_left setting os (bs, fs).
Proof.
  intros A. change (bs, fs) with (mbrks (m_start bs fs), mfuncs (m_start bs fs)).
  revert A. generalize (m_start bs fs). induction os as [|o os IH]; intros s A; [reflexivity|].
  destruct A as [A1 A2]. cbn [fold_left m_run]. rewrite IH by exact A2. f_equal. apply setting_exec, A1.
Qed.

(* A thread reaching a line with a breakpoint stops there. *)
Theorem mon_line_breakpoint_stops w bs fs os t f back o ok l b :
  all_allowed w os (m_start bs fs) ->
  free t (m_run w os (m_start bs fs)) (f :: back) ->
  debugged w (mcode f) ->
  line_of (mlines w (mcode f)) o = Some l ->
  find_break (fst (fold_left setting os (bs, fs))) (mfile w (mcode f)) l = Some b ->
  stopping b ok ->
  stopped t (m_exec w (MDo t (MLine o ok)) (m_run w os (m_start bs fs))) (Wait (mid f) RBreak ELine false).
Proof.
  intros A (th & H & Hw & Ef) D L B S.
  rewrite <- (mon_breakpoints_last_set w os bs fs A) in B. cbn [fst] in B.
  pose proof (run_armed w os _ A (m_start_wfm w bs fs) (m_start_armed w bs fs)) as R.
  pose proof (m_run_wfm w os _ (m_start_wfm w bs fs)) as W.
  set (s := m_run w os (m_start bs fs)) in *. apply debugged_plain in D.
  assert (K : bp_at (code_breaks w (mbrks s) (mcode f)) l = Some b).
  { rewrite bp_at_break; [exact B|]. eapply line_of_in; eauto. }
  assert (Kn : k_lines (kof w s (mcode f)) <> []).
  { rewrite (kof_plain w s _ D). cbn. intros E. rewrite E in K. discriminate. }
  assert (On : mon_on (mn s) = true).
  { apply (a_on _ _ R). unfold has_breaks. destruct (mbrks s); [discriminate|]. cbn. apply orb_true_r. }
  pose proof (line_reported w t s th f back o ok l W H Hw Ef L On) as Q.
  rewrite (kof_plain w s _ D) in Q. unfold line_outcome in Q. cbn [k_skip k_filt k_lines orb] in Q. rewrite K in Q.
  apply hits_stopping in S. rewrite S in Q. apply Q.
  - apply (a_live _ _ R); [|exact Kn]. eapply thread_live; [exact H|]. rewrite Ef. left. reflexivity.
  - apply (a_line _ _ R), Kn.
Qed.

(* A thread calling a function with a function breakpoint stops there. *)
Theorem mon_function_breakpoint_stops w bs fs os t c ok b stack :
  all_allowed w os (m_start bs fs) ->
  free t (m_run w os (m_start bs fs)) stack ->
  debugged w c ->
  find_func (snd (fold_left setting os (bs, fs))) (mname w c) = Some b ->
  stopping b ok ->
  exists f, stopped_in t (m_exec w (MDo t (MCall c ok)) (m_run w os (m_start bs fs)))
              (Wait (mid f) RFunc ECall false) f /\ mcode f = c.
Proof.
  intros A (th & H & Hw & Ef) D B S.
  rewrite <- (mon_breakpoints_last_set w os bs fs A) in B. cbn [snd] in B.
  pose proof (run_armed w os _ A (m_start_wfm w bs fs) (m_start_armed w bs fs)) as R.
  pose proof (m_run_wfm w os _ (m_start_wfm w bs fs)) as W.
  set (s := m_run w os (m_start bs fs)) in *. apply debugged_plain in D.
  assert (Kn : k_func (kof w s c) = Some b) by (rewrite (kof_plain w s _ D); exact B).
  assert (On : mon_on (mn s) = true).
  { apply (a_on _ _ R). unfold has_breaks. destruct (mfuncs s); [discriminate|]. reflexivity. }
  pose proof (call_reported w t s th c ok W H Hw On) as Q. unfold start_outcome in Q. rewrite Kn in Q.
  rewrite skip_kof in Q. replace (mskip w c) with false in Q by (symmetry; apply D).
  apply hits_stopping in S. rewrite S in Q.
  destruct Q as (th' & Q1 & Q2); [apply (a_start _ _ R); right; fold (kof w s c); congruence|].
  exists (Mf (fresh s) c 0). split; [|reflexivity]. exists th'. split; [exact Q1|]. split; [exact Q2|].
  split; [|reflexivity]. cbn [m_exec] in Q1.
  assert (Hn : is_waiting t s = false) by (unfold is_waiting; rewrite H, Hw; reflexivity). rewrite Hn in Q1.
  destruct (act_own w t (MCall c ok) s th W H Hw) as (y & Y1 & _ & Y3). rewrite Q1 in Y1. injection Y1 as <-.
  cbn [stacked] in Y3. rewrite Y3 by (right; discriminate). left. reflexivity.
Qed.

(* The other way round, in every reachable state: a stop at a breakpoint is at a line,
   or a call, with a breakpoint in force which stops, in code which is debugged. *)
Theorem mon_breakpoint_stop_sound w s t a x fs : reached w s -> free t s fs ->
  stopped t (m_exec w (MDo t a) s) x ->
  (why x = RBreak -> exists o ok f back l b, a = MLine o ok /\ fs = f :: back /\ shown x = mid f /\
     line_of (mlines w (mcode f)) o = Some l /\ debugged w (mcode f) /\
     find_break (mbrks s) (mfile w (mcode f)) l = Some b /\ stopping b ok) /\
  (why x = RFunc -> exists c ok b, a = MCall c ok /\ debugged w c /\
     find_func (mfuncs s) (mname w c) = Some b /\ stopping b ok).
Proof.
  intros R (th & H & Hw & Ef) (th' & H' & Hx). destruct (reached_ok w s t R) as [W _]. cbn [m_exec] in H'.
  assert (Hn : is_waiting t s = false) by (unfold is_waiting; rewrite H, Hw; reflexivity). rewrite Hn in H'.
  destruct (act_own w t a s th W H Hw) as (y & Y1 & Y2 & _). rewrite H' in Y1. injection Y1 as <-.
  destruct Y2 as [(x' & X1 & _ & St & _)|Go]; [|inversion Go; subst; discriminate].
  assert (x' = x) as -> by congruence. clear X1.
  inversion St as [o ok f back l y Fr L O E1 E2|o ok f back l Fr L O E1 E2|c ok y O E1 E2|f b back Fr O E1 E2|f back Fr Sk E1 E2];
    subst; cbn [why shown]; (split; [|intros E]); try (intros E); try discriminate.
  - subst y. exists o, ok, f, back, l. unfold line_outcome in O.
    destruct (k_skip (kof w s (mcode f))) eqn:K1; [discriminate|].
    destruct (k_filt (kof w s (mcode f))) eqn:K2; [discriminate|]. cbn [orb] in O.
    assert (P : plain w (mcode f)) by (apply (plain_kof w s); auto).
    rewrite (kof_plain w s _ P) in O. cbn [k_lines k_forced] in O.
    rewrite (bp_at_break w _ _ l) in O by (eapply line_of_in; eauto).
    assert (Ns : forall q : outcome, q = OStop RBreak ->
      q = (if susp (nfo th) then OPause
           else match step (nfo th) with
                | NoStep => if negb (is_nil (code_breaks w (mbrks s) (mcode f))) || any_stepping s then OPass else ODisable
                | Into => OStop (RStep Into) | IntoCo => OStop (RStep IntoCo)
                | IntoMy => if mfilt w (mcode f) then OPass else OStop (RStep IntoMy)
                | Over => if same (stop (nfo th)) (Some (mid (Mf (mid f) (mcode f) l))) then OStop (RStep Over) else OPass
                | OverMy => if same (stop (nfo th)) (Some (mid (Mf (mid f) (mcode f) l))) then OStop (RStep OverMy) else OPass
                | Suspend => OStop (RStep Suspend)
                | Return | ReturnMy => OPass
                end) -> False).
    { intros q -> E. destruct (susp (nfo th)); [discriminate|].
      destruct (step (nfo th)); try discriminate; try (destruct (same _ _); discriminate);
        try (destruct (mfilt _ _); discriminate); destruct (_ || _); discriminate. }
    destruct (find_break (mbrks s) (mfile w (mcode f)) l) as [b|] eqn:B.
    + exists b. destruct (hits b ok) eqn:Hh.
      * apply debugged_plain in P. apply hits_stopping in Hh. auto 10.
      * exfalso. exact (Ns _ eq_refl (eq_sym O)).
    + exfalso. exact (Ns _ eq_refl (eq_sym O)).
  - subst y. unfold line_outcome in O. exfalso. destruct (_ || _) in O; [discriminate|].
    destruct (match bp_at _ _ with Some _ => _ | None => _ end) in O; [discriminate|].
    destruct (susp (nfo th)); [discriminate|].
    destruct (step (nfo th)); try discriminate; try (destruct (same _ _); discriminate);
      try (destruct (k_forced _); discriminate); destruct (_ || _); discriminate.
  - subst y. unfold start_outcome in O. exfalso. destruct (k_skip _); [discriminate|].
    destruct (k_func _) as [b|]; [destruct (hits b ok); discriminate|]. destruct (_ || _); discriminate.
  - unfold start_outcome in O. destruct (k_skip (kof w s c)) eqn:K1; [discriminate|].
    destruct (k_func (kof w s c)) as [b|] eqn:K2; [|destruct (_ || _); discriminate].
    destruct (hits b ok) eqn:Hh; [|discriminate].
    destruct (compute_func w (mbrks s) (mfuncs s) c) as (C1 & C2 & C3); [fold (kof w s c); congruence|].
    assert (P : plain w c) by (apply (plain_kof w s); auto).
    rewrite (kof_plain w s _ P) in K2. cbn in K2. apply debugged_plain in P. apply hits_stopping in Hh.
    exists c, ok, b. auto.
Qed.

(* ----- C50 ----- *)

(* Code where a step of my code only ends. *)
Definition ends_in (w : mworld) (my : bool) (c : N) : Prop :=
  debugged w c /\ (my = true -> mfilt w c = false).

Lemma ends_shown w s my c : ends_in w my c <-> shows_return (kof w s c) my = true.
Proof.
  unfold shows_return. split.
  - intros [D M]. apply debugged_plain in D. rewrite (kof_plain w s _ D). cbn. destruct my; [|reflexivity].
    rewrite M; reflexivity.
  - intros E. apply andb_true_iff in E. destruct E as [E M]. apply andb_true_iff in E. destruct E as [E1 E2].
    apply negb_true_iff in E1, E2. assert (P : plain w c) by (apply (plain_kof w s); auto).
    split; [apply debugged_plain, P|]. intros ->. rewrite (kof_plain w s _ P) in M. cbn in M.
    destruct (mfilt w c); [discriminate|reflexivity].
Qed.

Definition is_over (c : cmd) : bool := match c with Over | OverMy => true | _ => false end.
Definition is_out (c : cmd) : bool := match c with Return | ReturnMy => true | _ => false end.
Definition my_code (c : cmd) : bool := match c with OverMy | IntoMy | ReturnMy => true | _ => false end.

Lemma stop_shown w b back : started_by_debugger w -> debugged w (mcode b) -> mprop w (mcode b) = false ->
  stop_on_return w (b :: back) = RShow b.
Proof.
  intros Wo (D1 & D2 & _) P. unfold stop_on_return. rewrite P, D2.
  destruct (mend w (mcode b)) eqn:E; [|reflexivity]. apply Wo in E. congruence.
Qed.

(* What a step over or out has become when its frame is still there. *)
Lemma step_state w t c s0 i k os s fs : started_by_debugger w -> wfm w s0 -> undisturbed t os ->
  going t i (J_step w c k) s0 -> coded i k s0 -> (exists th, nth_error (thrs s0) t = Some th) ->
  s = m_run w os s0 -> running t s fs -> (exists g, In g fs /\ mid g = i) ->
  exists th, nth_error (thrs s) t = Some th /\ wt th = None /\ susp (nfo th) = false /\ frames th = fs /\
    step (nfo th) = c /\ stop (nfo th) = Some i /\ stepping_on w s /\
    (over_like c = true -> lev (mn s) k = true) /\ rev (mn s) k = true /\
    (forall g, In g fs -> mid g = i -> mcode g = k) /\ wfm w s.
Proof.
  intros Wo W U G C [th0 H0] -> (th & H & Hw & Ef & Hs) (g & G1 & G2).
  apply undisturbed_commands in U.
  pose proof (run_going w t i c k os Wo U s0 th0 W H0 G th H) as D.
  pose proof (m_run_wfm w os s0 W) as W'.
  destruct D as [D|[[D _]|[D|(_ & _ & _ & D1 & J1 & J2 & J3 & J4)]]]; [congruence|congruence| |].
  - exfalso. subst i fs. eapply not_gone; eauto.
  - exists th. repeat (split; [first [exact H|exact Hw|exact Hs|exact Ef|exact J1|exact D1|exact J2|exact J3|exact J4]|]).
    split; [|exact W'].
    intros g' I' E'. pose proof (coded_from _ _ _ _ (run_from w os s0) C) as [_ C2]. apply C2; [|exact E'].
    subst fs. eapply thread_live; eauto.
Qed.

(* A step over stops at the next line of the frame, unless the thread stopped before. *)
Theorem mon_step_over_next_line w s0 t x f c os s g back o ok l :
  started_by_debugger w -> reached w s0 -> stopped_in t s0 x f -> steppable w x ->
  is_over c = true -> debugged w (mcode f) -> undisturbed t os ->
  s = m_run w os (m_exec w (MCmd t c) s0) ->
  running t s (g :: back) -> mid g = mid f -> line_of (mlines w (mcode g)) o = Some l ->
  exists y, (y = RBreak \/ y = RStep c) /\
    stopped t (m_exec w (MDo t (MLine o ok)) s) (Wait (mid f) y ELine false).
Proof.
  intros Wo R (th0 & H0 & Hx & F0 & E0) St Oc D U Es Rn Eg L.
  destruct (reached_ok w s0 t R) as [W P].
  destruct (over_going w t c s0 th0 x f W P H0 Hx St Oc F0 E0 (proj1 D)) as (G & C & T).
  destruct (step_state w t c _ (mid f) (mcode f) os s (g :: back) Wo (m_exec_wfm w _ s0 W) U G C T Es Rn)
    as (th & H & Hw & Hs & Ef & Sc & Sp & [On Cl] & Lv & _ & Cd & W').
  { exists g. split; [left; reflexivity|exact Eg]. }
  assert (Ec : mcode g = mcode f) by (apply Cd; [left; reflexivity|exact Eg]).
  apply debugged_plain in D.
  pose proof (line_reported w t s th g back o ok l W' H Hw Ef L On) as Q. rewrite Ec in *.
  rewrite (kof_plain w s _ D) in Q. unfold line_outcome in Q. cbn [k_skip k_filt k_lines k_forced orb] in Q.
  rewrite Hs, Sc, Sp, Eg in Q. assert (Sm : same (Some (mid f)) (Some (mid f)) = true) by (apply same_true; reflexivity).
  rewrite Sm in Q. specialize (Q (Lv Oc) (c_line _ _ Cl _ _ D)).
  destruct (match bp_at _ _ with Some _ => _ | None => _ end) in Q; [exists RBreak; auto|].
  destruct c; try discriminate; eauto.
Qed.

(* When the frame returns to code where it may end, a step over stops in the caller. *)
Theorem mon_step_over_return w s0 t x f c os s g b back :
  started_by_debugger w -> reached w s0 -> stopped_in t s0 x f -> steppable w x ->
  is_over c = true -> debugged w (mcode f) -> undisturbed t os ->
  s = m_run w os (m_exec w (MCmd t c) s0) ->
  running t s (g :: b :: back) -> mid g = mid f ->
  ends_in w (my_code c) (mcode b) -> mprop w (mcode b) = false ->
  stopped t (m_exec w (MDo t MRet) s) (Wait (mid b) (RStep c) ERet true).
Proof.
  intros Wo R (th0 & H0 & Hx & F0 & E0) St Oc D U Es Rn Eg En Pr.
  destruct (reached_ok w s0 t R) as [W P].
  destruct (over_going w t c s0 th0 x f W P H0 Hx St Oc F0 E0 (proj1 D)) as (G & C & T).
  destruct (step_state w t c _ (mid f) (mcode f) os s (g :: b :: back) Wo (m_exec_wfm w _ s0 W) U G C T Es Rn)
    as (th & H & Hw & Hs & Ef & Sc & Sp & [On Cl] & _ & Rv & Cd & W').
  { exists g. split; [left; reflexivity|exact Eg]. }
  assert (Ec : mcode g = mcode f) by (apply Cd; [left; reflexivity|exact Eg]).
  rewrite <- Ec in Rv. pose proof (return_reported w t s th g (b :: back) W' H Hw Ef On Rv) as Q.
  unfold return_outcome in Q. rewrite skip_kof, Ec, (proj1 D), Sc, Sp, Eg in Q.
  assert (Sm : same (Some (mid f)) (Some (mid f)) = true) by (apply same_true; reflexivity). rewrite Sm in Q.
  rewrite (stop_shown w b back Wo (proj1 En) Pr) in Q. apply (ends_shown w s) in En.
  destruct c; try discriminate; cbn [my_code] in En; rewrite En in Q; exact Q.
Qed.

(* When it returns to code where it may not end (or there is no caller), it goes on as
   a step into: the thread stops at the next line of code which may end the step, but
   for generators. *)
Theorem mon_step_over_return_hidden w s0 t x f c os s g back os2 s2 h back2 o ok l :
  started_by_debugger w -> reached w s0 -> stopped_in t s0 x f -> steppable w x ->
  is_over c = true -> debugged w (mcode f) -> undisturbed t os ->
  s = m_run w os (m_exec w (MCmd t c) s0) ->
  running t s (g :: back) -> mid g = mid f ->
  (forall b rest, back = b :: rest -> ~ ends_in w (my_code c) (mcode b)) ->
  undisturbed t os2 -> s2 = m_run w os2 (m_exec w (MDo t MRet) s) ->
  running t s2 (h :: back2) -> ends_in w (my_code c) (mcode h) -> mgen w (mcode h) = false ->
  line_of (mlines w (mcode h)) o = Some l ->
  exists y, (y = RBreak \/ y = RStep (if my_code c then IntoMy else Into)) /\
    stopped t (m_exec w (MDo t (MLine o ok)) s2) (Wait (mid h) y ELine false).
Proof.
  intros Wo R (th0 & H0 & Hx & F0 & E0) St Oc D U Es Rn Eg Nb U2 Es2 Rn2 En Ng L.
  destruct (reached_ok w s0 t R) as [W P].
  destruct (over_going w t c s0 th0 x f W P H0 Hx St Oc F0 E0 (proj1 D)) as (G & C & T).
  destruct (step_state w t c _ (mid f) (mcode f) os s (g :: back) Wo (m_exec_wfm w _ s0 W) U G C T Es Rn)
    as (th & H & Hw & Hs & Ef & Sc & Sp & So & _ & Rv & Cd & W').
  { exists g. split; [left; reflexivity|exact Eg]. }
  assert (Ec : mcode g = mcode f) by (apply Cd; [left; reflexivity|exact Eg]).
  rewrite <- Ec in Rv. pose proof (return_reported w t s th g back W' H Hw Ef (so_on _ _ So) Rv) as Q.
  assert (O : return_outcome w (kof w s (mcode g)) (fun b => kof w s (mcode b)) (nfo th) g back = RConvert).
  { unfold return_outcome. rewrite skip_kof, Ec, (proj1 D), Sc, Sp, Eg.
    assert (Sm : same (Some (mid f)) (Some (mid f)) = true) by (apply same_true; reflexivity). rewrite Sm.
    destruct back as [|b rest]; [destruct c; try discriminate; reflexivity|].
    assert (Sb : shows_return (kof w s (mcode b)) (my_code c) = false).
    { destruct (shows_return (kof w s (mcode b)) (my_code c)) eqn:E; [|reflexivity].
      apply (ends_shown w s) in E. destruct (Nb b rest eq_refl E). }
    destruct c; try discriminate; cbn [my_code] in Sb; rewrite Sb; reflexivity. }
  rewrite O in Q. destruct Q as [Q1 Q2].
  assert (Cv : step (converted (nfo th)) = if my_code c then IntoMy else Into)
    by (unfold converted; rewrite Sc; destruct c; try discriminate; reflexivity).
  assert (Il : into_like (if my_code c then IntoMy else Into) = true) by (destruct (my_code c); reflexivity).
  set (c2 := if my_code c then IntoMy else Into) in *.
  assert (Stp : stepping th = true) by (apply free_stepping; auto; rewrite Sc; destruct c; discriminate).
  assert (Ig : into_going w t c2 (initial (converted (nfo th))) (m_exec w (MDo t MRet) s)).
  { intros th' H'. rewrite Q1 in H'. injection H' as <-. right. right. cbn [wt nfo frames].
    split; [reflexivity|]. split; [exact Hs|]. split; [exact Cv|]. split; [reflexivity|].
    split; [exact (exec_stepping_on w (MDo t MRet) s t th W' H Stp So)|]. apply Q2. rewrite Cv. exact Il. }
  apply undisturbed_commands in U2.
  assert (W1 : wfm w (m_exec w (MDo t MRet) s)) by apply m_exec_wfm, W'.
  pose proof (run_into_going w t c2 _ os2 Wo Il U2 _ _ W1 Q1 Ig) as G2. rewrite <- Es2 in G2.
  destruct Rn2 as (th2 & H2 & Hw2 & Ef2 & Hs2).
  destruct (G2 th2 H2) as [X|[[X _]|(_ & _ & S2 & _ & [On Cl] & V)]]; [congruence|congruence|].
  assert (W2 : wfm w s2) by (rewrite Es2; apply m_run_wfm, W1).
  destruct (V h) as [Lv _]; [rewrite Ef2; left; reflexivity|apply En|exact Ng|].
  destruct En as [Dh Mh]. apply debugged_plain in Dh.
  pose proof (line_reported w t s2 th2 h back2 o ok l W2 H2 Hw2 Ef2 L On Lv (c_line _ _ Cl _ _ Dh)) as Q.
  rewrite (kof_plain w s2 _ Dh) in Q. unfold line_outcome in Q. cbn [k_skip k_filt k_lines k_forced orb] in Q.
  rewrite Hs2, S2 in Q.
  destruct (match bp_at _ _ with Some _ => _ | None => _ end) in Q; [exists RBreak; auto|].
  exists (RStep c2). split; [auto|]. unfold c2 in *. destruct (my_code c); [rewrite (Mh eq_refl) in Q|]; exact Q.
Qed.

(* What a step into has become. *)
Lemma into_state w t c s0 x f os s fs : started_by_debugger w -> reached w s0 -> stopped_in t s0 x f ->
  steppable w x -> c = Into \/ c = IntoMy -> undisturbed t os ->
  s = m_run w os (m_exec w (MCmd t c) s0) -> running t s fs ->
  exists th, nth_error (thrs s) t = Some th /\ wt th = None /\ susp (nfo th) = false /\ frames th = fs /\
    step (nfo th) = into_cmd w c f /\ initial (nfo th) = Some (mid f, mline f) /\
    stepping_on w s /\ watched w s fs /\ wfm w s.
Proof.
  intros Wo R (th0 & H0 & Hx & F0 & E0) St Ic U -> (th & H & Hw & Ef & Hs).
  destruct (reached_ok w s0 t R) as [W P].
  destruct (cmd_into_going w t c s0 th0 x f W P H0 Hx St Ic F0 E0) as (G & Il & [th1 H1]).
  apply undisturbed_commands in U. pose proof (m_exec_wfm w (MCmd t c) s0 W) as W1.
  destruct (run_into_going w t _ _ os Wo Il U _ _ W1 H1 G th H) as [X|[[X _]|(_ & _ & S & I & On & V)]];
    [congruence|congruence|].
  exists th. rewrite Ef in V. pose proof (m_run_wfm w os _ W1). auto 10.
Qed.

(* A step into stops at the next line of code where it may end, in the function called
   or in a caller, but for generators and coroutines. *)
Theorem mon_step_into_next_line w s0 t x f c os s h back o ok l :
  started_by_debugger w -> reached w s0 -> stopped_in t s0 x f -> steppable w x ->
  c = Into \/ c = IntoMy -> undisturbed t os ->
  s = m_run w os (m_exec w (MCmd t c) s0) ->
  running t s (h :: back) -> ends_in w (my_code c) (mcode h) -> mgen w (mcode h) = false ->
  line_of (mlines w (mcode h)) o = Some l ->
  exists y, (y = RBreak \/ y = RStep c \/ y = RStep IntoCo /\ mcoro w (mcode f) = true) /\
    stopped t (m_exec w (MDo t (MLine o ok)) s) (Wait (mid h) y ELine false).
Proof.
  intros Wo R Sp St Ic U Es Rn [Dh Mh] Ng L.
  destruct (into_state w t c s0 x f os s (h :: back) Wo R Sp St Ic U Es Rn)
    as (th & H & Hw & Hs & Ef & Sc & In0 & [On Cl] & V & W).
  destruct (V h) as [Lv _]; [left; reflexivity|apply Dh|exact Ng|].
  apply debugged_plain in Dh.
  pose proof (line_reported w t s th h back o ok l W H Hw Ef L On Lv (c_line _ _ Cl _ _ Dh)) as Q.
  rewrite (kof_plain w s _ Dh) in Q. unfold line_outcome in Q. cbn [k_skip k_filt k_lines k_forced orb] in Q.
  rewrite Hs, Sc in Q.
  destruct (match bp_at _ _ with Some _ => _ | None => _ end) in Q; [exists RBreak; auto|].
  unfold into_cmd in Q. destruct (mcoro w (mcode f)) eqn:Co; [exists (RStep IntoCo); auto 10|].
  exists (RStep c). split; [auto|]. destruct Ic as [-> | ->]; [exact Q|rewrite (Mh eq_refl) in Q; exact Q].
Qed.

(* When a function returns while stepping into, the thread stops in the caller, unless
   that is on the line the step started from. *)
Theorem mon_step_into_return w s0 t x f c os s g b back :
  started_by_debugger w -> reached w s0 -> stopped_in t s0 x f -> steppable w x ->
  c = Into \/ c = IntoMy -> undisturbed t os ->
  s = m_run w os (m_exec w (MCmd t c) s0) ->
  running t s (g :: b :: back) -> mskip w (mcode g) = false -> mgen w (mcode g) = false ->
  ends_in w (my_code c) (mcode b) -> mprop w (mcode b) = false ->
  ~ (mid b = mid f /\ mline b = mline f) ->
  exists y, (y = c \/ y = IntoCo /\ mcoro w (mcode f) = true) /\
    stopped t (m_exec w (MDo t MRet) s) (Wait (mid b) (RStep y) ERet true).
Proof.
  intros Wo R Sp St Ic U Es Rn Sg Ng En Pr Ni.
  destruct (into_state w t c s0 x f os s (g :: b :: back) Wo R Sp St Ic U Es Rn)
    as (th & H & Hw & Hs & Ef & Sc & In0 & [On Cl] & V & W).
  destruct (V g) as [_ Rv]; [left; reflexivity|exact Sg|exact Ng|].
  pose proof (return_reported w t s th g (b :: back) W H Hw Ef On Rv) as Q.
  unfold return_outcome in Q. rewrite skip_kof, Sg, Sc, In0 in Q.
  assert (I0 : N.eqb (mid f) (mid b) && N.eqb (mline f) (mline b) = false).
  { destruct (N.eqb_spec (mid f) (mid b)), (N.eqb_spec (mline f) (mline b)); try reflexivity. destruct Ni. auto. }
  rewrite I0, (stop_shown w b back Wo (proj1 En) Pr) in Q. cbn [negb] in Q.
  pose proof (proj1 (ends_shown w s _ _) En) as S1.
  assert (S2 : shows_return (kof w s (mcode b)) false = true) by (apply ends_shown; split; [apply En|discriminate]).
  unfold into_cmd in Q. destruct (mcoro w (mcode f)) eqn:Co.
  - exists IntoCo. split; [auto|]. rewrite S2 in Q. exact Q.
  - exists c. split; [auto|]. destruct Ic as [-> | ->]; cbn [my_code] in S1; rewrite S1 in Q; exact Q.
Qed.

(* Frames a step out does not return to. *)
Definition passed (w : mworld) (my : bool) (c : N) : Prop :=
  (my = true \/ mfilter_on w = true) /\ mfilt w c = true.

Lemma target_split w my pre : forall f back g b rest, f :: back = pre ++ g :: b :: rest ->
  (forall h, In h (tl (pre ++ [g])) -> passed w my (mcode h)) -> ~ passed w my (mcode b) ->
  m_target w my f back = g :: b :: rest.
Proof.
  assert (B : forall c, (my || mfilter_on w) && mfilt w c = true <-> passed w my c).
  { intros c. unfold passed. destruct my, (mfilter_on w), (mfilt w c); cbn; intuition congruence. }
  induction pre as [|p pre IH]; intros f back g b rest E Hp Hb; cbn [app] in E; injection E as -> ->.
  - cbn. destruct (_ && _) eqn:Eb; [|reflexivity]. apply B in Eb. destruct (Hb Eb).
  - destruct (pre ++ g :: b :: rest) as [|q l] eqn:Eq; [destruct pre; discriminate|].
    assert (Pq : passed w my (mcode q)).
    { apply Hp. cbn. destruct pre as [|p' pre]; cbn in Eq; injection Eq as <- _; left; reflexivity. }
    cbn. apply B in Pq. rewrite Pq. apply (IH q l g b rest); [congruence| |exact Hb].
    intros h Hh. apply Hp. cbn. destruct (pre ++ [g]); [destruct Hh|right; exact Hh].
Qed.

(* A step out stops in the first caller which is not passed, when the frame called by
   it returns. *)
Theorem mon_step_out w s0 t x f c os s pre g0 b0 rest g b back :
  started_by_debugger w -> reached w s0 -> stopped_in t s0 x f -> steppable w x ->
  is_out c = true ->
  (exists th skipped, nth_error (thrs s0) t = Some th /\ frames th = skipped ++ pre ++ g0 :: b0 :: rest) ->
  hd_error (pre ++ [g0]) = Some f ->
  (forall h, In h (tl (pre ++ [g0])) -> passed w (my_code c) (mcode h)) ->
  ~ passed w (my_code c) (mcode b0) -> mskip w (mcode g0) = false ->
  undisturbed t os -> s = m_run w os (m_exec w (MCmd t c) s0) ->
  running t s (g :: b :: back) -> mid g = mid g0 ->
  debugged w (mcode b) -> mprop w (mcode b) = false ->
  stopped t (m_exec w (MDo t MRet) s) (Wait (mid b) (RStep c) ERet true).
Proof.
  intros Wo R (th0 & H0 & Hx & F0 & E0) St Oc (thx & sk & Hx0 & Fr) Hd Hp Hb Sg U Es Rn Eg Db Pr.
  rewrite H0 in Hx0. injection Hx0 as <-.
  destruct (reached_ok w s0 t R) as [W P].
  assert (My : my_code c = match c with ReturnMy => true | _ => false end) by (destruct c; try discriminate; reflexivity).
  assert (Fs : exists l, pre ++ g0 :: b0 :: rest = f :: l).
  { destruct pre as [|p pre]; cbn in *; injection Hd as ->; eauto. }
  destruct Fs as [l Fs].
  assert (Fm : forall back0, m_from (shown x) (frames th0) = f :: back0 -> back0 = l).
  { intros back0 M. rewrite Fr, Fs, <- E0 in M.
    assert (N0 : ~ In (mid f) (map mid sk)).
    { pose proof (w_nodup _ _ W) as Nd. unfold live in Nd.
      destruct (put_split t th0 th0 (thrs s0) H0) as (l1 & l2 & L1 & _). rewrite L1, Fr, Fs in Nd.
      rewrite !map_app in Nd. rewrite <- !app_assoc in Nd. apply nodup_app_r in Nd.
      intros I. clear -Nd I. induction (map mid sk) as [|z zs IH]; [destruct I|]. cbn [app] in Nd.
      apply NoDup_cons_iff in Nd. destruct Nd as [N1 N2]. destruct I as [-> |I]; [|auto].
      apply N1. rewrite !in_app_iff. right. left. left. reflexivity. }
    clear -M N0. induction sk as [|z sk IH]; cbn [app m_from] in M.
    - rewrite N.eqb_refl in M. congruence.
    - destruct (N.eqb_spec (mid z) (mid f)) as [E|_]; [destruct N0; left; exact E|].
      apply IH; [exact M|]. intros I. apply N0. right. exact I. }
  destruct (return_going w t c s0 th0 x f g0 (b0 :: rest) W P H0 Hx St Oc F0 E0) as (G & C & T).
  { intros back0 M. rewrite (Fm _ M). split.
    - rewrite <- Fs. apply in_app_iff. right. left. reflexivity.
    - rewrite <- My. eapply (target_split w (my_code c) pre); eauto. }
  { exact Sg. }
  destruct (step_state w t c _ (mid g0) (mcode g0) os s (g :: b :: back) Wo (m_exec_wfm w _ s0 W) U G C T Es Rn)
    as (th & H & Hw & Hs & Ef & Sc & Sp & [On Cl] & _ & Rv & Cd & W').
  { exists g. split; [left; reflexivity|exact Eg]. }
  assert (Ec : mcode g = mcode g0) by (apply Cd; [left; reflexivity|exact Eg]).
  rewrite <- Ec in Rv. pose proof (return_reported w t s th g (b :: back) W' H Hw Ef On Rv) as Q.
  unfold return_outcome in Q. rewrite skip_kof, Ec, Sg, Sc, Sp, Eg in Q.
  assert (Sm : same (Some (mid g0)) (Some (mid g0)) = true) by (apply same_true; reflexivity). rewrite Sm in Q.
  rewrite (stop_shown w b back Wo Db Pr) in Q. destruct c; try discriminate; exact Q.
Qed.

(* While the frame of a step over has not been left, the thread stops nowhere but in
   it, in its caller when it returns, at breakpoints and at exceptions. *)
Theorem mon_step_over_only w s0 t x f c os s fs a x' :
  started_by_debugger w -> reached w s0 -> stopped_in t s0 x f -> steppable w x ->
  is_over c = true -> debugged w (mcode f) -> undisturbed t os ->
  s = m_run w os (m_exec w (MCmd t c) s0) ->
  running t s fs -> (exists g, In g fs /\ mid g = mid f) ->
  stopped t (m_exec w (MDo t a) s) x' ->
  why x' = RBreak \/ why x' = RFunc \/ at_evt x' = EExc \/
  why x' = RStep c /\ (shown x' = mid f \/
    a = MRet /\ exists g b back, fs = g :: b :: back /\ mid g = mid f /\ shown x' = mid b).
Proof.
  intros Wo R (th0 & H0 & Hx & F0 & E0) St Oc D U Es Rn Ing (th' & H' & Hx').
  destruct (reached_ok w s0 t R) as [W P].
  destruct (over_going w t c s0 th0 x f W P H0 Hx St Oc F0 E0 (proj1 D)) as (G & C & T).
  destruct (step_state w t c _ (mid f) (mcode f) os s fs Wo (m_exec_wfm w _ s0 W) U G C T Es Rn Ing)
    as (th & H & Hw & Hs & Ef & Sc & Sp & _ & _ & _ & _ & W').
  cbn [m_exec] in H'.
  assert (Hn : is_waiting t s = false) by (unfold is_waiting; rewrite H, Hw; reflexivity). rewrite Hn in H'.
  destruct (act_own w t a s th W' H Hw) as (y & Y1 & Y2 & _). rewrite H' in Y1. injection Y1 as <-.
  destruct Y2 as [(z & X1 & _ & Sx & _)|Go]; [|inversion Go; subst; discriminate].
  assert (z = x') as -> by congruence.
  inversion Sx as [o ok g back l y Fr L O E1 E2|o ok g back l Fr L O E1 E2|k ok y O E1 E2|g b back Fr O E1 E2|g back Fr Sk E1 E2];
    subst; cbn [why shown at_evt]; auto.
  - unfold line_outcome in O. destruct (_ || _) in O; [discriminate|].
    destruct (match bp_at _ _ with Some _ => _ | None => _ end) in O; [injection O as <-; auto|].
    rewrite Hs, Sp in O. cbn [mid] in O.
    destruct (same (Some (mid f)) (Some (mid g))) eqn:Sm; [apply same_true in Sm; injection Sm as Sm|];
      destruct (step (nfo th)); try discriminate; injection O as <-; auto 10.
  - exfalso. unfold line_outcome in O. destruct (_ || _) in O; [discriminate|].
    destruct (match bp_at _ _ with Some _ => _ | None => _ end) in O; [discriminate|].
    rewrite Hs, Sp in O. destruct (step (nfo th)); try discriminate; destruct (same _ _); discriminate.
  - unfold start_outcome in O. destruct (k_skip _); [discriminate|].
    destruct (k_func _) as [b|]; [destruct (hits b ok); [injection O as <-; auto|discriminate]|].
    destruct (_ || _); discriminate.
  - right. right. right. split; [reflexivity|]. right. split; [reflexivity|]. exists g, b, back.
    split; [exact Fr|]. split; [|reflexivity].
    unfold return_outcome in O. destruct (k_skip _); [discriminate|]. rewrite Sp in O.
    destruct (same (Some (mid f)) (Some (mid g))) eqn:Sm; [apply same_true in Sm; congruence|].
    destruct (step (nfo th)); try discriminate.
Qed.

Lemma quiet_stops w s t fs a x' : reached w s -> quiet t s -> running t s fs ->
  stopped t (m_exec w (MDo t a) s) x' -> why x' = RBreak \/ why x' = RFunc \/ at_evt x' = EExc.
Proof.
  intros R Q (th & H & Hw & Ef & Hs) (th' & H' & Hx'). destruct (reached_ok w s t R) as [W _].
  cbn [m_exec] in H'.
  assert (Hn : is_waiting t s = false) by (unfold is_waiting; rewrite H, Hw; reflexivity). rewrite Hn in H'.
  destruct (Q th H) as [X|Sc]; [congruence|].
  destruct (act_own w t a s th W H Hw) as (y & Y1 & Y2 & _). rewrite H' in Y1. injection Y1 as <-.
  destruct Y2 as [(z & X1 & _ & Sx & _)|Go]; [|inversion Go; subst; discriminate].
  assert (z = x') as -> by congruence.
  inversion Sx as [o ok g back l y Fr L O E1 E2|o ok g back l Fr L O E1 E2|k ok y O E1 E2|g b back Fr O E1 E2|g back Fr Sk E1 E2];
    subst; cbn [why shown at_evt]; auto.
  - unfold line_outcome in O. destruct (_ || _) in O; [discriminate|].
    destruct (match bp_at _ _ with Some _ => _ | None => _ end) in O; [injection O as <-; auto|].
    rewrite Hs, Sc in O. destruct (_ || _); discriminate.
  - exfalso. unfold line_outcome in O. destruct (_ || _) in O; [discriminate|].
    destruct (match bp_at _ _ with Some _ => _ | None => _ end) in O; [discriminate|].
    rewrite Hs, Sc in O. destruct (_ || _); discriminate.
  - unfold start_outcome in O. destruct (k_skip _); [discriminate|].
    destruct (k_func _) as [b|]; [destruct (hits b ok); [injection O as <-; auto|discriminate]|].
    destruct (_ || _); discriminate.
  - exfalso. unfold return_outcome in O. rewrite Sc in O. destruct (k_skip _); discriminate.
Qed.

(* A thread which was continued only stops at breakpoints and exceptions, as long as
   nothing asks it to stop. *)
Theorem mon_continue_only w s0 t os s fs a x' :
  started_by_debugger w -> reached w s0 -> undisturbed t os ->
  s = m_run w os (m_exec w (MCmd t NoStep) s0) -> running t s fs ->
  stopped t (m_exec w (MDo t a) s) x' -> why x' = RBreak \/ why x' = RFunc \/ at_evt x' = EExc.
Proof.
  intros Wo R U Es Rn Sx. destruct (reached_ok w s0 t R) as [W _].
  eapply (quiet_stops w s); eauto.
  - rewrite Es. apply reached_more, reached_exec, R.
  - rewrite Es. apply run_quiet; [exact Wo|apply undisturbed_commands, U|apply m_exec_wfm, W|apply cmd_quiet, W].
Qed.

(* So does a thread the client never sent anything to. *)
Theorem mon_uncommanded_only w bs ffs os t s fs a x' :
  started_by_debugger w -> undisturbed t os ->
  s = m_run w os (m_start bs ffs) -> running t s fs ->
  stopped t (m_exec w (MDo t a) s) x' -> why x' = RBreak \/ why x' = RFunc \/ at_evt x' = EExc.
Proof.
  intros Wo U Es Rn Sx. eapply (quiet_stops w s); eauto.
  - exists bs, ffs, os. exact Es.
  - rewrite Es. apply run_quiet; [exact Wo|apply undisturbed_commands, U|apply m_start_wfm|].
    intros th H. right. destruct t as [|[|t]]; cbn in H; try discriminate. injection H as <-. reflexivity.
Qed.

(* ----- Pauses ----- *)

Lemma pause_halting w s t all (U : nat -> Prop) th : wfm w s -> nth_error (thrs s) t = Some th ->
  wt th = None -> over_like (step (nfo th)) = false -> return_like (step (nfo th)) = false ->
  (forall u, U u -> u = t \/ all || single w = true) ->
  halting w U (m_exec w (MPause t all) s).
Proof.
  intros W H Hw O1 O2 HU. cbn [m_exec].
  assert (Il : into_like (step (mark_suspended true (nfo th))) = true).
  { unfold mark_suspended. destruct (step (nfo th)); try discriminate; reflexivity. }
  pose proof (set_suspend_spec w t true all s th H) as K.
  destruct (pause_watched w t all s th W H Il) as [V1 V2].
  split.
  - constructor; [rewrite (s_on _ _ _ _ _ _ K); reflexivity|].
    apply clean_restart; [apply (s_dst _ _ _ _ _ _ K)|apply (s_dln _ _ _ _ _ _ K)].
  - intros u y' Uu Y'. rewrite (s_thrs _ _ _ _ _ _ K) in Y'.
    destruct (nth_error (thrs s) u) as [y|] eqn:Y; [|discriminate]. cbn [option_map] in Y'. injection Y' as <-.
    right. unfold marked. cbn [nfo frames wt].
    destruct (Nat.eqb_spec u t) as [-> |Nu].
    + rewrite H in Y. injection Y as <-. split; [apply mark_suspended_susp|]. split; [exact Il|exact V1].
    + destruct (HU u Uu) as [X|A]; [congruence|]. rewrite A. split; [apply mark_suspended_susp|].
      split; [reflexivity|]. apply (V2 A u y Nu Y).
Qed.

Lemma halting_stops w U s u h back o ok l : wfm w s -> halting w U s -> U u -> free u s (h :: back) ->
  debugged w (mcode h) -> mgen w (mcode h) = false -> line_of (mlines w (mcode h)) o = Some l ->
  exists y, stopped u (m_exec w (MDo u (MLine o ok)) s) (Wait (mid h) y ELine false).
Proof.
  intros W [[On Cl] Q] Uu (th & H & Hw & Ef) Dh Ng L.
  destruct (Q u th Uu H) as [X|(S1 & S2 & V)]; [congruence|].
  destruct (V h) as [Lv _]; [rewrite Ef; left; reflexivity|apply Dh|exact Ng|]. apply debugged_plain in Dh.
  pose proof (line_reported w u s th h back o ok l W H Hw Ef L On Lv (c_line _ _ Cl _ _ Dh)) as E.
  rewrite (kof_plain w s _ Dh) in E. unfold line_outcome in E. cbn [k_skip k_filt k_lines k_forced orb] in E.
  rewrite S1 in E. destruct (match bp_at _ _ with Some _ => _ | None => _ end) in E; eauto.
Qed.

(* A pause of all threads: each of them stops at its next line in code which is
   debugged, but for generators, whatever they do before. *)
Theorem mon_pause_all_stops w s0 t os s u h back o ok l stack :
  started_by_debugger w -> reached w s0 ->
  (exists th, nth_error (thrs s0) t = Some th /\ wt th = None /\ frames th = stack /\
     is_over (step (nfo th)) = false /\ is_out (step (nfo th)) = false) ->
  Forall (fun o => exists v a, o = MDo v a) os ->
  s = m_run w os (m_exec w (MPause t true) s0) ->
  free u s (h :: back) -> debugged w (mcode h) -> mgen w (mcode h) = false ->
  line_of (mlines w (mcode h)) o = Some l ->
  exists y, stopped u (m_exec w (MDo u (MLine o ok)) s) (Wait (mid h) y ELine false).
Proof.
  intros Wo R (th & H & Hw & Ef & O1 & O2) Fo Es Fr Dh Ng L.
  destruct (reached_ok w s0 t R) as [W _].
  assert (Hh : halting w (fun _ => True) (m_exec w (MPause t true) s0)).
  { eapply pause_halting; eauto. }
  assert (W1 : wfm w (m_exec w (MPause t true) s0)) by apply m_exec_wfm, W.
  eapply (halting_stops w (fun _ => True)); eauto; rewrite Es; [apply m_run_wfm, W1|].
  apply run_halting; auto. eapply Forall_impl; [|exact Fo]. cbn. intros ? (v & a & ->). eauto.
Qed.

(* A pause of one thread, when the others do nothing until it stops. *)
Theorem mon_pause_one_stops w s0 t all os s h back o ok l stack :
  started_by_debugger w -> reached w s0 ->
  (exists th, nth_error (thrs s0) t = Some th /\ wt th = None /\ frames th = stack /\
     is_over (step (nfo th)) = false /\ is_out (step (nfo th)) = false) ->
  Forall (fun o => exists a, o = MDo t a) os ->
  s = m_run w os (m_exec w (MPause t all) s0) ->
  free t s (h :: back) -> debugged w (mcode h) -> mgen w (mcode h) = false ->
  line_of (mlines w (mcode h)) o = Some l ->
  exists y, stopped t (m_exec w (MDo t (MLine o ok)) s) (Wait (mid h) y ELine false).
Proof.
  intros Wo R (th & H & Hw & Ef & O1 & O2) Fo Es Fr Dh Ng L.
  destruct (reached_ok w s0 t R) as [W _].
  assert (Hh : halting w (fun u => u = t) (m_exec w (MPause t all) s0)).
  { eapply pause_halting; eauto. }
  assert (W1 : wfm w (m_exec w (MPause t all) s0)) by apply m_exec_wfm, W.
  eapply (halting_stops w (fun u => u = t)); eauto; rewrite Es; [apply m_run_wfm, W1|].
  apply run_halting; auto. eapply Forall_impl; [|exact Fo]. cbn. intros ? (a & ->). eauto.
Qed.

(* ----- Examples and what does not hold ----- *)

(* Code 1 calls 2; 3 is a generator, 4 is marked with DontTrace, 5 is of a library
   (which counts when the filters are
   on, and for steps of my code), 7 is a coroutine, 9 is of the debugger. *)
Definition w_ (sg flt : bool) : mworld :=
  MWorld (fun c => if N.eqb c 5 then 2 else 1) (fun c => c)
    (fun c => [(0, 10 * c); (2, 10 * c + 1); (4, 10 * c + 2)])
    (fun c => N.eqb c 3 || N.eqb c 7) (fun c => N.eqb c 7) (fun c => N.eqb c 9) (fun c => N.eqb c 4)
    flt (fun c => N.eqb c 5) (fun c => N.eqb c 9) (fun _ => false) sg.

Lemma w_ok sg flt : started_by_debugger (w_ sg flt).
Proof. intros c H. exact H. Qed.

Definition at10 : breaks := [(1, 10, Bp false false)].
Definition do (a : mact) : mop := MDo 0 a.
Definition ln (o : N) : mop := do (MLine o true).

Ltac now_ := vm_compute; first [reflexivity|congruence|discriminate|tauto|intuition discriminate].
Ltac thread_ := eexists; split; [vm_compute; reflexivity|]; repeat split; vm_compute; try reflexivity; try tauto.

(* Thread 0 calls 1 and stops at its first line. *)
Definition at_start : list mop := [do (MCall 1 true); ln 0].
Definition stop_10 : mstate := m_run (w_ false false) at_start (m_start at10 []).
Definition x_10 : wait := Wait 0 RBreak ELine false.

Lemma stop_10_reached : reached (w_ false false) stop_10.
Proof. exists at10, [], at_start. reflexivity. Qed.

Lemma stop_10_in : stopped_in 0 stop_10 x_10 (Mf 0 1 10).
Proof. eexists. split; [vm_compute; reflexivity|]. split; [reflexivity|]. split; [left; reflexivity|reflexivity]. Qed.

(* Two threads, a breakpoint added meanwhile: the second thread stops at it. *)
Example mon_line_breakpoint_example :
  let os := [do (MCall 1 true); ln 0; MSpawn; MDo 1 (MCall 2 true); MDo 1 (MLine 0 true);
             MAdd ((1, 21, Bp true false) :: at10) []] in
  all_allowed (w_ false false) os (m_start at10 []) /\
  free 1 (m_run (w_ false false) os (m_start at10 [])) [Mf 1 2 20] /\
  find_break (fst (fold_left setting os (at10, []))) 1 21 = Some (Bp true false) /\
  stopping (Bp true false) true /\
  stopped 1 (m_exec (w_ false false) (MDo 1 (MLine 2 true)) (m_run (w_ false false) os (m_start at10 [])))
    (Wait 1 RBreak ELine false).
Proof.
  cbv zeta. split; [|split; [thread_|split; [reflexivity|split; [split; reflexivity|]]]].
  - cbn [all_allowed allowed]. repeat (split; [first [exact I|idtac]|]); [|exact I].
    vm_compute. intros g [].
  - eapply (mon_line_breakpoint_stops _ at10 [] _ 1%nat (Mf 1 2 20) [] 2 true 21 (Bp true false)).
    + cbn [all_allowed allowed]. repeat (split; [first [exact I|idtac]|]); [|exact I]. vm_compute. intros g [].
    + thread_.
    + repeat split.
    + reflexivity.
    + reflexivity.
    + split; reflexivity.
Qed.

Example mon_function_breakpoint_example :
  let os := [do (MCall 1 true); MAdd [] [(2, Bp false false)]; ln 0] in
  exists f, stopped_in 0 (m_exec (w_ false false) (do (MCall 2 true)) (m_run (w_ false false) os (m_start [] [])))
              (Wait (mid f) RFunc ECall false) f /\ mcode f = 2.
Proof.
  cbv zeta. eapply (mon_function_breakpoint_stops _ [] [] _ 0%nat 2 true (Bp false false)).
  - cbn [all_allowed allowed]. repeat (split; [first [exact I|idtac]|]); [|exact I]. vm_compute. intros g [].
  - thread_.
  - repeat split.
  - reflexivity.
  - split; reflexivity.
Qed.

Example mon_breakpoint_stop_sound_example :
  let s := m_run (w_ false false) [do (MCall 1 true)] (m_start at10 []) in
  reached (w_ false false) s /\ free 0 s [Mf 0 1 0] /\ stopped 0 (m_exec (w_ false false) (ln 0) s) x_10.
Proof. split; [exists at10, [], [do (MCall 1 true)]; reflexivity|]. split; thread_. Qed.

(* A breakpoint put in a generator which waits to be resumed is missed, if that had no
   breakpoint before: its lines are not among the local events. *)
Theorem mon_generator_breakpoint_refuted :
  exists w bs os s f back o l b, s = m_run w os (m_start [] []) /\
    Forall (fun o => match o with MRace _ _ _ _ => False | _ => True end) os /\
    bs = fst (fold_left setting os ([], [])) /\
    free 0 s (f :: back) /\ debugged w (mcode f) /\ line_of (mlines w (mcode f)) o = Some l /\
    find_break bs (mfile w (mcode f)) l = Some b /\ stopping b true /\
    ~ exists x, stopped 0 (m_exec w (MDo 0 (MLine o true)) s) x.
Proof.
  exists (w_ false false), [(1, 31, Bp false false)],
    [do (MCall 1 true); ln 0; do (MCall 3 true); ln 0; do MYield;
     MAdd [(1, 31, Bp false false)] []; ln 2; do (MResume 0)].
  eexists. exists (Mf 1 3 30), [Mf 0 1 11], 2, 31, (Bp false false).
  split; [reflexivity|]. split; [repeat constructor|]. split; [reflexivity|]. split; [thread_|].
  split; [repeat split|]. split; [reflexivity|]. split; [reflexivity|]. split; [split; reflexivity|].
  intros (x & th & H & Hx). vm_compute in H. injection H as <-. discriminate.
Qed.

(* So is one added while a callback for its line is answering DISABLE: the answer
   comes after the events were restarted. *)
Theorem mon_disable_race_refuted :
  exists w bs os s f back o l b, s = m_run w os (m_start at10 []) /\
    mbrks s = bs /\
    free 1 s (f :: back) /\ debugged w (mcode f) /\ mgen w (mcode f) = false /\
    line_of (mlines w (mcode f)) o = Some l /\
    find_break bs (mfile w (mcode f)) l = Some b /\ stopping b true /\
    ~ exists x, stopped 1 (m_exec w (MDo 1 (MLine o true)) s) x.
Proof.
  (* the lines of code 2 are reported because thread 0 stepped into it *)
  exists (w_ false false), [(1, 21, Bp false false)],
    [do (MCall 1 true); ln 0; MCmd 0 Into; do (MCall 2 true); ln 0; MCmd 0 NoStep; do MRet;
     MSpawn; MDo 1 (MCall 2 true); MRace 1 2 [(1, 21, Bp false false)] []].
  eexists. exists (Mf 2 2 0), [], 2, 21, (Bp false false).
  split; [reflexivity|]. split; [vm_compute; reflexivity|]. split; [thread_|].
  split; [repeat split|]. split; [reflexivity|]. split; [reflexivity|]. split; [reflexivity|]. split; [split; reflexivity|].
  intros (x & th & H & Hx). vm_compute in H. injection H as <-. discriminate.
Qed.

(* The steps. *)
Example mon_step_over_next_line_example :
  exists y, (y = RBreak \/ y = RStep Over) /\
    stopped 0 (m_exec (w_ false false) (ln 2)
      (m_run (w_ false false) [MSpawn; do (MCall 2 true); ln 0; MDo 1 (MCall 2 true); do MRet]
         (m_exec (w_ false false) (MCmd 0 Over) stop_10))) (Wait 0 y ELine false).
Proof.
  eapply (mon_step_over_next_line (w_ false false) stop_10 0 x_10 (Mf 0 1 10) Over _ _ (Mf 0 1 10) [] 2 true 11);
    try reflexivity; [apply w_ok|apply stop_10_reached|apply stop_10_in|left; discriminate| | |thread_].
  - repeat split.
  - repeat (constructor; [exact I|]). constructor.
Qed.

(* Thread 0 stopped in 2, called by 1. *)
Definition stop_20 (c : N) : mstate :=
  m_run (w_ false false) [do (MCall c true); ln 0; do (MCall 2 true); ln 0] (m_start [(1, 20, Bp false false)] []).
Definition x_20 : wait := Wait 1 RBreak ELine false.

Lemma stop_20_reached c : reached (w_ false false) (stop_20 c).
Proof. exists [(1, 20, Bp false false)], [], [do (MCall c true); ln 0; do (MCall 2 true); ln 0]. reflexivity. Qed.

Lemma stop_20_in : stopped_in 0 (stop_20 1) x_20 (Mf 1 2 20).
Proof. eexists. split; [vm_compute; reflexivity|]. split; [reflexivity|]. split; [left; reflexivity|reflexivity]. Qed.

Example mon_step_over_return_example :
  stopped 0 (m_exec (w_ false false) (do MRet) (m_run (w_ false false) [] (m_exec (w_ false false) (MCmd 0 Over) (stop_20 1))))
    (Wait 0 (RStep Over) ERet true).
Proof.
  eapply (mon_step_over_return (w_ false false) (stop_20 1) 0 x_20 (Mf 1 2 20) Over [] _ (Mf 1 2 20) (Mf 0 1 10) []);
    try reflexivity; [apply w_ok|apply stop_20_reached|apply stop_20_in|left; discriminate| | |thread_|].
  - repeat split.
  - constructor.
  - repeat split.
Qed.

(* The caller is of code marked with DontTrace, called by 1. *)
Definition stop_421 : mstate :=
  m_run (w_ false false) [do (MCall 1 true); ln 0; do (MCall 4 true); do (MCall 2 true); ln 0]
    (m_start [(1, 20, Bp false false)] []).

Example mon_step_over_return_hidden_example :
  exists y, (y = RBreak \/ y = RStep Into) /\
  stopped 0 (m_exec (w_ false false) (ln 2)
    (m_run (w_ false false) [do (MCall 2 true)]
      (m_exec (w_ false false) (do MRet) (m_run (w_ false false) [] (m_exec (w_ false false) (MCmd 0 Over) stop_421)))))
    (Wait 3 y ELine false).
Proof.
  eapply (mon_step_over_return_hidden (w_ false false) stop_421 0 (Wait 2 RBreak ELine false) (Mf 2 2 20) Over [] _
    (Mf 2 2 20) [Mf 1 4 0; Mf 0 1 10] [do (MCall 2 true)] _ (Mf 3 2 0) [Mf 1 4 0; Mf 0 1 10] 2 true 21);
    try reflexivity; [apply w_ok| | |left; discriminate| | |thread_| | |thread_|].
  - exists [(1, 20, Bp false false)], [], [do (MCall 1 true); ln 0; do (MCall 4 true); do (MCall 2 true); ln 0]. reflexivity.
  - eexists. split; [vm_compute; reflexivity|]. split; [reflexivity|]. split; [left; reflexivity|reflexivity].
  - repeat split.
  - constructor.
  - intros b rest [= <- <-] [(_ & D & _) _]. discriminate.
  - repeat (constructor; [exact I|]). constructor.
  - repeat split.
Qed.

Example mon_step_into_next_line_example :
  exists y, (y = RBreak \/ y = RStep Into \/ y = RStep IntoCo /\ false = true) /\
    stopped 0 (m_exec (w_ false false) (ln 0)
      (m_run (w_ false false) [do (MCall 2 true)] (m_exec (w_ false false) (MCmd 0 Into) stop_10))) (Wait 1 y ELine false).
Proof.
  eapply (mon_step_into_next_line (w_ false false) stop_10 0 x_10 (Mf 0 1 10) Into _ _ (Mf 1 2 0) [Mf 0 1 10] 0 true 20);
    try reflexivity; [apply w_ok|apply stop_10_reached|apply stop_10_in|left; discriminate|left; reflexivity| |thread_|].
  - repeat (constructor; [exact I|]). constructor.
  - repeat split.
Qed.

Example mon_step_into_return_example :
  exists y, (y = Into \/ y = IntoCo /\ false = true) /\
    stopped 0 (m_exec (w_ false false) (do MRet)
      (m_run (w_ false false) [] (m_exec (w_ false false) (MCmd 0 Into) (stop_20 1)))) (Wait 0 (RStep y) ERet true).
Proof.
  eapply (mon_step_into_return (w_ false false) (stop_20 1) 0 x_20 (Mf 1 2 20) Into [] _ (Mf 1 2 20) (Mf 0 1 10) []);
    try reflexivity; [apply w_ok|apply stop_20_reached|apply stop_20_in|left; discriminate|left; reflexivity| |thread_| |].
  - constructor.
  - repeat split.
  - cbn. intros [E _]. discriminate.
Qed.

(* A step out of 2 called by the library, which is called by 1; only my code counts. *)
Definition stop_25 : mstate :=
  m_run (w_ false false) [do (MCall 1 true); ln 0; do (MCall 5 true); do (MCall 2 true); ln 0]
    (m_start [(1, 20, Bp false false)] []).

Example mon_step_out_example :
  stopped 0 (m_exec (w_ false false) (do MRet)
    (m_run (w_ false false) [ln 2; do MRet; ln 2] (m_exec (w_ false false) (MCmd 0 ReturnMy) stop_25)))
    (Wait 0 (RStep ReturnMy) ERet true).
Proof.
  eapply (mon_step_out (w_ false false) stop_25 0 (Wait 2 RBreak ELine false) (Mf 2 2 20) ReturnMy _ _
    [Mf 2 2 20] (Mf 1 5 0) (Mf 0 1 10) [] (Mf 1 5 51) (Mf 0 1 10) []);
    try reflexivity; [apply w_ok| | |left; discriminate| | | | |thread_|].
  - exists [(1, 20, Bp false false)], [], [do (MCall 1 true); ln 0; do (MCall 5 true); do (MCall 2 true); ln 0]. reflexivity.
  - eexists. split; [vm_compute; reflexivity|]. split; [reflexivity|]. split; [left; reflexivity|reflexivity].
  - eexists. exists []. split; vm_compute; reflexivity.
  - intros h [<- |[]]. split; [left; reflexivity|reflexivity].
  - intros [_ E]. discriminate.
  - repeat (constructor; [exact I|]). constructor.
  - repeat split.
Qed.

Example mon_step_over_only_example :
  let s := m_run (w_ false false) [do (MCall 2 true)] (m_exec (w_ false false) (MCmd 0 Over) stop_10) in
  running 0 s [Mf 1 2 0; Mf 0 1 10] /\ (exists g, In g [Mf 1 2 0; Mf 0 1 10] /\ mid g = mid (Mf 0 1 10)) /\
  stopped 0 (m_exec (w_ false false) (do MRaise) s) (Wait 1 RPause EExc false).
Proof.
  cbv zeta. split; [thread_|]. split; [exists (Mf 0 1 10); split; [right; left; reflexivity|reflexivity]|thread_].
Qed.

Example mon_continue_only_example :
  let s := m_run (w_ false false) [ln 2] (m_exec (w_ false false) (MCmd 0 NoStep) stop_10) in
  running 0 s [Mf 0 1 11] /\ stopped 0 (m_exec (w_ false false) (ln 0) s) x_10.
Proof. cbv zeta. split; thread_. Qed.

Example mon_uncommanded_only_example :
  let s := m_run (w_ false false) [do (MCall 1 true)] (m_start at10 []) in
  running 0 s [Mf 0 1 0] /\ stopped 0 (m_exec (w_ false false) (ln 0) s) x_10.
Proof. cbv zeta. split; thread_. Qed.

(* Two threads in code without breakpoints, paused. *)
Definition busy2 : mstate :=
  m_run (w_ false false) [do (MCall 1 true); ln 0; MSpawn; MDo 1 (MCall 2 true)] (m_start [] []).

Lemma busy2_reached : reached (w_ false false) busy2.
Proof. exists [], [], [do (MCall 1 true); ln 0; MSpawn; MDo 1 (MCall 2 true)]. reflexivity. Qed.

Example mon_pause_all_example :
  exists y, stopped 1 (m_exec (w_ false false) (MDo 1 (MLine 0 true))
    (m_run (w_ false false) [do (MCall 2 true); ln 0] (m_exec (w_ false false) (MPause 0 true) busy2)))
    (Wait 1 y ELine false).
Proof.
  eapply (mon_pause_all_stops (w_ false false) busy2 0 _ _ 1 (Mf 1 2 0) [] 0 true 20 [Mf 0 1 10]);
    try reflexivity; [apply w_ok|apply busy2_reached|thread_| |thread_|repeat split].
  repeat (apply Forall_cons; [unfold ln, do; eauto|]). apply Forall_nil.
Qed.

Example mon_pause_one_example :
  exists y, stopped 0 (m_exec (w_ false false) (ln 0)
    (m_run (w_ false false) [do (MCall 2 true)] (m_exec (w_ false false) (MPause 0 false) busy2)))
    (Wait 2 y ELine false).
Proof.
  eapply (mon_pause_one_stops (w_ false false) busy2 0 false _ _ (Mf 2 2 0) [Mf 0 1 10] 0 true 20 [Mf 0 1 10]);
    try reflexivity; [apply w_ok|apply busy2_reached|thread_| |thread_|repeat split].
  repeat (apply Forall_cons; [unfold ln, do; eauto|]). apply Forall_nil.
Qed.

(* What does not hold.  In each case the lines of a loop are run for ever after. *)
Definition loop : list mop := [ln 0; ln 2; ln 4].

Fixpoint times (n : nat) (os : list mop) : list mop := match n with O => [] | S n => os ++ times n os end.

Lemma run_app w os1 : forall os2 s, m_run w (os1 ++ os2) s = m_run w os2 (m_run w os1 s).
Proof. induction os1 as [|o os1 IH]; intros os2 s; [reflexivity|]. apply IH. Qed.

Lemma run_times w os s : m_run w os s = s -> forall n, m_run w (times n os) s = s.
Proof. intros E n. induction n as [|n IH]; [reflexivity|]. cbn [times]. rewrite run_app, E. exact IH. Qed.

(* The thread never stops in the loop, however often that is run. *)
Definition never_stops (w : mworld) (s : mstate) : Prop :=
  forall n x, ~ stopped 0 (m_run w (times n loop) s) x.

Lemma loop_never w s : m_run w loop s = s -> (forall x, ~ stopped 0 s x) -> never_stops w s.
Proof. intros E Q n. rewrite run_times by exact E. exact Q. Qed.

Ltac never := apply loop_never; [vm_compute; reflexivity|];
  intros ? (? & H & ?); vm_compute in H; injection H as <-; discriminate.

(* After a stop at an exception, when the client set no line or function breakpoint
   and stops do not stop all threads, a step over does not stop: lines have no
   callback. *)
Theorem mon_step_after_exception_refuted :
  exists w s0 x f s, started_by_debugger w /\ reached w s0 /\ stopped_in 0 s0 x f /\ at_evt x = EExc /\
    debugged w (mcode f) /\ s = m_run w loop (m_exec w (MCmd 0 Over) s0) /\
    running 0 s [Mf (mid f) (mcode f) 12] /\ never_stops w s.
Proof.
  exists (w_ false false), (m_run (w_ false false) [do (MCall 1 true); ln 0; do MRaise] (m_start [] [])),
    (Wait 0 RPause EExc false), (Mf 0 1 10).
  eexists. split; [apply w_ok|]. split; [exists [], []; eexists; reflexivity|].
  split; [eexists; split; [vm_compute; reflexivity|]; split; [reflexivity|]; split; [left; reflexivity|reflexivity]|].
  split; [reflexivity|]. split; [repeat split|]. split; [reflexivity|]. split; [thread_|]. never.
Qed.

(* A pause of one thread is without effect when another thread runs the same lines
   first: its callbacks answer DISABLE for them. *)
Theorem mon_pause_one_refuted :
  exists w s0 os s f, started_by_debugger w /\ reached w s0 /\ free 0 s0 [f] /\
    Forall (fun o => exists a, o = MDo 1 a) os /\
    s = m_run w loop (m_run w os (m_exec w (MPause 0 false) s0)) /\
    debugged w (mcode f) /\ mgen w (mcode f) = false /\ free 0 s [Mf (mid f) (mcode f) 12] /\ never_stops w s.
Proof.
  exists (w_ false false),
    (m_run (w_ false false) [do (MCall 1 true); ln 0; MSpawn; MDo 1 (MCall 1 true)] (m_start [] [])),
    [MDo 1 (MLine 0 true); MDo 1 (MLine 2 true); MDo 1 (MLine 4 true)].
  eexists. exists (Mf 0 1 10). split; [apply w_ok|]. split; [exists [], []; eexists; reflexivity|]. split; [thread_|].
  split; [repeat (apply Forall_cons; [eauto|]); apply Forall_nil|]. split; [reflexivity|].
  split; [repeat split|]. split; [reflexivity|]. split; [thread_|]. never.
Qed.

(* Nor does a pause, even of all threads, stop a thread stepping over a call which does
   not return. *)
Theorem mon_pause_while_stepping_refuted :
  exists w s0 s f back, started_by_debugger w /\ reached w s0 /\ running 0 s0 (f :: back) /\
    s = m_run w loop (m_exec w (MPause 0 true) s0) /\
    debugged w (mcode f) /\ mgen w (mcode f) = false /\ free 0 s (Mf (mid f) (mcode f) 22 :: back) /\ never_stops w s.
Proof.
  exists (w_ false false),
    (m_run (w_ false false) (at_start ++ [MCmd 0 Over; do (MCall 2 true); ln 0]) (m_start at10 [])).
  eexists. exists (Mf 1 2 20), [Mf 0 1 10]. split; [apply w_ok|]. split; [exists at10, []; eexists; reflexivity|].
  split; [thread_|]. split; [reflexivity|]. split; [repeat split|]. split; [reflexivity|]. split; [thread_|]. never.
Qed.

(* A frame stepped over which is left by an exception, handled by the caller, loses the
   step. *)
Theorem mon_step_over_unwind_refuted :
  exists w s0 x f b s, started_by_debugger w /\ reached w s0 /\ stopped_in 0 s0 x f /\ steppable w x /\
    debugged w (mcode f) /\ debugged w (mcode b) /\
    running 0 (m_exec w (MCmd 0 Over) s0) [f; b] /\
    s = m_run w loop (m_exec w (do MUnwind) (m_exec w (MCmd 0 Over) s0)) /\
    running 0 s [Mf (mid b) (mcode b) 12] /\ never_stops w s.
Proof.
  exists (w_ false false), (stop_20 1), x_20, (Mf 1 2 20), (Mf 0 1 10). eexists.
  split; [apply w_ok|]. split; [apply stop_20_reached|]. split; [apply stop_20_in|]. split; [left; discriminate|].
  split; [repeat split|]. split; [repeat split|]. split; [thread_|]. split; [reflexivity|]. split; [thread_|]. never.
Qed.

(* A step out to a caller marked with DontTrace is lost: the thread does not stop in the
   caller of that either. *)
Theorem mon_step_out_dont_trace_refuted :
  exists w s0 x f b b2 s, started_by_debugger w /\ reached w s0 /\ stopped_in 0 s0 x f /\ steppable w x /\
    debugged w (mcode f) /\ mdont w (mcode b) = true /\ debugged w (mcode b2) /\
    running 0 (m_exec w (MCmd 0 Return) s0) [f; b; b2] /\
    s = m_run w (do MRet :: do MRet :: loop) (m_exec w (MCmd 0 Return) s0) /\
    running 0 s [Mf (mid b2) (mcode b2) 12] /\ never_stops w s.
Proof.
  exists (w_ false false), stop_421, (Wait 2 RBreak ELine false), (Mf 2 2 20), (Mf 1 4 0), (Mf 0 1 10). eexists.
  split; [apply w_ok|]. split; [exists [(1, 20, Bp false false)], []; eexists; reflexivity|].
  split; [eexists; split; [vm_compute; reflexivity|]; split; [reflexivity|]; split; [left; reflexivity|reflexivity]|].
  split; [left; discriminate|].
  split; [repeat split|]. split; [reflexivity|]. split; [repeat split|]. split; [thread_|]. split; [reflexivity|].
  split; [thread_|]. never.
Qed.

(* A step into does not stop in a generator which is resumed, if that has not been
   monitored yet. *)
Theorem mon_step_into_generator_refuted :
  exists w s0 x f g s, started_by_debugger w /\ reached w s0 /\ stopped_in 0 s0 x f /\ steppable w x /\
    debugged w (mcode g) /\ idle (m_exec w (MCmd 0 Into) s0) = [g] /\
    s = m_run w (do (MResume 0) :: loop) (m_exec w (MCmd 0 Into) s0) /\
    running 0 s [Mf (mid g) (mcode g) 32; f] /\ never_stops w s.
Proof.
  exists (w_ false false),
    (m_run (w_ false false) [do (MCall 1 true); do (MCall 3 true); ln 0; do MYield; ln 0] (m_start at10 [])),
    (Wait 0 RBreak ELine false), (Mf 0 1 10), (Mf 1 3 30). eexists.
  split; [apply w_ok|]. split; [exists at10, []; eexists; reflexivity|].
  split; [eexists; split; [vm_compute; reflexivity|]; split; [reflexivity|]; split; [left; reflexivity|reflexivity]|].
  split; [left; discriminate|]. split; [repeat split|]. split; [vm_compute; reflexivity|]. split; [reflexivity|].
  split; [thread_|]. never.
Qed.

(* From a coroutine a step into my code stops in other code. *)
Theorem mon_step_into_my_code_coroutine_refuted :
  exists w s0 x f g s y, started_by_debugger w /\ reached w s0 /\ stopped_in 0 s0 x f /\ steppable w x /\
    mcoro w (mcode f) = true /\ mfilt w (mcode g) = true /\
    s = m_run w [do (MCall (mcode g) true)] (m_exec w (MCmd 0 IntoMy) s0) /\
    running 0 s [g; f] /\ why y = RStep IntoCo /\ shown y = mid g /\ stopped 0 (m_exec w (ln 0) s) y.
Proof.
  exists (w_ false false), (m_run (w_ false false) [do (MCall 7 true); ln 0] (m_start [(1, 70, Bp false false)] [])),
    (Wait 0 RBreak ELine false), (Mf 0 7 70), (Mf 1 5 0). eexists. exists (Wait 1 (RStep IntoCo) ELine false).
  split; [apply w_ok|]. split; [exists [(1, 70, Bp false false)], []; eexists; reflexivity|].
  split; [eexists; split; [vm_compute; reflexivity|]; split; [reflexivity|]; split; [left; reflexivity|reflexivity]|].
  split; [left; discriminate|]. split; [reflexivity|]. split; [reflexivity|]. split; [reflexivity|].
  split; [thread_|]. split; [reflexivity|]. split; [reflexivity|]. thread_.
Qed.
Print Assumptions mon_breakpoints_last_set.
Print Assumptions mon_line_breakpoint_stops.
Print Assumptions mon_function_breakpoint_stops.
Print Assumptions mon_breakpoint_stop_sound.
Print Assumptions mon_step_over_next_line.
Print Assumptions mon_step_over_return.
Print Assumptions mon_step_over_return_hidden.
Print Assumptions mon_step_into_next_line.
Print Assumptions mon_step_into_return.
Print Assumptions mon_step_out.
Print Assumptions mon_step_over_only.
Print Assumptions mon_continue_only.
Print Assumptions mon_uncommanded_only.
Print Assumptions mon_pause_all_stops.
Print Assumptions mon_pause_one_stops.
Print Assumptions mon_generator_breakpoint_refuted.
Print Assumptions mon_disable_race_refuted.
Print Assumptions mon_step_after_exception_refuted.
Print Assumptions mon_pause_one_refuted.
Print Assumptions mon_pause_while_stepping_refuted.
Print Assumptions mon_step_over_unwind_refuted.
Print Assumptions mon_step_out_dont_trace_refuted.
Print Assumptions mon_step_into_generator_refuted.
Print Assumptions mon_step_into_my_code_coroutine_refuted.
