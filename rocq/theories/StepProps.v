(** C31, C32 and C48: where a thread stops while it runs and while it is stepped. *)
From Coq Require Import NArith List Bool Lia.
From Verif Require Import Step StepProofs.
Import ListNotations.
Local Open Scope N_scope.

(** ** Specification *)

(** The states one thread can be in: nothing has run, then calls, lines, returns,
    commands of the client, changes of breakpoints and pauses in any order.  A change of
    breakpoints within a call of the tracing function (Race) is excluded. *)
Definition reachable (w : world) (s : state) : Prop :=
  exists bs fs os, Forall no_race os /\ s = run w os (start bs fs).

(** The program running on by itself while breakpoints may be changed. *)
Definition undisturbed (os : list op) : Prop :=
  Forall (fun o => match o with Do _ | Add _ _ | Drop _ => True | _ => False end) os.

(** Code which is debugged: neither a library nor excluded by the filters. *)
Definition debugged (w : world) (code : N) : Prop :=
  ctyped w code = false /\ cskip w code = false /\ filter_on w && cfilt w code = false.

(** A breakpoint which stops: its condition holds, and it is no log point. *)
Definition stops (b : bp) (ok : bool) : Prop :=
  (conditional b = false \/ ok = true) /\ logpoint b = false.

(** The breakpoints in force after some operations. *)
Fixpoint in_force (os : list op) (bs : breaks) : breaks :=
  match os with
  | [] => bs
  | Add bs' _ :: os => in_force os bs'
  | Drop bs' :: os =>
      in_force os
        (if forallb (fun b => match find_break bs (fst (fst b)) (snd (fst b)) with
                              | Some _ => true | None => false end) bs' then bs' else bs)
  | _ :: os => in_force os bs
  end.

(** The action a done in the state s stopped at a breakpoint. *)
Definition stopped_at_breakpoint (w : world) (s : state) (a : act) (wt : wait) : Prop :=
  (exists l ok f back b, a = Line l ok /\ stack s = f :: back /\ shown wt = fid f /\
     find_break (brks s) (cfile w (fcode f)) l = Some b /\ stops b ok) \/
  (exists code ok b, a = Call code ok /\ shown wt = next s /\
     find_func (funcs s) (cname w code) = Some b /\ stops b ok).

(** ** Proofs *)

Lemma reachable_inv w s : reachable w s -> inv w s /\ wf s.
Proof.
  intros (bs & fs & os & F & ->). split; [apply run_inv|apply run_wf]; auto using start_inv, start_wf.
Qed.

Lemma at_break_spec w a s s' e ok fin f f' back r wt :
  acted w a s s' e ok fin f f' back r -> inv w s -> waiting s' = Some wt ->
  shown wt = fid f -> at_break w (brks s) (funcs s) e ok f (why wt) ->
  stopped_at_breakpoint w s a wt.
Proof.
  intros A I W Sh B. destruct B as [(_ & -> & b & Fb & Lb)|(_ & -> & b & Fb & Lb)].
  - left. destruct (ac_stack _ _ _ _ _ _ _ _ _ _ _ A) as [(E & _)|(_ & h & Eh & Ei & Ec & _ & El & _)]; [discriminate|].
    destruct (El eq_refl) as [Ea _]. exists (fline f), ok, h, back, b. rewrite <- Ec, <- Ei. auto.
  - right. destruct (ac_stack _ _ _ _ _ _ _ _ _ _ _ A) as [(_ & _ & [(code & Ea & Ef)|Ig])|(E & _)]; [| |congruence].
    + exists code, ok, b. subst f. auto.
    + exfalso. assert (K := in_gens _ _ I _ Ig). rewrite (ac_wait _ _ _ _ _ _ _ _ _ _ _ A) in W.
      destruct (ac_res _ _ _ _ _ _ _ _ _ _ _ A) as [(t & -> & _)|[-> _]]; [discriminate|].
      rewrite dispatch_call_gen in W by exact K. discriminate.
Qed.

Lemma quiet_reachable w os s : undisturbed os -> reachable w s -> reachable w (run w os s).
Proof.
  intros Q (bs & fs & os0 & F & ->). exists bs, fs, (os0 ++ os). split.
  - apply Forall_app. split; [exact F|]. eapply Forall_impl; [|exact Q]. intros o. destruct o; cbn; auto.
  - generalize (start bs fs). clear. induction os0 as [|o os0 IH]; intros s; [reflexivity|]. cbn. apply IH.
Qed.

Lemma cmd_reachable w c s : reachable w s -> reachable w (exec w (Cmd c) s).
Proof.
  intros (bs & fs & os0 & F & ->). exists bs, fs, (os0 ++ [Cmd c]). split.
  - apply Forall_app. split; [exact F|]. repeat constructor.
  - generalize (start bs fs). clear. induction os0 as [|o os0 IH]; intros s; [reflexivity|]. cbn [run app]. apply IH.
Qed.

Lemma quiet_same os : undisturbed os <-> Forall quiet os.
Proof. reflexivity. Qed.

(** *** C32: breakpoints and the caches *)

Lemma exec_brks w o s : inv w s -> no_race o ->
  brks (exec w o s) = in_force [o] (brks s).
Proof.
  intros I N0. destruct o; cbn [exec in_force no_race] in *; try contradiction; try reflexivity.
  - destruct (waiting s) eqn:W; [reflexivity|].
    destruct (act_cases w a s I W) as [-> | (e & ok & fin & f & f' & back & r & A)]; [reflexivity|].
    apply (ac_brks _ _ _ _ _ _ _ _ _ _ _ A).
  - unfold resume. destruct (waiting s) as [wt|]; [|reflexivity]. destruct (client_cmd c); [|reflexivity].
    destruct (resumed w c (shown wt) s) as [i fs]. destruct (is_ret (at_evt wt)); [|reflexivity].
    unfold popped. cbn. destruct fs; reflexivity.
  - unfold drop_breaks, has_break. destruct (forallb _ bs); reflexivity.
  - destruct (waiting s); reflexivity.
Qed.

(** The breakpoints decided by are those of the client. *)
Theorem breakpoints_in_force w bs fs os : Forall no_race os ->
  brks (run w os (start bs fs)) = in_force os bs.
Proof.
  intros F. assert (G : forall s, inv w s -> brks (run w os s) = in_force os (brks s)).
  { induction F as [|o os Ho F IH]; intros s I; [reflexivity|]. cbn [run].
    rewrite IH by (apply exec_inv; auto). rewrite exec_brks by auto. destruct o; reflexivity. }
  apply G, start_inv.
Qed.

(** A line with a breakpoint stops the thread, whatever ran and whatever was set before. *)
Theorem breakpoint_stops w s f back l ok b : reachable w s -> waiting s = None ->
  stack s = f :: back -> debugged w (fcode f) -> In l (clines w (fcode f)) ->
  find_break (brks s) (cfile w (fcode f)) l = Some b -> stops b ok ->
  exists y, waiting (exec w (Do (Line l ok)) s) = Some (Wait (fid f) y ELine false)
            /\ (y = RBreak \/ susp (inf s) = true /\ y = RPause).
Proof.
  intros Re W Es U L B Lv. destruct (reachable_inv _ _ Re) as [I Wf].
  assert (Nc : ~ clear w (brks s) (fcode f)).
  { intros C. rewrite (C _ L) in B. discriminate. }
  assert (Af : active (ftrace f) = true).
  { destruct (active (ftrace f)) eqn:A; [reflexivity|]. exfalso. apply Nc.
    apply (in_stack _ _ I); [rewrite Es; left; reflexivity|exact U|exact A]. }
  cbn [exec]. rewrite W.
  rewrite (line_dispatch w l ok s f back I Es U L Af (or_intror Nc)).
  destruct (susp (inf s)) eqn:S.
  - destruct (dispatch_susp w (brks s) (funcs s) (inf s) (fc s) ELine ok
                (Frame (fid f) (fcode f) l (ftrace f)) back S) as (_ & _ & _ & H).
    rewrite H by reflexivity. exists RPause. auto.
  - rewrite (dispatch_breaks w (brks s) (funcs s) (inf s) (fc s) ok
               (Frame (fid f) (fcode f) l (ftrace f)) back b); auto.
    + exists RBreak. auto.
    + apply I.
Qed.

(** So does a call of a function with a function breakpoint. *)
Theorem function_breakpoint_stops w s code ok b : reachable w s -> waiting s = None ->
  debugged w code -> ckind w code = Plain -> cmod w code = false ->
  find_func (funcs s) (cname w code) = Some b -> stops b ok ->
  waiting (exec w (Do (Call code ok)) s) = Some (Wait (next s) RFunc ECall false).
Proof.
  intros Re W U K M B Lv. destruct (reachable_inv _ _ Re) as [I Wf].
  cbn [exec]. rewrite W, do_act_prepared. cbn [prepared].
  match goal with |- context [fire w ECall ok false ?x] => remember x as s0 eqn:E0 end.
  destruct (fire_cases w ECall ok false s0 (Frame (next s) code (cfirst w code) TNone) (stack s))
    as (r & g & f' & Ef & Sf & Kf & Dr).
  { subst s0. reflexivity. }
  { subst s0. apply I. }
  rewrite Ef.
  destruct (apply_facts w r ECall false (with_cs g (with_stack (f' :: stack s) s0)) f' (stack s) eq_refl)
    as (_ & _ & _ & _ & _ & B6 & _).
  rewrite B6. destruct Dr as [(t & _ & _ & N1)|[-> _]].
  - exfalso. subst s0. destruct (N1 (or_introl eq_refl) U) as (_ & _ & X). cbn in X. congruence.
  - subst s0. cbn [brks funcs inf fc]. rewrite (dispatch_func w _ _ _ _ ok _ _ b); auto.
Qed.

(** *** C31: continuing *)

(** After continue the thread stops only at breakpoints. *)
Theorem continue_stops_only_at_breakpoints w s wt ls a wt' :
  reachable w s -> waiting s = Some wt -> undisturbed ls ->
  let s1 := run w ls (exec w (Cmd NoStep) s) in
  waiting s1 = None -> waiting (exec w (Do a) s1) = Some wt' -> stopped_at_breakpoint w s1 a wt'.
Proof.
  intros Re W Q s1 W1 W2. destruct (reachable_inv _ _ Re) as [I Wf].
  destruct (reachable_inv _ _ (cmd_reachable w NoStep _ Re)) as [Ic Wfc].
  destruct (reachable_inv _ _ (quiet_reachable w ls _ Q (cmd_reachable w NoStep _ Re))) as [I1 Wf1]. fold s1 in I1, Wf1.
  assert (G : going s1).
  { apply run_going; auto. eapply resume_continue; eauto. }
  cbn [exec] in W2. rewrite W1 in W2. destruct G as [G1 G2].
  destruct (act_cases w a s1 I1 W1) as [E | (e & ok & fin & f & f' & back & r & A)]; [congruence|].
  destruct (acted_stop _ _ _ _ _ _ _ _ _ _ _ _ A G2 W2) as (_ & [(Sh & B)|(_ & Ss & _)]).
  - eapply at_break_spec; eauto.
  - exfalso. rewrite G1 in Ss. unfold step_stop in Ss. destruct (cdont w (fcode f)); discriminate.
Qed.

(** *** C31: step over *)

Definition step_over_cmd (c : cmd) : Prop := c = Over \/ c = OverMy.

Lemma over_stays c : step_over_cmd c -> stays c.
Proof. intros [-> | ->]; unfold stays; auto. Qed.

Section Over.
Context (w : world) (s : state) (wt : wait) (f : frame) (callers : list frame) (c : cmd) (ls : list op).
Context (Re : reachable w s) (W : waiting s = Some wt) (Sf : frames_from (shown wt) (stack s) = f :: callers)
  (Kf : ckind w (fcode f) = Plain) (Oc : step_over_cmd c) (Ql : undisturbed ls).
Let s0 := exec w (Cmd c) s.
Let s1 := run w ls s0.
Context (W1 : waiting s1 = None).

Lemma over_plain : plain_id w (shown wt) s0.
Proof.
  destruct (reachable_inv _ _ Re) as [I Wf].
  apply resume_plain with (wt := wt); auto using over_client.
  destruct (frames_from_id _ _ _ _ Sf) as [Ef If].
  intros g Ig Eg. replace g with f; [exact Kf|].
  assert (Nd := wf_nodup _ Wf). unfold ids in Nd.
  assert (If' : In f (stack s ++ gens s)) by (apply in_or_app; left; apply If; left; reflexivity).
  clear -Nd Ig If' Eg Ef. rewrite <- Eg in Ef. clear Eg. induction (stack s ++ gens s) as [|x xs IH]; [contradiction|].
  cbn in Nd. apply NoDup_cons_iff in Nd. destruct Nd as [N0 N1].
  destruct Ig as [-> | Ig]; destruct If' as [-> | If'].
  - reflexivity.
  - exfalso. apply N0. rewrite <- Ef. apply in_map, If'.
  - exfalso. apply N0. rewrite Ef. apply in_map, Ig.
  - auto.
Qed.

Lemma over_stepping : stepping w c (shown wt) s1 /\ plain_id w (shown wt) s1.
Proof.
  destruct (reachable_inv _ _ Re) as [I Wf]. destruct (reachable_inv _ _ (cmd_reachable w c _ Re)) as [Ic Wfc].
  apply run_stepping; auto using over_stays.
  split; [|exact over_plain]. eapply resume_over; eauto.
Qed.

Lemma over_held : debugged w (fcode f) -> In (shown wt) (map fid (stack s0)) ->
  held w c (shown wt) s1.
Proof.
  intros U Hi. destruct (reachable_inv _ _ Re) as [I Wf]. destruct (reachable_inv _ _ (cmd_reachable w c _ Re)) as [Ic Wfc].
  apply run_held; auto using over_stays.
  split; [split; [|exact over_plain]|]; eapply resume_over; eauto.
Qed.

End Over.

(** While the frame stepped over is there, the thread stops at its lines and at breakpoints
    only, not in the functions it calls. *)
Theorem step_over_stays w s wt f callers c ls a wt' :
  reachable w s -> waiting s = Some wt -> frames_from (shown wt) (stack s) = f :: callers ->
  ckind w (fcode f) = Plain -> step_over_cmd c -> undisturbed ls ->
  let s1 := run w ls (exec w (Cmd c) s) in
  waiting s1 = None -> In (shown wt) (map fid (stack s1)) ->
  waiting (exec w (Do a) s1) = Some wt' ->
  stopped_at_breakpoint w s1 a wt' \/
  exists l ok f1 back, a = Line l ok /\ stack s1 = f1 :: back /\ fid f1 = shown wt /\ shown wt' = shown wt.
Proof.
  intros Re W Sf K O Q s1 W1 Hi W2.
  destruct (reachable_inv _ _ (quiet_reachable w ls _ Q (cmd_reachable w c _ Re))) as [I1 Wf1]. fold s1 in I1, Wf1.
  destruct (over_stepping w s wt f callers c ls Re W Sf K O Q W1) as [[P1 P2 P3] Pl]. fold s1 in P1, P2, P3, Pl.
  destruct P3 as [P3 P4]. { unfold ids. rewrite map_app. apply in_or_app. auto. }
  cbn [exec] in W2. rewrite W1 in W2.
  destruct (act_cases w a s1 I1 W1) as [E | (e & ok & fin & h & h' & back & r & A)]; [congruence|].
  destruct (acted_stop _ _ _ _ _ _ _ _ _ _ _ _ A P1 W2) as (_ & [(Sh & B)|(_ & Ss & D)]).
  - left. eapply at_break_spec; eauto.
  - right. rewrite P3 in Ss. destruct (step_stop_over _ _ _ _ _ _ _ O Ss) as [-> E].
    rewrite P4 in E. injection E as E.
    destruct (ac_stack _ _ _ _ _ _ _ _ _ _ _ A) as [(X & _)|(_ & k & Ek & Ei & Ec & _ & El & _)]; [discriminate|].
    destruct (El eq_refl) as [Ea _]. destruct D as [[_ D]|[D _]]; [|discriminate].
    exists (fline h), ok, k, back. repeat split; congruence.
Qed.

(** The next line of the frame stepped over stops the thread. *)
Theorem step_over_next_line w s wt f callers c ls f1 back l ok :
  reachable w s -> waiting s = Some wt -> frames_from (shown wt) (stack s) = f :: callers ->
  ckind w (fcode f) = Plain -> debugged w (fcode f) ->
  step_over_cmd c -> undisturbed ls ->
  In (shown wt) (map fid (stack (exec w (Cmd c) s))) ->
  let s1 := run w ls (exec w (Cmd c) s) in
  waiting s1 = None -> stack s1 = f1 :: back -> fid f1 = shown wt ->
  cdont w (fcode f1) = false -> In l (clines w (fcode f1)) ->
  exists y, waiting (exec w (Do (Line l ok)) s1) = Some (Wait (shown wt) y ELine false).
Proof.
  intros Re W Sf K U O Q Hi s1 W1 Es Ei D L.
  destruct (reachable_inv _ _ (quiet_reachable w ls _ Q (cmd_reachable w c _ Re))) as [I1 Wf1]. fold s1 in I1, Wf1.
  destruct (over_stepping w s wt f callers c ls Re W Sf K O Q W1) as [[P1 P2 P3] Pl]. fold s1 in P1, P2, P3, Pl.
  assert (H := over_held w s wt f callers c ls Re W Sf K O Q W1 U Hi). fold s1 in H.
  assert (Hs : In (shown wt) (map fid (stack s1))) by (rewrite Es, <- Ei; left; reflexivity).
  destruct P3 as [P3 P4]. { unfold ids. rewrite map_app. apply in_or_app. auto. }
  destruct (h_here _ _ _ _ H Hs) as (g & rest & Fg & Ug & Ag & _).
  rewrite Es in Fg. cbn [frames_from] in Fg. rewrite <- Ei, N.eqb_refl in Fg. injection Fg as <- <-.
  assert (Af : active (ftrace f1) = true) by (apply Ag; [left; reflexivity|exact Ug]).
  cbn [exec]. rewrite W1.
  rewrite (line_dispatch w l ok s1 f1 back I1 Es Ug L Af).
  2: { left. rewrite P3. destruct O as [-> | ->]; discriminate. }
  remember (Frame (fid f1) (fcode f1) l (ftrace f1)) as k eqn:Ek.
  destruct (dispatch_ends w (brks s1) (funcs s1) (inf s1) (fc s1) ELine ok k back P1) as [X _].
  - rewrite P3, P4, <- Ei. unfold step_stop. rewrite Ek. cbn [fcode fid is_ret is_line].
    rewrite D, !andb_false_r. cbn [andb negb]. rewrite andb_true_r.
    destruct O as [-> | ->]; cbn [same]; rewrite N.eqb_refl; reflexivity.
  - rewrite P3, P4. apply can_skip_same; [apply over_stays, O|rewrite Ek; exact Ei].
  - discriminate.
  - destruct (X eq_refl) as (y & R). exists y. rewrite R, Ek. cbn. rewrite Ei. reflexivity.
Qed.

(** Once it has returned, the next line of debugged code stops the thread. *)
Theorem step_over_after_return w s wt f callers c ls f1 back l ok :
  reachable w s -> waiting s = Some wt -> frames_from (shown wt) (stack s) = f :: callers ->
  ckind w (fcode f) = Plain -> debugged w (fcode f) ->
  step_over_cmd c -> undisturbed ls ->
  In (shown wt) (map fid (stack (exec w (Cmd c) s))) ->
  let s1 := run w ls (exec w (Cmd c) s) in
  waiting s1 = None -> ~ In (shown wt) (map fid (stack s1)) ->
  stack s1 = f1 :: back -> debugged w (fcode f1) -> (c = OverMy -> cfilt_my w (fcode f1) = false) ->
  cdont w (fcode f1) = false -> In l (clines w (fcode f1)) ->
  exists y, waiting (exec w (Do (Line l ok)) s1) = Some (Wait (fid f1) y ELine false).
Proof.
  intros Re W Sf K U O Q Hi s1 W1 Gone Es U1 M1 D1 L.
  destruct (reachable_inv _ _ (quiet_reachable w ls _ Q (cmd_reachable w c _ Re))) as [I1 Wf1]. fold s1 in I1, Wf1.
  assert (H := over_held w s wt f callers c ls Re W Sf K O Q W1 U Hi). fold s1 in H.
  cbn [exec]. rewrite W1. eapply stepping_in_line; eauto.
  - apply into_of_into.
  - apply (h_gone _ _ _ _ H Gone).
  - split; [exact U1|]. intros E. apply M1. destruct O as [-> | ->]; [discriminate|reflexivity].
Qed.

(** *** C31: step return *)

Definition step_return_cmd (c : cmd) : Prop := c = Return \/ c = ReturnMy.

(** The frame whose return ends the step, and its caller: the first frame, from the one
    shown on, with a caller that is not filtered. *)
Inductive waits_for (w : world) (c : cmd) : list frame -> frame -> frame -> Prop :=
| waits_here f b rest :
    (c = ReturnMy /\ cfilt_my w (fcode b) = false) \/ (c = Return /\ filter_on w && cfilt w (fcode b) = false) ->
    waits_for w c (f :: b :: rest) f b
| waits_later f b rest g k :
    (c = ReturnMy /\ cfilt_my w (fcode b) = true) \/ (c = Return /\ filter_on w && cfilt w (fcode b) = true) ->
    waits_for w c (b :: rest) g k -> waits_for w c (f :: b :: rest) g k.

Lemma waits_returns w c l g k : waits_for w c l g k <-> step_return_cmd c /\ returns_to w (is_my c) l g k.
Proof.
  split.
  - induction 1 as [f b rest H|f b rest g k H R [IH1 IH2]]; (split; [destruct H as [[-> H]|[-> H]]; unfold step_return_cmd; auto|]).
    + constructor 1. destruct H as [[-> H]|[-> H]]; exact H.
    + constructor 2; [|exact IH2]. destruct H as [[-> H]|[-> H]]; exact H.
  - intros [O H]. induction H as [f b rest H|f b rest g k H R IH].
    + constructor 1. destruct O as [-> | ->]; cbn in H; auto.
    + constructor 2; [|exact IH]. destruct O as [-> | ->]; cbn in H; auto.
Qed.

Lemma return_stays c : step_return_cmd c -> stays c.
Proof. intros [-> | ->]; unfold stays; auto. Qed.

Section Return.
Context (w : world) (s : state) (wt : wait) (f : frame) (callers : list frame) (c : cmd) (ls : list op)
  (g k : frame).
Context (Re : reachable w s) (W : waiting s = Some wt) (Sf : frames_from (shown wt) (stack s) = f :: callers)
  (Wg : waits_for w c (f :: callers) g k) (Kg : ckind w (fcode g) = Plain) (Ql : undisturbed ls).
Let s0 := exec w (Cmd c) s.
Let s1 := run w ls s0.
Context (W1 : waiting s1 = None).

Lemma return_plain : plain_id w (fid g) s0.
Proof.
  destruct (reachable_inv _ _ Re) as [I Wf]. apply waits_returns in Wg. destruct Wg as [Oc Rt].
  apply resume_plain with (wt := wt); auto using returning_client.
  destruct (returns_to_frames _ _ _ _ _ _ _ _ Wf Sf Rt) as (rest & Fg).
  destruct (frames_from_id _ _ _ _ Fg) as [_ If].
  intros x Ix Ex. replace x with g; [exact Kg|].
  assert (Nd := wf_nodup _ Wf). unfold ids in Nd.
  assert (If' : In g (stack s ++ gens s)) by (apply in_or_app; left; apply If; left; reflexivity).
  clear -Nd Ix If' Ex. induction (stack s ++ gens s) as [|y ys IH]; [contradiction|].
  cbn in Nd. apply NoDup_cons_iff in Nd. destruct Nd as [N0 N1].
  destruct Ix as [-> | Ix]; destruct If' as [-> | If'].
  - reflexivity.
  - exfalso. apply N0. rewrite Ex. apply in_map, If'.
  - exfalso. apply N0. rewrite <- Ex. apply in_map, Ix.
  - auto.
Qed.

Lemma return_stepping : stepping w c (fid g) s1 /\ plain_id w (fid g) s1.
Proof.
  destruct (reachable_inv _ _ Re) as [I Wf]. destruct (reachable_inv _ _ (cmd_reachable w c _ Re)) as [Ic Wfc].
  assert (Rt := Wg). apply waits_returns in Rt. destruct Rt as [Oc Rt].
  apply run_stepping; auto using return_stays.
  split; [|exact return_plain]. eapply resume_return; eauto.
Qed.

Lemma return_held : debugged w (fcode g) -> In (fid g) (map fid (stack s0)) ->
  held w c (fid g) s1.
Proof.
  intros U Hi. destruct (reachable_inv _ _ Re) as [I Wf]. destruct (reachable_inv _ _ (cmd_reachable w c _ Re)) as [Ic Wfc].
  assert (Rt := Wg). apply waits_returns in Rt. destruct Rt as [Oc Rt].
  apply run_held; auto using return_stays.
  split; [split; [|exact return_plain]|]; eapply resume_return; eauto.
Qed.

End Return.

(** Step return stops at breakpoints only until the frame returns; then it may show the
    caller. *)
Theorem step_return_waits w s wt f callers c g k ls a wt' :
  reachable w s -> waiting s = Some wt -> frames_from (shown wt) (stack s) = f :: callers ->
  waits_for w c (f :: callers) g k -> ckind w (fcode g) = Plain -> undisturbed ls ->
  let s1 := run w ls (exec w (Cmd c) s) in
  waiting s1 = None -> In (fid g) (map fid (stack s1)) ->
  waiting (exec w (Do a) s1) = Some wt' ->
  stopped_at_breakpoint w s1 a wt' \/
  exists fin g1 k1 rest, a = Ret fin /\ stack s1 = g1 :: k1 :: rest /\ fid g1 = fid g /\ shown wt' = fid k1.
Proof.
  intros Re W Sf Wg K Q s1 W1 Hi W2.
  destruct (reachable_inv _ _ (quiet_reachable w ls _ Q (cmd_reachable w c _ Re))) as [I1 Wf1]. fold s1 in I1, Wf1.
  destruct (return_stepping w s wt f callers c ls g k Re W Sf Wg K Q W1) as [[P1 P2 P3] Pl]. fold s1 in P1, P2, P3, Pl.
  destruct P3 as [P3 P4]. { unfold ids. rewrite map_app. apply in_or_app. auto. }
  apply waits_returns in Wg. destruct Wg as [Oc _].
  cbn [exec] in W2. rewrite W1 in W2.
  destruct (act_cases w a s1 I1 W1) as [E | (e & ok & fin & h & h' & back & r & A)]; [congruence|].
  destruct (acted_stop _ _ _ _ _ _ _ _ _ _ _ _ A P1 W2) as (_ & [(Sh & B)|(_ & Ss & D)]).
  - left. eapply at_break_spec; eauto.
  - right. rewrite P3 in Ss. destruct (step_stop_return _ _ _ _ _ _ _ Oc Ss) as [-> E].
    rewrite P4 in E. injection E as E.
    destruct (ac_stack _ _ _ _ _ _ _ _ _ _ _ A) as [(X & _)|(_ & h1 & Ek & Ei & Ec & _ & _ & Er)]; [discriminate|].
    destruct (Er eq_refl) as (Ea & _). destruct D as [[D _]|(_ & b & rest & Eb & Sh & _)]; [discriminate|].
    exists fin, h1, b, rest. subst back. repeat split; congruence.
Qed.

(** The return of that frame stops the thread in the caller. *)
Theorem step_return_stops w s wt f callers c g k ls g1 k1 rest :
  reachable w s -> waiting s = Some wt -> frames_from (shown wt) (stack s) = f :: callers ->
  waits_for w c (f :: callers) g k -> ckind w (fcode g) = Plain ->
  debugged w (fcode g) -> undisturbed ls ->
  In (fid g) (map fid (stack (exec w (Cmd c) s))) ->
  let s1 := run w ls (exec w (Cmd c) s) in
  waiting s1 = None -> stack s1 = g1 :: k1 :: rest -> fid g1 = fid g ->
  cdont w (fcode g1) = false ->
  cpydev w (fcode k1) = false -> cdont w (fcode k1) = false ->
  waiting (exec w (Do (Ret true)) s1) = Some (Wait (fid k1) (RStep c) ERet true).
Proof.
  intros Re W Sf Wg K U Q Hi s1 W1 Es Ei D Pk Dk.
  destruct (reachable_inv _ _ (quiet_reachable w ls _ Q (cmd_reachable w c _ Re))) as [I1 Wf1]. fold s1 in I1, Wf1.
  destruct (return_stepping w s wt f callers c ls g k Re W Sf Wg K Q W1) as [[P1 P2 P3] Pl]. fold s1 in P1, P2, P3, Pl.
  assert (H := return_held w s wt f callers c ls g k Re W Sf Wg K Q W1 U Hi). fold s1 in H.
  assert (Hs : In (fid g) (map fid (stack s1))) by (rewrite Es, <- Ei; left; reflexivity).
  destruct P3 as [P3 P4]. { unfold ids. rewrite map_app. apply in_or_app. auto. }
  apply waits_returns in Wg. destruct Wg as [Oc _].
  destruct (h_here _ _ _ _ H Hs) as (x & r' & Fg & Ug & Ag & _).
  rewrite Es in Fg. cbn [frames_from] in Fg. rewrite <- Ei, N.eqb_refl in Fg. injection Fg as <- <-.
  assert (Af : active (ftrace g1) = true) by (apply Ag; [left; reflexivity|exact Ug]).
  cbn [exec]. rewrite W1, do_act_prepared. cbn [prepared]. rewrite Es. cbn [orb].
  destruct (fire_cases w ERet false true s1 g1 (k1 :: rest) Es) as (r & gg & f' & Ef & Sm & Kf & Dr).
  { apply I1. }
  rewrite Ef.
  destruct (apply_facts w r ERet true (with_cs gg (with_stack (f' :: k1 :: rest) s1)) f' (k1 :: rest) eq_refl)
    as (_ & _ & _ & _ & _ & B6 & _).
  rewrite B6. destruct Dr as [(t & _ & _ & N1)|[-> _]].
  - exfalso. destruct (N1 (or_intror Af) Ug) as (X & _). rewrite P3 in X. destruct Oc as [-> | ->]; discriminate.
  - destruct (dispatch_ends w (brks s1) (funcs s1) (inf s1) (fc s1) ERet false g1 (k1 :: rest) P1) as [_ X].
    + rewrite P3, P4, <- Ei. unfold step_stop. cbn [is_ret]. rewrite D, Pk. cbn [andb negb].
      destruct Oc as [-> | ->]; cbn [same is_ret andb]; rewrite N.eqb_refl; reflexivity.
    + rewrite P3, P4. apply can_skip_same; [apply return_stays, Oc|exact Ei].
    + intros _ N0. exfalso. apply N0, Pl; [rewrite Es; left; reflexivity|exact Ei].
    + rewrite (X k1 rest eq_refl eq_refl Dk), P3. reflexivity.
Qed.

(** Without such a frame, step return is continue. *)
Theorem step_return_continues w s wt f callers c ls a wt' :
  reachable w s -> waiting s = Some wt -> frames_from (shown wt) (stack s) = f :: callers ->
  step_return_cmd c -> (forall g k, ~ waits_for w c (f :: callers) g k) -> undisturbed ls ->
  let s1 := run w ls (exec w (Cmd c) s) in
  waiting s1 = None -> waiting (exec w (Do a) s1) = Some wt' -> stopped_at_breakpoint w s1 a wt'.
Proof.
  intros Re W Sf Oc Nw Q s1 W1 W2. destruct (reachable_inv _ _ Re) as [I Wf].
  destruct (reachable_inv _ _ (cmd_reachable w c _ Re)) as [Ic Wfc].
  destruct (reachable_inv _ _ (quiet_reachable w ls _ Q (cmd_reachable w c _ Re))) as [I1 Wf1]. fold s1 in I1, Wf1.
  assert (G : going s1).
  { apply run_going; auto. eapply resume_return_none; eauto.
    intros g k R. apply (Nw g k). apply waits_returns. auto. }
  cbn [exec] in W2. rewrite W1 in W2. destruct G as [G1 G2].
  destruct (act_cases w a s1 I1 W1) as [E | (e & ok & fin & h & h' & back & r & A)]; [congruence|].
  destruct (acted_stop _ _ _ _ _ _ _ _ _ _ _ _ A G2 W2) as (_ & [(Sh & B)|(_ & Ss & _)]).
  - eapply at_break_spec; eauto.
  - exfalso. rewrite G1 in Ss. unfold step_stop in Ss. destruct (cdont w (fcode h)); discriminate.
Qed.

(** *** C48: step into and pause *)

Definition step_into_cmd (c : cmd) : Prop := c = Into \/ c = IntoMy.

(** After step into the next line of debugged code stops the thread. *)
Theorem step_into_stops w s wt f callers c ls f1 back l ok :
  reachable w s -> waiting s = Some wt -> frames_from (shown wt) (stack s) = f :: callers ->
  ckind w (fcode f) <> Coro -> step_into_cmd c -> undisturbed ls ->
  let s1 := run w ls (exec w (Cmd c) s) in
  waiting s1 = None ->
  stack s1 = f1 :: back -> debugged w (fcode f1) -> (c = IntoMy -> cfilt_my w (fcode f1) = false) ->
  cdont w (fcode f1) = false -> In l (clines w (fcode f1)) ->
  exists y, waiting (exec w (Do (Line l ok)) s1) = Some (Wait (fid f1) y ELine false).
Proof.
  intros Re W Sf K O Q s1 W1 Es U M D L.
  destruct (reachable_inv _ _ Re) as [I Wf].
  destruct (reachable_inv _ _ (cmd_reachable w c _ Re)) as [Ic Wfc].
  destruct (reachable_inv _ _ (quiet_reachable w ls _ Q (cmd_reachable w c _ Re))) as [I1 Wf1]. fold s1 in I1, Wf1.
  assert (G : stepping_in w c s1).
  { apply run_stepping_in; auto. eapply resume_into; eauto. }
  cbn [exec]. rewrite W1. eapply stepping_in_line; eauto. split; auto.
Qed.

(** A step never stops in code which is filtered out: the frame shown is not. *)
Theorem step_into_avoids_filtered w s a wt c : reachable w s -> waiting s = None -> susp (inf s) = false ->
  waiting (exec w (Do a) s) = Some wt -> why wt = RStep c ->
  c = Into \/ c = IntoMy \/ c = IntoCo \/ c = Suspend ->
  exists g, In g (stack s) /\ fid g = shown wt /\
    (filter_on w = true -> c <> IntoMy -> cfilt w (fcode g) = false) /\
    (c = IntoMy -> cfilt_my w (fcode g) = false) /\ cdont w (fcode g) = false.
Proof.
  intros Re W S W' Y C. destruct (reachable_inv _ _ Re) as [I Wf].
  cbn [exec] in W'. rewrite W in W'.
  destruct (act_cases w a s I W) as [E | (e & ok & fin & h & h' & back & r & A)]; [congruence|].
  destruct (acted_stop _ _ _ _ _ _ _ _ _ _ _ _ A S W') as (_ & [(Sh & B)|(Ey & Ss & D)]).
  { exfalso. destruct B as [(B & _)|(B & _)]; congruence. }
  rewrite Y in Ey. injection Ey as Ey. rewrite <- Ey in *.
  unfold step_stop in Ss. apply andb_prop in Ss. destruct Ss as [Ss _].
  destruct (ac_stack _ _ _ _ _ _ _ _ _ _ _ A) as [(X & _)|(_ & h1 & Eh & Ei & Ec & _)].
  { exfalso. destruct D as [[D _]|[D _]]; congruence. }
  destruct (cdont w (fcode h)) eqn:Dh; [discriminate|].
  destruct D as [[-> Sh]|(-> & b & rest & -> & Sh & Db)].
  - exists h1. rewrite Eh. split; [left; reflexivity|]. split; [congruence|]. rewrite <- Ec.
    destruct C as [-> | [-> | [-> | ->]]]; cbn [orb] in Ss; (split; [intros Fo N0|split; [intros C|exact Dh]]); try congruence;
    try (rewrite Fo in Ss; try (apply andb_prop in Ss; destruct Ss as [Ss _]));
    apply negb_true_iff in Ss; exact Ss.
  - exists b. rewrite Eh. split; [right; left; reflexivity|]. split; [auto|].
    destruct C as [-> | [-> | [-> | ->]]]; destruct (cpydev w (fcode b)); try discriminate; cbn [orb] in Ss;
      (split; [intros Fo N0|split; [intros C|exact Db]]); try congruence;
    try (rewrite Fo in Ss; try (apply andb_prop in Ss; destruct Ss as [Ss _])).
    all: try (apply andb_prop in Ss; destruct Ss as [Ss _]).
    all: apply negb_true_iff in Ss; exact Ss.
Qed.

(** A thread told to pause stops at the next line of debugged code. *)
Theorem pause_stops w s main ls f1 back l ok : reachable w s -> waiting s = None -> undisturbed ls ->
  let s1 := run w ls (exec w (Pause main) s) in
  waiting s1 = None -> stack s1 = f1 :: back -> debugged w (fcode f1) -> In l (clines w (fcode f1)) ->
  waiting (exec w (Do (Line l ok)) s1) = Some (Wait (fid f1) RPause ELine false).
Proof.
  intros Re W Q s1 W1 Es U L. destruct (reachable_inv _ _ Re) as [I Wf].
  assert (Ip : inv w (exec w (Pause main) s)) by (apply exec_inv; cbn; auto).
  assert (Wp : wf (exec w (Pause main) s)) by (apply exec_wf; cbn; auto).
  assert (I1 : inv w s1).
  { apply run_inv; auto. eapply Forall_impl; [|exact Q]. intros o. destruct o; cbn; auto. }
  assert (G : paused w s1).
  { apply run_paused; auto. cbn [exec]. rewrite W. apply pause_paused. }
  destruct G as [G1 G2 G3].
  assert (Af : active (ftrace f1) = true) by (apply G3; [rewrite Es; left; reflexivity|exact U]).
  cbn [exec]. rewrite W1, (line_dispatch w l ok s1 f1 back I1 Es U L Af (or_introl G2)).
  destruct (dispatch_susp w (brks s1) (funcs s1) (inf s1) (fc s1) ELine ok
              (Frame (fid f1) (fcode f1) l (ftrace f1)) back G1) as (_ & _ & _ & X).
  rewrite X by reflexivity. reflexivity.
Qed.

(** ** What does not hold *)

(** A program: 0 is the module, 1 a function, 2 a generator, 3 code which is filtered out,
    4 a library file within the project, 5 a coroutine. *)
Definition demo : world := World
  (fun c => c) (fun c => c) (fun c => 10 * c + 1)
  (fun c => [10 * c + 1; 10 * c + 2; 10 * c + 3])
  (fun c => if N.eqb c 2 then Gen else if N.eqb c 5 then Coro else Plain)
  (fun c => [10 * c + 3])
  (fun c => N.eqb c 0) (fun c => N.eqb c 4) (fun _ => false) (fun _ => false)
  true (fun c => N.eqb c 3) (fun c => N.eqb c 3) (fun _ => false) false false.

Definition stop_bp : bp := Bp false false.
Definition at_line (l : N) : op := Do (Line l true).
Definition call (c : N) : op := Do (Call c true).

(** Breakpoints set while the tracing function looks at a line without one: the line is
    remembered as having none, and the new breakpoint is never hit. *)
Theorem breakpoint_race_refuted : exists w os s f back,
  s = run w os (start [(0, 1, stop_bp)] []) /\ waiting s = None /\ stack s = f :: back /\
  debugged w (fcode f) /\ In 2 (clines w (fcode f)) /\
  find_break (brks s) (cfile w (fcode f)) 2 = Some stop_bp /\
  waiting (exec w (Do (Line 2 true)) s) = None.
Proof.
  eexists demo, [call 0; at_line 1; Cmd NoStep; Race 2 [(0, 1, stop_bp); (0, 2, stop_bp)] [];
                at_line 1; Cmd NoStep], _, (Frame 0 0 1 TDisp), [].
  split; [reflexivity|]. vm_compute. repeat split; auto.
Qed.

(** A breakpoint set in a library file of the project is not hit by frames which run
    already: only frames of other files are traced again. *)
Theorem breakpoint_in_library_refuted : exists w os s f back,
  Forall no_race os /\ s = run w os (start [] []) /\ waiting s = None /\ stack s = f :: back /\
  cskip w (fcode f) = false /\ cfilt w (fcode f) = false /\ In 42 (clines w (fcode f)) /\
  find_break (brks s) (cfile w (fcode f)) 42 = Some stop_bp /\
  waiting (exec w (Do (Line 42 true)) s) = None /\
  (* called again, it is *)
  waiting (run w [call 4; at_line 42] s) <> None.
Proof.
  eexists demo, [call 0; call 4; at_line 41; Add [(4, 42, stop_bp)] []], _, (Frame 1 4 41 TNone), [Frame 0 0 1 TTop].
  split; [repeat constructor|]. split; [reflexivity|]. vm_compute. repeat split; auto. discriminate.
Qed.

(** A pause which takes effect as a function returns shows the frame that is returning; a
    step over asked for then waits for a frame which is gone, and stops nowhere. *)
Theorem pause_at_return_step_refuted : exists w os s wt f callers,
  Forall no_race os /\ s = run w os (start [] []) /\ waiting s = Some wt /\
  frames_from (shown wt) (stack s) = f :: callers /\ ckind w (fcode f) = Plain /\ debugged w (fcode f) /\
  let s1 := exec w (Cmd Over) s in
  waiting s1 = None /\ stack s1 <> [] /\
  (forall g, In g (stack s1) -> debugged w (fcode g)) /\
  forall ls, (forall o, In o ls -> o = at_line 2) -> waiting (run w ls s1) = None.
Proof.
  eexists demo, [call 0; call 1; Pause true; Do (Ret true)], _, (Wait 1 RPause ERet true), (Frame 1 1 11 TDisp), [Frame 0 0 1 TTop].
  split; [repeat constructor|]. split; [reflexivity|].
  split; [reflexivity|]. split; [reflexivity|]. split; [reflexivity|]. split; [vm_compute; auto|].
  match goal with |- let s1 := ?x in _ => remember x as s1 eqn:E end.
  cbv zeta. split; [rewrite E; reflexivity|]. split; [rewrite E; vm_compute; discriminate|].
  split. { rewrite E. intros g [<- | []]. vm_compute. auto. }
  intros ls H.
  assert (P : forall n ls s, (forall o, In o ls -> o = at_line 2) -> waiting s = None ->
     (stack s = [Frame 0 0 n TTop] \/ stack s = [Frame 0 0 n TNoF] \/ stack s = [Frame 0 0 n TNone]) ->
     inf s = Info Over (Some 1) false None -> brks s = [] -> funcs s = [] ->
     cs s 0 = 2 ->
     waiting (run demo ls s) = None).
  { clear. intros n ls. revert n. induction ls as [|o ls IH]; intros n s H W St I B F C; [exact W|].
    cbn [run]. rewrite (H o (or_introl eq_refl)).
    destruct s as [st gs nx i c fc0 b fs wt]. cbn [waiting stack inf brks funcs] in *. subst wt i b fs.
    cbn [cs] in C.
    apply IH with (n := 2); auto; [intros o' Io; apply H; right; exact Io|..];
    destruct St as [-> | [-> | ->]]; try reflexivity.
    all: cbn -[N.eqb N.mul N.add]; unfold thread_tracer, thread_skips; cbn -[N.eqb N.mul N.add]; rewrite ?C; auto. }
  apply P with (n := 1); auto; rewrite E; try reflexivity. left. reflexivity.
Qed.

(** Step over at the last line of a generator which then raises: the event of its end is
    not on a line with a return, and the step is lost. *)
Theorem step_over_generator_refuted : exists w os s wt f callers ls l,
  Forall no_race os /\ s = run w os (start [(2, 22, stop_bp)] []) /\ waiting s = Some wt /\
  frames_from (shown wt) (stack s) = f :: callers /\ debugged w (fcode f) /\ undisturbed ls /\
  let s1 := run w ls (exec w (Cmd Over) s) in
  waiting s1 = None /\ ~ In (shown wt) (map fid (stack s1)) /\
  (exists f1 back, stack s1 = f1 :: back /\ debugged w (fcode f1) /\ In l (clines w (fcode f1))) /\
  waiting (exec w (Do (Line l true)) s1) = None.
Proof.
  eexists demo, [call 0; call 2; at_line 21; at_line 22], _, (Wait 1 RBreak ELine false),
    (Frame 1 2 22 TDisp), [Frame 0 0 1 TNone], [Do Exc; Do (Ret true); Do Exc], 2.
  split; [repeat constructor|]. split; [reflexivity|].
  split; [reflexivity|]. split; [reflexivity|]. split; [vm_compute; auto|]. split; [repeat constructor|].
  cbv zeta. split; [reflexivity|]. split; [vm_compute; intuition discriminate|].
  split; [|vm_compute; reflexivity].
  eexists _, _. split; [vm_compute; reflexivity|]. vm_compute. auto.
Qed.

(** ** Cases meeting the hypotheses *)

Lemma demo_reachable os bs fs : Forall no_race os -> reachable demo (run demo os (start bs fs)).
Proof. intros F. exists bs, fs, os. auto. Qed.

(** The module calls the function, which runs untraced; a breakpoint is set, another one
    dropped, and the function is called again. *)
Definition history : list op :=
  [call 0; at_line 1; call 1; at_line 11; at_line 12; Add [(1, 12, stop_bp); (0, 2, stop_bp)] []; Do (Ret true);
   Drop [(1, 12, stop_bp)]; at_line 2; call 1; at_line 11].

Example in_force_case : in_force history [] = [(1, 12, stop_bp)].
Proof. vm_compute; reflexivity. Qed.

Example breakpoint_stops_case : exists f back,
  let s := run demo history (start [] []) in
  reachable demo s /\ waiting s = None /\ stack s = f :: back /\ debugged demo (fcode f) /\
  In 12 (clines demo (fcode f)) /\ find_break (brks s) (cfile demo (fcode f)) 12 = Some stop_bp /\
  stops stop_bp true /\
  waiting (exec demo (at_line 12) s) = Some (Wait (fid f) RBreak ELine false).
Proof.
  eexists _, _. cbv zeta. split; [apply demo_reachable; repeat constructor|].
  split; [vm_compute; reflexivity|]. split; [vm_compute; reflexivity|]. vm_compute. repeat split; auto.
Qed.

Example function_breakpoint_stops_case :
  let s := run demo [call 0; call 1; Do (Ret true); Add [] [(1, stop_bp)]] (start [] []) in
  reachable demo s /\ waiting s = None /\ debugged demo 1 /\ ckind demo 1 = Plain /\ cmod demo 1 = false /\
  find_func (funcs s) (cname demo 1) = Some stop_bp /\
  waiting (exec demo (call 1) s) = Some (Wait (next s) RFunc ECall false).
Proof. cbv zeta. split; [apply demo_reachable; repeat constructor|]. vm_compute. repeat split; auto. Qed.

(** The thread is stopped in the function, at line 11. *)
Definition stopped : list op := [call 0; at_line 1; call 1; at_line 11].
Definition in_function : state := run demo stopped (start [(1, 11, stop_bp)] []).

Example stopped_case : reachable demo in_function /\ waiting in_function = Some (Wait 1 RBreak ELine false) /\
  exists callers, frames_from 1 (stack in_function) = Frame 1 1 11 TDisp :: callers.
Proof. split; [apply demo_reachable; repeat constructor|]. split; [vm_compute; reflexivity|]. eexists. vm_compute; reflexivity. Qed.

Example continue_case :
  let s1 := run demo [at_line 12; at_line 13; Do (Ret true); at_line 2; call 1] (exec demo (Cmd NoStep) in_function) in
  waiting s1 = None /\ waiting (exec demo (at_line 11) s1) = Some (Wait 2 RBreak ELine false).
Proof. split; vm_compute; reflexivity. Qed.

(** Stepping over a call of the module in the function. *)
Example step_over_case :
  let ls := [call 0; at_line 1; at_line 2; Do (Ret true)] in
  let s1 := run demo ls (exec demo (Cmd Over) in_function) in
  undisturbed ls /\ waiting s1 = None /\ In 1 (map fid (stack (exec demo (Cmd Over) in_function))) /\
  In 1 (map fid (stack s1)) /\
  waiting (exec demo (at_line 12) s1) = Some (Wait 1 (RStep Over) ELine false).
Proof. cbv zeta. split; [repeat constructor|]. split; [vm_compute; reflexivity|]. split; [vm_compute; left; reflexivity|].
  split; [vm_compute; left; reflexivity|]. vm_compute; reflexivity. Qed.

(** The function was called by filtered code, where the thread does not stop, and that by
    the module. *)
Example step_over_after_return_case :
  let s := run demo [call 0; call 3; at_line 31; call 1; at_line 11] (start [(1, 11, stop_bp)] []) in
  let ls := [Do (Ret true); at_line 32; call 1] in
  let s1 := run demo ls (exec demo (Cmd Over) s) in
  reachable demo s /\ waiting s = Some (Wait 2 RBreak ELine false) /\ undisturbed ls /\
  In 2 (map fid (stack (exec demo (Cmd Over) s))) /\
  waiting s1 = None /\ ~ In 2 (map fid (stack s1)) /\
  waiting (exec demo (at_line 12) s1) = Some (Wait 3 (RStep Into) ELine false).
Proof.
  cbv zeta. split; [apply demo_reachable; repeat constructor|]. split; [vm_compute; reflexivity|].
  split; [repeat constructor|]. split; [vm_compute; left; reflexivity|]. split; [vm_compute; reflexivity|].
  split; [|vm_compute; reflexivity]. vm_compute. intros [H|[H|[H|[]]]]; discriminate H.
Qed.

(** Step return from a function called by filtered code: the filtered frame is waited for. *)
Example step_return_case :
  let s := run demo [call 0; call 3; at_line 31; call 1; at_line 11] (start [(1, 11, stop_bp)] []) in
  exists f g k, frames_from 2 (stack s) = [f; g; k] /\
  reachable demo s /\ waiting s = Some (Wait 2 RBreak ELine false) /\
  waits_for demo Return [f; g; k] g k /\ ~ debugged demo (fcode g) /\
  let s1 := run demo [at_line 12; Do (Ret true); at_line 32] (exec demo (Cmd Return) s) in
  waiting s1 = None /\ In (fid g) (map fid (stack s1)).
Proof.
  cbv zeta. eexists _, _, _. split; [vm_compute; reflexivity|].
  split; [apply demo_reachable; repeat constructor|]. split; [vm_compute; reflexivity|].
  split; [apply waits_later; [right; split; reflexivity|]; apply waits_here; right; split; reflexivity|].
  split; [intros (_ & _ & H); discriminate H|].
  split; [vm_compute; reflexivity|]. vm_compute. left. vm_compute; reflexivity.
Qed.

Example step_return_stops_case :
  let s1 := run demo [at_line 12; call 0; at_line 3; Do (Ret true)] (exec demo (Cmd Return) in_function) in
  exists f k, frames_from 1 (stack in_function) = [f; k] /\ waits_for demo Return [f; k] f k /\
  waiting s1 = None /\ In 1 (map fid (stack s1)) /\
  waiting (exec demo (Do (Ret true)) s1) = Some (Wait 0 (RStep Return) ERet true).
Proof.
  cbv zeta. eexists _, _. split; [vm_compute; reflexivity|].
  split; [apply waits_here; right; split; reflexivity|].
  split; [vm_compute; reflexivity|]. split; [vm_compute; left; reflexivity|]. vm_compute; reflexivity.
Qed.

(** Step return in the module, which nothing called. *)
Example step_return_continues_case :
  let s := run demo [call 0; at_line 1] (start [(0, 1, stop_bp)] []) in
  exists f, frames_from 0 (stack s) = [f] /\ (forall g k, ~ waits_for demo Return [f] g k) /\
  waiting (run demo [at_line 2; call 1; at_line 11; Do (Ret true); at_line 3] (exec demo (Cmd Return) s)) = None.
Proof.
  cbv zeta. eexists. split; [vm_compute; reflexivity|]. split; [intros g k H; inversion H|vm_compute; reflexivity].
Qed.

(** Stepping into filtered code which calls a function. *)
Example step_into_case :
  let ls := [call 3; at_line 31; call 1] in
  let s1 := run demo ls (exec demo (Cmd Into) in_function) in
  undisturbed ls /\ waiting s1 = None /\
  waiting (exec demo (at_line 12) s1) = Some (Wait 3 (RStep Into) ELine false).
Proof. cbv zeta. split; [repeat constructor|]. split; vm_compute; reflexivity. Qed.

Example pause_case :
  let s := run demo [call 0; call 1; call 3] (start [] []) in
  let ls := [at_line 31; at_line 32; Do (Ret true)] in
  let s1 := run demo ls (exec demo (Pause false) s) in
  reachable demo s /\ waiting s = None /\ undisturbed ls /\ waiting s1 = None /\
  waiting (exec demo (at_line 12) s1) = Some (Wait 1 RPause ELine false).
Proof.
  cbv zeta. split; [apply demo_reachable; repeat constructor|]. split; [vm_compute; reflexivity|].
  split; [repeat constructor|]. split; vm_compute; reflexivity.
Qed.

Print Assumptions breakpoints_in_force.
Print Assumptions breakpoint_stops.
Print Assumptions function_breakpoint_stops.
Print Assumptions continue_stops_only_at_breakpoints.
Print Assumptions step_over_stays.
Print Assumptions step_over_next_line.
Print Assumptions step_over_after_return.
Print Assumptions step_return_waits.
Print Assumptions step_return_stops.
Print Assumptions step_return_continues.
Print Assumptions step_into_stops.
Print Assumptions step_into_avoids_filtered.
Print Assumptions pause_stops.
Print Assumptions breakpoint_race_refuted.
Print Assumptions breakpoint_in_library_refuted.
Print Assumptions pause_at_return_step_refuted.
Print Assumptions step_over_generator_refuted.
