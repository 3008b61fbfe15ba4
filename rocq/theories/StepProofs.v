(* Facts about the model of stepping used by StepProps.v *)
From Coq Require Import NArith List Bool Lia Permutation.
From Verif Require Import Step.
Import ListNotations.
Local Open Scope N_scope.

(* Code of the user: its frames are traced. *)
Definition user (w : world) (c : N) : Prop :=
  ctyped w c = false /\ cskip w c = false /\ filter_on w && cfilt w c = false.

Definition clear (w : world) (bs : breaks) (c : N) : Prop :=
  forall l, In l (clines w c) -> find_break bs (cfile w c) l = None.

Definition active (t : tracer) : bool := match t with TTop | TDisp => true | _ => false end.

Record fc_ok (w : world) (bs : breaks) (c : fcaches) : Prop := FcOk {
  fo_line : forall co l, lcache c co l = true -> find_break bs (cfile w co) l = None;
  fo_code : forall co, fcache c co = Some false -> clear w bs co
}.

Record cs_ok (w : world) (bs : breaks) (fs : list (N * bp)) (g : skips) : Prop := CsOk {
  co_one : forall c, g c = 1 -> cskip w c = true \/ filter_on w && cfilt w c = true;
  co_two : forall c, g c <> 0 -> g c <> 1 ->
           ckind w c = Plain /\ clear w bs c /\ find_func fs (cname w c) = None
}.

Lemma no_breaks_in_none bs file l : no_breaks_in bs file = true -> find_break bs file l = None.
Proof.
  unfold no_breaks_in. induction bs as [|[[f k] b] bs IH]; [reflexivity|].
  cbn [existsb find_break fst]. destruct (N.eqb f file); [discriminate|].
  cbn [orb andb]. exact IH.
Qed.

Lemma existsb_lines w bs c :
  existsb (fun l => match find_break bs (cfile w c) l with Some _ => true | None => false end)
    (clines w c) = false -> clear w bs c.
Proof.
  intros E l I. destruct (find_break bs (cfile w c) l) eqn:F; [|reflexivity].
  exfalso. assert (existsb (fun l => match find_break bs (cfile w c) l with
     Some _ => true | None => false end) (clines w c) = true).
  { apply existsb_exists. exists l. rewrite F. auto. }
  congruence.
Qed.

Lemma skipping_some w bs fc0 func sk e f t fw :
  fc_ok w bs fc0 -> skipping w bs fc0 func sk e f = (Some t, fw) ->
  func = None /\ (t = TDisp \/ (t = skipped w e /\ clear w bs (fcode f)))
  /\ (forall c, fw = Some (c, false) -> clear w bs c).
Proof.
  intros O. unfold skipping. destruct func as [b|]; [intro; discriminate|].
  destruct (no_breaks_in bs (cfile w (fcode f))) eqn:N.
  { destruct sk; intro H; inversion H; subst. split; [auto|split].
    - right. split; [auto|]. intros l _. eapply no_breaks_in_none; eauto.
    - intros; discriminate. }
  destruct (sk && lcache fc0 (fcode f) (fline f)).
  { intro H; inversion H; subst. split; [auto|split;[auto|intros; discriminate]]. }
  destruct (fcache fc0 (fcode f)) as [has|] eqn:Fc.
  { destruct has; destruct sk; intro H; inversion H; subst.
    split; [auto|split].
    - right. split; [auto|]. eapply fo_code; eauto.
    - intros; discriminate. }
  destruct (existsb _ (clines w (fcode f))) eqn:X; destruct sk; intro H; inversion H; subst.
  split; [auto|split].
  - right. split; [auto|]. apply existsb_lines, X.
  - intros c Q. inversion Q; subst. apply existsb_lines, X.
Qed.

Lemma skipping_none w bs fc0 func sk e f fw :
  skipping w bs fc0 func sk e f = (None, fw) ->
  (forall c, fw = Some (c, false) -> clear w bs c).
Proof.
  unfold skipping. destruct func as [b|]; [intro H; inversion H; discriminate|].
  destruct (no_breaks_in bs (cfile w (fcode f))).
  { destruct sk; intro H; inversion H; discriminate. }
  destruct (sk && lcache fc0 (fcode f) (fline f)); [intro H; inversion H|].
  destruct (fcache fc0 (fcode f)).
  { destruct (sk && negb b); intro H; inversion H; discriminate. }
  destruct (sk && negb _); intro H; inversion H; subst.
  intros c Q; inversion Q; subst. apply existsb_lines. assumption.
Qed.

(* What the outcome of dispatch may be. *)
Record res_ok (w : world) (bs : breaks) (fs : list (N * bp)) (e : evt) (f : frame) (r : res) : Prop
 := ResOk {
  ro_ret : active (r_ret r) = false -> e <> ERet -> clear w bs (fcode f);
  ro_none : r_ret r = TNone -> e = ECall /\ ckind w (fcode f) = Plain /\
            (fline f = cfirst w (fcode f) -> find_func fs (cname w (fcode f)) = None)
            /\ clear w bs (fcode f);
  ro_lc : forall c l, r_lc r = Some (c, l) -> find_break bs (cfile w c) l = None;
  ro_fc : forall c, r_fc r = Some (c, false) -> clear w bs c;
  ro_stop : r_stop r <> None -> r_ret r = TDisp;
  ro_again : r_again r = true -> e = ERet
}.

Lemma hit_or_step_ok w bs fs c st i func ok e f back fw :
  (forall c, fw = Some (c, false) -> clear w bs c) ->
  res_ok w bs fs e f (hit_or_step w bs c st i func ok e f back fw).
Proof.
  intros Fw. unfold hit_or_step. cbv zeta.
  set (b := match func with Some b => Some b | None => _ end).
  destruct (match b with Some _ => is_call e && cmod w (fcode f) | None => false end).
  { constructor; cbn; intros; try discriminate; auto; congruence. }
  set (hit := match b with Some _ => _ | None => false end).
  set (j := if hit then _ else i).
  destruct (susp j) eqn:S.
  { constructor; cbn; intros; try discriminate; auto; congruence. }
  assert (Q : forall c l, match b with
     | Some _ => None | None => if is_line e then Some (fcode f, fline f) else None end = Some (c, l) ->
     find_break bs (cfile w c) l = None).
  { intros c0 l. unfold j, hit, b in *. destruct func; [discriminate|].
    destruct (is_line e) eqn:L; cbn [andb] in *; [|discriminate].
    destruct (find_break bs (cfile w (fcode f)) (fline f)) eqn:F; destruct (susp i) eqn:Si;
      cbn [negb] in *; try discriminate; try congruence; intro H; inversion H; subst; auto. }
  destruct (step_stop w c st j e f back).
  - unfold end_step. destruct e; [| | destruct back as [|g bk]; [|destruct (cdont w (fcode g))] |];
    constructor; cbn; intros; try discriminate; auto; try congruence; try contradiction.
  - constructor; cbn; intros; try discriminate; auto; congruence.
Qed.

Lemma disp_ok w bs fs i e f : res_ok w bs fs e f (Res TDisp i None None None false).
Proof. constructor; cbn; intros; try discriminate; congruence. Qed.

Lemma skipped_none w e : skipped w e = TNone -> e = ECall.
Proof. unfold skipped, untraced. destruct (exc_on w), e; intro; auto; discriminate. Qed.

Lemma dispatch_ok w bs fs i fc0 e ok f back :
  fc_ok w bs fc0 -> res_ok w bs fs e f (dispatch w bs fs i fc0 e ok f back).
Proof.
  intros O. unfold dispatch. cbv zeta.
  assert (G : forall i' func,
    (e = ECall -> fline f = cfirst w (fcode f) -> ckind w (fcode f) = Plain /\ func = find_func fs (cname w (fcode f)))
    -> (e = ECall -> ckind w (fcode f) = Plain) ->
    res_ok w bs fs e f
      match skipping w bs fc0 func (can_skip w (step i) (stop i) i' f back) e f with
      | (Some t, fw) => Res t i' None fw None false
      | (None, fw) => hit_or_step w bs (step i) (stop i) i' func ok e f back fw
      end).
  { intros i' func P Pk.
    destruct (skipping w bs fc0 func (can_skip w (step i) (stop i) i' f back) e f) as [[t|] fw] eqn:S.
    - destruct (skipping_some _ _ _ _ _ _ _ _ _ O S) as (En & Ht & Hf).
      constructor; cbn; intros; try discriminate; try congruence; auto.
      + destruct Ht as [-> | [-> C]]; [discriminate|exact C].
      + destruct Ht as [-> | [E C]]; [discriminate|].
        assert (e = ECall) by (apply (skipped_none w); congruence).
        split; [assumption|]. split; [auto|]. split; [|exact C].
        intros L. destruct (P H0 L). congruence.
    - apply hit_or_step_ok. eapply skipping_none; eauto. }
  destruct (ckind w (fcode f)) eqn:K.
  - destruct e.
    + apply G; [|auto]. intros _ L. split; [auto|]. rewrite <- L, N.eqb_refl. reflexivity.
    + apply G; congruence.
    + apply G; congruence.
    + apply hit_or_step_ok. discriminate.
  - destruct e; try apply disp_ok; [apply G; congruence|].
    destruct (existsb _ _); [apply G; congruence|apply disp_ok].
  - destruct e; try apply disp_ok; [apply G; congruence|].
    destruct (existsb _ _); [apply G; congruence|apply disp_ok].
Qed.

(* ----- The invariant of the caches ----- *)

Definition traced_ok (w : world) (bs : breaks) (f : frame) : Prop :=
  user w (fcode f) -> active (ftrace f) = false -> clear w bs (fcode f).

Record inv (w : world) (s : state) : Prop := Inv {
  in_fc : fc_ok w (brks s) (fc s);
  in_cs : cs_ok w (brks s) (funcs s) (cs s);
  in_gens : forall f, In f (gens s) -> ckind w (fcode f) <> Plain;
  in_stack : forall f, In f (stack s) -> traced_ok w (brks s) f;
  in_wait : forall wt, waiting s = Some wt -> at_evt wt = ERet -> finishing wt = false ->
            match stack s with f :: _ => ckind w (fcode f) <> Plain | [] => True end
}.

Lemma store_ok w bs c k h :
  fc_ok w bs c ->
  (forall c l, k = Some (c, l) -> find_break bs (cfile w c) l = None) ->
  (forall c, h = Some (c, false) -> clear w bs c) ->
  fc_ok w bs (store k h c).
Proof.
  intros [L C] K H. constructor.
  - intros co l. cbn. destruct k as [[c0 l0]|]; [|apply L].
    destruct (N.eqb_spec co c0), (N.eqb_spec l l0); cbn [andb]; try apply L.
    subst. intros _. apply K. reflexivity.
  - intros co. cbn. destruct h as [[c0 b]|]; [|apply C].
    destruct (N.eqb_spec co c0); [|apply C]. subst. intro Q; inversion Q; subst. apply H. reflexivity.
Qed.

Lemma set_trace_In w fs f : In f (set_trace w fs) ->
  exists g, In g fs /\ fcode f = fcode g /\ fid f = fid g /\ (f = g /\ ctyped w (fcode g) = true \/ ftrace f = TTop).
Proof.
  unfold set_trace. intros H. apply in_map_iff in H. destruct H as (g & E & I).
  exists g. split; [exact I|]. destruct (ctyped w (fcode g)) eqn:T; subst f; cbn; auto.
Qed.

Lemma set_trace_traced w bs fs f : In f (set_trace w fs) ->
  (forall g, In g fs -> traced_ok w bs g) -> traced_ok w bs f.
Proof.
  intros I H. destruct (set_trace_In _ _ _ I) as (g & Ig & Ec & _ & [[-> _]|T]).
  - apply H, Ig.
  - intros _ A. rewrite T in A. discriminate.
Qed.

(* Tracing again after the breakpoints have changed. *)
Lemma set_trace_any w bs fs f : In f (set_trace w fs) -> traced_ok w bs f.
Proof.
  intros I. destruct (set_trace_In _ _ _ I) as (g & Ig & Ec & _ & [[-> T]|T]).
  - intros [U _]. congruence.
  - intros _ A. rewrite T in A. discriminate.
Qed.

Lemma keep_code t f : fcode (keep t f) = fcode f.
Proof. destruct t; reflexivity. Qed.

Lemma keep_traced w bs t f :
  (active t = false -> t <> TNone -> clear w bs (fcode f)) ->
  traced_ok w bs f -> traced_ok w bs (keep t f).
Proof.
  intros A T. destruct t; cbn [keep]; try exact T; intros U B; cbn in *; try discriminate; apply A;
  congruence.
Qed.

Lemma apply_inv w r e fin s f back :
  stack s = f :: back ->
  fc_ok w (brks s) (fc s) -> cs_ok w (brks s) (funcs s) (cs s) ->
  (forall f, In f (gens s) -> ckind w (fcode f) <> Plain) ->
  (forall g, In g back -> traced_ok w (brks s) g) ->
  (e = ERet -> fin = false -> ckind w (fcode f) <> Plain) ->
  (e <> ERet -> traced_ok w (brks s) (keep (r_ret r) f)) ->
  (forall c l, r_lc r = Some (c, l) -> find_break (brks s) (cfile w c) l = None) ->
  (forall c, r_fc r = Some (c, false) -> clear w (brks s) c) ->
  (r_stop r <> None -> r_ret r = TDisp) ->
  inv w (apply w r e fin s).
Proof.
  intros Es Of Oc Og Ob Fin Ok Lc Fc Rs. unfold apply. rewrite Es.
  assert (Ob' : forall g, In g (if r_again r then set_trace w back else back) ->
    traced_ok w (brks s) g).
  { destruct (r_again r); [intros; eapply set_trace_traced; eauto|exact Ob]. }
  assert (St := store_ok _ _ _ _ _ Of Lc Fc).
  destruct (r_stop r) as [[g y]|] eqn:R.
  - assert (r_ret r = TDisp) as D by (apply Rs; discriminate).
    constructor; cbn; auto.
    + intros f0 [<- | I]; [|auto]. rewrite D. intros _ A. discriminate.
    + intros wt Q E F. inversion Q; subst; cbn in *. rewrite keep_code. auto.
  - destruct e; cbn [is_ret].
    1,2,4: constructor; cbn; auto; [|discriminate];
      intros f0 [<- | I]; [apply Ok; discriminate|auto].
    unfold popped. cbn. constructor; cbn; auto; [|discriminate].
    destruct fin; [exact Og|]. intros f0 [<- | I]; [rewrite keep_code; auto|auto].
Qed.

Lemma upd_two w bs fs g c :
  cs_ok w bs fs g -> ckind w c = Plain -> clear w bs c -> find_func fs (cname w c) = None ->
  cs_ok w bs fs (upd g c 2).
Proof.
  intros [A B] K C F. constructor; intros x; unfold upd; destruct (N.eqb_spec x c); subst; auto;
  try discriminate.
Qed.

Lemma upd_one w bs fs g c :
  cs_ok w bs fs g -> cskip w c = true \/ filter_on w && cfilt w c = true ->
  cs_ok w bs fs (upd g c 1).
Proof.
  intros [A B] K. constructor; intros x; unfold upd; destruct (N.eqb_spec x c); subst; auto.
Qed.

Lemma thread_skips_ok w bs fs g c f back b g' :
  cs_ok w bs fs g -> thread_skips w g c f back = (b, g') ->
  cs_ok w bs fs g' /\
  (b = true -> user w (fcode f) ->
    ckind w (fcode f) = Plain /\ clear w bs (fcode f) /\ find_func fs (cname w (fcode f)) = None
    /\ c = NoStep) /\
  (cskip w (fcode f) = true -> b = true).
Proof.
  intros O. unfold thread_skips. cbv zeta.
  set (cached := if N.eqb (g (fcode f)) 0 then false else _).
  destruct cached eqn:Ca.
  { intro H; injection H as <- <-. split; [exact O|]. split; [|auto]. intros _ (U1 & U2 & U3).
    unfold cached in Ca.
    destruct (N.eqb_spec (g (fcode f)) 0); [discriminate|].
    destruct (N.eq_dec (g (fcode f)) 1) as [E1|N1].
    - destruct (co_one _ _ _ _ O _ E1); congruence.
    - destruct (co_two _ _ _ _ O _ n N1) as (P & C & F). repeat split; auto.
      apply N.eqb_neq in N1. rewrite N1 in Ca.
      destruct c; cbn in Ca; try discriminate; auto. }
  destruct (cskip w (fcode f)) eqn:S.
  { intro H; injection H as <- <-. split; [apply upd_one; auto|].
    split; [intros _ (U1 & U2 & _); congruence|auto]. }
  destruct (filter_on w && cfilt w (fcode f)) eqn:F.
  2: { intro H; injection H as <- <-. split; [exact O|]. split; [discriminate|congruence]. }
  assert (O1 := upd_one _ _ _ _ _ O (or_intror F)).
  destruct back as [|k back]; [|destruct (looks_back c); [destruct (cfilt w (fcode k)) eqn:Fk|]];
    intro H; injection H as <- <-.
  1,3,4: split; [exact O1|split; [intros; destruct H0 as (_&_&?); congruence|congruence]].
  split; [|split; [intros _ (_&_&?); congruence|congruence]].
  apply upd_one; [exact O1|]. right. rewrite Fk. destruct (filter_on w); [reflexivity|discriminate].
Qed.

Lemma fire_inv w e ok fin s f back :
  stack s = f :: back ->
  fc_ok w (brks s) (fc s) -> cs_ok w (brks s) (funcs s) (cs s) ->
  (forall f, In f (gens s) -> ckind w (fcode f) <> Plain) ->
  (forall g, In g back -> traced_ok w (brks s) g) ->
  (e = ERet -> fin = false -> ckind w (fcode f) <> Plain) ->
  (e <> ECall -> traced_ok w (brks s) f) ->
  (e = ECall -> ckind w (fcode f) = Plain -> fline f = cfirst w (fcode f)) ->
  inv w (fire w e ok fin s).
Proof.
  intros Es Of Oc Og Ob Fin Tf Fl. unfold fire. rewrite Es.
  assert (Rd := fun i => dispatch_ok w (brks s) (funcs s) i (fc s) e ok f back Of).
  assert (Dk : forall r, res_ok w (brks s) (funcs s) e f r ->
     e <> ERet -> traced_ok w (brks s) (keep (r_ret r) f)).
  { intros r R Ne. destruct (r_ret r) eqn:T; cbn [keep].
    - intros U A. apply (ro_none _ _ _ _ _ _ R T).
    - intros U A; apply (ro_ret _ _ _ _ _ _ R); rewrite ?T; auto.
    - intros U A; discriminate.
    - intros U A; discriminate.
    - intros U A; apply (ro_ret _ _ _ _ _ _ R); rewrite ?T; auto. }
  assert (Th : inv w (thread_tracer w e ok fin s)).
  { unfold thread_tracer. rewrite Es.
    destruct (thread_skips w (cs s) (step (inf s)) f back) as [b g] eqn:T.
    destruct (thread_skips_ok _ _ _ _ _ _ _ _ _ Oc T) as (Og' & Hu & Hs).
    destruct b.
    - apply apply_inv with (f := f) (back := back); cbn; auto; try discriminate; try congruence.
      intros Ne U A. rewrite keep_code in *. apply Hu; auto.
    - specialize (Rd (inf s)).
      set (r := dispatch w (brks s) (funcs s) (inf s) (fc s) e ok f back) in *.
      apply apply_inv with (f := f) (back := back); cbn; auto; try apply Rd.
      destruct (r_ret r) eqn:T0; auto.
      destruct (ro_none _ _ _ _ _ _ Rd T0) as (E & K & Fn & C).
      apply upd_two; auto. }
  destruct (is_call e) eqn:Ic; [exact Th|].
  assert (e <> ECall) as Nc by (intros ->; discriminate).
  specialize (Tf Nc).
  destruct (ftrace f) eqn:Ft; auto.
  - apply apply_inv with (f := f) (back := back); cbn; auto; try discriminate; try congruence.
  - apply apply_inv with (f := Frame (fid f) (fcode f) (fline f) TNone) (back := back); cbn; auto;
      try discriminate; try congruence.
    intros _ U A. cbn in *. apply Tf; [exact U|]. rewrite Ft. reflexivity.
  - apply apply_inv with (f := f) (back := back); cbn; auto; try apply Rd.
  - apply apply_inv with (f := f) (back := back); cbn; auto; try discriminate; try congruence.
    intros _ U A. cbn in *. apply Tf; [exact U|]. rewrite Ft. reflexivity.
Qed.

Lemma nth_error_rest {A} i (l : list A) x y :
  In x (firstn i l ++ skipn (S i) l) -> nth_error l i = Some y -> In x l.
Proof.
  intros H _. apply in_app_or in H. destruct H as [H|H].
  - rewrite <- (firstn_skipn i l). apply in_or_app. auto.
  - rewrite <- (firstn_skipn (S i) l). apply in_or_app. auto.
Qed.

Lemma do_act_inv w a s : waiting s = None -> inv w s -> inv w (do_act w a s).
Proof.
  intros W [Of Oc Og Os Ow]. unfold do_act. destruct a as [code ok|i|l ok|fin|].
  - eapply fire_inv; cbn; eauto; try discriminate; try congruence.
  - destruct (nth_error (gens s) i) as [f|] eqn:Ei; [|constructor; auto].
    assert (In f (gens s)) by (eapply nth_error_In; eauto).
    eapply fire_inv; cbn; eauto; try discriminate; try congruence.
    + intros x Ix. apply Og. eapply nth_error_rest; eauto.
    + intros _ K. exfalso. exact (Og f H K).
  - destruct (stack s) as [|f back] eqn:Es; [constructor; rewrite ?Es; auto|].
    destruct (existsb (N.eqb l) (clines w (fcode f))); [|constructor; rewrite ?Es; auto].
    eapply fire_inv; cbn; eauto; try discriminate; try congruence.
    + intros g Ig. apply Os. right. exact Ig.
    + intros _ U A. cbn in *. apply (Os f); auto.
  - destruct (stack s) as [|f back] eqn:Es; [constructor; rewrite ?Es; auto|].
    destruct (fin || negb (is_plain w (fcode f))) eqn:P; [|constructor; rewrite ?Es; auto].
    eapply fire_inv; cbn; eauto; try discriminate; try congruence.
    + intros g Ig. apply Os. right. exact Ig.
    + intros _ -> K. unfold is_plain in P. rewrite K in P. discriminate.
    + intros _. apply Os. left. reflexivity.
  - destruct (stack s) as [|f back] eqn:Es.
    { unfold fire. rewrite Es. constructor; rewrite ?Es; auto. }
    eapply fire_inv; cbn; eauto; try discriminate; try congruence.
    + intros g Ig. apply Os. right. exact Ig.
    + intros _. apply Os. left. reflexivity.
Qed.

Lemma set_trace_from_In w i fs f : In f (set_trace_from w i fs) ->
  In f fs \/ In f (set_trace w fs).
Proof.
  induction fs as [|g fs IH]; cbn; [auto|].
  destruct (N.eqb (fid g) i); [auto|]. intros [<- | I]; [auto|]. destruct (IH I); auto.
Qed.

Lemma set_trace_from_traced w bs i fs f : In f (set_trace_from w i fs) ->
  (forall g, In g fs -> traced_ok w bs g) -> traced_ok w bs f.
Proof.
  intros I H. destruct (set_trace_from_In _ _ _ _ I); [auto|]. eapply set_trace_traced; eauto.
Qed.

Lemma set_trace_from_codes w i fs : map fcode (set_trace_from w i fs) = map fcode fs.
Proof.
  induction fs as [|g fs IH]; [reflexivity|]. cbn [set_trace_from].
  destruct (N.eqb (fid g) i); [|cbn; congruence].
  unfold set_trace. rewrite map_map. apply map_ext. intros f. destruct (ctyped w (fcode f)); reflexivity.
Qed.

Lemma resumed_frames w c i s j fs : resumed w c i s = (j, fs) ->
  fs = stack s \/ exists k, fs = set_trace_from w k (stack s).
Proof.
  unfold resumed. destruct (frames_from i (stack s)) as [|f back]; [intro H; inversion H; auto|].
  destruct c; try (intro H; inversion H; eauto; fail);
  destruct (return_target w _ f back); intro H; inversion H; eauto.
Qed.

Lemma resume_inv w c s : inv w s -> inv w (resume w c s).
Proof.
  intros [Of Oc Og Os Ow]. unfold resume. destruct (waiting s) as [wt|] eqn:W; [|constructor; rewrite ?W; auto; discriminate].
  destruct (client_cmd c); [|constructor; rewrite ?W; auto].
  destruct (resumed w c (shown wt) s) as [i fs] eqn:R.
  assert (T : forall f, In f fs -> traced_ok w (brks s) f).
  { destruct (resumed_frames _ _ _ _ _ _ R) as [-> | (k & ->)]; [exact Os|].
    intros; eapply set_trace_from_traced; eauto. }
  assert (Cd : map fcode fs = map fcode (stack s)).
  { destruct (resumed_frames _ _ _ _ _ _ R) as [-> | (k & ->)]; [reflexivity|].
    apply set_trace_from_codes. }
  set (fs' := match fs with f :: back => keep TDisp f :: back | [] => [] end).
  assert (T' : forall f, In f fs' -> traced_ok w (brks s) f).
  { unfold fs'. destruct fs as [|f fs0]; [contradiction|]. intros g [<- | I]; [|apply T; right; exact I].
    intros _ A. discriminate. }
  destruct (is_ret (at_evt wt)) eqn:Ir.
  - unfold popped. cbn. destruct fs' as [|f rest] eqn:Ef.
    { constructor; cbn; auto; discriminate. }
    constructor; cbn; auto; [| |discriminate].
    + destruct (finishing wt) eqn:Fi; [exact Og|]. intros g [<- | I]; [|auto].
      assert (Q := Ow wt eq_refl). destruct (at_evt wt); try discriminate. specialize (Q eq_refl Fi).
      unfold fs' in Ef. destruct fs as [|h fs0]; [discriminate|]. inversion Ef; subst.
      destruct (stack s) as [|h0 st]; [discriminate|]. cbn in Cd. inversion Cd. cbn. congruence.
    + intros g I. apply T'. right. exact I.
  - constructor; cbn; auto; discriminate.
Qed.

Definition no_race (o : op) : Prop := match o with Race _ _ _ => False | _ => True end.

Lemma exec_inv w o s : no_race o -> inv w s -> inv w (exec w o s).
Proof.
  intros Nr I. destruct o as [a|c|bs fs|bs|main|l bs fs]; cbn [exec].
  - destruct (waiting s) eqn:W; [exact I|]. apply do_act_inv; auto.
  - apply resume_inv, I.
  - destruct I as [Of Oc Og Os Ow]. unfold set_breaks. constructor; cbn; auto.
    + constructor; cbn; intros; discriminate.
    + constructor; intros; [discriminate|congruence].
    + intros f If. eapply set_trace_any; eauto.
    + intros wt W E F. specialize (Ow wt W E F). destruct (stack s) as [|f st]; cbn; [auto|].
      destruct (ctyped w (fcode f)); cbn; exact Ow.
  - unfold drop_breaks.
    destruct (forallb _ bs) eqn:Fb; [|exact I].
    assert (M : forall file l, find_break (brks s) file l = None -> find_break bs file l = None).
    { intros file l N0. clear I. induction bs as [|[[f k] b] bs IH]; [reflexivity|].
      cbn [forallb fst snd] in Fb. apply andb_prop in Fb. destruct Fb as [Fb1 Fb2].
      cbn [find_break]. destruct (N.eqb_spec f file), (N.eqb_spec k l); cbn [andb]; auto.
      subst. unfold has_break in Fb1. rewrite N0 in Fb1. discriminate. }
    assert (Mc : forall c, clear w (brks s) c -> clear w bs c).
    { intros c C l Il. apply M, C, Il. }
    destruct I as [[O1 O2] [C1 C2] Og Os Ow]. constructor; cbn; auto.
    + constructor; eauto.
    + constructor; auto. intros c A B. destruct (C2 c A B) as (P1 & P2 & P3). auto.
    + intros f If U A. apply Mc. apply Os; auto.
  - destruct (waiting s) eqn:W; [exact I|]. destruct I as [Of Oc Og Os Ow].
    unfold pause. constructor; cbn; auto.
    + intros f If. eapply set_trace_any; eauto.
    + congruence.
  - contradiction.
Qed.

Lemma start_inv w bs fs : inv w (start bs fs).
Proof.
  constructor; cbn; try contradiction; try discriminate.
  - constructor; cbn; discriminate.
  - constructor; intros; [discriminate|congruence].
Qed.

Lemma run_inv w os s : Forall no_race os -> inv w s -> inv w (run w os s).
Proof.
  intros F. revert s. induction F as [|o os Ho _ IH]; intros s I; [exact I|].
  cbn. apply IH, exec_inv; auto.
Qed.

(* ----- What an event does ----- *)

Definition prepared (w : world) (a : act) (s : state)
    : option (evt * bool * bool * state) :=
  match a with
  | Call code ok =>
      Some (ECall, ok, false,
        State (Frame (next s) code (cfirst w code) TNone :: stack s) (gens s) (next s + 1)
           (inf s) (cs s) (fc s) (brks s) (funcs s) (waiting s))
  | Resume i =>
      match nth_error (gens s) i with
      | Some f =>
          Some (ECall, false, false,
            State (f :: stack s) (firstn i (gens s) ++ skipn (S i) (gens s)) (next s) (inf s)
               (cs s) (fc s) (brks s) (funcs s) (waiting s))
      | None => None
      end
  | Line l ok =>
      match stack s with
      | f :: back =>
          if existsb (N.eqb l) (clines w (fcode f)) then
            Some (ELine, ok, false,
              with_stack (Frame (fid f) (fcode f) l (ftrace f) :: back) s)
          else None
      | [] => None
      end
  | Ret fin =>
      match stack s with
      | f :: _ =>
          if fin || negb (is_plain w (fcode f)) then Some (ERet, false, fin, s) else None
      | [] => None
      end
  | Exc => match stack s with _ :: _ => Some (EExc, false, false, s) | [] => None end
  end.

Lemma do_act_prepared w a s :
  do_act w a s = match prepared w a s with
                 | Some (e, ok, fin, s0) => fire w e ok fin s0
                 | None => s
                 end.
Proof.
  destruct a; cbn [do_act prepared]; auto.
  - destruct (nth_error (gens s) i); auto.
  - destruct (stack s); auto. destruct (existsb _ _); auto.
  - destruct (stack s); auto. destruct (_ || _); auto.
  - unfold fire. destruct (stack s) eqn:E; rewrite ?E; auto.
Qed.

Definition exit_info (w : world) (e : evt) (i : info) (f : frame) (back : list frame) : info :=
  match e with
  | ERet =>
      match ckind w (fcode f) with
      | Plain => exit_plain i f
      | _ => if existsb (N.eqb (fline f)) (creturn w (fcode f)) then exit_gen w i f back else i
      end
  | _ => i
  end.

Lemma exit_plain_same i f : susp (exit_plain i f) = susp i /\ initial (exit_plain i f) = initial i.
Proof. unfold exit_plain. destruct (same _ _); [|auto]. destruct (step i); auto. Qed.

Lemma exit_gen_same w i f back :
  susp (exit_gen w i f back) = susp i /\ initial (exit_gen w i f back) = initial i.
Proof.
  unfold exit_gen. destruct (same _ _); [|auto].
  destruct (step i); auto; destruct (unfiltered_back w back); auto.
Qed.

Lemma exit_info_same w e i f back :
  susp (exit_info w e i f back) = susp i /\ initial (exit_info w e i f back) = initial i.
Proof.
  unfold exit_info. destruct e; auto. destruct (ckind w (fcode f)); try destruct (existsb _ _);
  auto using exit_plain_same, exit_gen_same.
Qed.

Lemma step_stop_initial w c st i j e f back : initial i = initial j ->
  step_stop w c st i e f back = step_stop w c st j e f back.
Proof. intros E. unfold step_stop. rewrite E. reflexivity. Qed.

Definition live (b : bp) (ok : bool) : Prop :=
  (conditional b = false \/ ok = true) /\ logpoint b = false.

Definition at_break (w : world) (bs : breaks) (fs : list (N * bp)) (e : evt) (ok : bool)
    (f : frame) (y : reason) : Prop :=
  (y = RBreak /\ e = ELine /\
     exists b, find_break bs (cfile w (fcode f)) (fline f) = Some b /\ live b ok)
  \/ (y = RFunc /\ e = ECall /\
     exists b, find_func fs (cname w (fcode f)) = Some b /\ live b ok).

Definition at_step (w : world) (c : cmd) (st : option N) (i : info) (e : evt) (f : frame)
    (back : list frame) (g : N) (y : reason) : Prop :=
  y = RStep c /\ step_stop w c st i e f back = true /\
  (e = ELine /\ g = fid f
   \/ e = ERet /\ exists b rest, back = b :: rest /\ g = fid b /\ cdont w (fcode b) = false).

Lemma live_hit b ok : (negb (conditional b) || ok) && negb (logpoint b) = true -> live b ok.
Proof.
  unfold live. destruct (conditional b), ok, (logpoint b); cbn; intro; try discriminate; auto.
Qed.

Lemma hit_or_step_stop w bs fs c st i func ok e f back fw g y :
  (forall b, func = Some b -> e = ECall /\ find_func fs (cname w (fcode f)) = Some b) ->
  susp i = false ->
  r_stop (hit_or_step w bs c st i func ok e f back fw) = Some (g, y) ->
  g = fid f /\ at_break w bs fs e ok f y \/ at_step w c st i e f back g y.
Proof.
  intros Fn S. unfold hit_or_step. cbv zeta. rewrite S. cbn [negb]. rewrite andb_true_r.
  set (b := match func with Some b => Some b | None => _ end).
  destruct (match b with Some _ => is_call e && cmod w (fcode f) | None => false end);
    [discriminate|].
  destruct b as [b0|] eqn:B.
  - destruct ((negb (conditional b0) || ok) && negb (logpoint b0)) eqn:H.
    + assert (Sm : susp (mark_suspended true i) = true)
        by (unfold mark_suspended; destruct (step i); reflexivity).
      rewrite Sm. cbn. intro Q; inversion Q; subst. left. split; [reflexivity|].
      apply live_hit in H. unfold at_break. destruct func as [b1|].
      * right. destruct (Fn b1 eq_refl) as [E F]. unfold b in B. inversion B; subst.
        repeat split; auto. exists b0. auto.
      * left. unfold b in B. destruct e; cbn in B; try discriminate. repeat split; auto.
        exists b0. auto.
    + rewrite S. destruct (step_stop w c st i e f back) eqn:Ss; [|discriminate].
      unfold end_step. right. unfold at_step.
      destruct e; cbn in H0; try discriminate.
      * inversion H0; subst. auto.
      * destruct back as [|bk rest]; [discriminate|]. destruct (cdont w (fcode bk)) eqn:D; [discriminate|].
        cbn in H0. inversion H0; subst. repeat split; auto. right. split; [reflexivity|]. eauto.
  - rewrite S. destruct (step_stop w c st i e f back) eqn:Ss; [|discriminate].
    unfold end_step. right. unfold at_step.
    destruct e; cbn in H; try discriminate.
    * inversion H; subst. auto.
    * destruct back as [|bk rest]; [discriminate|]. destruct (cdont w (fcode bk)) eqn:D; [discriminate|].
      cbn in H. inversion H; subst. repeat split; auto. right. split; [reflexivity|]. eauto.
Qed.

Lemma dispatch_cases w bs fs i fc0 e ok f back :
  let r := dispatch w bs fs i fc0 e ok f back in
  (r = Res TDisp i None None None false /\ ckind w (fcode f) <> Plain /\ e <> ELine
    /\ (e = ERet -> existsb (N.eqb (fline f)) (creturn w (fcode f)) = false)) \/
  (exists func t fw,
    skipping w bs fc0 func (can_skip w (step i) (stop i) (exit_info w e i f back) f back) e f
      = (Some t, fw) /\
    r = Res t (exit_info w e i f back) None fw None false) \/
  (exists func fw,
    (e <> EExc ->
     skipping w bs fc0 func (can_skip w (step i) (stop i) (exit_info w e i f back) f back) e f
      = (None, fw)) /\
    (forall b, func = Some b -> e = ECall /\ find_func fs (cname w (fcode f)) = Some b) /\
    r = hit_or_step w bs (step i) (stop i) (exit_info w e i f back) func ok e f back fw).
Proof.
  cbv zeta. unfold dispatch. cbv zeta. unfold exit_info.
  assert (G : forall i' func,
    (forall b, func = Some b -> e = ECall /\ find_func fs (cname w (fcode f)) = Some b) ->
    (exists func0 t fw,
      skipping w bs fc0 func0 (can_skip w (step i) (stop i) i' f back) e f = (Some t, fw) /\
      match skipping w bs fc0 func (can_skip w (step i) (stop i) i' f back) e f with
      | (Some t, fw) => Res t i' None fw None false
      | (None, fw) => hit_or_step w bs (step i) (stop i) i' func ok e f back fw
      end = Res t i' None fw None false) \/
    (exists func0 fw,
      (e <> EExc ->
       skipping w bs fc0 func0 (can_skip w (step i) (stop i) i' f back) e f = (None, fw)) /\
      (forall b, func0 = Some b -> e = ECall /\ find_func fs (cname w (fcode f)) = Some b) /\
      match skipping w bs fc0 func (can_skip w (step i) (stop i) i' f back) e f with
      | (Some t, fw) => Res t i' None fw None false
      | (None, fw) => hit_or_step w bs (step i) (stop i) i' func ok e f back fw
      end = hit_or_step w bs (step i) (stop i) i' func0 ok e f back fw)).
  { intros i' func P.
    destruct (skipping w bs fc0 func (can_skip w (step i) (stop i) i' f back) e f) as [[t|] fw] eqn:S.
    - left. exists func, t, fw. auto.
    - right. exists func, fw. auto. }
  destruct (ckind w (fcode f)) eqn:K.
  - destruct e; cbn [exit_info].
    + right. apply G. intros b. destruct (N.eqb _ _); [auto|discriminate].
    + right. apply G. discriminate.
    + right. apply G. discriminate.
    + right. right. exists None, None. split; [congruence|]. split; [discriminate|reflexivity].
  - destruct e.
    + left. repeat split; congruence.
    + right. apply G. discriminate.
    + destruct (existsb _ _) eqn:X; [right; apply G; discriminate|].
      left. repeat split; congruence.
    + left. repeat split; congruence.
  - destruct e.
    + left. repeat split; congruence.
    + right. apply G. discriminate.
    + destruct (existsb _ _) eqn:X; [right; apply G; discriminate|].
      left. repeat split; congruence.
    + left. repeat split; congruence.
Qed.

Lemma dispatch_stop w bs fs i fc0 e ok f back g y :
  susp i = false ->
  r_stop (dispatch w bs fs i fc0 e ok f back) = Some (g, y) ->
  g = fid f /\ at_break w bs fs e ok f y \/ at_step w (step i) (stop i) i e f back g y.
Proof.
  intros S H. destruct (exit_info_same w e i f back) as [Es Ei].
  destruct (dispatch_cases w bs fs i fc0 e ok f back) as [(R & _)|[(func & t & fw & _ & R)|(func & fw & _ & P & R)]];
    rewrite R in H; try discriminate.
  apply hit_or_step_stop with (fs := fs) in H; [|exact P|congruence].
  destruct H as [H|(A & B & C)]; [auto|right]. split; [exact A|]. split; [|exact C].
  rewrite <- B. apply step_stop_initial. auto.
Qed.

(* The info of the thread when the event does not stop it. *)
Lemma dispatch_inf w bs fs i fc0 e ok f back :
  susp i = false -> let r := dispatch w bs fs i fc0 e ok f back in
  r_stop r = None ->
  r_inf r = exit_info w e i f back
  \/ (e = ERet /\ back = [] /\ step_stop w (step i) (stop i) i e f back = true
      /\ r_inf r = Info NoStep None false (initial i)).
Proof.
  intros S r H. destruct (exit_info_same w e i f back) as [Es Ei]. subst r.
  destruct (dispatch_cases w bs fs i fc0 e ok f back) as [(R & K & L & Q)|[(func & t & fw & _ & R)|(func & fw & _ & P & R)]];
    rewrite R in *.
  - left. cbn. unfold exit_info. destruct e; auto. rewrite Q by reflexivity. destruct (ckind w (fcode f)); congruence.
  - left. reflexivity.
  - revert H. unfold hit_or_step. cbv zeta. rewrite Es, S.
    set (b := match func with Some b => Some b | None => _ end).
    destruct (match b with Some _ => is_call e && cmod w (fcode f) | None => false end); [auto|].
    set (hit := match b with Some _ => _ | None => false end).
    destruct hit.
    { assert (Sm : susp (mark_suspended true (exit_info w e i f back)) = true)
        by (unfold mark_suspended; destruct (step (exit_info w e i f back)); reflexivity).
      rewrite Sm. discriminate. }
    rewrite Es, S.
    destruct (step_stop w (step i) (stop i) (exit_info w e i f back) e f back) eqn:Ss; [|auto].
    unfold end_step. destruct e; try discriminate; auto.
    destruct back as [|k back]; [|destruct (cdont w (fcode k)); [auto|discriminate]].
    intros _. right. rewrite (step_stop_initial _ _ _ _ i) in Ss by exact Ei. cbn [r_inf].
    rewrite Ei. auto.
Qed.

Lemma skipping_not w bs fc0 func e f : 
  exists fw, skipping w bs fc0 func false e f = (None, fw).
Proof.
  unfold skipping. destruct func; [eauto|]. destruct (no_breaks_in _ _); [eauto|]. cbn [andb].
  destruct (fcache fc0 (fcode f)); eauto.
Qed.

(* A frame not left alone stays traced. *)
Lemma dispatch_disp w bs fs i fc0 e ok f back :
  can_skip w (step i) (stop i) (exit_info w e i f back) f back = false -> e <> ERet ->
  r_ret (dispatch w bs fs i fc0 e ok f back) = TDisp.
Proof.
  intros Cs Ne.
  destruct (dispatch_cases w bs fs i fc0 e ok f back) as [(R & _)|[(func & t & fw & Sk & R)|(func & fw & _ & _ & R)]];
    rewrite R; try reflexivity.
  - rewrite Cs in Sk. destruct (skipping_not w bs fc0 func e f) as [fw' Q]. congruence.
  - unfold hit_or_step. cbv zeta.
    set (b := match func with Some b => Some b | None => _ end).
    destruct (match b with Some _ => is_call e && cmod w (fcode f) | None => false end); [auto|].
    set (j := if match b with Some _ => _ | None => false end then _ else _).
    destruct (susp j); [reflexivity|]. destruct (step_stop _ _ _ _ _ _ _); [|reflexivity].
    unfold end_step. destruct e; try reflexivity. congruence.
Qed.

(* A step ends. *)
Lemma dispatch_ends w bs fs i fc0 e ok f back :
  susp i = false ->
  step_stop w (step i) (stop i) i e f back = true ->
  can_skip w (step i) (stop i) (exit_info w e i f back) f back = false ->
  (e = ERet -> ckind w (fcode f) <> Plain ->
     existsb (N.eqb (fline f)) (creturn w (fcode f)) = true) ->
  let r := dispatch w bs fs i fc0 e ok f back in
  (e = ELine -> exists y, r_stop r = Some (fid f, y)) /\
  (forall b rest, e = ERet -> back = b :: rest -> cdont w (fcode b) = false ->
     r_stop r = Some (fid b, RStep (step i))).
Proof.
  intros S Ss Cs Rl r. destruct (exit_info_same w e i f back) as [Es Ei]. subst r.
  destruct (dispatch_cases w bs fs i fc0 e ok f back) as [(R & K & L & Q)|[(func & t & fw & Sk & R)|(func & fw & _ & Pf & R)]];
    rewrite R.
  - split; [congruence|]. intros b rest -> E D. specialize (Q eq_refl). specialize (Rl eq_refl K). congruence.
  - exfalso. rewrite Cs in Sk. destruct (skipping_not w bs fc0 func e f) as [fw' Q]. congruence.
  - unfold hit_or_step. cbv zeta. rewrite Es, S. cbn [negb]. rewrite andb_true_r.
    assert (Ss' : step_stop w (step i) (stop i) (exit_info w e i f back) e f back = true)
      by (rewrite <- Ss; apply step_stop_initial; exact Ei).
    split.
    + intros ->. destruct func as [b|]; [destruct (Pf b eq_refl); discriminate|].
      cbn [is_line is_call andb]. 
      destruct (find_break bs (cfile w (fcode f)) (fline f)) as [b|].
      * destruct ((negb (conditional b) || ok) && negb (logpoint b)).
        { assert (Sm : susp (mark_suspended true (exit_info w ELine i f back)) = true)
            by (unfold mark_suspended; destruct (step (exit_info w ELine i f back)); reflexivity).
          rewrite Sm. cbn. eauto. }
        rewrite Es, S, Ss'. cbn. eauto.
      * rewrite Es, S, Ss'. cbn. eauto.
    + intros b rest -> -> D. destruct func as [b0|]; [destruct (Pf b0 eq_refl); discriminate|].
      cbn [is_line andb]. rewrite Es, S, Ss'. cbn [end_step]. rewrite D. reflexivity.
Qed.

Lemma with_same s f back : stack s = f :: back -> with_cs (cs s) (with_stack (f :: back) s) = s.
Proof. intros E. destruct s; cbn in *; subst. reflexivity. Qed.

Lemma with_cs_same g s f back : stack s = f :: back -> with_cs g (with_stack (f :: back) s) = with_cs g s.
Proof. intros E. destruct s; cbn in *; subst. reflexivity. Qed.

Definition same_frame (f g : frame) : Prop := fid f = fid g /\ fcode f = fcode g /\ fline f = fline g.

Lemma fire_cases w e ok fin s f back :
  stack s = f :: back -> cs_ok w (brks s) (funcs s) (cs s) ->
  exists r g f',
    fire w e ok fin s = apply w r e fin (with_cs g (with_stack (f' :: back) s)) /\
    same_frame f' f /\ (active (ftrace f) = true -> f' = f) /\
    ((exists t, r = nothing t s /\ (t = TNone \/ t = TNoF \/ t = TExc) /\
        ((e = ECall \/ active (ftrace f) = true) -> user w (fcode f) ->
           step (inf s) = NoStep /\ clear w (brks s) (fcode f)
           /\ find_func (funcs s) (cname w (fcode f)) = None)) \/
     (r = dispatch w (brks s) (funcs s) (inf s) (fc s) e ok f back /\
        (e = ECall \/ active (ftrace f) = true))).
Proof.
  intros Es Oc. unfold fire. rewrite Es.
  assert (Th : e = ECall \/ active (ftrace f) = true -> exists r g f',
    thread_tracer w e ok fin s = apply w r e fin (with_cs g (with_stack (f' :: back) s)) /\
    same_frame f' f /\ (active (ftrace f) = true -> f' = f) /\
    ((exists t, r = nothing t s /\ (t = TNone \/ t = TNoF \/ t = TExc) /\
        ((e = ECall \/ active (ftrace f) = true) -> user w (fcode f) ->
           step (inf s) = NoStep /\ clear w (brks s) (fcode f)
           /\ find_func (funcs s) (cname w (fcode f)) = None)) \/
     (r = dispatch w (brks s) (funcs s) (inf s) (fc s) e ok f back /\
        (e = ECall \/ active (ftrace f) = true)))).
  { intros Act. unfold thread_tracer. rewrite Es.
    destruct (thread_skips w (cs s) (step (inf s)) f back) as [b g] eqn:T.
    destruct (thread_skips_ok _ _ _ _ _ _ _ _ _ Oc T) as (Og' & Hu & Hs).
    destruct b.
    - exists (Res (untraced e) (inf s) None None None false), g, f.
      rewrite (with_cs_same _ _ _ _ Es). split; [reflexivity|]. split; [repeat split|]. split; [auto|].
      left. exists (untraced e). split; [reflexivity|]. split.
      + unfold untraced. destruct (is_call e); auto.
      + intros _ U. destruct (Hu eq_refl U) as (A & B & C & D). auto.
    - eexists _, _, f. split; [rewrite (with_cs_same _ _ _ _ Es); reflexivity|].
      split; [repeat split|]. split; [auto|]. right. split; [reflexivity|exact Act]. }
  destruct (is_call e) eqn:Ic.
  { apply Th. left. destruct e; try discriminate; reflexivity. }
  assert (Nc : e <> ECall) by (intros ->; discriminate).
  destruct (ftrace f) eqn:Ft.
  - exists (nothing TNone s), (cs s), f. rewrite (with_same _ _ _ Es).
    split; [reflexivity|]. split; [repeat split|]. split; [auto|]. left. exists TNone.
    split; [reflexivity|]. split; [auto|]. intros [?|?]; [contradiction|discriminate].
  - exists (nothing TNone s), (cs s), (Frame (fid f) (fcode f) (fline f) TNone).
    split; [destruct s; reflexivity|]. split; [repeat split|]. split; [discriminate|].
    left. exists TNone.
    split; [reflexivity|]. split; [auto|]. intros [?|?]; [contradiction|discriminate].
  - apply Th. right. reflexivity.
  - exists (dispatch w (brks s) (funcs s) (inf s) (fc s) e ok f back), (cs s), f.
    rewrite (with_same _ _ _ Es).
    split; [reflexivity|]. split; [repeat split|]. split; [auto|]. right. auto.
  - exists (nothing TExc s), (cs s), f. rewrite (with_same _ _ _ Es).
    split; [reflexivity|]. split; [repeat split|]. split; [auto|]. left. exists TExc.
    split; [reflexivity|]. split; [auto|]. intros [?|?]; [contradiction|discriminate].
Qed.

Definition ids (s : state) : list N := map fid (stack s ++ gens s).

(* The frame an action is about, and the others. *)
Lemma prepared_facts w a s e ok fin s0 :
  prepared w a s = Some (e, ok, fin, s0) ->
  inf s0 = inf s /\ cs s0 = cs s /\ fc s0 = fc s /\ brks s0 = brks s /\ funcs s0 = funcs s /\
  waiting s0 = waiting s /\
  exists f back, stack s0 = f :: back /\
    (e = ECall /\ back = stack s /\
       ((exists code, a = Call code ok /\ f = Frame (next s) code (cfirst w code) TNone
         /\ gens s0 = gens s /\ next s0 = next s + 1)
        \/ (In f (gens s) /\ next s0 = next s /\ incl (gens s0) (gens s)
            /\ Permutation (ids s0) (ids s)))
     \/ e <> ECall /\ gens s0 = gens s /\ next s0 = next s /\
        exists h, stack s = h :: back /\ fid f = fid h /\ fcode f = fcode h /\ ftrace f = ftrace h
          /\ (e = ELine -> a = Line (fline f) ok /\ In (fline f) (clines w (fcode f)))
          /\ (e = ERet -> a = Ret fin /\ f = h /\ (fin = false -> ckind w (fcode f) <> Plain))).
Proof.
  destruct a as [code ok0|i|l ok0|fin0|]; cbn [prepared].
  - intro H; inversion H; subst; cbn. repeat split. eexists _, _. split; [reflexivity|].
    left. split; [reflexivity|]. split; [reflexivity|]. left. exists code. auto.
  - destruct (nth_error (gens s) i) as [f|] eqn:Ei; [|discriminate].
    intro H; injection H as <- <- <- <-; cbn [inf cs fc brks funcs waiting stack next gens].
    repeat split. eexists _, _. split; [reflexivity|].
    left. split; [reflexivity|]. split; [reflexivity|]. right.
    split; [eapply nth_error_In; eauto|]. split; [reflexivity|]. split.
    + intros x Ix. eapply nth_error_rest; eauto.
    + unfold ids. cbn [stack gens].
      apply Permutation_map. rewrite <- app_comm_cons, app_assoc.
      assert (Q : gens s = firstn i (gens s) ++ f :: skipn (S i) (gens s)).
      { revert i Ei. generalize (gens s). intros l. induction l as [|x l IH]; intros [|i] Ei;
          try discriminate; cbn in *; [congruence|]. f_equal. apply IH, Ei. }
      rewrite Q at 3. rewrite app_assoc.
      apply Permutation_middle.
  - destruct (stack s) as [|h back] eqn:Es; [discriminate|].
    destruct (existsb (N.eqb l) (clines w (fcode h))) eqn:X; [|discriminate].
    intro H; inversion H; subst; cbn. repeat split. eexists _, _. split; [reflexivity|].
    right. split; [discriminate|]. split; [reflexivity|]. split; [reflexivity|].
    exists h. cbn. repeat split; try congruence; try discriminate.
    apply existsb_exists in X. destruct X as (x & Ix & Ex). apply N.eqb_eq in Ex. congruence.
  - destruct (stack s) as [|h back] eqn:Es; [discriminate|].
    destruct (fin0 || negb (is_plain w (fcode h))) eqn:X; [|discriminate].
    intro H; inversion H; subst. repeat split. exists h, back. split; [exact Es|].
    right. split; [discriminate|]. split; [reflexivity|]. split; [reflexivity|].
    exists h. repeat split; try congruence; try discriminate.
    intros ->. unfold is_plain in X. destruct (ckind w (fcode h)); discriminate.
  - destruct (stack s) as [|h back] eqn:Es; [discriminate|].
    intro H; inversion H; subst. repeat split. exists h, back. split; [exact Es|].
    right. split; [discriminate|]. split; [reflexivity|]. split; [reflexivity|].
    exists h. repeat split; try congruence; try discriminate.
Qed.

(* What is left of the stack and the generators. *)
Lemma apply_facts w r e fin s f back :
  stack s = f :: back -> let s' := apply w r e fin s in
  let back' := if r_again r then set_trace w back else back in
  brks s' = brks s /\ funcs s' = funcs s /\ next s' = next s /\ inf s' = r_inf r /\ cs s' = cs s /\
  waiting s' = match r_stop r with Some (g, y) => Some (Wait g y e fin) | None => None end /\
  ((r_stop r <> None \/ e <> ERet) -> stack s' = keep (r_ret r) f :: back' /\ gens s' = gens s) /\
  (r_stop r = None -> e = ERet -> stack s' = back' /\
     gens s' = if fin then gens s else keep (r_ret r) f :: gens s).
Proof.
  intros Es. cbv zeta. unfold apply. rewrite Es.
  destruct (r_stop r) as [[g y]|].
  - cbn. repeat split; discriminate.
  - destruct e; cbn [is_ret]; unfold popped; cbn;
    (do 6 (split; [reflexivity|])); (split; [intros [?|?]; try congruence; auto|intros; try congruence; auto]).
Qed.

Lemma keep_same t f : same_frame (keep t f) f.
Proof. destruct t; repeat split. Qed.

Lemma set_trace_ids w fs : map fid (set_trace w fs) = map fid fs.
Proof.
  unfold set_trace. rewrite map_map. apply map_ext. intros f. destruct (ctyped w (fcode f)); reflexivity.
Qed.

Lemma set_trace_from_ids w i fs : map fid (set_trace_from w i fs) = map fid fs.
Proof.
  induction fs as [|f fs IH]; [reflexivity|]. cbn [set_trace_from].
  destruct (N.eqb (fid f) i); [apply set_trace_ids|]. cbn. congruence.
Qed.

Lemma set_trace_active w fs f : In f (set_trace w fs) -> ctyped w (fcode f) = false -> active (ftrace f) = true.
Proof.
  intros I T. destruct (set_trace_In _ _ _ I) as (g & _ & Ec & _ & [[-> Q]|Q]); [congruence|].
  rewrite Q. reflexivity.
Qed.

(* ----- Identities of frames ----- *)

Record wf (s : state) : Prop := Wf {
  wf_nodup : NoDup (ids s);
  wf_next : forall i, In i (ids s) -> i < next s;
  wf_wait : forall wt, waiting s = Some wt ->
     exists f rest, stack s = f :: rest /\
       (shown wt = fid f \/ at_evt wt = ERet /\ exists b rest', rest = b :: rest' /\ shown wt = fid b)
}.

Lemma ids_eq s s' : map fid (stack s) = map fid (stack s') -> map fid (gens s) = map fid (gens s') ->
  ids s = ids s'.
Proof. unfold ids. rewrite !map_app. congruence. Qed.

Lemma hit_or_step_shown w bs c st i func ok e f back fw g y :
  r_stop (hit_or_step w bs c st i func ok e f back fw) = Some (g, y) ->
  g = fid f \/ e = ERet /\ exists b rest, back = b :: rest /\ g = fid b.
Proof.
  unfold hit_or_step. cbv zeta.
  set (b := match func with Some b => Some b | None => _ end).
  destruct (match b with Some _ => is_call e && cmod w (fcode f) | None => false end);
    [discriminate|].
  set (hit := match b with Some _ => _ | None => false end).
  set (j := if hit then _ else _).
  destruct (susp j); [cbn; intro H; inversion H; auto|].
  destruct (step_stop _ _ _ _ _ _ _); [|discriminate].
  unfold end_step. destruct e; try discriminate; [cbn; intro H; inversion H; auto|].
  destruct back as [|k back]; [discriminate|]. destruct (cdont w (fcode k)); [discriminate|].
  cbn. intro H; inversion H; subst. right. split; [reflexivity|]. eauto.
Qed.

Lemma dispatch_shown w bs fs i fc0 e ok f back g y :
  r_stop (dispatch w bs fs i fc0 e ok f back) = Some (g, y) ->
  g = fid f \/ e = ERet /\ exists b rest, back = b :: rest /\ g = fid b.
Proof.
  destruct (dispatch_cases w bs fs i fc0 e ok f back) as [(R & _)|[(func & t & fw & _ & R)|(func & fw & _ & P & R)]];
    rewrite R; try discriminate. apply hit_or_step_shown.
Qed.

Lemma do_act_wf w a s : inv w s -> waiting s = None -> wf s -> wf (do_act w a s).
Proof.
  intros I W [Nd Nx Ww]. rewrite do_act_prepared.
  destruct (prepared w a s) as [[[[e ok] fin] s0]|] eqn:P; [|constructor; auto].
  destruct (prepared_facts _ _ _ _ _ _ _ P) as (E1 & E2 & E3 & E4 & E5 & E6 & f & back & Es & F).
  assert (N0 : NoDup (ids s0) /\ forall i, In i (ids s0) -> i < next s0).
  { destruct F as [(_ & Eb & [(code & _ & Ef & Eg & En)|(If & En & _ & Pm)])|(_ & Eg & En & h & Eh & Ei & _)].
    - assert (Q : ids s0 = next s :: ids s).
      { unfold ids. rewrite Es, Eg, Eb, Ef. reflexivity. }
      rewrite Q, En. split.
      + constructor; [|exact Nd]. intros X. apply Nx in X. lia.
      + intros i [<- | X]; [lia|]. apply Nx in X. lia.
    - rewrite En. split.
      + eapply Permutation_NoDup; [apply Permutation_sym; eauto|exact Nd].
      + intros i X. apply Nx. eapply Permutation_in; eauto.
    - assert (Q : ids s0 = ids s).
      { apply ids_eq; [|congruence]. rewrite Es, Eh. cbn. congruence. }
      rewrite Q, En. auto. }
  destruct N0 as [Nd0 Nx0].
  assert (Oc : cs_ok w (brks s0) (funcs s0) (cs s0)) by (rewrite E4, E5, E2; apply I).
  destruct (fire_cases w e ok fin s0 f back Es Oc) as (r & g & f' & Ef & (Sf1 & Sf2 & Sf3) & _ & D).
  rewrite Ef.
  destruct (apply_facts w r e fin (with_cs g (with_stack (f' :: back) s0)) f' back eq_refl)
    as (B1 & B2 & B3 & B4 & B5 & B6 & B7 & B8).
  remember (apply w r e fin (with_cs g (with_stack (f' :: back) s0))) as s' eqn:Es'. clear Es' Ef.
  cbn in B1, B2, B3, B6, B7, B8.
  assert (Ib : map fid (if r_again r then set_trace w back else back) = map fid back).
  { destruct (r_again r); [apply set_trace_ids|reflexivity]. }
  assert (Q : (r_stop r <> None \/ e <> ERet) \/ (r_stop r = None /\ e = ERet)).
  { destruct (r_stop r); [left; left; discriminate|]. destruct e; auto; left; right; discriminate. }
  destruct (keep_same (r_ret r) f') as (K1 & K2 & K3).
  assert (Is0 : ids s0 = fid f' :: map fid back ++ map fid (gens s0)).
  { unfold ids. rewrite Es, map_app. cbn. congruence. }
  destruct Q as [Q|[Q1 Q2]].
  - destruct (B7 Q) as [S1 S2].
    assert (Is : ids s' = ids s0).
    { apply ids_eq; [|exact (f_equal (map fid) S2)]. rewrite S1, Es. cbn [map]. rewrite Ib. congruence. }
    constructor; rewrite ?Is, ?B3; auto.
    intros wt. rewrite B6. destruct (r_stop r) as [[k y]|] eqn:R; [|discriminate].
    intro H; inversion H; subst; cbn. rewrite S1. eexists _, _. split; [reflexivity|].
    destruct D as [(t & -> & _)|[-> _]]; [discriminate|].
    destruct (dispatch_shown _ _ _ _ _ _ _ _ _ _ _ R) as [-> | (-> & b & rest & -> & ->)].
    + left. congruence.
    + right. split; [reflexivity|].
      destruct (r_again _); cbn; eexists _, _; (split; [reflexivity|]);
        [destruct (ctyped w (fcode b)); reflexivity|reflexivity].
  - destruct (B8 Q1 Q2) as [S1 S2].
    assert (Pm : Permutation (ids s') (if fin then map fid back ++ map fid (gens s0) else ids s0)).
    { unfold ids at 1. rewrite S1, S2, map_app, Ib. destruct fin; [reflexivity|].
      rewrite Is0. cbn. rewrite K1. apply Permutation_sym, Permutation_middle. }
    rewrite Is0 in Nd0, Nx0.
    assert (NdT : NoDup (ids s')).
    { eapply Permutation_NoDup; [apply Permutation_sym; eauto|].
      destruct fin; [inversion Nd0; auto|rewrite Is0; auto]. }
    constructor; auto.
    + intros i X. rewrite B3. apply Nx0. eapply Permutation_in in X; [|eauto].
      destruct fin; [right; exact X|rewrite Is0 in X; exact X].
    + intros wt. rewrite B6, Q1. discriminate.
Qed.

Lemma resume_wf w c s : wf s -> wf (resume w c s).
Proof.
  intros [Nd Nx Ww]. unfold resume. destruct (waiting s) as [wt|] eqn:W; [|constructor; rewrite ?W; auto; discriminate].
  destruct (client_cmd c); [|constructor; rewrite ?W; auto].
  destruct (resumed w c (shown wt) s) as [i fs] eqn:R.
  assert (Cd : map fid fs = map fid (stack s)).
  { destruct (resumed_frames _ _ _ _ _ _ R) as [-> | (k & ->)]; [reflexivity|].
    apply set_trace_from_ids. }
  set (fs' := match fs with f :: back => keep TDisp f :: back | [] => [] end).
  assert (Ei : map fid fs' = map fid (stack s)).
  { rewrite <- Cd. unfold fs'. destruct fs; reflexivity. }
  assert (Hi : map fid fs' ++ map fid (gens s) = ids s).
  { unfold ids. rewrite map_app. congruence. }
  destruct (is_ret (at_evt wt)) eqn:Ir.
  - unfold popped. cbn. destruct fs' as [|f rest] eqn:Ef.
    { constructor; cbn; try discriminate.
      - unfold ids. cbn. cbn in Hi. rewrite Hi. exact Nd.
      - intros j X. apply Nx. unfold ids in X. cbn in X. cbn in Hi. rewrite Hi in X. exact X. }
    cbn in Hi. rewrite <- Hi in Nd, Nx.
    constructor; cbn; try discriminate; unfold ids; cbn [stack gens]; rewrite map_app.
    + destruct (finishing wt).
      * inversion Nd; auto.
      * cbn. eapply Permutation_NoDup; [apply Permutation_middle|exact Nd].
    + intros j X. apply Nx. destruct (finishing wt); [right; exact X|].
      cbn in X. eapply Permutation_in; [apply Permutation_sym, Permutation_middle|exact X].
  - constructor; cbn; try discriminate; unfold ids; cbn [stack gens]; rewrite map_app, Hi; auto.
Qed.

Lemma exec_wf w o s : no_race o -> inv w s -> wf s -> wf (exec w o s).
Proof.
  intros Nr I Wf. destruct o as [a|c|bs fs|bs|main|l bs fs]; cbn [exec].
  - destruct (waiting s) eqn:W; [exact Wf|]. apply do_act_wf; auto.
  - apply resume_wf, Wf.
  - destruct Wf as [Nd Nx Ww].
    assert (Is : ids (set_breaks w bs fs s) = ids s).
    { apply ids_eq; cbn; [apply set_trace_ids|reflexivity]. }
    constructor; rewrite ?Is; auto. cbn. intros wt W. destruct (Ww wt W) as (f & rest & Es & Q).
    rewrite Es. cbn. eexists _, _. split; [reflexivity|].
    destruct Q as [Q|(Q & b & rest' & -> & Q2)]; [left|right].
    + destruct (ctyped w (fcode f)); exact Q.
    + split; [exact Q|]. cbn. eexists _, _. split; [reflexivity|]. destruct (ctyped w (fcode b)); exact Q2.
  - unfold drop_breaks. destruct (forallb _ bs); [|exact Wf]. destruct Wf as [Nd Nx Ww]. constructor; auto.
  - destruct (waiting s) eqn:W; [exact Wf|]. destruct Wf as [Nd Nx Ww].
    assert (Is : ids (pause w main s) = ids s).
    { apply ids_eq; cbn; [apply set_trace_ids|reflexivity]. }
    constructor; rewrite ?Is; auto. cbn. congruence.
  - contradiction.
Qed.

Lemma run_wf w os s : Forall no_race os -> inv w s -> wf s -> wf (run w os s).
Proof.
  intros F. revert s. induction F as [|o os Ho _ IH]; intros s I Wf; [exact Wf|].
  cbn. apply IH; [apply exec_inv; auto|apply exec_wf; auto].
Qed.

Lemma start_wf bs fs : wf (start bs fs).
Proof. constructor; cbn; [constructor|contradiction|discriminate]. Qed.

(* ----- One action of a running program ----- *)

Record acted (w : world) (a : act) (s s' : state) (e : evt) (ok fin : bool) (f f' : frame)
    (back : list frame) (r : res) : Prop := Acted {
  ac_stack : (e = ECall /\ back = stack s /\
       ((exists code, a = Call code ok /\ f = Frame (next s) code (cfirst w code) TNone)
        \/ In f (gens s)))
     \/ e <> ECall /\
        exists h, stack s = h :: back /\ fid f = fid h /\ fcode f = fcode h /\ ftrace f = ftrace h
          /\ (e = ELine -> a = Line (fline f) ok /\ In (fline f) (clines w (fcode f)))
          /\ (e = ERet -> a = Ret fin /\ f = h /\ (fin = false -> ckind w (fcode f) <> Plain));
  ac_same : same_frame f' f;
  ac_kept : active (ftrace f) = true -> f' = f;
  ac_res : (exists t, r = nothing t s /\ (t = TNone \/ t = TNoF \/ t = TExc) /\
        ((e = ECall \/ active (ftrace f) = true) -> user w (fcode f) ->
           step (inf s) = NoStep /\ clear w (brks s) (fcode f)
           /\ find_func (funcs s) (cname w (fcode f)) = None)) \/
     (r = dispatch w (brks s) (funcs s) (inf s) (fc s) e ok f back /\
        (e = ECall \/ active (ftrace f) = true));
  ac_brks : brks s' = brks s;
  ac_funcs : funcs s' = funcs s;
  ac_inf : inf s' = r_inf r;
  ac_next : next s <= next s';
  ac_wait : waiting s' = match r_stop r with Some (g, y) => Some (Wait g y e fin) | None => None end;
  ac_stay : r_stop r <> None \/ e <> ERet ->
     stack s' = keep (r_ret r) f' :: (if r_again r then set_trace w back else back)
     /\ incl (gens s') (gens s);
  ac_gone : r_stop r = None -> e = ERet ->
     stack s' = (if r_again r then set_trace w back else back)
     /\ gens s' = if fin then gens s else keep (r_ret r) f' :: gens s
}.

Lemma act_cases w a s : inv w s -> waiting s = None ->
  do_act w a s = s \/
  exists e ok fin f f' back r, acted w a s (do_act w a s) e ok fin f f' back r.
Proof.
  intros I W. rewrite do_act_prepared.
  destruct (prepared w a s) as [[[[e ok] fin] s0]|] eqn:P; [right|left; reflexivity].
  destruct (prepared_facts _ _ _ _ _ _ _ P) as (E1 & E2 & E3 & E4 & E5 & E6 & f & back & Es & F).
  assert (Oc : cs_ok w (brks s0) (funcs s0) (cs s0)) by (rewrite E4, E5, E2; apply I).
  destruct (fire_cases w e ok fin s0 f back Es Oc) as (r & g & f' & Ef & Sf & Kf & D).
  exists e, ok, fin, f, f', back, r.
  rewrite Ef.
  destruct (apply_facts w r e fin (with_cs g (with_stack (f' :: back) s0)) f' back eq_refl)
    as (B1 & B2 & B3 & B4 & B5 & B6 & B7 & B8).
  remember (apply w r e fin (with_cs g (with_stack (f' :: back) s0))) as s' eqn:Es'. clear Es' Ef.
  cbn in B1, B2, B3, B6, B7, B8.
  constructor; auto; try congruence.
  - destruct F as [(Ee & Eb & [(code & Ea & Ff & Eg & En)|(If & En & _ & Pm)])|(Ee & Eg & En & h & Eh & Ei)].
    + left. split; [exact Ee|]. split; [exact Eb|]. left. exists code. auto.
    + left. auto.
    + right. split; [exact Ee|]. exists h. tauto.
  - destruct D as [(t & Er & D)|[Er D]]; [left; exists t|right].
    + unfold nothing in *. rewrite E1 in *. rewrite E4, E5 in D. auto.
    + rewrite E1, E3, E4, E5 in Er. auto.
  - rewrite B3. destruct F as [(_ & _ & [(code & _ & _ & _ & En)|(_ & En & _)])|(_ & _ & En & _)]; rewrite En; lia.
  - intros Q. destruct (B7 Q) as [S1 S2]. split; [exact S1|]. rewrite S2.
    destruct F as [(_ & _ & [(code & _ & _ & Eg & _)|(_ & _ & In & _)])|(_ & Eg & _)];
      [rewrite Eg; apply incl_refl|exact In|rewrite Eg; apply incl_refl].
  - intros Q1 Q2. destruct (B8 Q1 Q2) as [S1 S2]. split; [exact S1|]. rewrite S2.
    destruct F as [(Ee & _)|(_ & Eg & _)]; [congruence|rewrite Eg; reflexivity].
Qed.

(* An event that does not stop a thread. *)
Lemma acted_inf w a s s' e ok fin f f' back r :
  acted w a s s' e ok fin f f' back r -> susp (inf s) = false -> waiting s' = None ->
  inf s' = inf s /\ r = nothing (r_ret r) s \/
  (e = ECall \/ active (ftrace f) = true) /\ inf s' = exit_info w e (inf s) f back \/
  (e = ERet /\ back = [] /\ step_stop w (step (inf s)) (stop (inf s)) (inf s) e f back = true /\
    inf s' = Info NoStep None false (initial (inf s))).
Proof.
  intros A S W. assert (R : r_stop r = None).
  { rewrite (ac_wait _ _ _ _ _ _ _ _ _ _ _ A) in W. destruct (r_stop r) as [[? ?]|]; [discriminate|reflexivity]. }
  rewrite (ac_inf _ _ _ _ _ _ _ _ _ _ _ A).
  destruct (ac_res _ _ _ _ _ _ _ _ _ _ _ A) as [(t & -> & _)|[-> Ac]]; [left; split; reflexivity|].
  destruct (dispatch_inf w (brks s) (funcs s) (inf s) (fc s) e ok f back S R) as [E|E].
  - right. left. split; [exact Ac|exact E].
  - right. right. exact E.
Qed.

(* Why an event stops a thread. *)
Lemma acted_stop w a s s' e ok fin f f' back r wt :
  acted w a s s' e ok fin f f' back r -> susp (inf s) = false -> waiting s' = Some wt ->
  at_evt wt = e /\
  (shown wt = fid f /\ at_break w (brks s) (funcs s) e ok f (why wt)
   \/ at_step w (step (inf s)) (stop (inf s)) (inf s) e f back (shown wt) (why wt)).
Proof.
  intros A S W. rewrite (ac_wait _ _ _ _ _ _ _ _ _ _ _ A) in W.
  destruct (r_stop r) as [[g y]|] eqn:R; [|discriminate]. inversion W; subst; cbn.
  split; [reflexivity|].
  destruct (ac_res _ _ _ _ _ _ _ _ _ _ _ A) as [(t & -> & _)|[-> Ac]]; [discriminate|].
  eapply dispatch_stop; eauto.
Qed.

Definition quiet (o : op) : Prop := match o with Do _ | Add _ _ | Drop _ => True | _ => False end.

Lemma quiet_no_race o : quiet o -> no_race o.
Proof. destruct o; cbn; auto. Qed.

Lemma quiet_waiting w os s wt : Forall quiet os -> waiting s = Some wt ->
  waiting (run w os s) = Some wt.
Proof.
  intros Q. revert s. induction Q as [|o os Ho _ IH]; intros s E; [exact E|].
  cbn. apply IH. destruct o; cbn in *; try contradiction; rewrite ?E; auto.
  unfold drop_breaks. destruct (forallb _ bs); auto.
Qed.

(* An invariant of running: kept by actions that do not stop and by changes of
   breakpoints. *)
Lemma run_quiet w (P : state -> Prop) os s :
  (forall a s, inv w s -> wf s -> waiting s = None -> P s ->
     waiting (do_act w a s) = None -> P (do_act w a s)) ->
  (forall bs fs s, inv w s -> wf s -> waiting s = None -> P s -> P (set_breaks w bs fs s)) ->
  (forall bs s, inv w s -> wf s -> waiting s = None -> P s -> P (drop_breaks bs s)) ->
  Forall quiet os -> inv w s -> wf s -> P s -> waiting (run w os s) = None -> P (run w os s).
Proof.
  intros Ha Hb Hd Q. revert s. induction Q as [|o os Ho Qs IH]; intros s I Wf Ps W; [exact Ps|].
  cbn [run] in *.
  assert (Ws : waiting s = None).
  { destruct (waiting s) as [wt|] eqn:E; [exfalso|reflexivity].
    change (waiting (run w (o :: os) s) = None) in W.
    rewrite (quiet_waiting w (o :: os) s wt) in W; [discriminate|constructor; auto|exact E]. }
  assert (We : waiting (exec w o s) = None).
  { destruct (waiting (exec w o s)) as [wt|] eqn:E; [exfalso|reflexivity].
    rewrite (quiet_waiting w os _ wt Qs E) in W. discriminate. }
  apply IH; auto.
  - apply exec_inv; auto using quiet_no_race.
  - apply exec_wf; auto using quiet_no_race.
  - destruct o; cbn in *; try contradiction; auto. rewrite Ws in *. auto.
Qed.

Lemma acted_again w a s s' e ok fin f f' back r :
  inv w s -> acted w a s s' e ok fin f f' back r -> r_again r = true -> e = ERet.
Proof.
  intros I A. destruct (ac_res _ _ _ _ _ _ _ _ _ _ _ A) as [(t & -> & _)|[-> Ac]]; [discriminate|].
  apply (ro_again w (brks s) (funcs s) e f). apply dispatch_ok, I.
Qed.

Lemma acted_ids w a s s' e ok fin f f' back r i :
  acted w a s s' e ok fin f f' back r -> In i (ids s') -> In i (ids s) \/ i = next s.
Proof.
  intros A H. unfold ids in H. rewrite map_app in H.
  assert (Hf : In (fid f) (ids s) \/ fid f = next s).
  { destruct (ac_stack _ _ _ _ _ _ _ _ _ _ _ A) as [(_ & _ & [(code & _ & ->)|If])|(_ & h & Eh & Ei & _)].
    - right. reflexivity.
    - left. unfold ids. apply in_map, in_or_app. auto.
    - left. unfold ids. rewrite Eh, Ei. left. reflexivity. }
  assert (Hb : forall j, In j (map fid (if r_again r then set_trace w back else back)) -> In j (ids s)).
  { intros j J. assert (Jb : In j (map fid back)).
    { destruct (r_again r); [rewrite set_trace_ids in J|]; exact J. }
    unfold ids. rewrite map_app. apply in_or_app. left.
    destruct (ac_stack _ _ _ _ _ _ _ _ _ _ _ A) as [(_ & -> & _)|(_ & h & -> & _)]; [exact Jb|right; exact Jb]. }
  destruct (ac_same _ _ _ _ _ _ _ _ _ _ _ A) as (Sf & _).
  destruct (keep_same (r_ret r) f') as (Kf & _).
  assert (Q : (r_stop r <> None \/ e <> ERet) \/ (r_stop r = None /\ e = ERet)).
  { destruct (r_stop r); [left; left; discriminate|]. destruct e; auto; left; right; discriminate. }
  destruct Q as [Q|[Q1 Q2]].
  - destruct (ac_stay _ _ _ _ _ _ _ _ _ _ _ A Q) as [S1 S2]. rewrite S1 in H. cbn in H.
    destruct H as [H|H]; [rewrite <- H, Kf, Sf; exact Hf|].
    apply in_app_or in H. destruct H as [H|H]; [left; auto|left].
    unfold ids. rewrite map_app. apply in_or_app. right. apply in_map_iff in H.
    destruct H as (x & <- & Ix). apply in_map, S2, Ix.
  - destruct (ac_gone _ _ _ _ _ _ _ _ _ _ _ A Q1 Q2) as [S1 S2]. rewrite S1, S2 in H.
    apply in_app_or in H. destruct H as [H|H]; [left; auto|].
    destruct fin; [left|cbn in H; destruct H as [H|H]; [rewrite <- H, Kf, Sf; exact Hf|left]].
    all: unfold ids; rewrite map_app; apply in_or_app; auto.
Qed.

Lemma acted_gone_id w a s s' e ok fin f f' back r i :
  wf s -> acted w a s s' e ok fin f f' back r -> i < next s -> ~ In i (ids s) -> ~ In i (ids s').
Proof.
  intros Wf A L N H. destruct (acted_ids _ _ _ _ _ _ _ _ _ _ _ _ A H); [contradiction|lia].
Qed.

Lemma drop_same bs s : stack (drop_breaks bs s) = stack s /\ inf (drop_breaks bs s) = inf s
  /\ ids (drop_breaks bs s) = ids s /\ next (drop_breaks bs s) = next s /\ gens (drop_breaks bs s) = gens s.
Proof. unfold drop_breaks. destruct (forallb _ bs); repeat split. Qed.

(* ----- Running without a step ----- *)

Definition going (s : state) : Prop := step (inf s) = NoStep /\ susp (inf s) = false.

Lemma going_act w a s : inv w s -> wf s -> waiting s = None -> going s ->
  waiting (do_act w a s) = None -> going (do_act w a s).
Proof.
  intros I Wf W [G1 G2] W'. destruct (act_cases w a s I W) as [-> | (e & ok & fin & f & f' & back & r & A)];
    [split; auto|].
  destruct (acted_inf _ _ _ _ _ _ _ _ _ _ _ A G2 W') as [[E _]|[(_ & E)|(_ & _ & _ & E)]]; unfold going; rewrite E; auto.
  unfold exit_info. destruct e; auto. destruct (ckind w (fcode f)); try destruct (existsb _ _); auto.
  - unfold exit_plain. rewrite G1. destruct (same _ _); auto.
  - unfold exit_gen. rewrite G1. destruct (same _ _); auto.
  - unfold exit_gen. rewrite G1. destruct (same _ _); auto.
Qed.

Lemma run_going w os s : Forall quiet os -> inv w s -> wf s -> going s ->
  waiting (run w os s) = None -> going (run w os s).
Proof.
  apply (run_quiet w going); auto using going_act. intros bs s0 I Wf W [G1 G2].
  destruct (drop_same bs s0) as (_ & E & _). split; rewrite E; auto.
Qed.

(* ----- Stepping into code ----- *)

Definition into (c : cmd) : Prop := c = Into \/ c = IntoMy.

Definition mine (w : world) (c : cmd) (code : N) : Prop :=
  user w code /\ (c = IntoMy -> cfilt_my w code = false).

Record stepping_in (w : world) (c : cmd) (s : state) : Prop := SteppingIn {
  si_step : step (inf s) = c;
  si_stop : stop (inf s) = None;
  si_susp : susp (inf s) = false;
  si_active : forall g, In g (stack s) -> mine w c (fcode g) -> active (ftrace g) = true
}.

Lemma can_skip_into w c st i f back : into c -> mine w c (fcode f) -> susp i = false ->
  can_skip w c st i f back = false.
Proof.
  intros Ic [U M] S. unfold can_skip. rewrite S. destruct Ic as [-> | ->]; [reflexivity|].
  rewrite M by reflexivity. reflexivity.
Qed.

Lemma exit_info_none w e i f back : stop i = None -> exit_info w e i f back = i.
Proof.
  intros S. unfold exit_info, exit_plain, exit_gen. rewrite S. cbn.
  destruct e; auto. destruct (ckind w (fcode f)); auto; destruct (existsb _ _); auto.
Qed.

Lemma mine_same w c f g : fcode f = fcode g -> mine w c (fcode f) -> mine w c (fcode g).
Proof. intros ->. auto. Qed.

Lemma again_active w c (b : bool) fs g :
  (forall g, In g fs -> mine w c (fcode g) -> active (ftrace g) = true) ->
  In g (if b then set_trace w fs else fs) -> mine w c (fcode g) -> active (ftrace g) = true.
Proof.
  intros H I M. destruct b; [|auto]. apply (set_trace_active w fs); [exact I|]. apply M.
Qed.

Lemma stepping_in_act w c a s : into c -> inv w s -> wf s -> waiting s = None -> stepping_in w c s ->
  waiting (do_act w a s) = None -> stepping_in w c (do_act w a s).
Proof.
  intros Ic I Wf W [P1 P2 P3 P4] W'.
  destruct (act_cases w a s I W) as [-> | (e & ok & fin & f & f' & back & r & A)];
    [constructor; auto|].
  assert (Ei : inf (do_act w a s) = inf s).
  { destruct (acted_inf _ _ _ _ _ _ _ _ _ _ _ A P3 W') as [[E _]|[(_ & E)|(-> & -> & Ss & E)]]; auto.
    - rewrite E. apply exit_info_none, P2.
    - exfalso. rewrite P1 in Ss. unfold step_stop in Ss. destruct Ic as [-> | ->];
      destruct (cdont w (fcode f)); discriminate. }
  constructor; rewrite ?Ei; auto.
  assert (Rs : r_stop r = None).
  { rewrite (ac_wait _ _ _ _ _ _ _ _ _ _ _ A) in W'. destruct (r_stop r) as [[? ?]|]; [discriminate|reflexivity]. }
  assert (Ab : forall g, In g back -> mine w c (fcode g) -> active (ftrace g) = true).
  { intros g Ig. apply P4. destruct (ac_stack _ _ _ _ _ _ _ _ _ _ _ A) as [(_ & -> & _)|(_ & h & -> & _)];
    [exact Ig|right; exact Ig]. }
  intros g Ig M.
  destruct (ac_same _ _ _ _ _ _ _ _ _ _ _ A) as (Sf1 & Sf2 & _).
  assert (Dec : e = ERet \/ e <> ERet) by (destruct e; auto; right; discriminate).
  destruct Dec as [-> | Ne].
  - destruct (ac_gone _ _ _ _ _ _ _ _ _ _ _ A Rs eq_refl) as [S1 _]. rewrite S1 in Ig.
    eapply again_active; eauto.
  - destruct (ac_stay _ _ _ _ _ _ _ _ _ _ _ A (or_intror Ne)) as [S1 _]. rewrite S1 in Ig.
    destruct Ig as [<- | Ig]; [|eapply again_active; eauto].
    rewrite keep_code, Sf2 in M.
    assert (Act : e = ECall \/ active (ftrace f) = true).
    { destruct (ac_stack _ _ _ _ _ _ _ _ _ _ _ A) as [(E & _)|(_ & h & Eh & _ & Ec & Et & _)]; [auto|right].
      rewrite Et. apply P4; [rewrite Eh; left; reflexivity|congruence]. }
    destruct (ac_res _ _ _ _ _ _ _ _ _ _ _ A) as [(t & -> & _ & N0)|[-> _]].
    + destruct (N0 Act (proj1 M)) as (E & _). exfalso. rewrite E in P1. destruct Ic; congruence.
    + rewrite dispatch_disp; [reflexivity| |exact Ne].
      rewrite exit_info_none by exact P2. rewrite P1. apply can_skip_into; auto.
Qed.

Lemma run_stepping_in w c os s : into c -> Forall quiet os -> inv w s -> wf s -> stepping_in w c s ->
  waiting (run w os s) = None -> stepping_in w c (run w os s).
Proof.
  intros Ic. apply (run_quiet w (stepping_in w c)).
  - intros. apply stepping_in_act; auto.
  - intros bs fs s0 _ _ _ [P1 P2 P3 P4]. constructor; auto. cbn. intros g Ig M.
    apply (set_trace_active w (stack s0)); [exact Ig|apply M].
  - intros bs s0 _ _ _ [P1 P2 P3 P4]. destruct (drop_same bs s0) as (E1 & E2 & _).
    constructor; rewrite ?E1, ?E2; auto.
Qed.

(* While stepping into code every line of the user's code stops. *)
Lemma stepping_in_line w c l ok s f back :
  into c -> inv w s -> waiting s = None -> stepping_in w c s ->
  stack s = f :: back -> mine w c (fcode f) -> cdont w (fcode f) = false ->
  In l (clines w (fcode f)) ->
  exists y, waiting (do_act w (Line l ok) s) = Some (Wait (fid f) y ELine false).
Proof.
  intros Ic I W [P1 P2 P3 P4] Es M D L.
  assert (Af : active (ftrace f) = true) by (apply P4; [rewrite Es; left; reflexivity|exact M]).
  assert (X : existsb (N.eqb l) (clines w (fcode f)) = true).
  { apply existsb_exists. exists l. split; [exact L|apply N.eqb_refl]. }
  rewrite do_act_prepared. cbn [prepared]. rewrite Es, X.
  set (s0 := with_stack _ s). set (f1 := Frame (fid f) (fcode f) l (ftrace f)).
  destruct (fire_cases w ELine ok false s0 f1 back eq_refl) as (r & g & f' & Ef & Sf & Kf & Dr).
  { apply I. }
  rewrite Ef.
  destruct (apply_facts w r ELine false (with_cs g (with_stack (f' :: back) s0)) f' back eq_refl)
    as (_ & _ & _ & _ & _ & B6 & _).
  rewrite B6. cbn in Dr.
  destruct Dr as [(t & _ & _ & N0)|[-> _]].
  { destruct (N0 (or_intror Af) (proj1 M)) as (E & _). exfalso. rewrite E in P1. destruct Ic; congruence. }
  destruct (dispatch_ends w (brks s) (funcs s) (inf s) (fc s) ELine ok f1 back P3) as [H _].
  - rewrite P1. unfold step_stop. cbn [fcode f1]. rewrite D. cbn [is_ret]. rewrite !andb_false_r. cbn [andb negb].
    rewrite andb_true_r. destruct M as [(U1 & U2 & U3) M2]. destruct Ic as [-> | ->]; cbn [orb].
    + destruct (filter_on w); [|reflexivity]. cbn in U3. rewrite U3. reflexivity.
    + rewrite M2 by reflexivity. reflexivity.
  - rewrite exit_info_none by exact P2. rewrite P1. apply can_skip_into; auto.
  - discriminate.
  - destruct (H eq_refl) as [y R]. exists y. rewrite R. reflexivity.
Qed.

(* ----- Stepping over ----- *)

Definition over (c : cmd) : Prop := c = Over \/ c = OverMy.
Definition into_of (c : cmd) : cmd := match c with OverMy | ReturnMy => IntoMy | _ => Into end.

Lemma into_of_into c : into (into_of c).
Proof. destruct c; cbn; unfold into; auto. Qed.

Lemma same_spec a b : same a b = true <-> a = b.
Proof.
  destruct a as [x|], b as [y|]; cbn; split; intro H; try discriminate; auto.
  - apply N.eqb_eq in H. congruence.
  - inversion H. apply N.eqb_refl.
Qed.

(* The frame stepped over is there and is waited for, or it has returned. *)
Definition plain_id (w : world) (i : N) (s : state) : Prop :=
  forall g, In g (stack s ++ gens s) -> fid g = i -> ckind w (fcode g) = Plain.

Record stepping (w : world) (c : cmd) (i : N) (s : state) : Prop := Stepping {
  st_susp : susp (inf s) = false;
  st_next : i < next s;
  st_here : In i (ids s) -> step (inf s) = c /\ stop (inf s) = Some i
}.

Lemma exit_info_other w e i f back x : stop i = Some x -> fid f <> x -> exit_info w e i f back = i.
Proof.
  intros S N0. assert (Q : same (stop i) (Some (fid f)) = false).
  { rewrite S. cbn. apply N.eqb_neq. auto. }
  unfold exit_info, exit_plain, exit_gen. rewrite Q.
  destruct e; auto. destruct (ckind w (fcode f)); auto; destruct (existsb _ _); auto.
Qed.

Definition stays (c : cmd) : Prop := c = Over \/ c = OverMy \/ c = Return \/ c = ReturnMy.

Lemma step_stop_over w c st i e f back : over c -> step_stop w c st i e f back = true ->
  e = ELine /\ st = Some (fid f).
Proof.
  intros O H. unfold step_stop in H. apply andb_prop in H. destruct H as [H _].
  destruct (cdont w (fcode f)); [discriminate|].
  destruct O as [-> | ->]; apply andb_prop in H; destruct H as [H1 H2];
    apply same_spec in H1; destruct e; try discriminate; auto.
Qed.

Lemma step_stop_return w c st i e f back : c = Return \/ c = ReturnMy ->
  step_stop w c st i e f back = true ->
  e = ERet /\ st = Some (fid f).
Proof.
  intros O H. unfold step_stop in H. apply andb_prop in H. destruct H as [H _].
  destruct (cdont w (fcode f)); [discriminate|].
  destruct O as [-> | ->]; apply andb_prop in H; destruct H as [H1 H2];
    apply same_spec in H2; destruct e; try discriminate; auto.
Qed.

(* The identity of the frame of an event is not that of another frame. *)
Lemma acted_id_gone w a s s' e ok f f' back r :
  wf s -> acted w a s s' e ok true f f' back r -> r_stop r = None -> e = ERet -> ~ In (fid f) (ids s').
Proof.
  intros Wf A Rs -> H.
  destruct (ac_gone _ _ _ _ _ _ _ _ _ _ _ A Rs eq_refl) as [S1 S2].
  destruct (ac_stack _ _ _ _ _ _ _ _ _ _ _ A) as [(Q & _)|(_ & h & Eh & Ei & _)]; [discriminate|].
  assert (Nd := wf_nodup _ Wf). unfold ids in Nd. rewrite Eh, map_app in Nd. cbn in Nd.
  inversion Nd; subst. apply H2. rewrite <- Ei. unfold ids in H. rewrite S1, S2, map_app in H.
  destruct (r_again r); [rewrite set_trace_ids in H|]; exact H.
Qed.

Lemma In_ids_stack s f : In f (stack s) -> In (fid f) (ids s).
Proof. intros I. unfold ids. apply in_map, in_or_app. auto. Qed.
Lemma In_ids_gens s f : In f (gens s) -> In (fid f) (ids s).
Proof. intros I. unfold ids. apply in_map, in_or_app. auto. Qed.

Lemma acted_plain w a s s' e ok fin f f' back r i :
  acted w a s s' e ok fin f f' back r -> i < next s -> plain_id w i s -> plain_id w i s'.
Proof.
  intros A L P g Ig Eg.
  destruct (ac_same _ _ _ _ _ _ _ _ _ _ _ A) as (Sf1 & Sf2 & _).
  destruct (keep_same (r_ret r) f') as (Kf1 & Kf2 & _).
  assert (Pf : fid f = i -> ckind w (fcode f) = Plain).
  { intros E. destruct (ac_stack _ _ _ _ _ _ _ _ _ _ _ A) as [(_ & _ & [(code & _ & ->)|If])|(_ & h & Eh & Ei & Ec & _)].
    - cbn in E. lia.
    - apply P; [apply in_or_app; auto|exact E].
    - rewrite Ec. apply P; [rewrite Eh; left; reflexivity|congruence]. }
  assert (Pk : g = keep (r_ret r) f' -> ckind w (fcode g) = Plain).
  { intros ->. rewrite Kf2, Sf2. apply Pf. congruence. }
  assert (Pb : In g (if r_again r then set_trace w back else back) -> ckind w (fcode g) = Plain).
  { intros J. assert (exists k, In k back /\ fcode g = fcode k /\ fid g = fid k) as (k & Ik & Ec & Ei).
    { destruct (r_again r); [|eauto]. destruct (set_trace_In _ _ _ J) as (k & ? & ? & ? & _). eauto. }
    rewrite Ec. apply P; [|congruence]. apply in_or_app. left.
    destruct (ac_stack _ _ _ _ _ _ _ _ _ _ _ A) as [(_ & -> & _)|(_ & h & -> & _)]; [exact Ik|right; exact Ik]. }
  assert (Pg : In g (gens s) -> ckind w (fcode g) = Plain).
  { intros J. apply P; [apply in_or_app; auto|exact Eg]. }
  assert (Q : (r_stop r <> None \/ e <> ERet) \/ (r_stop r = None /\ e = ERet)).
  { destruct (r_stop r); [left; left; discriminate|]. destruct e; auto; left; right; discriminate. }
  destruct Q as [Q|[Q1 Q2]].
  - destruct (ac_stay _ _ _ _ _ _ _ _ _ _ _ A Q) as [S1 S2]. rewrite S1 in Ig.
    apply in_app_or in Ig. destruct Ig as [[<- | J]|J]; auto.
  - destruct (ac_gone _ _ _ _ _ _ _ _ _ _ _ A Q1 Q2) as [S1 S2]. rewrite S1, S2 in Ig.
    apply in_app_or in Ig. destruct Ig as [J|J]; auto. destruct fin; auto.
    destruct J as [<- | J]; auto.
Qed.

Lemma stepping_act w c i a s : stays c -> inv w s -> wf s -> waiting s = None ->
  stepping w c i s /\ plain_id w i s ->
  waiting (do_act w a s) = None -> stepping w c i (do_act w a s) /\ plain_id w i (do_act w a s).
Proof.
  intros Sc I Wf W [[P1 P2 P3] Pl] W'.
  destruct (act_cases w a s I W) as [-> | (e & ok & fin & f & f' & back & r & A)];
    [split; [constructor; auto|auto]|].
  split; [|eapply acted_plain; eauto].
  assert (Nx : i < next (do_act w a s)) by (assert (Q := ac_next _ _ _ _ _ _ _ _ _ _ _ A); lia).
  assert (Rs : r_stop r = None).
  { rewrite (ac_wait _ _ _ _ _ _ _ _ _ _ _ A) in W'. destruct (r_stop r) as [[? ?]|]; [discriminate|reflexivity]. }
  assert (Hn := acted_gone_id _ _ _ _ _ _ _ _ _ _ _ i Wf A P2).
  assert (Su : susp (inf (do_act w a s)) = false).
  { destruct (acted_inf _ _ _ _ _ _ _ _ _ _ _ A P1 W') as [[-> _]|[(_ & ->)|(_ & _ & _ & ->)]]; auto.
    rewrite (proj1 (exit_info_same _ _ _ _ _)). exact P1. }
  constructor; auto. intros Hi'.
  destruct (in_dec N.eq_dec i (ids s)) as [Hi|Hi]; [|exfalso; apply Hn; auto].
  destruct (P3 Hi) as [E1 E2].
  destruct (acted_inf _ _ _ _ _ _ _ _ _ _ _ A P1 W') as [[-> _]|[(_ & ->)|(-> & -> & Ss & ->)]]; auto.
  - destruct (N.eq_dec (fid f) i) as [Ef|Nf].
    2: { rewrite (exit_info_other _ _ _ _ _ i); auto. }
    assert (Dec : e = ERet \/ e <> ERet) by (destruct e; auto; right; discriminate).
    destruct Dec as [-> | Ne].
    2: { unfold exit_info. destruct e; auto. congruence. }
    exfalso.
    destruct (ac_stack _ _ _ _ _ _ _ _ _ _ _ A) as [(Q & _)|(_ & h & Eh & Ei & Ec & _ & _ & Fr)]; [discriminate|].
    destruct (Fr eq_refl) as (_ & _ & Fin).
    assert (Kp : ckind w (fcode f) = Plain).
    { rewrite Ec. apply Pl; [rewrite Eh; left; reflexivity|congruence]. }
    destruct fin; [|exfalso; apply Fin; auto].
    apply (acted_id_gone _ _ _ _ _ _ _ _ _ _ Wf A Rs eq_refl). congruence.
  - exfalso. rewrite E1, E2 in Ss.
    destruct (ac_stack _ _ _ _ _ _ _ _ _ _ _ A) as [(Q & _)|(_ & h & Eh & Ei & Ec & _ & _ & Fr)]; [discriminate|].
    destruct (Fr eq_refl) as (_ & _ & Fin).
    assert (Ef : fid f = i).
    { destruct Sc as [Q|[Q|[Q|Q]]]; [apply step_stop_over in Ss; [destruct Ss; congruence|unfold over; auto]..| |];
      apply step_stop_return in Ss; auto; destruct Ss; congruence. }
    assert (Kp : ckind w (fcode f) = Plain).
    { rewrite Ec. apply Pl; [rewrite Eh; left; reflexivity|congruence]. }
    destruct fin; [|exfalso; apply Fin; auto].
    apply (acted_id_gone _ _ _ _ _ _ _ _ _ _ Wf A Rs eq_refl). congruence.
Qed.

Lemma set_breaks_ids w bs fs s : ids (set_breaks w bs fs s) = ids s.
Proof. apply ids_eq; cbn; [apply set_trace_ids|reflexivity]. Qed.

Lemma run_stepping w c i os s : stays c -> Forall quiet os -> inv w s -> wf s ->
  stepping w c i s /\ plain_id w i s ->
  waiting (run w os s) = None -> stepping w c i (run w os s) /\ plain_id w i (run w os s).
Proof.
  intros Sc. apply (run_quiet w (fun s => stepping w c i s /\ plain_id w i s)).
  - intros. apply stepping_act; auto.
  - intros bs fs s0 _ _ _ [[P1 P2 P3] Pl]. split.
    + constructor; auto. rewrite set_breaks_ids. exact P3.
    + intros g Ig Eg. cbn in Ig. apply in_app_or in Ig. destruct Ig as [Ig|Ig].
      * destruct (set_trace_In _ _ _ Ig) as (k & Ik & Ec & Ei & _). rewrite Ec. apply Pl; [apply in_or_app; auto|congruence].
      * apply Pl; [apply in_or_app; auto|auto].
  - intros bs s0 _ _ _ [[P1 P2 P3] Pl]. destruct (drop_same bs s0) as (E1 & E2 & E3 & E4 & E5).
    split; [constructor; rewrite ?E2, ?E3, ?E4; auto|]. unfold plain_id. rewrite E1, E5. exact Pl.
Qed.

(* The frame stepped over and its parents stay traced. *)
Record held (w : world) (c : cmd) (i : N) (s : state) : Prop := Held {
  h_here : In i (map fid (stack s)) ->
     exists f rest, frames_from i (stack s) = f :: rest /\ user w (fcode f) /\
       (forall g, In g (f :: rest) -> user w (fcode g) -> active (ftrace g) = true) /\
       (rest = [] -> over c);
  h_gone : ~ In i (map fid (stack s)) -> stepping_in w (into_of c) s
}.

Lemma frames_from_id i fs f rest : frames_from i fs = f :: rest -> fid f = i /\ incl (f :: rest) fs.
Proof.
  induction fs as [|g fs IH]; [discriminate|]. cbn. destruct (N.eqb_spec (fid g) i).
  - intro H; inversion H; subst. split; [auto|apply incl_refl].
  - intros H. destruct (IH H). split; [auto|]. apply incl_tl. auto.
Qed.

Lemma frames_from_In i fs : In i (map fid fs) -> exists f rest, frames_from i fs = f :: rest.
Proof.
  induction fs as [|g fs IH]; [contradiction|]. cbn. destruct (N.eqb_spec (fid g) i); [eauto|].
  intros [?|H]; [contradiction|auto].
Qed.

Lemma frames_from_other i f fs : fid f <> i -> frames_from i (f :: fs) = frames_from i fs.
Proof. intros N0. cbn. apply N.eqb_neq in N0. rewrite N0. reflexivity. Qed.

Lemma frames_from_trace w i fs : frames_from i (set_trace w fs) = set_trace w (frames_from i fs).
Proof.
  induction fs as [|f fs IH]; [reflexivity|]. unfold set_trace in *. cbn [map frames_from].
  replace (fid (if ctyped w (fcode f) then f else Frame (fid f) (fcode f) (fline f) TTop)) with (fid f)
    by (destruct (ctyped w (fcode f)); reflexivity).
  destruct (N.eqb (fid f) i); [reflexivity|exact IH].
Qed.

Lemma stays_step c : stays c -> c <> NoStep.
Proof. intros [-> | [-> | [-> | ->]]]; discriminate. Qed.

Lemma can_skip_same w c i f back j : stays c -> fid f = i -> can_skip w c (Some i) j f back = false.
Proof.
  intros S E. unfold can_skip. destruct (susp j); [reflexivity|].
  assert (Q : same (Some i) (Some (fid f)) = true) by (apply same_spec; congruence).
  rewrite Q. destruct S as [-> | [-> | [-> | ->]]]; reflexivity.
Qed.

Lemma exit_plain_stays c i f : stays c -> step i = c -> stop i = Some (fid f) ->
  exit_plain i f = Info (into_of c) None (susp i) (initial i).
Proof.
  intros S E1 E2. unfold exit_plain.
  assert (Q : same (stop i) (Some (fid f)) = true) by (apply same_spec; congruence).
  rewrite Q, E1. destruct S as [-> | [-> | [-> | ->]]]; reflexivity.
Qed.

Lemma not_in_gens w i s : inv w s -> plain_id w i s -> ~ In i (map fid (gens s)).
Proof.
  intros I P H. apply in_map_iff in H. destruct H as (g & E & Ig).
  apply (in_gens _ _ I g Ig). apply P; [apply in_or_app; auto|exact E].
Qed.

Lemma held_act w c i a s : stays c -> inv w s -> wf s -> waiting s = None ->
  stepping w c i s /\ plain_id w i s -> held w c i s ->
  waiting (do_act w a s) = None -> held w c i (do_act w a s).
Proof.
  intros Sc I Wf W [[P1 P2 P3] Pl] [Hh Hg] W'.
  destruct (act_cases w a s I W) as [-> | (e & ok & fin & f & f' & back & r & A)];
    [constructor; auto|].
  assert (Ng := not_in_gens w i s I Pl).
  destruct (in_dec N.eq_dec i (map fid (stack s))) as [Hi|Hi].
  2: { assert (N0 : ~ In i (ids s)).
       { unfold ids. rewrite map_app. intros H. apply in_app_or in H. destruct H; contradiction. }
       assert (N1 := acted_gone_id _ _ _ _ _ _ _ _ _ _ _ i Wf A P2 N0).
       constructor.
       - intros H. exfalso. apply N1. unfold ids. rewrite map_app. apply in_or_app. auto.
       - intros _. apply stepping_in_act; auto. apply into_of_into. }
  assert (Rs : r_stop r = None).
  { rewrite (ac_wait _ _ _ _ _ _ _ _ _ _ _ A) in W'. destruct (r_stop r) as [[? ?]|]; [discriminate|reflexivity]. }
  destruct (Hh Hi) as (f1 & rest & Ef & Uf & Af & Ao).
  destruct (frames_from_id _ _ _ _ Ef) as [Ei1 In1].
  destruct (ac_same _ _ _ _ _ _ _ _ _ _ _ A) as (Sf1 & Sf2 & _).
  destruct (keep_same (r_ret r) f') as (Kf1 & Kf2 & _).
  assert (Hids : In i (ids s)) by (unfold ids; rewrite map_app; apply in_or_app; auto).
  destruct (P3 Hids) as [E1 E2].
  assert (Nag : e <> ERet -> r_again r = false).
  { intros Ne. destruct (r_again r) eqn:Q; [|reflexivity]. exfalso. apply Ne.
    eapply acted_again; eauto. }
  assert (Keep : forall fs, frames_from i fs = f1 :: rest -> stack (do_act w a s) = fs ->
     held w c i (do_act w a s)).
  { intros fs F S. constructor.
    - intros _. rewrite S. exists f1, rest. auto.
    - intros Q. exfalso. apply Q. rewrite S. destruct (frames_from_id _ _ _ _ F) as [Z1 Z2].
      rewrite <- Z1. apply in_map, Z2. left. reflexivity. }
  destruct (ac_stack _ _ _ _ _ _ _ _ _ _ _ A) as [(-> & -> & Fn)|(Nc & h & Eh & Ei & Ec & Et & _ & Fr)].
  - destruct (ac_stay _ _ _ _ _ _ _ _ _ _ _ A) as [S1 _]; [right; discriminate|].
    rewrite Nag in S1 by discriminate. eapply Keep; [|exact S1].
    rewrite frames_from_other; [exact Ef|]. rewrite Kf1, Sf1.
    destruct Fn as [(code & _ & ->)|If]; [cbn; lia|].
    intros Q. apply Ng. rewrite <- Q. apply in_map, If.
  - destruct (N.eq_dec (fid h) i) as [Eq|Nq].
    + rewrite Eh in Ef. cbn in Ef. rewrite (proj2 (N.eqb_eq _ _) Eq) in Ef.
      injection Ef as Ef1 Ef2. rewrite <- Ef1, <- Ef2 in *. clear Ef1 Ef2.
      assert (Act : active (ftrace f) = true).
      { rewrite Et. apply Af; [left; reflexivity|exact Uf]. }
      destruct (ac_res _ _ _ _ _ _ _ _ _ _ _ A) as [(t & _ & _ & N0)|[Er _]].
      { exfalso. destruct (N0 (or_intror Act)) as (Q & _); [congruence|].
        apply (stays_step c Sc). congruence. }
      assert (Dec : e = ERet \/ e <> ERet) by (destruct e; auto; right; discriminate).
      destruct Dec as [-> | Ne].
      * destruct (Fr eq_refl) as (_ & _ & Fin).
        assert (Kp : ckind w (fcode f) = Plain).
        { rewrite Ec. apply Pl; [rewrite Eh; left; reflexivity|exact Eq]. }
        destruct fin; [|exfalso; apply Fin; auto].
        assert (Gone := acted_id_gone _ _ _ _ _ _ _ _ _ _ Wf A Rs eq_refl).
        destruct (ac_gone _ _ _ _ _ _ _ _ _ _ _ A Rs eq_refl) as [S1 _].
        assert (Ein : inf (do_act w a s) = Info (into_of c) None false (initial (inf s))).
        { rewrite (ac_inf _ _ _ _ _ _ _ _ _ _ _ A), Er.
          rewrite Er in Rs.
          destruct (dispatch_inf w (brks s) (funcs s) (inf s) (fc s) ERet ok f back P1 Rs) as [Q|(_ & Eb & Ss & _)].
          - rewrite Q. unfold exit_info. rewrite Kp, <- P1. apply exit_plain_stays; congruence.
          - exfalso. specialize (Ao Eb). rewrite E1 in Ss.
            destruct (step_stop_over _ _ _ _ _ _ _ Ao Ss). discriminate. }
        constructor.
        -- intros Q. exfalso. apply Gone. rewrite Ei, Eq. unfold ids. rewrite map_app. apply in_or_app. auto.
        -- intros _. constructor; rewrite ?Ein; auto.
           rewrite S1. intros g Ig [U _].
           destruct (r_again r); [apply (set_trace_active w back); [exact Ig|apply U]|].
           apply Af; [right; exact Ig|exact U].
      * destruct (ac_stay _ _ _ _ _ _ _ _ _ _ _ A (or_intror Ne)) as [S1 _]. rewrite (Nag Ne) in S1.
        assert (Td : r_ret r = TDisp).
        { rewrite Er. apply dispatch_disp; [|exact Ne]. rewrite E1, E2. apply can_skip_same; auto. congruence. }
        constructor.
        -- intros _. rewrite S1. cbn [frames_from]. rewrite Kf1, Sf1, Ei, Eq, N.eqb_refl.
           eexists _, _. split; [reflexivity|]. rewrite Kf2, Sf2. split; [congruence|]. split; [|exact Ao].
           intros g [<- | Ig] U; [rewrite Td; reflexivity|]. apply Af; [right; exact Ig|exact U].
        -- intros Q. exfalso. apply Q. rewrite S1. left. congruence.
    + rewrite Eh, frames_from_other in Ef by exact Nq.
      assert (Dec : e = ERet \/ e <> ERet) by (destruct e; auto; right; discriminate).
      destruct Dec as [-> | Ne].
      * destruct (ac_gone _ _ _ _ _ _ _ _ _ _ _ A Rs eq_refl) as [S1 _].
        destruct (r_again r); [|eapply Keep; eauto].
        assert (F' : frames_from i (stack (do_act w a s)) = set_trace w (f1 :: rest)).
        { rewrite S1, frames_from_trace. congruence. }
        constructor.
        -- intros _. rewrite F'. unfold set_trace. cbn [map]. eexists _, _. split; [reflexivity|].
           split; [destruct (ctyped w (fcode f1)); exact Uf|].
           split.
           ++ intros g Ig U. apply (set_trace_active w (f1 :: rest)); [exact Ig|apply U].
           ++ intros Q. apply Ao. destruct rest; [reflexivity|discriminate].
        -- intros Q. exfalso. apply Q. rewrite S1, set_trace_ids.
           destruct (frames_from_id _ _ _ _ Ef) as [Z1 Z2]. rewrite <- Z1. apply in_map, Z2. left. reflexivity.
      * destruct (ac_stay _ _ _ _ _ _ _ _ _ _ _ A (or_intror Ne)) as [S1 _]. rewrite (Nag Ne) in S1.
        eapply Keep; [|exact S1]. rewrite frames_from_other; [exact Ef|congruence].
Qed.

Lemma run_held w c i os s : stays c -> Forall quiet os -> inv w s -> wf s ->
  (stepping w c i s /\ plain_id w i s) /\ held w c i s ->
  waiting (run w os s) = None -> (stepping w c i (run w os s) /\ plain_id w i (run w os s)) /\ held w c i (run w os s).
Proof.
  intros Sc. apply (run_quiet w (fun s => (stepping w c i s /\ plain_id w i s) /\ held w c i s)).
  - intros a s0 I Wf W [P H] W'. split; [apply stepping_act; auto|apply held_act; auto].
  - intros bs fs s0 _ _ _ [[[P1 P2 P3] Pl] [Hh Hg]]. split; [split|].
    + constructor; auto. rewrite set_breaks_ids. exact P3.
    + intros g Ig Eg. cbn in Ig. apply in_app_or in Ig. destruct Ig as [Ig|Ig].
      * destruct (set_trace_In _ _ _ Ig) as (k & Ik & Ec & Ei & _). rewrite Ec. apply Pl; [apply in_or_app; auto|congruence].
      * apply Pl; [apply in_or_app; auto|auto].
    + constructor; cbn [stack set_breaks]; rewrite set_trace_ids.
      * intros Hi. destruct (Hh Hi) as (f1 & rest & Ef & Uf & Af & Ao).
        rewrite frames_from_trace, Ef. unfold set_trace. cbn [map]. eexists _, _. split; [reflexivity|].
        split; [destruct (ctyped w (fcode f1)); exact Uf|].
        split.
        -- intros g Ig U. apply (set_trace_active w (f1 :: rest)); [exact Ig|apply U].
        -- intros Q. apply Ao. destruct rest; [reflexivity|discriminate].
      * intros Hi. destruct (Hg Hi) as [Q1 Q2 Q3 Q4]. constructor; auto. cbn. intros g Ig M.
        apply (set_trace_active w (stack s0)); [exact Ig|apply M].
  - intros bs s0 _ _ _ [[[P1 P2 P3] Pl] [Hh Hg]]. destruct (drop_same bs s0) as (E1 & E2 & E3 & E4 & E5).
    split; [split|].
    + constructor; rewrite ?E2, ?E3, ?E4; auto.
    + unfold plain_id. rewrite E1, E5. exact Pl.
    + constructor; rewrite ?E1; auto. intros Hi. destruct (Hg Hi) as [Q1 Q2 Q3 Q4].
      constructor; rewrite ?E1, ?E2; auto.
Qed.

(* ----- Resuming ----- *)

Lemma frames_from_trace_from w i fs :
  frames_from i (set_trace_from w i fs) = set_trace w (frames_from i fs).
Proof.
  induction fs as [|f fs IH]; [reflexivity|]. cbn [set_trace_from frames_from].
  destruct (N.eqb (fid f) i) eqn:E; [|cbn [frames_from]; rewrite E; exact IH].
  rewrite frames_from_trace. cbn [frames_from]. rewrite E. reflexivity.
Qed.

Lemma resume_shape w c s wt i fs : client_cmd c = true -> wf s -> waiting s = Some wt ->
  resumed w c (shown wt) s = (i, fs) ->
  let s1 := resume w c s in
  waiting s1 = None /\ inf s1 = i /\ next s1 = next s /\ brks s1 = brks s /\
  exists t rest, fs = t :: rest /\ map fid fs = map fid (stack s) /\
    map fcode fs = map fcode (stack s) /\
    (is_ret (at_evt wt) = true -> stack s1 = rest /\
       gens s1 = if finishing wt then gens s else keep TDisp t :: gens s) /\
    (is_ret (at_evt wt) = false -> stack s1 = keep TDisp t :: rest /\ gens s1 = gens s).
Proof.
  intros Cc Wf W R. cbv zeta. unfold resume. rewrite W, Cc, R.
  destruct (wf_wait _ Wf _ W) as (f & rest & Es & _).
  assert (Cd : map fid fs = map fid (stack s) /\ map fcode fs = map fcode (stack s)).
  { destruct (resumed_frames _ _ _ _ _ _ R) as [-> | (k & ->)]; [auto|].
    split; [apply set_trace_from_ids|apply set_trace_from_codes]. }
  destruct Cd as [Ci Cd].
  destruct fs as [|t rest0]; [rewrite Es in Ci; discriminate|].
  destruct (is_ret (at_evt wt)) eqn:Ir; unfold popped; cbn.
  - repeat split. exists t, rest0. repeat split; auto; discriminate.
  - repeat split. exists t, rest0. repeat split; auto; discriminate.
Qed.

Lemma shown_frames s wt : wf s -> waiting s = Some wt ->
  exists f callers, frames_from (shown wt) (stack s) = f :: callers.
Proof.
  intros Wf W. apply frames_from_In. destruct (wf_wait _ Wf _ W) as (f & rest & Es & Q).
  rewrite Es. destruct Q as [-> | (_ & b & r' & -> & ->)]; cbn; auto.
Qed.

Lemma plain_same w i s s1 :
  (forall g, In g (stack s1 ++ gens s1) -> exists h, In h (stack s ++ gens s) /\ fid g = fid h /\ fcode g = fcode h) ->
  plain_id w i s -> plain_id w i s1.
Proof. intros H P g Ig E. destruct (H g Ig) as (h & Ih & E1 & E2). rewrite E2. apply P; congruence. Qed.

Lemma map_pair_In (fs gs : list frame) g : map fid fs = map fid gs -> map fcode fs = map fcode gs ->
  In g fs -> exists h, In h gs /\ fid g = fid h /\ fcode g = fcode h.
Proof.
  revert gs. induction fs as [|x fs IH]; intros [|y gs] E1 E2 I; try discriminate; [contradiction|].
  cbn in E1, E2. injection E1 as A1 B1. injection E2 as A2 B2.
  destruct I as [<- | I]; [exists y; cbn; auto|].
  destruct (IH gs B1 B2 I) as (h & Ih & Q). exists h. cbn. auto.
Qed.

Lemma resume_plain w c s wt i : client_cmd c = true -> wf s -> waiting s = Some wt ->
  plain_id w i s -> plain_id w i (resume w c s).
Proof.
  intros Cc Wf W P. destruct (resumed w c (shown wt) s) as [j fs] eqn:R.
  destruct (resume_shape w c s wt j fs Cc Wf W R) as (_ & _ & _ & _ & t & rest & Ef & Ei & Ec & Hr & Hn).
  eapply plain_same; [|exact P]. intros g Ig.
  assert (Fs : forall x, In x fs -> exists h, In h (stack s ++ gens s) /\ fid x = fid h /\ fcode x = fcode h).
  { intros x Ix. destruct (map_pair_In _ _ _ Ei Ec Ix) as (h & Ih & Q). exists h. split; [apply in_or_app; auto|exact Q]. }
  destruct (Fs t) as (ht & Iht & Qt1 & Qt2); [rewrite Ef; left; reflexivity|].
  apply in_app_or in Ig.
  destruct (is_ret (at_evt wt)).
  - destruct (Hr eq_refl) as [S1 S2]. rewrite S1, S2 in Ig. destruct Ig as [Ig|Ig].
    + apply Fs. rewrite Ef. right. exact Ig.
    + destruct (finishing wt); [exists g; split; [apply in_or_app; auto|auto]|].
      destruct Ig as [<- | Ig]; [exists ht; auto|exists g; split; [apply in_or_app; auto|auto]].
  - destruct (Hn eq_refl) as [S1 S2]. rewrite S1, S2 in Ig. destruct Ig as [[<- | Ig]|Ig].
    + exists ht. auto.
    + apply Fs. rewrite Ef. right. exact Ig.
    + exists g. split; [apply in_or_app; auto|auto].
Qed.

(* After resuming, the frames from the one stepped in on are traced. *)
Lemma resume_active w c s wt i k : client_cmd c = true -> wf s -> waiting s = Some wt ->
  resumed w c (shown wt) s = (i, set_trace_from w k (stack s)) ->
  In k (map fid (stack (resume w c s))) ->
  exists f rest, frames_from k (stack (resume w c s)) = f :: rest /\
    map fcode (f :: rest) = map fcode (frames_from k (stack s)) /\
    forall g, In g (f :: rest) -> user w (fcode g) -> active (ftrace g) = true.
Proof.
  intros Cc Wf W R Hk.
  destruct (resume_shape w c s wt _ _ Cc Wf W R) as (_ & _ & _ & _ & t & rest & Ef & Ei & Ec & Hr & Hn).
  assert (F := frames_from_trace_from w k (stack s)). rewrite Ef in F.
  assert (Nd : NoDup (map fid (t :: rest))).
  { rewrite <- Ef, Ei. assert (Q := wf_nodup _ Wf). unfold ids in Q. rewrite map_app in Q.
    clear -Q. revert Q. generalize (map fid (gens s)). induction (map fid (stack s)) as [|x xs IH]; intros ys Q; [constructor|].
    cbn in Q. inversion Q; subst. constructor; [intros X; apply H1; apply in_or_app; auto|eapply IH; eassumption]. }
  assert (Cm : map fcode (set_trace w (frames_from k (stack s))) = map fcode (frames_from k (stack s))).
  { unfold set_trace. rewrite map_map. apply map_ext. intros x. destruct (ctyped w (fcode x)); reflexivity. }
  destruct (is_ret (at_evt wt)).
  - destruct (Hr eq_refl) as [S1 _]. rewrite S1 in *. inversion Nd; subst.
    rewrite frames_from_other in F.
    2: { intros Q. apply H1. rewrite Q. exact Hk. }
    rewrite F, <- Cm. destruct (frames_from_In _ _ Hk) as (f & r' & Q). rewrite F in Q. rewrite Q.
    exists f, r'. split; [reflexivity|]. split; [reflexivity|]. intros g Ig U.
    apply (set_trace_active w (frames_from k (stack s))); [rewrite Q; exact Ig|apply U].
  - destruct (Hn eq_refl) as [S1 _]. rewrite S1 in *.
    cbn [frames_from] in F |- *. destruct (keep_same TDisp t) as (K1 & K2 & _). rewrite K1.
    destruct (N.eqb (fid t) k) eqn:Ek.
    + eexists _, _. split; [reflexivity|]. rewrite <- Cm, <- F. split; [reflexivity|].
      intros g [<- | Ig] U; [reflexivity|].
      apply (set_trace_active w (frames_from k (stack s))); [rewrite <- F; right; exact Ig|apply U].
    + destruct (frames_from k rest) as [|f r'] eqn:Q.
      { exfalso. destruct Hk as [Hk | Hk]; [rewrite K1 in Hk; apply N.eqb_neq in Ek; contradiction|].
        destruct (frames_from_In _ _ Hk) as (a & b & X). rewrite X in Q. discriminate. }
      exists f, r'. split; [reflexivity|]. rewrite <- Cm, <- F. split; [reflexivity|].
      intros g Ig U.
      apply (set_trace_active w (frames_from k (stack s))); [rewrite <- F; exact Ig|apply U].
Qed.

Lemma wf_shown_lt s wt : wf s -> waiting s = Some wt -> shown wt < next s.
Proof.
  intros Wf W. apply (wf_next _ Wf). destruct (shown_frames _ _ Wf W) as (f & cs0 & E).
  destruct (frames_from_id _ _ _ _ E) as [<- I]. apply In_ids_stack, I. left. reflexivity.
Qed.

Lemma over_client c : over c -> client_cmd c = true.
Proof. intros [-> | ->]; reflexivity. Qed.

Lemma resume_over w c s wt f callers : over c -> wf s -> waiting s = Some wt ->
  frames_from (shown wt) (stack s) = f :: callers ->
  waiting (resume w c s) = None /\ stepping w c (shown wt) (resume w c s) /\
  (user w (fcode f) -> In (shown wt) (map fid (stack (resume w c s))) ->
     held w c (shown wt) (resume w c s)).
Proof.
  intros O Wf W F.
  assert (R : resumed w c (shown wt) s = (Info c (Some (fid f)) false None, set_trace_from w (shown wt) (stack s))).
  { unfold resumed. rewrite F. destruct O as [-> | ->]; reflexivity. }
  destruct (frames_from_id _ _ _ _ F) as [Ef _].
  destruct (resume_shape w c s wt _ _ (over_client c O) Wf W R) as (R1 & R2 & R3 & _).
  split; [exact R1|]. split.
  - constructor; rewrite ?R2, ?R3; cbn; [reflexivity|apply wf_shown_lt; auto|]. rewrite Ef. auto.
  - intros U Hi. constructor; [|intros; contradiction]. intros _.
    destruct (resume_active w c s wt _ _ (over_client c O) Wf W R Hi) as (f0 & rest & F0 & Ec & Ac).
    exists f0, rest. rewrite F in Ec. cbn in Ec. injection Ec as Ec _. rewrite Ec. auto.
Qed.

(* The frame a step return waits for. *)
Inductive returns_to (w : world) (my : bool) : list frame -> frame -> frame -> Prop :=
| returns_here f b rest :
    (my || filter_on w) && (if my then cfilt_my w (fcode b) else cfilt w (fcode b)) = false ->
    returns_to w my (f :: b :: rest) f b
| returns_later f b rest g c :
    (my || filter_on w) && (if my then cfilt_my w (fcode b) else cfilt w (fcode b)) = true ->
    returns_to w my (b :: rest) g c ->
    returns_to w my (f :: b :: rest) g c.

Lemma return_target_some w my f back g : return_target w my f back = Some g ->
  exists c, returns_to w my (f :: back) g c.
Proof.
  revert f. induction back as [|b rest IH]; intros f; cbn; [discriminate|].
  destruct (_ && _) eqn:H; intros E.
  - destruct (IH _ E) as (c & R). exists c. constructor 2; auto.
  - injection E as <-. exists b. constructor 1; auto.
Qed.

Lemma returns_to_target w my f back g c : returns_to w my (f :: back) g c ->
  return_target w my f back = Some g.
Proof.
  intros H. remember (f :: back) as l eqn:E. revert f back E.
  induction H as [f0 b rest E|f0 b rest g c E R IH]; intros f back Q; injection Q as -> <-; cbn; rewrite E; auto.
Qed.

Lemma returns_to_in w my l g c : returns_to w my l g c -> exists pre rest, l = pre ++ g :: c :: rest.
Proof.
  induction 1 as [f b rest E|f b rest g c E R (pre & r & IH)]; [exists [], rest; reflexivity|].
  exists (f :: pre), r. rewrite IH. reflexivity.
Qed.

Lemma frames_from_suffix i fs f rest : frames_from i fs = f :: rest -> exists pre, fs = pre ++ f :: rest.
Proof.
  induction fs as [|g fs IH]; [discriminate|]. cbn. destruct (N.eqb (fid g) i).
  - intros E. exists []. exact E.
  - intros E. destruct (IH E) as (pre & ->). exists (g :: pre). reflexivity.
Qed.

Lemma frames_from_app pre g rest : NoDup (map fid (pre ++ g :: rest)) ->
  frames_from (fid g) (pre ++ g :: rest) = g :: rest.
Proof.
  induction pre as [|x pre IH]; intros Nd.
  - cbn. rewrite N.eqb_refl. reflexivity.
  - cbn in Nd. inversion Nd as [|? ? N0 N1]; subst. cbn [app]. rewrite frames_from_other; [auto|].
    intros E. apply N0. rewrite E. apply in_map, in_or_app. right. left. reflexivity.
Qed.

Lemma wf_stack_nodup s : wf s -> NoDup (map fid (stack s)).
Proof.
  intros Wf. assert (Q := wf_nodup _ Wf). unfold ids in Q. rewrite map_app in Q. revert Q.
  generalize (map fid (gens s)). induction (map fid (stack s)) as [|x xs IH]; intros ys Q; [constructor|].
  cbn in Q. inversion Q; subst. constructor; [intros X; apply H1; apply in_or_app; auto|eapply IH; eassumption].
Qed.

Definition is_my (c : cmd) : bool := match c with ReturnMy => true | _ => false end.

Lemma returns_to_frames w my s wt f callers g c : wf s ->
  frames_from (shown wt) (stack s) = f :: callers -> returns_to w my (f :: callers) g c ->
  exists rest, frames_from (fid g) (stack s) = g :: c :: rest.
Proof.
  intros Wf F R. destruct (returns_to_in _ _ _ _ _ R) as (pre & rest & E).
  destruct (frames_from_suffix _ _ _ _ F) as (pre0 & Es). rewrite E in Es.
  exists rest. assert (Nd := wf_stack_nodup _ Wf). rewrite Es in *. rewrite app_assoc in *.
  apply frames_from_app, Nd.
Qed.

Definition returning (c : cmd) : Prop := c = Return \/ c = ReturnMy.

Lemma returning_client c : returning c -> client_cmd c = true.
Proof. intros [-> | ->]; reflexivity. Qed.

Lemma resume_return w c s wt f callers g caller : returning c -> wf s -> waiting s = Some wt ->
  frames_from (shown wt) (stack s) = f :: callers ->
  returns_to w (is_my c) (f :: callers) g caller ->
  waiting (resume w c s) = None /\ stepping w c (fid g) (resume w c s) /\
  (user w (fcode g) -> In (fid g) (map fid (stack (resume w c s))) ->
     held w c (fid g) (resume w c s)).
Proof.
  intros O Wf W F Rt.
  assert (R : resumed w c (shown wt) s = (Info c (Some (fid g)) false None, set_trace_from w (fid g) (stack s))).
  { unfold resumed. rewrite F. destruct O as [-> | ->]; apply returns_to_target in Rt; cbn in Rt; rewrite Rt; reflexivity. }
  destruct (returns_to_frames _ _ _ _ _ _ _ _ Wf F Rt) as (rest & Fg).
  destruct (resume_shape w c s wt _ _ (returning_client c O) Wf W R) as (R1 & R2 & R3 & _).
  split; [exact R1|]. split.
  - constructor; rewrite ?R2, ?R3; cbn; auto.
    destruct (frames_from_id _ _ _ _ Fg) as [_ I]. apply (wf_next _ Wf), In_ids_stack, I. left. reflexivity.
  - intros U Hi. constructor; [|intros; contradiction]. intros _.
    destruct (resume_active w c s wt _ _ (returning_client c O) Wf W R Hi) as (f0 & rest0 & F0 & Ec & Ac).
    exists f0, rest0. rewrite Fg in Ec. cbn in Ec. injection Ec as Ec Er. rewrite Ec.
    split; [exact F0|]. split; [exact U|]. split; [exact Ac|]. intros ->. discriminate.
Qed.

Lemma resume_return_none w c s wt f callers : returning c -> wf s -> waiting s = Some wt ->
  frames_from (shown wt) (stack s) = f :: callers ->
  (forall g caller, ~ returns_to w (is_my c) (f :: callers) g caller) ->
  going (resume w c s).
Proof.
  intros O Wf W F Rt.
  assert (R : resumed w c (shown wt) s = (Info NoStep None false None, stack s)).
  { unfold resumed. rewrite F. destruct (return_target w (is_my c) f callers) as [g|] eqn:E.
    - exfalso. destruct (return_target_some _ _ _ _ _ E) as (x & X). eapply Rt, X.
    - destruct O as [-> | ->]; cbn in E; rewrite E; reflexivity. }
  destruct (resume_shape w c s wt _ _ (returning_client c O) Wf W R) as (R1 & R2 & R3 & _).
  unfold going. rewrite R2. auto.
Qed.

Lemma resume_continue w s wt : wf s -> waiting s = Some wt -> going (resume w NoStep s).
Proof.
  intros Wf W. destruct (shown_frames _ _ Wf W) as (f & cs0 & F).
  assert (R : resumed w NoStep (shown wt) s = (Info NoStep None false None, stack s)).
  { unfold resumed. rewrite F. reflexivity. }
  destruct (resume_shape w NoStep s wt _ _ eq_refl Wf W R) as (R1 & R2 & R3 & _).
  unfold going. rewrite R2. auto.
Qed.

Lemma into_client c : into c -> client_cmd c = true.
Proof. intros [-> | ->]; reflexivity. Qed.

Lemma resume_into w c s wt f callers : into c -> wf s -> waiting s = Some wt ->
  frames_from (shown wt) (stack s) = f :: callers -> ckind w (fcode f) <> Coro ->
  waiting (resume w c s) = None /\ stepping_in w c (resume w c s).
Proof.
  intros O Wf W F K.
  assert (R : resumed w c (shown wt) s =
    (Info c None false (Some (fid f, fline f)), set_trace_from w (shown wt) (stack s))).
  { unfold resumed. rewrite F. destruct O as [-> | ->]; destruct (ckind w (fcode f)); try reflexivity; contradiction. }
  destruct (resume_shape w c s wt _ _ (into_client c O) Wf W R) as (R1 & R2 & R3 & _ & t & rest & Et & _ & _ & Hr & Hn).
  split; [exact R1|]. constructor; rewrite ?R2; try reflexivity.
  intros g Ig M. destruct (wf_wait _ Wf _ W) as (h & hs & Es & Q).
  assert (Nd := wf_stack_nodup _ Wf). rewrite Es in Et, Nd. cbn [set_trace_from] in Et.
  destruct Q as [Q|(Ee & b & hs' & Eh & Q)].
  - rewrite Q, N.eqb_refl in Et.
    assert (A : forall x, In x (t :: rest) -> mine w c (fcode x) -> active (ftrace x) = true).
    { intros x Ix [Ux _]. apply (set_trace_active w (h :: hs)); [rewrite Et; exact Ix|apply Ux]. }
    destruct (is_ret (at_evt wt)).
    + destruct (Hr eq_refl) as [S1 _]. rewrite S1 in Ig. apply A; [right; exact Ig|exact M].
    + destruct (Hn eq_refl) as [S1 _]. rewrite S1 in Ig. destruct Ig as [<- | Ig]; [reflexivity|].
      apply A; [right; exact Ig|exact M].
  - rewrite Ee in Hr. destruct (Hr eq_refl) as [S1 _]. rewrite S1 in Ig.
    rewrite Eh in *. cbn in Nd. apply NoDup_cons_iff in Nd. destruct Nd as [N0 N1].
    assert (X : N.eqb (fid h) (shown wt) = false).
    { apply N.eqb_neq. rewrite Q. intros E. apply N0. rewrite E. left. reflexivity. }
    rewrite X in Et. cbn [set_trace_from] in Et. rewrite Q, N.eqb_refl in Et.
    assert (Et' : set_trace w (b :: hs') = rest) by congruence. clear Et. rename Et' into Et.
    apply (set_trace_active w (b :: hs')); [rewrite Et; exact Ig|apply M].
Qed.

(* ----- A requested suspension ----- *)

Record paused (w : world) (s : state) : Prop := Paused {
  pz_susp : susp (inf s) = true;
  pz_step : step (inf s) <> NoStep;
  pz_active : forall g, In g (stack s) -> user w (fcode g) -> active (ftrace g) = true
}.

Lemma can_skip_susp w c st i f back : susp i = true -> can_skip w c st i f back = false.
Proof. intros E. unfold can_skip. rewrite E. reflexivity. Qed.

Lemma exit_info_step w e i f back : step i <> NoStep -> step (exit_info w e i f back) <> NoStep.
Proof.
  intros N0. unfold exit_info. destruct e; auto.
  assert (A : step (exit_plain i f) <> NoStep).
  { unfold exit_plain. destruct (same _ _); auto. destruct (step i) eqn:E; cbn; try discriminate; rewrite E; discriminate || congruence. }
  assert (B : step (exit_gen w i f back) <> NoStep).
  { unfold exit_gen. destruct (same _ _); auto. destruct (step i) eqn:E; try congruence;
    destruct (unfiltered_back w back); cbn; try discriminate; congruence. }
  destruct (ckind w (fcode f)); auto; destruct (existsb _ _); auto.
Qed.

Lemma dispatch_susp w bs fs i fc0 e ok f back : susp i = true ->
  let r := dispatch w bs fs i fc0 e ok f back in
  r_ret r = TDisp /\ (r_stop r = None -> r_inf r = exit_info w e i f back) /\ r_again r = false /\
  (e = ELine -> r_stop r = Some (fid f, RPause)).
Proof.
  intros S. cbv zeta. destruct (exit_info_same w e i f back) as [Es Ei].
  destruct (dispatch_cases w bs fs i fc0 e ok f back) as [(R & K & L & Q)|[(func & t & fw & Sk & R)|(func & fw & _ & Pf & R)]];
    rewrite R.
  - cbn. repeat split; try congruence. intros _. unfold exit_info. destruct e; auto.
    rewrite Q by reflexivity. destruct (ckind w (fcode f)); congruence.
  - exfalso. rewrite can_skip_susp in Sk by congruence. destruct (skipping_not w bs fc0 func e f) as [fw' X]. congruence.
  - unfold hit_or_step. cbv zeta. rewrite Es, S. cbn [negb]. rewrite andb_false_r.
    destruct func as [b|].
    + destruct (Pf b eq_refl) as [-> _]. destruct (is_call ECall && cmod w (fcode f)).
      { cbn. repeat split; congruence. }
      destruct ((negb (conditional b) || ok) && negb (logpoint b)).
      * assert (Sm : susp (mark_suspended true (exit_info w ECall i f back)) = true)
          by (unfold mark_suspended; destruct (step (exit_info w ECall i f back)); reflexivity).
        rewrite Sm. cbn. repeat split; congruence.
      * rewrite Es, S. cbn. repeat split; congruence.
    + rewrite Es, S. cbn. repeat split; congruence.
Qed.

Lemma paused_act w a s : inv w s -> wf s -> waiting s = None -> paused w s ->
  waiting (do_act w a s) = None -> paused w (do_act w a s).
Proof.
  intros I Wf W [P1 P2 P3] W'.
  destruct (act_cases w a s I W) as [-> | (e & ok & fin & f & f' & back & r & A)]; [constructor; auto|].
  assert (R : r_stop r = None).
  { rewrite (ac_wait _ _ _ _ _ _ _ _ _ _ _ A) in W'. destruct (r_stop r) as [[? ?]|]; [discriminate|reflexivity]. }
  destruct (exit_info_same w e (inf s) f back) as [Es Ei].
  assert (Hb : forall g, In g back -> In g (stack s)).
  { destruct (ac_stack _ _ _ _ _ _ _ _ _ _ _ A) as [(_ & -> & _)|(_ & h & -> & _)]; intros; cbn; auto. }
  assert (Inf : inf (do_act w a s) = inf s \/ inf (do_act w a s) = exit_info w e (inf s) f back).
  { rewrite (ac_inf _ _ _ _ _ _ _ _ _ _ _ A).
    destruct (ac_res _ _ _ _ _ _ _ _ _ _ _ A) as [(t & -> & _)|[-> Ac]]; [auto|].
    right. apply dispatch_susp; auto. }
  assert (Again : r_again r = false).
  { destruct (ac_res _ _ _ _ _ _ _ _ _ _ _ A) as [(t & -> & _)|[-> Ac]]; [reflexivity|].
    apply dispatch_susp; auto. }
  assert (Top : e <> ERet -> user w (fcode f) -> active (ftrace (keep (r_ret r) f')) = true).
  { intros Ne U. destruct (ac_res _ _ _ _ _ _ _ _ _ _ _ A) as [(t & -> & _ & Q)|[-> Ac]].
    - exfalso. apply P2. apply Q; auto.
      destruct (ac_stack _ _ _ _ _ _ _ _ _ _ _ A) as [(Ee & _)|(_ & h & Eh & _ & Ec & Et & _)]; [auto|].
      right. rewrite Et. apply P3; [rewrite Eh; left; reflexivity|congruence].
    - destruct (dispatch_susp w (brks s) (funcs s) (inf s) (fc s) e ok f back P1) as [-> _]. reflexivity. }
  constructor.
  - destruct Inf as [-> | ->]; congruence.
  - destruct Inf as [-> | ->]; auto using exit_info_step.
  - intros g Ig U.
    assert (Q : e <> ERet \/ e = ERet) by (destruct e; auto; left; discriminate).
    destruct Q as [Q|Q].
    + destruct (ac_stay _ _ _ _ _ _ _ _ _ _ _ A (or_intror Q)) as [S1 _]. rewrite S1, Again in Ig.
      destruct Ig as [<- | Ig]; [|auto].
      apply Top; [exact Q|]. rewrite keep_code in U.
      destruct (ac_same _ _ _ _ _ _ _ _ _ _ _ A) as (_ & Ec & _). congruence.
    + destruct (ac_gone _ _ _ _ _ _ _ _ _ _ _ A R Q) as [S1 _]. rewrite S1, Again in Ig. auto.
Qed.

Lemma run_paused w os s : Forall quiet os -> inv w s -> wf s -> paused w s ->
  waiting (run w os s) = None -> paused w (run w os s).
Proof.
  apply (run_quiet w (paused w)); auto using paused_act.
  - intros bs fs s0 _ _ _ [P1 P2 P3]. constructor; auto. cbn. intros g Ig U.
    apply (set_trace_active w (stack s0)); [exact Ig|apply U].
  - intros bs s0 _ _ _ [P1 P2 P3]. destruct (drop_same bs s0) as (E1 & E2 & _).
    constructor; rewrite ?E1, ?E2; auto.
Qed.

Lemma pause_paused w main s : paused w (pause w main s).
Proof.
  constructor; cbn.
  - unfold mark_suspended. destruct main; [|reflexivity]. destruct (step (inf s)); reflexivity.
  - unfold mark_suspended. destruct main; [|discriminate]. destruct (step (inf s)); discriminate.
  - intros g Ig U. apply (set_trace_active w (stack s)); [exact Ig|apply U].
Qed.

(* What happens at a line of a traced frame. *)
Lemma line_dispatch w l ok s f back : inv w s ->
  stack s = f :: back -> user w (fcode f) -> In l (clines w (fcode f)) ->
  active (ftrace f) = true -> (step (inf s) <> NoStep \/ ~ clear w (brks s) (fcode f)) ->
  let f1 := Frame (fid f) (fcode f) l (ftrace f) in
  waiting (do_act w (Line l ok) s) =
    match r_stop (dispatch w (brks s) (funcs s) (inf s) (fc s) ELine ok f1 back) with
    | Some (g, y) => Some (Wait g y ELine false) | None => None end.
Proof.
  intros I Es U L Af N0 f1.
  assert (X : existsb (N.eqb l) (clines w (fcode f)) = true).
  { apply existsb_exists. exists l. split; [exact L|apply N.eqb_refl]. }
  rewrite do_act_prepared. cbn [prepared]. rewrite Es, X.
  remember (with_stack (Frame (fid f) (fcode f) l (ftrace f) :: back) s) as s0 eqn:E0.
  destruct (fire_cases w ELine ok false s0 f1 back) as (r & g & f' & Ef & Sf & Kf & Dr).
  { subst s0. reflexivity. }
  { subst s0. apply I. }
  rewrite Ef.
  destruct (apply_facts w r ELine false (with_cs g (with_stack (f' :: back) s0)) f' back eq_refl)
    as (_ & _ & _ & _ & _ & B6 & _).
  rewrite B6. destruct Dr as [(t & _ & _ & N1)|[-> _]].
  - exfalso. subst s0. destruct (N1 (or_intror Af) U) as (A & B & _). destruct N0 as [N0|N0]; auto.
  - subst s0. reflexivity.
Qed.

(* A breakpoint is not missed. *)
Lemma dispatch_breaks w bs fs i fc0 ok f back b : fc_ok w bs fc0 -> susp i = false ->
  In (fline f) (clines w (fcode f)) ->
  find_break bs (cfile w (fcode f)) (fline f) = Some b -> live b ok ->
  r_stop (dispatch w bs fs i fc0 ELine ok f back) = Some (fid f, RBreak).
Proof.
  intros O S L B Lv.
  destruct (dispatch_cases w bs fs i fc0 ELine ok f back) as [(R & K & Q & _)|[(func & t & fw & Sk & R)|(func & fw & _ & Pf & R)]].
  - congruence.
  - exfalso. revert Sk. unfold skipping. destruct func as [b0|]; [discriminate|].
    destruct (no_breaks_in bs (cfile w (fcode f))) eqn:Nb.
    { rewrite (no_breaks_in_none _ _ (fline f) Nb) in B. discriminate. }
    set (sk := can_skip _ _ _ _ _ _).
    destruct (sk && lcache fc0 (fcode f) (fline f)) eqn:Lc.
    { apply andb_prop in Lc. destruct Lc as [_ Lc]. rewrite (fo_line _ _ _ O _ _ Lc) in B. discriminate. }
    destruct (fcache fc0 (fcode f)) as [has|] eqn:Fc.
    { destruct has; [rewrite andb_false_r; discriminate|]. rewrite (fo_code _ _ _ O _ Fc _ L) in B. discriminate. }
    destruct (existsb _ (clines w (fcode f))) eqn:X.
    { rewrite andb_false_r. discriminate. }
    apply existsb_lines in X. rewrite (X _ L) in B. discriminate.
  - rewrite R. unfold hit_or_step. cbv zeta. cbn [exit_info]. rewrite S. cbn [negb is_line is_call andb].
    destruct func as [b0|]; [destruct (Pf b0 eq_refl); discriminate|]. rewrite B.
    assert (H : (negb (conditional b) || ok) && negb (logpoint b) = true).
    { destruct Lv as [[C|C] Lp]; rewrite C, Lp; [|rewrite orb_true_r]; reflexivity. }
    rewrite H. 
    assert (Sm : susp (mark_suspended true i) = true)
      by (unfold mark_suspended; destruct (step i); reflexivity).
    rewrite Sm. reflexivity.
Qed.

Lemma dispatch_func w bs fs i fc0 ok f back b : ckind w (fcode f) = Plain ->
  fline f = cfirst w (fcode f) -> cmod w (fcode f) = false ->
  find_func fs (cname w (fcode f)) = Some b -> live b ok ->
  r_stop (dispatch w bs fs i fc0 ECall ok f back) = Some (fid f, RFunc).
Proof.
  intros K L M B Lv. unfold dispatch. cbv zeta. rewrite K, L, N.eqb_refl, B. cbn [skipping].
  unfold hit_or_step. cbv zeta. rewrite M. cbn [is_call andb].
  assert (H : (negb (conditional b) || ok) && negb (logpoint b) = true).
  { destruct Lv as [[C|C] Lp]; rewrite C, Lp; [|rewrite orb_true_r]; reflexivity. }
  rewrite H.
  assert (Sm : susp (mark_suspended true i) = true)
    by (unfold mark_suspended; destruct (step i); reflexivity).
  rewrite Sm. reflexivity.
Qed.

Lemma dispatch_call_gen w bs fs i fc0 ok f back : ckind w (fcode f) <> Plain ->
  r_stop (dispatch w bs fs i fc0 ECall ok f back) = None.
Proof. intros K. unfold dispatch. cbv zeta. destruct (ckind w (fcode f)); [contradiction|reflexivity|reflexivity]. Qed.
