(** Property C74: an evaluation which takes too long lets the other threads run and stops them again. *)
From Coq Require Import List NArith ZArith Bool Lia.
From Verif Require Import Base Dict EvalUnblock.
From Verif Require Notify.
Import ListNotations.
Open Scope list_scope.

(** ** Specification *)

Definition inside (p : phase) : bool := match p with Inside | Leaving => true | _ => false end.
Notation told s t := (mem N.eqb t (Notify.suspended (ntf (bd s)))).
Notation sent s := (Notify.events (ntf (bd s))).

(** A stopped thread begins to evaluate: the threads told as suspended are those which are. *)
Definition start (w : world) (s : state) : Prop :=
  ev s = EvRun /\ cb s = CbWait /\ called s = false /\ disposed s = false /\ err (bd s) = false /\
  ph (bd s) (curr w) = Inside /\ (forall t, told s t = inside (ph (bd s) t)) /\
  exists ops, ntf (bd s) = Notify.run ops.

(** The callback is not being run at the moment when the evaluation ends. *)
Definition apart (w : world) (s : state) (l : list op) : Prop :=
  forall a b, l = a ++ EvNext :: b -> ev (exec w s a) = EvRun -> cb (exec w s a) = CbWait \/ cb (exec w s a) = CbDone.

(** The steps of the evaluation itself. *)
Definition own (o : op) : Prop := o = CbStart \/ o = CbNext \/ o = EvNext.

(** ** Lemmas *)

Definition nok (n : Notify.state) : Prop :=
  (Notify.last_suspend n <= Notify.request n < Notify.next_time n)%Z /\
  (forall g, In g (Notify.timeouts n) -> (g <= Notify.request n)%Z).

Lemma existsb_In g l : existsb (Z.eqb g) l = true -> In g l.
Proof. rewrite existsb_exists. intros (x & i & e). apply Z.eqb_eq in e. now subst x. Qed.

Lemma nok_step n o : nok n -> nok (Notify.step n o).
Proof.
  intros ((h1 & h2) & h3). destruct o as [| |g|t p|t]; unfold nok, Notify.step.
  - cbn [Notify.last_suspend Notify.request Notify.next_time Notify.timeouts]. split; [lia|]. intros g i. apply h3 in i. lia.
  - cbn [Notify.last_suspend Notify.request Notify.next_time Notify.timeouts]. split; [lia|]. intros g [<-|i]; [lia|auto].
  - destruct (existsb _ _) eqn:E; [|now split]. apply existsb_In in E. apply h3 in E.
    destruct (Notify.suspended n) as [|[t u] d]; [now split|].
    destruct (Z.ltb_spec (Notify.last_suspend n) g); [|now split].
    cbn [Notify.last_suspend Notify.request Notify.next_time Notify.timeouts Notify.send Notify.set_last]. split; [lia|auto].
  - destruct (negb p || Notify.pause n);
      cbn [Notify.last_suspend Notify.request Notify.next_time Notify.timeouts Notify.send Notify.set_last Notify.set_susp];
      [destruct (Z.ltb _ _)|];
      cbn [Notify.last_suspend Notify.request Notify.next_time Notify.timeouts Notify.send Notify.set_last Notify.set_susp];
      split; auto; lia.
  - destruct (mem _ _ _); [|now split].
    cbn [Notify.last_suspend Notify.last_resume Notify.request Notify.next_time Notify.timeouts Notify.send Notify.set_last Notify.set_susp];
      destruct (Z.ltb _ _);
      cbn [Notify.last_suspend Notify.request Notify.next_time Notify.timeouts Notify.send Notify.set_last Notify.set_susp];
      split; auto; lia.
Qed.

Lemma nok_run ops : nok (Notify.run ops).
Proof.
  unfold Notify.run. assert (h : nok Notify.init) by (split; [simpl; lia|intros g []]).
  revert h. generalize Notify.init. induction ops as [|o ops IH]; intros n h; [exact h|]. cbn [fold_left]. apply IH, nok_step, h.
Qed.

(** What has been sent since [e0]. *)
Definition since (e0 : list Notify.event) (P : Notify.event -> Prop) (n : Notify.state) : Prop :=
  exists e, Notify.events n = e ++ e0 /\ exists x, In x e /\ P x.
Definition extends (e0 : list Notify.event) (n : Notify.state) : Prop := exists e, Notify.events n = e ++ e0.
Definition is_stopped (x : Notify.event) : Prop := exists t, x = Notify.Stopped t.
Definition is_continued (x : Notify.event) : Prop := exists t, x = Notify.Continued t.

Lemma events_step n o : exists e, Notify.events (Notify.step n o) = e ++ Notify.events n /\
  ((Notify.last_suspend (Notify.step n o) = Notify.last_suspend n) \/ exists t, In (Notify.Stopped t) e) /\
  ((Notify.last_resume (Notify.step n o) = Notify.last_resume n) \/ exists t, In (Notify.Continued t) e).
Proof.
  assert (h0 : forall n' : Notify.state, Notify.events n' = Notify.events n -> Notify.last_suspend n' = Notify.last_suspend n ->
    Notify.last_resume n' = Notify.last_resume n -> exists e, Notify.events n' = e ++ Notify.events n /\
      ((Notify.last_suspend n' = Notify.last_suspend n) \/ exists t, In (Notify.Stopped t) e) /\
      ((Notify.last_resume n' = Notify.last_resume n) \/ exists t, In (Notify.Continued t) e)).
  { intros n' a b c. exists []. repeat split; auto. }
  destruct o as [| |g|t p|t]; unfold Notify.step; try (apply h0; reflexivity).
  - destruct (existsb _ _); [|now apply h0].
    destruct (Notify.suspended n) as [|[t u] d]; [now apply h0|].
    destruct (Z.ltb _ _); [|now apply h0]. exists [Notify.Stopped t]. repeat split; [right; exists t; now left|now left].
  - destruct (negb p || Notify.pause n); [destruct (Z.ltb _ _)|]; try (apply h0; reflexivity).
    exists [Notify.Stopped t]. repeat split; [right; exists t; now left|now left].
  - destruct (mem _ _ _); [|now apply h0]. destruct (Z.ltb _ _); [|now apply h0].
    exists [Notify.Continued t]. repeat split; [now left|right; exists t; now left].
Qed.

Lemma extends_step e0 n o : extends e0 n -> extends e0 (Notify.step n o).
Proof. intros (e & E). destruct (events_step n o) as (e1 & E1 & _). exists (e1 ++ e). now rewrite E1, E, app_assoc. Qed.

Lemma since_step e0 P n o : since e0 P n -> since e0 P (Notify.step n o).
Proof.
  intros (e & E & x & i & p). destruct (events_step n o) as (e1 & E1 & _). exists (e1 ++ e). rewrite E1, E, app_assoc.
  split; [reflexivity|]. exists x. split; [apply in_or_app; now right|exact p].
Qed.

(** A stop is to be told, or has been. *)
Definition due (e0 : list Notify.event) (n : Notify.state) : Prop :=
  extends e0 n /\ ((Notify.last_suspend n < Notify.request n)%Z \/ since e0 is_stopped n).

Lemma due_step e0 n o : nok n -> due e0 n -> due e0 (Notify.step n o).
Proof.
  intros ok (x & [d|d]); (split; [now apply extends_step|]); [|right; now apply since_step].
  destruct (events_step n o) as (e1 & E1 & [h|(t & i)] & _).
  - left. rewrite h. assert (hh : (Notify.request n <= Notify.request (Notify.step n o))%Z); [|lia].
    destruct ok as ((h1 & h2) & h3). clear E1 h.
    destruct o as [| |g|t p|t]; unfold Notify.step; cbn [Notify.request]; try lia.
    + destruct (existsb _ _); [|lia]. destruct (Notify.suspended n) as [|[t u] dd]; [lia|]. destruct (Z.ltb _ _); cbn; lia.
    + destruct (negb p || Notify.pause n); [destruct (Z.ltb _ _)|]; cbn; lia.
    + destruct (mem _ _ _); [|lia]. destruct (Z.ltb _ _); cbn; lia.
  - right. destruct x as (e & E). exists (e1 ++ e). rewrite E1, E, app_assoc. split; [reflexivity|].
    exists (Notify.Stopped t). split; [apply in_or_app; now left|now exists t].
Qed.

Lemma due_told e0 n t : due e0 n -> since e0 is_stopped (Notify.step n (Notify.Suspend t false)).
Proof.
  intros (x & [d|d]); [|now apply since_step].
  unfold Notify.step. cbn [negb orb]. cbn [Notify.last_suspend Notify.request Notify.set_susp].
  destruct (Z.ltb_spec (Notify.last_suspend n) (Notify.request n)); [|lia].
  destruct x as (e & E). exists (Notify.Stopped t :: e). cbn. rewrite E. split; [reflexivity|].
  exists (Notify.Stopped t). split; [now left|now exists t].
Qed.

(** Which threads are told as suspended. *)
Lemma nodup_step n o : NoDup (keys (Notify.suspended n)) -> NoDup (keys (Notify.suspended (Notify.step n o))).
Proof.
  intros h. destruct o as [| |g|t p|t]; unfold Notify.step; try exact h.
  - destruct (existsb _ _); [|exact h]. destruct (Notify.suspended n) as [|[t u] d] eqn:E; [now rewrite E|].
    destruct (Z.ltb _ _); cbn; rewrite E; exact h.
  - destruct (negb p || Notify.pause n); [destruct (Z.ltb _ _)|]; cbn; apply (NoDup_keys_set N.eqb N.eqb_spec), h.
  - destruct (mem _ _ _); [|exact h]. destruct (Z.ltb _ _); cbn; apply NoDup_keys_del, h.
Qed.

Lemma nodup_run ops : NoDup (keys (Notify.suspended (Notify.run ops))).
Proof.
  unfold Notify.run. assert (h : NoDup (keys (Notify.suspended Notify.init))) by constructor.
  revert h. generalize Notify.init. induction ops as [|o ops IH]; intros n h; [exact h|]. cbn [fold_left]. apply IH, nodup_step, h.
Qed.

Lemma told_step n o t : NoDup (keys (Notify.suspended n)) -> mem N.eqb t (Notify.suspended (Notify.step n o)) =
  match o with
  | Notify.Suspend u _ => if N.eqb t u then true else mem N.eqb t (Notify.suspended n)
  | Notify.Resume u => if N.eqb t u then false else mem N.eqb t (Notify.suspended n)
  | _ => mem N.eqb t (Notify.suspended n)
  end.
Proof.
  intros h. destruct o as [| |g|u p|u]; unfold Notify.step; try reflexivity.
  - destruct (existsb _ _); [|reflexivity]. destruct (Notify.suspended n) as [|[v x] d] eqn:E; [now rewrite E|].
    destruct (Z.ltb _ _); cbn; rewrite E; reflexivity.
  - assert (H : mem N.eqb t (set N.eqb u tt (Notify.suspended n)) = if N.eqb t u then true else mem N.eqb t (Notify.suspended n)).
    { unfold mem. rewrite (get_set N.eqb N.eqb_spec). destruct (N.eqb t u); reflexivity. }
    destruct (negb p || Notify.pause n); [destruct (Z.ltb _ _)|]; exact H.
  - assert (H : mem N.eqb t (del N.eqb u (Notify.suspended n)) = if N.eqb t u then false else mem N.eqb t (Notify.suspended n)).
    { unfold mem. rewrite (get_del N.eqb N.eqb_spec) by exact h. destruct (N.eqb t u); reflexivity. }
    destruct (mem N.eqb u (Notify.suspended n)) eqn:E; [destruct (Z.ltb _ _); exact H|].
    destruct (N.eqb_spec t u) as [->|]; [exact E|reflexivity].
Qed.

(** ** The invariant *)

Definition over (c : cbpc) : bool := match c with CbDone => true | _ => false end.
Definition begun (c : cbpc) : bool := match c with CbWait | CbIn => false | _ => true end.
Definition ended (e : evpc) : bool := match e with EvEnd => true | _ => false end.

Definition inv (w : world) (s : state) : Prop :=
  nok (ntf (bd s)) /\ NoDup (keys (Notify.suspended (ntf (bd s)))) /\
  (forall t, t <> curr w -> told s t = inside (ph (bd s) t)) /\
  (if ended (ev s) then told s (curr w) = inside (ph (bd s) (curr w))
   else ph (bd s) (curr w) = Inside /\ told s (curr w) = negb (over (cb s))) /\
  err (bd s) = false /\
  called s = begun (cb s) /\
  (ev s <> EvRun -> (cb s = CbWait \/ cb s = CbDone) /\ disposed s = true) /\
  (locked (ev s) = true -> cb s = CbDone).

Ltac sp := repeat match goal with |- _ /\ _ => split end; try assumption.

Lemma fold_mark_inv w main l : forall b, ph (fold_left (suspend_one w main) l b) = ph b /\
  ntf (fold_left (suspend_one w main) l b) = ntf b /\ err (fold_left (suspend_one w main) l b) = err b.
Proof.
  induction l as [|t l IH]; intros b; [repeat split|]. cbn [fold_left].
  destruct (IH (suspend_one w main b t)) as (a & c & d). rewrite a, c, d.
  unfold suspend_one. destruct (_ || _); repeat split.
Qed.

Lemma fold_resume_inv l : forall b, ph (fold_left resume_one l b) = ph b /\
  ntf (fold_left resume_one l b) = ntf b /\ err (fold_left resume_one l b) = err b.
Proof. induction l as [|t l IH]; intros b; [repeat split|]. cbn [fold_left]. apply (IH (resume_one b t)). Qed.

Lemma inv_start w s : start w s -> inv w s.
Proof.
  intros (h1 & h2 & h3 & h4 & h5 & h6 & h7 & ops & h8). unfold inv. rewrite h1, h2, h3. cbn [ended over begun locked negb].
  sp; auto; try discriminate; try congruence.
  - rewrite h8. apply nok_run.
  - rewrite h8. apply nodup_run.
  - rewrite h7, h6. reflexivity.
Qed.

Ltac sf := cbn [bd called disposed cb ev ph run reason ntf err with_bd set_ph set_run notify mark resumed suspended resume_one
                ended over begun locked inside negb].

Lemma upd_same {A} (f : N -> A) t x : upd f t x t = x.
Proof. unfold upd. now rewrite N.eqb_refl. Qed.
Lemma upd_other {A} (f : N -> A) t x u : u <> t -> upd f t x u = f u.
Proof. intros h. unfold upd. now destruct (N.eqb_spec u t). Qed.

Lemma eqb_neq t u : t <> u -> N.eqb t u = false.
Proof. now destruct (N.eqb_spec t u). Qed.

Lemma inv_step w s o : (o = EvNext -> ev s = EvRun -> cb s = CbWait \/ cb s = CbDone) -> inv w s -> inv w (step w s o).
Proof.
  intros ap hi. pose proof hi as (h1 & h2 & h3 & h4 & h5 & h6 & h7 & h8).
  destruct o as [| | |t|t|t|t|t r| |o]; cbn [step].
  - (* CbStart *) destruct (cb s) eqn:C; try exact hi.
    destruct (disposed s) eqn:D; [exact hi|].
    assert (E : ev s = EvRun) by (destruct (ev s); try reflexivity; destruct h7 as (_ & h7); discriminate).
    unfold inv. sf. rewrite E in *. cbn [ended locked over begun negb] in *. sp; auto; try tauto; discriminate.
  - (* CbNext *) destruct (cb s) as [| |[|t r]| |] eqn:C; try exact hi.
    all: assert (E : ev s = EvRun) by (destruct (ev s); try reflexivity; destruct h7 as ([h7|h7] & _); discriminate).
    all: unfold inv; sf; rewrite E in *; cbn [ended locked over begun negb] in *.
    1, 2: sp; auto; try tauto; discriminate.
    + destruct (N.eqb t (curr w)); sf; sp; auto; try tauto; discriminate.
    + destruct h4 as (h4a & h4b). sp; auto; try tauto; try discriminate.
      * now apply nok_step. * now apply nodup_step.
      * intros t n. rewrite told_step, eqb_neq by auto. now apply h3.
      * rewrite told_step, N.eqb_refl by auto. reflexivity.
      * rewrite h5, h4b. reflexivity.
  - (* EvNext *) destruct (ev s) as [| | | |[|t r]| |] eqn:E; try exact hi.
    all: unfold inv; sf; cbn [ended locked over begun negb] in *.
    + sp; try tauto; try apply h1; auto. all: discriminate.
    + destruct h7 as ([C|C] & D); [discriminate| |]; rewrite C in *; cbn [begun over negb] in *; rewrite h6; cbn [ended locked].
      * destruct h4 as (h4a & h4b). rewrite h4a, h4b. sp; auto; try apply h1; try discriminate.
      * destruct h4 as (h4a & h4b). sp; auto; try apply h1.
    + destruct h4 as (h4a & h4b). sp; auto; try apply h1. all: intros _; apply h7; discriminate.
    + destruct h4 as (h4a & h4b). sp; auto; try (apply nok_step, h1). all: intros _; apply h7; discriminate.
    + destruct h4 as (h4a & h4b). sp; auto; try apply h1. all: intros _; apply h7; discriminate.
    + destruct h4 as (h4a & h4b). unfold suspend_one. destruct (_ || _); sf; sp; auto; try apply h1. all: intros _; apply h7; discriminate.
    + destruct h4 as (h4a & h4b). rewrite h4a. cbn [inside]. sp; auto; try (apply nok_step, h1).
      * now apply nodup_step.
      * intros t n. rewrite told_step, eqb_neq by auto. now apply h3.
      * rewrite told_step, N.eqb_refl by auto. reflexivity.
      * intros _; apply h7; discriminate.
  - (* See *) destruct (ph (bd s) t) eqn:P; try exact hi.
    destruct (free w s t) eqn:F; cbn [andb]; [|exact hi]. destruct (negb (run (bd s) t)); [|exact hi].
    unfold inv; sf. sp; try apply h1; auto; try (apply h7; assumption).
    + intros u n. rewrite h3 by exact n. destruct (N.eqb_spec u t) as [->|m]; [now rewrite upd_same, P|now rewrite upd_other].
    + unfold free in F. destruct (ev s); cbn [ended] in *; rewrite ?orb_true_r, ?orb_false_r in F.
      all: try (destruct (N.eqb_spec t (curr w)); [discriminate|rewrite upd_other by congruence; exact h4]).
      destruct (N.eqb_spec (curr w) t) as [e|m]; [rewrite e in *; rewrite upd_same, h4, P; reflexivity|now rewrite upd_other].
  - (* Enter *) destruct (ph (bd s) t) eqn:P; try exact hi.
    unfold inv; sf. sp; try (apply nok_step, h1). 1: now apply nodup_step. all: auto; try (apply h7; assumption).
    + intros u n. rewrite told_step by exact h2. destruct (N.eqb_spec u t) as [->|m]; [now rewrite upd_same|rewrite upd_other by exact m; now apply h3].
    + destruct (N.eqb_spec (curr w) t) as [e|m].
      * rewrite e in *. destruct (ended (ev s)); [|destruct h4; congruence].
        rewrite told_step, N.eqb_refl, upd_same by exact h2. reflexivity.
      * rewrite upd_other, told_step, eqb_neq by auto. exact h4.
  - (* Leave *) destruct (ph (bd s) t) eqn:P; try exact hi.
    destruct (free w s t) eqn:F; cbn [andb]; [|exact hi]. destruct (run (bd s) t); [|exact hi].
    unfold inv; sf. sp; try apply h1; auto; try (apply h7; assumption).
    + intros u n. rewrite h3 by exact n. destruct (N.eqb_spec u t) as [->|m]; [now rewrite upd_same, P|now rewrite upd_other].
    + unfold free in F. destruct (ev s); cbn [ended] in *; rewrite ?orb_true_r, ?orb_false_r in F.
      all: try (destruct (N.eqb_spec t (curr w)); [discriminate|rewrite upd_other by congruence; exact h4]).
      destruct (N.eqb_spec (curr w) t) as [e|m]; [rewrite e in *; rewrite upd_same, h4, P; reflexivity|now rewrite upd_other].
  - (* Left *) destruct (ph (bd s) t) eqn:P; try exact hi.
    assert (M : told s t = true).
    { destruct (N.eqb_spec t (curr w)) as [->|m]; [|now rewrite h3, P]. destruct (ended (ev s)); [now rewrite h4, P|destruct h4; congruence]. }
    unfold inv; sf. sp; try (apply nok_step, h1). 1: now apply nodup_step. all: auto; try (apply h7; assumption).
    + intros u n. rewrite told_step by exact h2. destruct (N.eqb_spec u t) as [->|m]; [now rewrite upd_same|rewrite upd_other by exact m; now apply h3].
    + destruct (N.eqb_spec (curr w) t) as [e|m].
      * rewrite e in *. destruct (ended (ev s)); [|destruct h4; congruence].
        rewrite told_step, N.eqb_refl, upd_same by exact h2. reflexivity.
      * rewrite upd_other, told_step, eqb_neq by auto. exact h4.
    + rewrite h5, M. reflexivity.
  - (* Mark *) destruct (locked (ev s)) eqn:L; [exact hi|].
    destruct (fold_mark_inv w t (threads w) (mark (bd s) t r)) as (a & b & c).
    unfold inv; sf. rewrite a, b, c, L. sf. sp; try apply h1; auto; try (apply h7; assumption).
  - destruct (fold_resume_inv (threads w) (bd s)) as (a & b & c).
    unfold inv; sf. rewrite a, b, c. sp; try apply h1; auto; try (apply h7; assumption).
  - (* Other *) destruct o as [| |g|t p|t]; try exact hi.
    all: unfold inv; sf; sp; try (apply nok_step, h1); try now apply nodup_step; auto; try (apply h7; assumption).
    all: try (intros t n); rewrite told_step by exact h2; auto.
Qed.

Lemma exec_snoc w s l o : exec w s (l ++ [o]) = step w (exec w s l) o.
Proof. unfold exec. now rewrite fold_left_app. Qed.
Lemma exec_app w s a b : exec w s (a ++ b) = exec w (exec w s a) b.
Proof. unfold exec. apply fold_left_app. Qed.

Lemma apart_prefix w s l m : apart w s (l ++ m) -> apart w s l.
Proof. intros h a b e. apply (h a (b ++ m)). now rewrite e, <- app_assoc. Qed.

Lemma inv_exec w s l : start w s -> apart w s l -> inv w (exec w s l).
Proof.
  intros st. induction l as [|o l IH] using rev_ind; intros ap; [now apply inv_start|].
  rewrite exec_snoc. apply inv_step; [|apply IH; now apply apart_prefix in ap].
  intros -> e. now apply (ap l []).
Qed.

Lemma fold_mark_run w main t l : forall b, run b t = false -> run (fold_left (suspend_one w main) l b) t = false.
Proof.
  induction l as [|u l IH]; intros b h; [exact h|]. cbn [fold_left]. apply IH. unfold suspend_one.
  destruct (_ || _); [exact h|]. cbn [mark run]. unfold upd. now destruct (N.eqb t u).
Qed.

Lemma run_false w s o t : cb s = CbDone -> o <> Continue -> run (bd s) t = false -> run (bd (step w s o)) t = false.
Proof.
  intros c n h. destruct o as [| | |u|u|u|u|u r| |o]; cbn [step]; try congruence.
  - now rewrite c.
  - now rewrite c.
  - destruct (ev s) as [| | | |[|x y]| |]; sf; auto; [unfold upd; now destruct (N.eqb t (curr w))|].
    unfold suspend_one. destruct (_ || _); [exact h|]. sf. unfold upd. now destruct (N.eqb t x).
  - destruct (ph (bd s) u); try exact h. now destruct (_ && _).
  - now destruct (ph (bd s) u).
  - destruct (ph (bd s) u); try exact h. now destruct (_ && _).
  - now destruct (ph (bd s) u).
  - destruct (locked (ev s)); [exact h|]. sf. apply fold_mark_run. sf. unfold upd. now destruct (N.eqb t u).
  - now destruct o.
Qed.

Lemma ntf_step w s o : ntf (bd (step w s o)) = ntf (bd s) \/ exists o', ntf (bd (step w s o)) = Notify.step (ntf (bd s)) o'.
Proof.
  destruct o as [| | |u|u|u|u|u r| |o]; cbn [step].
  - left. destruct (cb s); try reflexivity. now destruct (disposed s).
  - destruct (cb s) as [| |[|t r]| |]; try (left; reflexivity); [left; sf; now destruct (N.eqb t (curr w))|right; eexists; reflexivity].
  - destruct (ev s) as [| | | |[|x y]| |]; try (left; reflexivity); [right; eexists; reflexivity| |right; eexists; reflexivity].
    left. sf. unfold suspend_one. now destruct (_ || _).
  - left. destruct (ph (bd s) u); try reflexivity. now destruct (_ && _).
  - destruct (ph (bd s) u); try (left; reflexivity). right. eexists. reflexivity.
  - left. destruct (ph (bd s) u); try reflexivity. now destruct (_ && _).
  - destruct (ph (bd s) u); try (left; reflexivity). right. eexists. reflexivity.
  - left. destruct (locked (ev s)); [reflexivity|]. sf. apply (fold_mark_inv w u (threads w) (mark (bd s) u r)).
  - left. sf. apply (fold_resume_inv (threads w) (bd s)).
  - destruct o; try (left; reflexivity); right; eexists; reflexivity.
Qed.

(** Everything is stopped. *)
Definition halted (w : world) (b : body) : Prop :=
  run b (curr w) = false /\ forall t, In t (threads w) -> dnt w t = false -> run b t = false.

Definition back (w : world) (e0 : list Notify.event) (s : state) : Prop :=
  cb s = CbDone /\ extends e0 (ntf (bd s)) /\
  match ev s with
  | EvRun => False
  | EvOut | EvMark => True
  | EvInc => run (bd s) (curr w) = false
  | EvSuspend r => run (bd s) (curr w) = false /\ due e0 (ntf (bd s)) /\
      exists d, threads w = d ++ r /\ forall t, In t d -> dnt w t = false -> run (bd s) t = false
  | EvNotify => halted w (bd s) /\ due e0 (ntf (bd s))
  | EvEnd => halted w (bd s) /\ since e0 is_stopped (ntf (bd s)) /\ ph (bd s) (curr w) = Inside
  end.

Lemma ev_step w s o : o <> EvNext -> ev (step w s o) = ev s.
Proof.
  intros n. destruct o as [| | |u|u|u|u|u r| |o]; cbn [step]; try congruence.
  - destruct (cb s); try reflexivity. now destruct (disposed s).
  - now destruct (cb s) as [| |[|t r]| |].
  - destruct (ph (bd s) u); try reflexivity. now destruct (_ && _).
  - now destruct (ph (bd s) u).
  - destruct (ph (bd s) u); try reflexivity. now destruct (_ && _).
  - now destruct (ph (bd s) u).
  - now destruct (locked (ev s)).
  - reflexivity.
  - now destruct o.
Qed.

Lemma cb_step w s o : o <> CbStart -> o <> CbNext -> cb (step w s o) = cb s.
Proof.
  intros n m. destruct o as [| | |u|u|u|u|u r| |o]; cbn [step]; try congruence.
  - now destruct (ev s) as [| | | |[|x y]| |].
  - destruct (ph (bd s) u); try reflexivity. now destruct (_ && _).
  - now destruct (ph (bd s) u).
  - destruct (ph (bd s) u); try reflexivity. now destruct (_ && _).
  - now destruct (ph (bd s) u).
  - now destruct (locked (ev s)).
  - reflexivity.
  - now destruct o.
Qed.

Lemma cb_done w s o : cb s = CbDone -> cb (step w s o) = CbDone.
Proof.
  intros h. destruct o; try (rewrite cb_step by discriminate; exact h); cbn [step]; now rewrite h.
Qed.

Lemma op_dec (o : op) : o = EvNext \/ o <> EvNext.
Proof. destruct o; [right|right|left|right..]; congruence. Qed.

Lemma ph_curr w s o : run (bd s) (curr w) = false -> ph (bd s) (curr w) = Inside -> ph (bd (step w s o)) (curr w) = Inside.
Proof.
  intros h p. destruct o as [| | |u|u|u|u|u r| |o]; cbn [step].
  - destruct (cb s); try exact p. now destruct (disposed s).
  - destruct (cb s) as [| |[|t r]| |]; try exact p. sf. now destruct (N.eqb t (curr w)).
  - destruct (ev s) as [| | | |[|x y]| |]; try exact p. sf. unfold suspend_one. now destruct (_ || _).
  - destruct (ph (bd s) u) eqn:P; try exact p. destruct (_ && _); [|exact p]. sf. rewrite upd_other by congruence. exact p.
  - destruct (ph (bd s) u) eqn:P; try exact p. sf. rewrite upd_other by congruence. exact p.
  - destruct (ph (bd s) u) eqn:P; try exact p. destruct (N.eqb_spec u (curr w)) as [->|m].
    + rewrite h, andb_false_r. exact p.
    + destruct (_ && _); [|exact p]. sf. rewrite upd_other by congruence. exact p.
  - destruct (ph (bd s) u) eqn:P; try exact p. sf. rewrite upd_other by congruence. exact p.
  - destruct (locked (ev s)); [exact p|]. sf. destruct (fold_mark_inv w u (threads w) (mark (bd s) u r)) as (-> & _). exact p.
  - sf. destruct (fold_resume_inv (threads w) (bd s)) as (-> & _). exact p.
  - destruct o; exact p.
Qed.

Lemma back_step w e0 s o : o <> Continue -> inv w s -> back w e0 s -> back w e0 (step w s o).
Proof.
  intros n hi (c & x & h). split; [now apply cb_done|].
  assert (x' : extends e0 (ntf (bd (step w s o)))).
  { destruct (ntf_step w s o) as [->|(o' & ->)]; [exact x|now apply extends_step]. }
  split; [exact x'|].
  assert (du : due e0 (ntf (bd s)) -> due e0 (ntf (bd (step w s o)))).
  { intros d. destruct (ntf_step w s o) as [->|(o' & ->)]; [exact d|apply due_step; [apply hi|exact d]]. }
  assert (si : since e0 is_stopped (ntf (bd s)) -> since e0 is_stopped (ntf (bd (step w s o)))).
  { intros d. destruct (ntf_step w s o) as [->|(o' & ->)]; [exact d|now apply since_step]. }
  pose proof (fun t => run_false w s o t c n) as rf.
  assert (ha : halted w (bd s) -> halted w (bd (step w s o))).
  { intros (a & b). split; [now apply rf|]. intros t i d. apply rf, b; auto. }
  destruct (op_dec o) as [->|m].
  - destruct hi as (h1 & h2 & h3 & h4 & h5 & h6 & h7 & h8).
    destruct (ev s) as [| | | |[|u r]| |] eqn:E; cbn [step] in *; rewrite ?E in *; sf; try exact h; try contradiction.
    + rewrite h6, c. exact I.
    + now rewrite upd_same.
    + split; [exact h|]. split.
      * split; [exact x'|]. left. destruct h1 as ((h1a & h1b) & _). unfold Notify.step. cbn [Notify.last_suspend Notify.request]. lia.
      * exists []. split; [reflexivity|intros t []].
    + destruct h as (h & d & ds & e & f). split; [|exact d]. split; [exact h|]. rewrite app_nil_r in e. now rewrite e.
    + destruct h as (h & d & ds & e & f). split; [now apply rf|]. split; [now apply du|].
      exists (ds ++ [u]). split; [now rewrite e, <- app_assoc|]. intros t i dn. apply in_app_or in i. destruct i as [i|[<-|[]]].
      * apply rf. now apply f.
      * destruct (N.eqb_spec u (curr w)) as [->|k]; [now apply rf|]. unfold suspend_one. rewrite dn, eqb_neq by exact k. sf. apply upd_same.
    + destruct h as (h & d). split; [exact h|]. split; [now apply due_told|apply h4].
  - rewrite ev_step by exact m. destruct (ev s); auto.
    + destruct h as (h & d & ds & e & f). split; [now apply rf|]. split; [now apply du|]. exists ds. split; [exact e|]. auto.
    + destruct h as (h & d). auto.
    + destruct h as (h & d & p). split; [auto|]. split; [auto|]. apply ph_curr; [exact (proj1 h)|exact p].
Qed.

Lemma back_exec w s a b : start w s -> apart w s (a ++ EvNext :: b) -> ev (exec w s a) = EvRun -> cb (exec w s a) = CbDone ->
  ~ In Continue b -> back w (sent (exec w s a)) (exec w s (a ++ EvNext :: b)).
Proof.
  intros st ap e c. replace (a ++ EvNext :: b) with ((a ++ [EvNext]) ++ b) in * by now rewrite <- app_assoc.
  induction b as [|o b IH] using rev_ind; intros n.
  - rewrite app_nil_r, exec_snoc. cbn [step]. rewrite e. split; [exact c|]. split; [now exists []|exact I].
  - rewrite app_assoc, exec_snoc. apply back_step.
    + intros ->. apply n. apply in_or_app. right. now left.
    + apply inv_exec; [exact st|]. rewrite app_assoc in ap. now apply apart_prefix in ap.
    + apply IH; [rewrite app_assoc in ap; now apply apart_prefix in ap|]. intros i. apply n, in_or_app. now left.
Qed.

(** ** Theorems *)

(** No KeyError is raised, and what is told agrees with the threads at the end. *)
Theorem no_key_error w s l : start w s -> apart w s l ->
  err (bd (exec w s l)) = false /\
  (ev (exec w s l) = EvEnd -> forall t, told (exec w s l) t = inside (ph (bd (exec w s l)) t)).
Proof.
  intros st ap. destruct (inv_exec w s l st ap) as (h1 & h2 & h3 & h4 & h5 & h6 & h7 & h8). split; [exact h5|].
  intros e t. destruct (N.eqb_spec t (curr w)) as [->|n]; [now rewrite e in h4|now apply h3].
Qed.

(** If the callback was run then in the end all threads are to be stopped again and the client is told of a new stop. *)
Theorem stopped_again w s a b : start w s -> apart w s (a ++ EvNext :: b) ->
  ev (exec w s a) = EvRun -> cb (exec w s a) = CbDone -> ~ In Continue b ->
  let f := exec w s (a ++ EvNext :: b) in ev f = EvEnd ->
  (forall t, In t (threads w) -> dnt w t = false -> run (bd f) t = false) /\
  run (bd f) (curr w) = false /\ ph (bd f) (curr w) = Inside /\ told f (curr w) = true /\
  exists e, sent f = e ++ sent (exec w s a) /\ exists t, In (Notify.Stopped t) e.
Proof.
  intros st ap e c n f E. destruct (back_exec w s a b st ap e c n) as (_ & _ & h). fold f in h. rewrite E in h.
  destruct h as ((h1 & h2) & (x & X & y & i & t & ->) & p). split; [exact h2|]. split; [exact h1|]. split; [exact p|]. split.
  - destruct (no_key_error w s _ st ap) as (_ & k). fold f in k. rewrite k, p by exact E. reflexivity.
  - exists x. split; [exact X|]. now exists t.
Qed.

Lemma waiting_before w s o : cb (step w s o) = CbWait -> cb s = CbWait.
Proof.
  destruct o; try (rewrite cb_step by discriminate; auto); cbn [step].
  - destruct (cb s) eqn:C; cbn [cb]; congruence.
  - destruct (cb s) as [| |[|t r]| |] eqn:C; cbn [cb]; congruence.
Qed.

Lemma waiting_prefix w s p q : cb (exec w s (p ++ q)) = CbWait -> cb (exec w s p) = CbWait.
Proof.
  induction q as [|o q IH] using rev_ind; intros h; [now rewrite app_nil_r in h|].
  rewrite app_assoc, exec_snoc in h. apply IH. now apply waiting_before in h.
Qed.

Definition quiet (s : state) : Prop :=
  cb s = CbWait /\ called s = false /\ (ev s = EvRun \/ (disposed s = true /\ (ev s = EvOut \/ ev s = EvEnd))).

Lemma called_step w s o : o <> CbNext -> called (step w s o) = called s.
Proof.
  intros n. destruct o as [| | |u|u|u|u|u r| |o]; cbn [step]; try congruence.
  - destruct (cb s); try reflexivity. now destruct (disposed s).
  - now destruct (ev s) as [| | | |[|x y]| |].
  - destruct (ph (bd s) u); try reflexivity. now destruct (_ && _).
  - now destruct (ph (bd s) u).
  - destruct (ph (bd s) u); try reflexivity. now destruct (_ && _).
  - now destruct (ph (bd s) u).
  - now destruct (locked (ev s)).
  - reflexivity.
  - now destruct o.
Qed.

Lemma disposed_step w s o : disposed s = true -> disposed (step w s o) = true.
Proof.
  intros h. destruct o as [| | |u|u|u|u|u r| |o]; cbn [step].
  - destruct (cb s); try exact h. now rewrite h.
  - now destruct (cb s) as [| |[|t r]| |].
  - now destruct (ev s) as [| | | |[|x y]| |].
  - destruct (ph (bd s) u); try exact h. now destruct (_ && _).
  - now destruct (ph (bd s) u).
  - destruct (ph (bd s) u); try exact h. now destruct (_ && _).
  - now destruct (ph (bd s) u).
  - now destruct (locked (ev s)).
  - exact h.
  - now destruct o.
Qed.

Lemma quiet_step w s o : quiet s -> cb (step w s o) = CbWait -> quiet (step w s o).
Proof.
  intros (c & a & e) h. split; [exact h|]. split.
  - destruct o; try (rewrite called_step by discriminate; exact a). cbn [step]. now rewrite c.
  - destruct (op_dec o) as [->|m].
    + cbn [step]. right. destruct e as [e|(d & [e|e])]; rewrite e; sf; rewrite ?a, ?e; auto.
    + rewrite ev_step by exact m. destruct e as [e|(d & e)]; [now left|right]. split; [now apply disposed_step|exact e].
Qed.

Lemma quiet_exec w s l : start w s -> cb (exec w s l) = CbWait -> quiet (exec w s l).
Proof.
  intros st. induction l as [|o l IH] using rev_ind; intros h.
  - destruct st as (h1 & h2 & h3 & _). unfold exec. cbn [fold_left]. split; [exact h2|]. split; [exact h3|now left].
  - rewrite exec_snoc in *. apply quiet_step; [|exact h]. apply IH. now apply waiting_before in h.
Qed.

(** An evaluation which ends before the callback begins: it is never run, and none of the steps of the evaluation
    changes anything which others see. *)
Theorem quick_silent w s a b : start w s -> ev (exec w s a) = EvRun -> cb (exec w s a) = CbWait ->
  cb (exec w s (a ++ EvNext :: b)) = CbWait /\
  forall p q o, a ++ EvNext :: b = p ++ o :: q -> own o -> bd (step w (exec w s p) o) = bd (exec w s p).
Proof.
  intros st e c.
  assert (H : cb (exec w s (a ++ EvNext :: b)) = CbWait).
  { replace (a ++ EvNext :: b) with ((a ++ [EvNext]) ++ b) by now rewrite <- app_assoc.
    cut (cb (exec w s ((a ++ [EvNext]) ++ b)) = CbWait /\ disposed (exec w s ((a ++ [EvNext]) ++ b)) = true); [tauto|].
    induction b as [|o b (IH & D)] using rev_ind.
    - rewrite app_nil_r, exec_snoc. cbn [step]. rewrite e. now split.
    - rewrite app_assoc, exec_snoc. split; [|now apply disposed_step].
      destruct o; try (rewrite cb_step by discriminate; exact IH); cbn [step]; rewrite IH; [now rewrite D|exact IH]. }
  split; [exact H|]. intros p q o E O.
  assert (W : cb (exec w s p) = CbWait) by (rewrite E in H; now apply waiting_prefix in H).
  destruct (quiet_exec w s p st W) as (c1 & a1 & e1).
  destruct O as [->|[->| ->]]; cbn [step].
  - rewrite W. now destruct (disposed _).
  - now rewrite W.
  - destruct e1 as [->|(_ & [->| ->])]; reflexivity.
Qed.

(** When the callback is done and nobody else has stopped the threads in the meantime, all the other threads are to
    run, and the client is told that they do if it had been told of a stop. *)
Lemma run_true w s o t : t <> curr w -> o <> EvNext -> (forall u r, o <> Mark u r) ->
  run (bd s) t = true -> run (bd (step w s o)) t = true.
Proof.
  intros n m k h. destruct o as [| | |u|u|u|u|u r| |o]; cbn [step]; try congruence.
  - destruct (cb s); try exact h. now destruct (disposed s).
  - destruct (cb s) as [| |[|u r]| |]; try exact h. sf. destruct (N.eqb u (curr w)); [exact h|]. sf. unfold upd. now destruct (N.eqb t u).
  - destruct (ph (bd s) u); try exact h. now destruct (_ && _).
  - now destruct (ph (bd s) u).
  - destruct (ph (bd s) u); try exact h. now destruct (_ && _).
  - now destruct (ph (bd s) u).
  - sf. generalize (threads w). intros l. revert h. generalize (bd s). induction l as [|u l IH]; intros b h; [exact h|].
    cbn [fold_left]. apply IH. sf. unfold upd. now destruct (N.eqb t u).
  - now destruct o.
Qed.

Definition going (w : world) (e0 : list Notify.event) (s : state) : Prop :=
  extends e0 (ntf (bd s)) /\
  ((Notify.last_resume (ntf (bd s)) < Notify.last_suspend (ntf (bd s)))%Z \/ since e0 is_continued (ntf (bd s))) /\
  match cb s with
  | CbWait => False
  | CbIn => True
  | CbResume r => exists d, threads w = d ++ r /\ forall t, In t d -> t <> curr w -> run (bd s) t = true
  | CbNotify => forall t, In t (threads w) -> t <> curr w -> run (bd s) t = true
  | CbDone => (forall t, In t (threads w) -> t <> curr w -> run (bd s) t = true) /\ since e0 is_continued (ntf (bd s))
  end.

Lemma suspend_grows n o : nok n -> (Notify.last_suspend n <= Notify.last_suspend (Notify.step n o))%Z.
Proof.
  intros _. destruct o as [| |g|t p|t]; unfold Notify.step; cbn [Notify.last_suspend]; try lia.
  - destruct (existsb _ _); [|lia]. destruct (Notify.suspended n) as [|[t u] d]; [lia|].
    destruct (Z.ltb_spec (Notify.last_suspend n) g); cbn; lia.
  - destruct (negb p || Notify.pause n); [|cbn; lia]. cbn [Notify.last_suspend Notify.request Notify.set_susp].
    destruct (Z.ltb_spec (Notify.last_suspend n) (Notify.request n)); cbn; lia.
  - destruct (mem _ _ _); [|lia]. destruct (Z.ltb _ _); cbn; lia.
Qed.

Lemma continued_step e0 n o : nok n -> extends e0 n ->
  ((Notify.last_resume n < Notify.last_suspend n)%Z \/ since e0 is_continued n) ->
  (Notify.last_resume (Notify.step n o) < Notify.last_suspend (Notify.step n o))%Z \/ since e0 is_continued (Notify.step n o).
Proof.
  intros ok x [d|d]; [|right; now apply since_step]. pose proof (suspend_grows n o ok) as g.
  destruct (events_step n o) as (e1 & E1 & _ & [h|(t & i)]); [left; lia|right].
  destruct x as (e & E). exists (e1 ++ e). rewrite E1, E, app_assoc. split; [reflexivity|].
  exists (Notify.Continued t). split; [apply in_or_app; now left|now exists t].
Qed.

Lemma going_step w e0 s o : o <> EvNext -> (forall u r, o <> Mark u r) -> ev s = EvRun -> inv w s -> going w e0 s -> going w e0 (step w s o).
Proof.
  intros n m e hi (x & c & h). pose proof hi as (h1 & h2 & h3 & h4 & h5 & h6 & h7 & h8). rewrite e in h4. cbn [ended] in h4.
  pose proof (fun t k => run_true w s o t k n m) as rt.
  split; [destruct (ntf_step w s o) as [->|(o' & ->)]; [exact x|now apply extends_step]|].
  split; [destruct (ntf_step w s o) as [->|(o' & ->)]; [exact c|now apply continued_step]|].
  assert (si : since e0 is_continued (ntf (bd s)) -> since e0 is_continued (ntf (bd (step w s o)))).
  { intros d. destruct (ntf_step w s o) as [->|(o' & ->)]; [exact d|now apply since_step]. }
  assert (D : o = CbStart \/ o = CbNext \/ (o <> CbStart /\ o <> CbNext)).
  { destruct o; auto; right; right; split; discriminate. }
  destruct D as [->|[->|(k1 & k2)]].
  - cbn [step] in *. destruct (cb s) eqn:C; rewrite ?C; try exact h. contradiction.
  - cbn [step] in *. destruct (cb s) as [| |[|t r]| |] eqn:C; sf; rewrite ?C; try exact h; try contradiction.
    + exists []. split; [reflexivity|intros t []].
    + destruct h as (d & E & h). rewrite app_nil_r in E. now rewrite E.
    + destruct h as (d & E & h). exists (d ++ [t]). split; [now rewrite E, <- app_assoc|]. intros u i k. apply in_app_or in i.
      destruct i as [i|[<-|[]]].
      * apply (rt u k), h; auto.
      * rewrite eqb_neq by exact k. sf. apply upd_same.
    + split; [exact h|]. destruct c as [c|c]; [|now apply since_step].
      unfold Notify.step. destruct h4 as (_ & h4). rewrite h4. cbn [over negb]. cbn [Notify.last_resume Notify.last_suspend Notify.set_susp].
      destruct (Z.ltb_spec (Notify.last_resume (ntf (bd s))) (Notify.last_suspend (ntf (bd s)))); [|lia].
      destruct x as (y & Y). exists (Notify.Continued (curr w) :: y). cbn. rewrite Y. split; [reflexivity|].
      exists (Notify.Continued (curr w)). split; [now left|now exists (curr w)].
  - rewrite cb_step by assumption. destruct (cb s); auto.
    + destruct h as (d & E & h). exists d. auto.
    + destruct h as (h & d). auto.
Qed.

Theorem let_go w s a b : start w s -> apart w s (a ++ b) ->
  cb (exec w s a) = CbIn -> ev (exec w s a) = EvRun -> ~ In EvNext b -> (forall t r, ~ In (Mark t r) b) ->
  (Notify.last_resume (ntf (bd (exec w s a))) < Notify.last_suspend (ntf (bd (exec w s a))))%Z ->
  let f := exec w s (a ++ b) in cb f = CbDone ->
  (forall t, In t (threads w) -> t <> curr w -> run (bd f) t = true) /\
  exists e, sent f = e ++ sent (exec w s a) /\ exists t, In (Notify.Continued t) e.
Proof.
  intros st ap c e n m k f C.
  assert (H : going w (sent (exec w s a)) f /\ ev f = EvRun).
  { subst f. clear C. revert ap n m. induction b as [|o b IH] using rev_ind; intros ap n m.
    - rewrite app_nil_r. split; [|exact e]. split; [now exists []|]. split; [now left|]. rewrite c. exact I.
    - rewrite app_assoc in ap. rewrite app_assoc, exec_snoc.
      assert (o1 : o <> EvNext) by (intros ->; apply n, in_or_app; right; now left).
      assert (o2 : forall t r, o <> Mark t r) by (intros t r ->; apply (m t r), in_or_app; right; now left).
      destruct IH as (g & e1); [now apply apart_prefix in ap|intros i; apply n, in_or_app; now left|intros t r i; apply (m t r), in_or_app; now left|].
      split; [|rewrite ev_step by exact o1; exact e1].
      apply going_step; auto. apply inv_exec; [exact st|now apply apart_prefix in ap]. }
  destruct H as ((_ & _ & h) & _). rewrite C in h. destruct h as (h & x & X & y & i & t & ->). split; [exact h|].
  exists x. split; [exact X|]. now exists t.
Qed.

(** ** Examples *)

(** Two threads stopped at a breakpoint of the first, which evaluates. *)
Definition w2 : world := World [1; 2]%N (fun _ => false) 1%N.
Definition n2 : Notify.state := Notify.run [Notify.Increment; Notify.Suspend 1 false; Notify.Suspend 2 true].
Definition b2 : body :=
  Body (fun _ => false) (fun t => if N.eqb t 1 then 107%Z else SUSPEND) (fun t => if N.eqb t 1 || N.eqb t 2 then Inside else Out) n2 false.
Definition s2 : state := State b2 false false CbWait EvRun.

Lemma start2 : start w2 s2.
Proof.
  unfold start, s2. sf. split; [reflexivity|]. split; [reflexivity|]. split; [reflexivity|]. split; [reflexivity|].
  split; [reflexivity|]. split; [reflexivity|]. split.
  - intros t. unfold b2. sf. replace (Notify.suspended n2) with [(1%N, tt); (2%N, tt)] by reflexivity.
    unfold mem, get. destruct (N.eqb t 1); [reflexivity|]. destruct (N.eqb t 2); reflexivity.
  - eexists. reflexivity.
Qed.

Definition callback : list op := [CbStart; CbNext; CbNext; CbNext; CbNext; CbNext].
Definition finish : list op := [EvNext; EvNext; EvNext; EvNext; EvNext; EvNext; EvNext].

(** The callback is run, the other thread goes on, and both are stopped again: three events are sent. *)
Definition slow : list op := callback ++ [Leave 2%N; Left 2%N] ++ EvNext :: finish ++ [See 2%N; Enter 2%N].
Example slow_case :
  let f := exec w2 s2 slow in
  ev f = EvEnd /\ run (bd f) 1%N = false /\ run (bd f) 2%N = false /\ ph (bd f) 2%N = Inside /\ err (bd f) = false /\
  sent f = [Notify.Stopped 1; Notify.Continued 1; Notify.Stopped 1]%N.
Proof. vm_compute. repeat split. Qed.

Fixpoint apartb (w : world) (s : state) (l : list op) : bool :=
  match l with
  | [] => true
  | o :: r =>
      match o, ev s, cb s with
      | EvNext, EvRun, (CbIn | CbResume _ | CbNotify) => false
      | _, _, _ => apartb w (step w s o) r
      end
  end.

Lemma apartb_ok w l : forall s, apartb w s l = true -> apart w s l.
Proof.
  induction l as [|o l IH]; intros s h a b E e; [destruct a; discriminate|].
  assert (R : apartb w (step w s o) l = true).
  { cbn [apartb] in h. destruct o; try exact h. destruct (ev s); try exact h. destruct (cb s); try exact h; discriminate. }
  destruct a as [|x a].
  - injection E as -> ->. change (exec w s []) with s in *. cbn [apartb] in h. rewrite e in h.
    destruct (cb s); auto; discriminate.
  - injection E as -> ->. exact (IH (step w s x) R a b eq_refl e).
Qed.

Lemma apart_slow : apart w2 s2 slow.
Proof. apply apartb_ok. reflexivity. Qed.

Example slow_stopped : let f := exec w2 s2 slow in
  (forall t, In t (threads w2) -> run (bd f) t = false) /\ told f 1%N = true /\
  exists e, sent f = e ++ sent (exec w2 s2 (callback ++ [Leave 2%N; Left 2%N])) /\ exists t, In (Notify.Stopped t) e.
Proof.
  destruct (stopped_again w2 s2 (callback ++ [Leave 2%N; Left 2%N]) (finish ++ [See 2%N; Enter 2%N]) start2) as (h1 & _ & _ & h2 & h3).
  - exact apart_slow.
  - reflexivity.
  - reflexivity.
  - cbn. intuition discriminate.
  - reflexivity.
  - split; [intros t i; now apply h1|]. split; [exact h2|exact h3].
Qed.

Example slow_let_go : let f := exec w2 s2 ([CbStart] ++ tl callback) in
  run (bd f) 2%N = true /\ exists e, sent f = e ++ sent s2 /\ exists t, In (Notify.Continued t) e.
Proof.
  destruct (let_go w2 s2 [CbStart] (tl callback) start2) as (h1 & h2).
  - apply apartb_ok. reflexivity.
  - reflexivity.
  - reflexivity.
  - cbn. intuition discriminate.
  - intros t r. cbn. intuition discriminate.
  - vm_compute. reflexivity.
  - reflexivity.
  - split; [apply h1; [right; now left|discriminate]|exact h2].
Qed.

(** A quick evaluation, and a callback which comes too late. *)
Example quick_case : exec w2 s2 (EvNext :: EvNext :: callback) = State b2 false true CbWait EvEnd.
Proof. reflexivity. Qed.

(** ** What does not hold *)

(** The end of the evaluation does not wait for a callback which has begun: the client can be told, last, that the
    threads run although the one which evaluated is stopped and remains so, while the other runs. *)
Theorem overlap_refuted : exists w s l, start w s /\
  let f := exec w s l in
  ev f = EvEnd /\ cb f = CbDone /\ hd_error (sent f) = Some (Notify.Continued (curr w)) /\
  run (bd f) (curr w) = false /\ ph (bd f) (curr w) = Inside /\ told f (curr w) = false /\
  exists t, In t (threads w) /\ run (bd f) t = true /\ dnt w t = false.
Proof.
  exists w2, s2, ([CbStart; CbNext] ++ EvNext :: finish ++ [CbNext; CbNext; CbNext; CbNext]).
  split; [exact start2|]. vm_compute. repeat split. exists 2%N. repeat split. now right; left.
Qed.

(** When it is continued afterwards a KeyError is raised in it. *)
Theorem overlap_error_refuted : exists w s l, start w s /\ err (bd (exec w s l)) = true /\ ev (exec w s l) = EvEnd /\
  err (bd (exec w s (removelast l))) = false /\ last l EvNext = Left (curr w).
Proof.
  exists w2, s2, ([CbStart; CbNext] ++ EvNext :: finish ++ [CbNext; CbNext; CbNext; CbNext] ++ [Continue; Leave 1%N; Left 1%N]).
  split; [exact start2|]. vm_compute. repeat split.
Qed.

(** A callback which has begun but not yet noted it: the threads are let go and never stopped again. *)
Theorem overlap_forgotten_refuted : exists w s l, start w s /\
  let f := exec w s l in
  ev f = EvEnd /\ cb f = CbDone /\ run (bd f) (curr w) = false /\ told f (curr w) = false /\
  sent f = Notify.Continued (curr w) :: sent s /\
  exists t, In t (threads w) /\ run (bd f) t = true /\ dnt w t = false.
Proof.
  exists w2, s2, ([CbStart] ++ EvNext :: EvNext :: tl callback).
  split; [exact start2|]. vm_compute. repeat split. exists 2%N. repeat split. now right; left.
Qed.

(** A continue of the client after the callback, while the evaluation goes on, is undone by its end: nothing else
    stops the threads. *)
Theorem continue_undone_refuted : exists w s a b, start w s /\ apart w s (a ++ Continue :: b) /\
  (forall o, In o (a ++ b) -> own o) /\ ev (exec w s a) = EvRun /\ run (bd (exec w s (a ++ [Continue]))) (curr w) = true /\
  let f := exec w s (a ++ Continue :: b) in
  ev f = EvEnd /\ forall t, In t (threads w) -> run (bd f) t = false.
Proof.
  exists w2, s2, callback, (EvNext :: finish).
  split; [exact start2|]. split.
  - apply apartb_ok. reflexivity.
  - split; [intros o i; cbn in i; unfold own; intuition congruence|]. split; [reflexivity|]. split; [reflexivity|].
    split; [reflexivity|]. intros t [<-|[<-|[]]]; reflexivity.
Qed.

(** The reason for which the thread stands is lost: it becomes a breakpoint. *)
Theorem reason_lost_refuted : exists w s l, start w s /\ apart w s l /\ ev (exec w s l) = EvEnd /\
  reason (bd s) (curr w) = 107%Z /\ reason (bd (exec w s l)) (curr w) = SET_BREAK.
Proof. exists w2, s2, slow. split; [exact start2|]. split; [exact apart_slow|]. repeat split. Qed.

Print Assumptions no_key_error.
Print Assumptions stopped_again.
Print Assumptions quick_silent.
Print Assumptions let_go.
Print Assumptions overlap_refuted.
Print Assumptions overlap_error_refuted.
Print Assumptions overlap_forgotten_refuted.
Print Assumptions continue_undone_refuted.
Print Assumptions reason_lost_refuted.
