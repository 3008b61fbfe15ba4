(** C33: after a thread is resumed or stepped, the stepping threads are exactly the known live threads that are stepping;
    the resumed thread is woken if no other thread is known. *)
From Coq Require Import List NArith ZArith Bool Lia Permutation.
From Verif Require Import StepInfo.
Import ListNotations.

(** ** Specification *)
(** What may happen: a thread becomes known or forgotten, its attributes change (it starts, ends, is collected, enters or
    leaves the wait loop), the user resumes or steps it, or it updates the information itself *)
Inductive op :=
| Known (i : N) | Forgotten (i : N) | Change (i : N) (a : attrs)
| Resume (i : N) (cmd : Z) (o1 o2 : list N) | Update (i : N) (o1 o2 : list N).
Definition exec (s : state) (o : op) : state :=
  match o with
  | Known i => add s i
  | Forgotten i => remove s i
  | Change i a => with_info s i a
  | Resume i cmd o1 o2 => resume s i cmd o1 o2
  | Update i o1 o2 => update s i o1 o2
  end.
(** The iteration orders are orders of the sets. *)
Definition orders (s : state) (o : op) : Prop :=
  match o with
  | Resume i cmd o1 o2 =>
      let a := info s i in
      let s := with_info s i (Attrs (notify_kill a) (collected a) (alive a) false cmd (in_wait a)) in
      Permutation o1 (all s) /\ Permutation o2 (keep s o1)
  | Update i o1 o2 => Permutation o1 (all s) /\ Permutation o2 (keep s o1)
  | _ => True
  end.
Inductive reach (f : N -> attrs) : list op -> state -> Prop :=
| reach_init : reach f [] (State f [] [] [])
| reach_step : forall h s o, reach f h s -> orders s o -> reach f (h ++ [o]) (exec s o).

(** A thread that ended, or was killed, is dead; a dead thread stays dead. *)
Definition dead (a : attrs) : bool := notify_kill a || negb (collected a || alive a).
(** The attributes after a history *)
Definition attrs_after (f : N -> attrs) (h : list op) (i : N) : attrs :=
  fold_left (fun a o => match o with
                        | Change j b => if N.eqb i j then b else a
                        | Resume j cmd _ _ => if N.eqb i j then Attrs (notify_kill a) (collected a) (alive a) false cmd (in_wait a) else a
                        | _ => a
                        end) h (f i).
Definition stays_dead (f : N -> attrs) (h : list op) : Prop := forall h1 h2 h3 i, h = h1 ++ h2 ++ h3 ->
  dead (attrs_after f h1 i) = true -> dead (attrs_after f (h1 ++ h2) i) = true.
(** Known and not forgotten *)
Definition known (h : list op) (i : N) : bool :=
  fold_left (fun b o => match o with Known j => if N.eqb i j then true else b | Forgotten j => if N.eqb i j then false else b | _ => b end) h false.
(** A thread is stepping: it runs with a step command or is suspended in the wait loop *)
Definition steps (a : attrs) : Prop := (suspended a = false /\ step_cmd a <> (-1)%Z) \/ (suspended a = true /\ in_wait a = true).

Lemma is_stepping_spec a : is_stepping a = true <-> steps a.
Proof.
  unfold is_stepping, steps. destruct (suspended a), (in_wait a); cbn [negb andb orb]; destruct (Z.eqb_spec (step_cmd a) (-1));
    cbn [negb orb]; split; intro H; try discriminate; try reflexivity; auto; destruct H as [[A B]|[A B]]; congruence.
Qed.
Lemma related_dead a : related a = negb (dead a).
Proof. unfold related, dead. destruct (notify_kill a), (collected a), (alive a); reflexivity. Qed.

Lemma attrs_app f h o i : attrs_after f (h ++ [o]) i =
  match o with
  | Change j b => if N.eqb i j then b else attrs_after f h i
  | Resume j cmd _ _ => let a := attrs_after f h i in if N.eqb i j then Attrs (notify_kill a) (collected a) (alive a) false cmd (in_wait a) else a
  | _ => attrs_after f h i
  end.
Proof. unfold attrs_after. rewrite fold_left_app. destruct o; reflexivity. Qed.
Lemma known_app h o i : known (h ++ [o]) i =
  match o with Known j => if N.eqb i j then true else known h i | Forgotten j => if N.eqb i j then false else known h i | _ => known h i end.
Proof. unfold known. rewrite fold_left_app. destruct o; reflexivity. Qed.

Lemma reach_info f h s : reach f h s -> forall i, info s i = attrs_after f h i.
Proof.
  induction 1 as [|h s o R IH O]; intro i; [reflexivity|]. rewrite attrs_app. destruct o; cbn [exec]; try exact (IH i).
  - cbn [with_info info]. rewrite <- IH. reflexivity.
  - unfold resume, update. cbn [info with_info]. rewrite <- !IH. destruct (N.eqb_spec i i0); [subst|]; reflexivity.
Qed.

(** The known set: every known thread is there unless it is dead, and nothing else *)
Lemma reach_all f h s : reach f h s -> stays_dead f h ->
  forall i, (In i (all s) -> known h i = true) /\ (known h i = true -> dead (attrs_after f h i) = false -> In i (all s)).
Proof.
  induction 1 as [|h s o R IH O]; intros SD i; [split; [intros [] | discriminate]|].
  assert (SD' : stays_dead f h).
  { intros h1 h2 h3 j E D. apply (SD h1 h2 (h3 ++ [o]) j); [|exact D]. rewrite E, <- !app_assoc. reflexivity. }
  assert (Before : dead (attrs_after f (h ++ [o]) i) = false -> dead (attrs_after f h i) = false).
  { intro X. destruct (dead (attrs_after f h i)) eqn:D; [|reflexivity].
    pose proof (SD h [o] [] i) as Y. rewrite app_nil_r in Y. rewrite (Y eq_refl D) in X. discriminate. }
  destruct (IH SD' i) as [A B]. rewrite known_app.
  assert (Upd : forall s1 p o1 o2, all s1 = all s -> dead (info s1 i) = dead (attrs_after f (h ++ [o]) i) ->
            Permutation o1 (all s1) -> Permutation o2 (keep s1 o1) ->
            (In i (all (update s1 p o1 o2)) -> known h i = true)
            /\ (known h i = true -> dead (attrs_after f (h ++ [o]) i) = false -> In i (all (update s1 p o1 o2)))).
  { intros s1 p o1 o2 E1 E2 P1 P2. cbn [update all].
    assert (X : In i o2 <-> In i (all s) /\ dead (attrs_after f (h ++ [o]) i) = false).
    { rewrite <- E1, <- E2. split; intro H.
      - apply (Permutation_in _ P2) in H. unfold keep in H. apply filter_In in H. destruct H as [H1 H2].
        rewrite related_dead, negb_true_iff in H2. split; [apply (Permutation_in _ P1), H1 | exact H2].
      - apply (Permutation_in _ (Permutation_sym P2)). apply filter_In. destruct H as [H1 H2]. split; [apply (Permutation_in _ (Permutation_sym P1)), H1|].
        rewrite related_dead, H2. reflexivity. }
    rewrite X. split; [intros [H _]; apply A, H | intros H D; auto]. }
  destruct o as [j|j|j a|j cmd o1 o2|j o1 o2]; cbn [exec] in *.
  - cbn [add all]. destruct (N.eqb_spec i j) as [<-|Hij].
    + split; [reflexivity|]. intros _ _. destruct (existsb (N.eqb i) (all s)) eqn:E; [|apply in_or_app; right; left; reflexivity].
      apply existsb_exists in E. destruct E as (k & Hk & E). apply N.eqb_eq in E. subst. exact Hk.
    + assert (X : In i (if existsb (N.eqb j) (all s) then all s else all s ++ [j]) <-> In i (all s)).
      { destruct (existsb _ _); [reflexivity|]. rewrite in_app_iff. cbn. intuition congruence. }
      rewrite X. split; [exact A|]. intros K D. exact (B K (Before D)).
  - cbn [remove all]. unfold discard. rewrite filter_In. destruct (N.eqb_spec i j) as [<-|Hij].
    + split; [|discriminate]. cbn [negb]. intros [_ H]. discriminate.
    + cbn [negb]. split; [intros [H _]; exact (A H)|]. intros K D. split; [exact (B K (Before D)) | reflexivity].
  - cbn [with_info all]. split; [exact A|]. intros K D. exact (B K (Before D)).
  - destruct O as [P1 P2]. unfold resume. apply Upd; auto.
    cbn [with_info info]. rewrite attrs_app. cbv zeta. rewrite (reach_info f h s R i), (reach_info f h s R j).
    destruct (N.eqb_spec i j); [subst|]; reflexivity.
  - destruct O as [P1 P2]. apply Upd; auto. rewrite (reach_info f h s R i), attrs_app. reflexivity.
Qed.

Definition updates (o : op) : option N := match o with Resume i _ _ _ | Update i _ _ => Some i | _ => None end.

(** The state in which the information is updated *)
Lemma update_form f h s o p : reach f h s -> orders s o -> updates o = Some p -> exists s1 o1 o2,
  exec s o = update s1 p o1 o2 /\ Permutation o1 (all s) /\ Permutation o2 (keep s1 o1) /\ woken s1 = woken s
  /\ forall i, info s1 i = attrs_after f (h ++ [o]) i.
Proof.
  intros R O U. destruct o as [j|j|j a|j cmd o1 o2|j o1 o2]; try discriminate; injection U as ->.
  - destruct O as [P1 P2]. eexists. exists o1, o2. split; [reflexivity|]. cbn [with_info all info woken] in *. repeat split; auto.
    intro i. rewrite attrs_app. cbv zeta. rewrite (reach_info f h s R i), (reach_info f h s R p). destruct (N.eqb_spec i p); [subst|]; reflexivity.
  - destruct O as [P1 P2]. exists s, o1, o2. repeat split; auto. intro i. rewrite attrs_app. apply (reach_info f h s R).
Qed.

(** ** Theorems *)

(** After a thread is resumed, stepped or updates the information, the stepping threads are exactly the known threads
    which are not dead and are stepping. *)
Theorem stepping_threads_exact : forall f h s o p, reach f h s -> stays_dead f h -> orders s o -> updates o = Some p ->
  forall i, In i (stepping (exec s o)) <->
    known h i = true /\ dead (attrs_after f (h ++ [o]) i) = false /\ steps (attrs_after f (h ++ [o]) i).
Proof.
  intros f h s o p R SD O U i. destruct (update_form f h s o p R O U) as (s1 & o1 & o2 & E & P1 & P2 & _ & A).
  destruct (reach_all f h s R SD i) as [K1 K2].
  assert (Dd : dead (attrs_after f (h ++ [o]) i) = dead (attrs_after f h i)).
  { rewrite attrs_app. destruct o; try discriminate; [|reflexivity]. cbv zeta. destruct (N.eqb i i0); reflexivity. }
  rewrite E. cbn [update stepping]. rewrite filter_In, is_stepping_spec, A. split.
  - intros [H S]. apply (Permutation_in _ P2) in H. unfold keep in H. apply filter_In in H. destruct H as [H1 H2].
    rewrite related_dead, negb_true_iff, A in H2. split; [apply K1, (Permutation_in _ P1), H1 | auto].
  - intros (K & D & S). split; [|exact S]. apply (Permutation_in _ (Permutation_sym P2)). apply filter_In. split.
    + apply (Permutation_in _ (Permutation_sym P1)), K2; [exact K | rewrite <- Dd; exact D].
    + rewrite related_dead, A, D. reflexivity.
Qed.

(** Resuming wakes at most one thread; when no other live thread is known, it is the resumed one. *)
Theorem resume_wakes : forall f h s o p, reach f h s -> stays_dead f h -> orders s o -> updates o = Some p ->
  (exists q, (woken (exec s o) = woken s ++ [q] \/ woken (exec s o) = woken s) /\ (q = p \/ known h q = true))
  /\ (known h p = true -> dead (attrs_after f h p) = false -> collected (attrs_after f (h ++ [o]) p) = false ->
      (forall i, known h i = true -> dead (attrs_after f h i) = false -> i = p) -> woken (exec s o) = woken s ++ [p]).
Proof.
  intros f h s o p R SD O U. destruct (update_form f h s o p R O U) as (s1 & o1 & o2 & E & P1 & P2 & W & A).
  assert (Dd : forall i, dead (attrs_after f (h ++ [o]) i) = dead (attrs_after f h i)).
  { intro i. rewrite attrs_app. destruct o; try discriminate; [|reflexivity]. cbv zeta. destruct (N.eqb i i0); reflexivity. }
  assert (Lk : forall l q, (forall i, In i l -> In i (all s)) -> (q = p \/ known h q = true) -> last_or q l = p \/ known h (last_or q l) = true).
  { intros l q Hl Hq. unfold last_or. destruct l as [|x l]; [exact Hq|]. right. apply (reach_all f h s R SD). apply Hl.
    assert (X : x :: l <> []) by discriminate. destruct (exists_last X) as (l' & y & Y). rewrite Y, last_last. rewrite Y in Hl.
    apply in_or_app. right. left. reflexivity. }
  assert (H2 : forall i, In i o2 -> In i (all s) /\ dead (attrs_after f h i) = false).
  { intros i H. apply (Permutation_in _ P2) in H. unfold keep in H. apply filter_In in H. destruct H as [H1 H2].
    rewrite related_dead, negb_true_iff, A, Dd in H2. split; [apply (Permutation_in _ P1), H1 | exact H2]. }
  split.
  - exists (last_or (last_or p o1) o2). split.
    + rewrite E. cbn [update woken]. rewrite W. destruct (collected _); [rewrite app_nil_r; right | left]; reflexivity.
    + apply Lk; [intros i H; apply H2, H|]. apply Lk; [|left; reflexivity]. intros i H. apply (Permutation_in _ P1), H.
  - intros K D C Only. rewrite E. cbn [update woken]. rewrite W, A.
    assert (L : last_or (last_or p o1) o2 = p).
    { assert (Hp : In p o2).
      { apply (Permutation_in _ (Permutation_sym P2)). apply filter_In. split.
        - apply (Permutation_in _ (Permutation_sym P1)). apply (reach_all f h s R SD p); assumption.
        - rewrite related_dead, A, Dd, D. reflexivity. }
      assert (X : o2 <> []) by (intros ->; exact Hp). destruct (exists_last X) as (l' & y & Y). unfold last_or. rewrite Y, last_last.
      destruct (H2 y) as [Hy1 Hy2]; [rewrite Y; apply in_or_app; right; left; reflexivity|]. apply Only; [|exact Hy2].
      apply (reach_all f h s R SD y), Hy1. }
    rewrite L, C. reflexivity.
Qed.

(** ** What fails *)
Definition running : attrs := Attrs false false true false (-1) false.
Definition waiting : attrs := Attrs false false true true (-1) true.
Definition f2 (i : N) : attrs := if N.eqb i 1 then waiting else running.
Lemma alive_stays f h : (forall i, dead (f i) = false) -> (forall i a, In (Change i a) h -> dead a = false) -> stays_dead f h.
Proof.
  intros H0 H. assert (G : forall h', incl h' h -> forall i, dead (attrs_after f h' i) = false).
  { induction h' as [|o h' IH] using rev_ind; intros I i; [apply H0|]. rewrite attrs_app.
    assert (X : dead (attrs_after f h' i) = false) by (apply IH; intros o' Ho; apply I, in_or_app; left; exact Ho).
    destruct o as [j|j|j a|j cmd o1 o2|j o1 o2]; auto.
    - destruct (N.eqb i j); [|exact X]. apply (H j a), I, in_or_app. right. left. reflexivity.
    - cbv zeta. destruct (N.eqb i j); exact X. }
  intros h1 h2 h3 i E D. rewrite G in D; [discriminate|]. rewrite E. intros o Ho. apply in_or_app. left. exact Ho.
Qed.
(** With two threads, the user resumes the one waiting: the event of the other one is set (the waiting thread goes on
    only when its wait times out). *)
Theorem resume_wakes_refuted : exists f h s o p, reach f h s /\ stays_dead f h /\ orders s o /\ updates o = Some p
  /\ (exists c o1 o2, o = Resume p c o1 o2) /\ known h p = true /\ info s p = waiting /\ exists q, q <> p /\ woken (exec s o) = woken s ++ [q].
Proof.
  exists f2, [Known 1; Known 2], (exec (exec (State f2 [] [] []) (Known 1)) (Known 2)), (Resume 1 (-1) [1; 2]%N [1; 2]%N), 1%N.
  split. { apply (reach_step f2 [Known 1]); [|exact I]. apply (reach_step f2 []); [constructor | exact I]. }
  split. { apply alive_stays; [intro i; unfold f2; destruct (N.eqb i 1); reflexivity|]. intros i a [A|[A|[]]]; discriminate. }
  split. { split; apply Permutation_refl. }
  split; [reflexivity|]. split; [eauto|]. split; [reflexivity|]. split; [reflexivity|]. exists 2%N. split; [discriminate | reflexivity].
Qed.
(** A thread that ended while it was stepping and whose object was collected counts as stepping for ever. *)
Theorem stepping_collected_refuted : exists f h s i, reach f h s /\ stays_dead f h /\ collected (info s i) = true /\ alive (info s i) = false
  /\ forall p o1 o2, orders s (Update p o1 o2) -> In i (stepping (exec s (Update p o1 o2))).
Proof.
  set (gone := Attrs false true false false 108 false).
  exists (fun _ => running), [Known 1; Change 1 gone], (exec (exec (State (fun _ => running) [] [] []) (Known 1)) (Change 1 gone)), 1%N.
  split. { apply (reach_step _ [Known 1]); [|exact I]. apply (reach_step _ []); [constructor | exact I]. }
  split. { apply alive_stays; [reflexivity|]. intros i a [A|[A|[]]]; [discriminate|]. injection A as <- <-. reflexivity. }
  split; [reflexivity|]. split; [reflexivity|]. intros p o1 o2 [P1 P2]. cbn [exec update stepping]. apply filter_In. split; [|reflexivity].
  apply (Permutation_in _ (Permutation_sym P2)). apply filter_In. split; [|reflexivity].
  apply (Permutation_in _ (Permutation_sym P1)). left. reflexivity.
Qed.

(** ** A concrete case: a stepping thread, one waiting and one that ended *)
Definition ex_f (i : N) : attrs := if N.eqb i 1 then waiting else if N.eqb i 2 then waiting else Attrs false false false false 108 false.
Example ex_reach : exists s, reach ex_f [Known 1; Known 2; Known 3] s
  /\ orders s (Resume 1 108 [3; 1; 2]%N [2; 1]%N) /\ stepping (exec s (Resume 1 108 [3; 1; 2]%N [2; 1]%N)) = [2; 1]%N
  /\ woken (exec s (Resume 1 108 [3; 1; 2]%N [2; 1]%N)) = [1%N].
Proof.
  eexists. split.
  - apply (reach_step _ [Known 1; Known 2]); [|exact I]. apply (reach_step _ [Known 1]); [|exact I]. apply (reach_step _ []); [constructor | exact I].
  - split; [|split; reflexivity]. split; cbn.
    + apply (perm_trans (l' := [1; 3; 2]%N)); [apply perm_swap | apply perm_skip, perm_swap].
    + apply perm_swap.
Qed.

Print Assumptions stepping_threads_exact.
Print Assumptions resume_wakes.
Print Assumptions resume_wakes_refuted.
Print Assumptions stepping_collected_refuted.
