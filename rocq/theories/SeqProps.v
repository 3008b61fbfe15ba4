(** Property C03: generated sequence numbers. *)
From Coq Require Import List NArith ZArith Bool Lia Sorted.
From Verif Require Import Seq.
Import ListNotations.
Open Scope Z_scope.

(** Specification: the numbers given to the messages whose argument was 0. *)
Fixpoint generated (args seqs : list Z) : list Z :=
  match args, seqs with
  | a :: ar, s :: sr => if Z.eqb a 0 then s :: generated ar sr else generated ar sr
  | _, _ => []
  end.

Lemma create_all_gen : forall args n,
  Forall (fun s => n < s) (generated args (snd (create_all n args))) /\
  StronglySorted Z.lt (generated args (snd (create_all n args))) /\
  fst (create_all n args) >= n /\
  Forall (fun s => s <= fst (create_all n args) /\ (s - n) mod 2 = 0)
         (generated args (snd (create_all n args))) /\
  (fst (create_all n args) - n) mod 2 = 0.
Proof.
  induction args as [|a args IH]; intros n; simpl.
  - repeat split; try constructor; try lia. rewrite Z.sub_diag. reflexivity.
  - unfold create. destruct (Z.eqb a 0) eqn:E.
    + specialize (IH (n + 2)). destruct (create_all (n + 2) args) as [n2 ss]. cbn [fst snd generated] in *.
      destruct IH as (H1 & H2 & H3 & H4 & H5).
      assert (Hsub : forall x, (x - (n + 2)) mod 2 = 0 -> (x - n) mod 2 = 0).
      { intros x Hx. replace (x - n) with ((x - (n + 2)) + 1 * 2) by ring.
        now rewrite Z_mod_plus_full. }
      repeat split.
      * constructor; [lia|]. eapply Forall_impl; [|exact H1]. simpl; intros; lia.
      * constructor; auto.
      * lia.
      * constructor.
        -- split; [lia|]. apply Hsub. now rewrite Z.sub_diag.
        -- eapply Forall_impl; [|exact H4]. simpl. intros x [Hx1 Hx2]. split; auto.
      * now apply Hsub.
    + specialize (IH n). destruct (create_all n args) as [n2 ss]. cbn [fst snd generated] in *. exact IH.
Qed.

(** C03 (one creating thread at a time).  Starting from the initial value 0, the generated numbers
    are strictly increasing, positive and even. *)
Theorem seq_generated_increasing_partial :
  forall args,
    StronglySorted Z.lt (generated args (snd (create_all 0 args))) /\
    Forall (fun s => 0 < s /\ s mod 2 = 0) (generated args (snd (create_all 0 args))).
Proof.
  intros args. destruct (create_all_gen args 0) as (H1 & H2 & _ & H4 & _). split; auto.
  rewrite Forall_forall in *. intros x Hx. specialize (H1 x Hx). specialize (H4 x Hx).
  rewrite Z.sub_0_r in H4. simpl in *. intuition.
Qed.
Print Assumptions seq_generated_increasing_partial.

(** C03.  No number is generated twice. *)
Theorem seq_generated_unique_partial :
  forall args, NoDup (generated args (snd (create_all 0 args))).
Proof.
  intros args. destruct (seq_generated_increasing_partial args) as [H _].
  induction H as [|x l Hl IH Hx]; constructor; auto.
  intros Hi. rewrite Forall_forall in Hx. specialize (Hx x Hi). lia.
Qed.
Print Assumptions seq_generated_unique_partial.

(** C03.  A message created with an explicit number keeps it. *)
Theorem seq_explicit_kept :
  forall args n i a, nth_error args i = Some a -> a <> 0 ->
    nth_error (snd (create_all n args)) i = Some a.
Proof.
  induction args as [|x args IH]; intros n i a Hi Ha; [destruct i; discriminate|].
  simpl. unfold create. destruct (Z.eqb_spec x 0) as [->|Hx].
  - destruct (create_all (n + 2) args) as [n2 ss] eqn:E.
    destruct i; simpl in *; [congruence|]. specialize (IH (n + 2) i a Hi Ha). now rewrite E in IH.
  - destruct (create_all n args) as [n2 ss] eqn:E.
    destruct i; simpl in *; [congruence|]. specialize (IH n i a Hi Ha). now rewrite E in IH.
Qed.
Print Assumptions seq_explicit_kept.

(** C03, several threads, any interleaving of their accesses: every number is positive and even,
    and not above twice the number of accesses. *)
Definition number_ok (n s : Z) : Prop := 0 < s <= 2 * n /\ s mod 2 = 0.

Theorem seq_threads_any_partial : forall sched t s,
  cphase (crun cinit sched) t = Done s -> number_ok (Z.of_nat (length sched)) s.
Proof.
  assert (E : forall v, v mod 2 = 0 -> (v + 2) mod 2 = 0).
  { intros v H. replace (v + 2) with (v + 1 * 2) by ring. now rewrite Z_mod_plus_full. }
  assert (G : forall sched st n, 0 <= n ->
    0 <= cnext st <= 2 * n -> cnext st mod 2 = 0 ->
    (forall t, match cphase st t with
               | Idle => True | Loaded v => 0 <= v <= 2 * n /\ v mod 2 = 0
               | Stored => True | Done s => number_ok n s end) ->
    ((exists t, cphase st t = Stored) -> 0 < cnext st) ->
    forall t s, cphase (crun st sched) t = Done s -> number_ok (n + Z.of_nat (length sched)) s).
  { induction sched as [|u sched IH]; intros st n Hn H1 H2 H3 H4 t s H.
    - cbn in H. specialize (H3 t). rewrite H in H3. cbn. rewrite Z.add_0_r. exact H3.
    - cbn [crun fold_left] in H. replace (n + Z.of_nat (length (u :: sched))) with ((n + 1) + Z.of_nat (length sched))
        by (cbn [length]; lia).
      assert (W : forall q, match cphase st q with
               | Idle => True | Loaded v => 0 <= v <= 2 * (n + 1) /\ v mod 2 = 0
               | Stored => True | Done s => number_ok (n + 1) s end).
      { intros q. specialize (H3 q). unfold number_ok in *. destruct (cphase st q); auto; intuition lia. }
      assert (S0 : cnext (cstep st u) = cnext st \/ exists v, cphase st u = Loaded v /\ cnext (cstep st u) = v + 2).
      { unfold cstep. destruct (cphase st u); cbn; eauto. }
      assert (Hu := H3 u).
      refine (IH (cstep st u) (n + 1) _ _ _ _ _ t s H); [lia|..].
      + destruct S0 as [->|(v & Ev & ->)]; [lia|]. rewrite Ev in Hu. lia.
      + destruct S0 as [->|(v & Ev & ->)]; [exact H2|]. rewrite Ev in Hu. apply E. tauto.
      + intros q. unfold cstep. destruct (cphase st u) eqn:Eu; cbn [cphase]; unfold set_phase; try apply W;
          destruct (Nat.eqb q u); try apply W; auto.
        * split; [lia|exact H2].
        * unfold number_ok. split; [|exact H2]. split; [|lia]. apply H4. eauto.
      + intros (q & Hq). unfold cstep in *. destruct (cphase st u) eqn:Eu; cbn [cphase cnext] in *;
          unfold set_phase in Hq; try (destruct (Nat.eqb q u); [discriminate|]); eauto.
        lia. }
  intros sched t s H. apply (G sched cinit 0) in H; cbn; try lia; auto.
  intros (q & Hq). discriminate.
Qed.
Print Assumptions seq_threads_any_partial.

(** C03, several threads, each creation ended before the next begins: the numbers count up. *)
Theorem seq_threads_turns_partial : forall ts i t, NoDup ts -> nth_error ts i = Some t ->
  cphase (crun cinit (flat_map (fun t => [t; t; t]) ts)) t = Done (2 * (Z.of_nat i + 1)).
Proof.
  assert (Stay : forall us st t, ~ In t us -> cphase (crun st (flat_map (fun t => [t; t; t]) us)) t = cphase st t).
  { induction us as [|u us IH]; intros st t N0; [reflexivity|]. cbn [flat_map app crun fold_left].
    fold (crun (cstep (cstep (cstep st u) u) u) (flat_map (fun t => [t; t; t]) us)).
    rewrite IH; [|intro; apply N0; right; auto].
    assert (Q : forall st, cphase (cstep st u) t = cphase st t).
    { intros st0. unfold cstep. assert (Nat.eqb t u = false) by (apply Nat.eqb_neq; intros ->; apply N0; left; auto).
      destruct (cphase st0 u); cbn; unfold set_phase; rewrite ?H; reflexivity. }
    now rewrite !Q. }
  assert (G : forall us st i t, NoDup us -> (forall u, In u us -> cphase st u = Idle) -> nth_error us i = Some t ->
    cphase (crun st (flat_map (fun t => [t; t; t]) us)) t = Done (cnext st + 2 * (Z.of_nat i + 1))).
  { induction us as [|u us IH]; intros st i t Nd Id Hi; [destruct i; discriminate|].
    inversion Nd as [|? ? N1 N2]; subst. cbn [flat_map app crun fold_left].
    fold (crun (cstep (cstep (cstep st u) u) u) (flat_map (fun t => [t; t; t]) us)).
    assert (Q : cstep (cstep (cstep st u) u) u =
      CState (cnext st + 2) (set_phase (set_phase (set_phase (cphase st) u (Loaded (cnext st))) u Stored) u (Done (cnext st + 2)))).
    { unfold cstep at 3. rewrite (Id u (or_introl eq_refl)). unfold cstep at 2. cbn [cphase cnext].
      unfold set_phase at 1. rewrite Nat.eqb_refl. unfold cstep. cbn [cphase cnext].
      unfold set_phase at 1. rewrite Nat.eqb_refl. reflexivity. }
    rewrite Q. destruct i as [|i].
    - cbn in Hi. injection Hi as <-. rewrite Stay by exact N1. cbn. unfold set_phase. rewrite Nat.eqb_refl.
      f_equal; lia.
    - cbn in Hi. rewrite (IH _ i t N2); [cbn [cnext]; f_equal; lia| |exact Hi].
      intros x Ix. cbn. unfold set_phase. assert (Nat.eqb x u = false) by (apply Nat.eqb_neq; intros ->; contradiction).
      rewrite H. apply Id. right. exact Ix. }
  intros ts i t Nd Hi. rewrite (G ts cinit i t Nd); auto.
Qed.
Print Assumptions seq_threads_turns_partial.

(** C03, several threads: without a lock two messages can get the same number. *)
Theorem seq_threads_unique_refuted :
  exists sched t1 t2 s,
    t1 <> t2 /\ cphase (crun cinit sched) t1 = Done s /\ cphase (crun cinit sched) t2 = Done s.
Proof.
  exists [0; 1; 0; 1; 0; 1]%nat, 0%nat, 1%nat, 2. split; [discriminate|].
  split; vm_compute; reflexivity.
Qed.
Print Assumptions seq_threads_unique_refuted.

Example seq_case : create_all 0 [0; 7; 0; 0; -3] = (6, [2; 7; 4; 6; -3]).
Proof. reflexivity. Qed.
Example seq_case_gen : generated [0; 7; 0; 0; -3] (snd (create_all 0 [0; 7; 0; 0; -3])) = [2; 4; 6].
Proof. reflexivity. Qed.

Example seq_threads_case : cphase (crun cinit [0; 1; 0; 0; 1; 1]%nat) 1%nat = Done 2 /\
  cphase (crun cinit [3; 3; 3; 1; 1; 1]%nat) 1%nat = Done 4.
Proof. split; reflexivity. Qed.
