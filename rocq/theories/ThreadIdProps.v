(** Property C80: the ids by which the client knows the threads tell them apart and stay. *)
From Coq Require Import String.
From Coq Require Import List NArith Bool.
From Verif Require Import Base ThreadId.
Import ListNotations.
Open Scope list_scope.

(** Specification: the histories of one process, and of a program without an interactive console. *)
Definition no_fork (ops : list op) : Prop := forall c, ~ In (Fork c) ops.
Definition no_console (ops : list op) : Prop := forall t, ~ In (Console t) ops.

(** Texts. *)
Lemma dec_inj' a b : dec a = dec b -> a = b.
Proof. intro H. rewrite <- (digits_val_dec a), <- (digits_val_dec b), H. reflexivity. Qed.

Lemma no_underscore n : ~ In 95%N (dec n).
Proof. intros i. pose proof (dec_digits n) as h. rewrite Forall_forall in h. specialize (h _ i). discriminate h. Qed.

Lemma split_at (c : N) (a b x y : str) : ~ In c a -> ~ In c b -> a ++ c :: x = b ++ c :: y -> a = b /\ x = y.
Proof.
  revert b. induction a as [|z a IH]; intros [|w b] ha hb e; cbn [app] in e.
  - injection e as ->. auto.
  - injection e as -> _. destruct hb. now left.
  - injection e as -> _. destruct ha. now left.
  - injection e as -> e. destruct (IH b) as (-> & ->); auto; intros i; [apply ha|apply hb]; now right.
Qed.

Lemma id_text_inj p a q b : id_text p a = id_text q b -> p = q /\ a = b.
Proof.
  unfold id_text. change (lit "_id_") with (95%N :: lit "id_"). intros h. apply app_inv_head in h. cbn [app] in h.
  apply split_at in h as (e1 & e2); try apply no_underscore. apply app_inv_head in e2. split; now apply dec_inj'.
Qed.

Lemma not_console p a : id_text p a <> console.
Proof. unfold id_text, console. cbn. discriminate. Qed.

(** The invariant: objects have different addresses; held objects exist; the id of a thread is made of its address, and the
    object is held then. *)
Definition inv (s : state) : Prop :=
  (forall t u a, at_ s t = Some a -> at_ s u = Some a -> t = u) /\
  (forall t a, at_ s t = Some a -> In t (made s)) /\
  (forall a t, held s a = Some t -> at_ s t = Some a) /\
  (forall t i, attr s t = Some i -> exists a q, at_ s t = Some a /\ held s a = Some t /\ i = id_text q a).

Lemma upd_same A (m : N -> A) k v : upd m k v k = v.
Proof. unfold upd. now rewrite N.eqb_refl. Qed.
Lemma upd_other A (m : N -> A) k v x : x <> k -> upd m k v x = m x.
Proof. unfold upd. intros h. destruct (N.eqb_spec x k); congruence. Qed.

Lemma inv_start p : inv (start p).
Proof. unfold inv, start. cbn. repeat split; discriminate. Qed.

Lemma free_spec s a : inv s -> is_free s a = true -> forall t, at_ s t <> Some a.
Proof.
  intros (_ & hm & _) h t e. unfold is_free in h. rewrite forallb_forall in h. specialize (h t (hm _ _ e)).
  rewrite e, N.eqb_refl in h. discriminate.
Qed.

Lemma inv_step s o : inv s -> (forall t, o <> Console t) -> inv (snd (step s o)).
Proof.
  intros hi hc. pose proof hi as (h1 & h2 & h3 & h4).
  destruct o as [t a|t|t|t|t|c]; cbn [step].
  - destruct (negb (existsb (N.eqb t) (made s)) && is_free s a) eqn:E; [|exact hi].
    apply andb_prop in E as (E & Ef). pose proof (free_spec _ _ hi Ef) as hf. apply negb_true_iff in E.
    assert (ht : ~ In t (made s)).
    { intros i. assert (existsb (N.eqb t) (made s) = true); [|congruence]. apply existsb_exists. exists t. split; [exact i|].
      apply N.eqb_refl. }
    unfold inv. cbn [snd at_ made attr held]. repeat match goal with |- _ /\ _ => split end.
    + intros x y b. destruct (N.eqb_spec x t) as [->|n1], (N.eqb_spec y t) as [->|n2];
        repeat (rewrite upd_same || rewrite upd_other by assumption); auto.
      * intros e1 e2. injection e1 as <-. destruct (hf _ e2).
      * intros e1 e2. injection e2 as <-. destruct (hf _ e1).
      * apply h1.
    + intros x b. destruct (N.eqb_spec x t) as [->|n]; [now left|]. rewrite upd_other by assumption. intros e. right. eauto.
    + intros b x e. pose proof (h3 _ _ e) as e'. rewrite upd_other; [exact e'|]. intros ->. apply ht. eauto.
    + intros x i. destruct (N.eqb_spec x t) as [->|n]; [rewrite upd_same; discriminate|].
      rewrite !upd_other by assumption. intros e. destruct (h4 _ _ e) as (b & q & e1 & e2 & e3). exists b, q. auto.
  - destruct (at_ s t) as [a|] eqn:Ea; [|exact hi].
    destruct (match held s a with Some u => N.eqb u t | None => false end) eqn:Eh; [exact hi|].
    assert (hn : forall b, held s b <> Some t).
    { intros b e. pose proof (h3 _ _ e) as e'. rewrite Ea in e'. injection e' as <-. rewrite e, N.eqb_refl in Eh. discriminate. }
    unfold inv. cbn [snd at_ made attr held]. repeat match goal with |- _ /\ _ => split end.
    + intros x y b. destruct (N.eqb_spec x t) as [->|n1]; [rewrite upd_same; discriminate|].
      destruct (N.eqb_spec y t) as [->|n2]; [rewrite upd_same; discriminate|]. rewrite !upd_other by assumption. apply h1.
    + intros x b. destruct (N.eqb_spec x t) as [->|n]; [rewrite upd_same; discriminate|]. rewrite upd_other by assumption. apply h2.
    + intros b x e. rewrite upd_other; [eauto|]. intros ->. now apply (hn b).
    + intros x i e. destruct (h4 _ _ e) as (b & q & e1 & e2 & e3). exists b, q. rewrite upd_other; [auto|].
      intros ->. now apply (hn b).
  - destruct (at_ s t) as [a|] eqn:Ea; [|exact hi]. destruct (attr s t) as [i|] eqn:Et; [exact hi|].
    unfold inv. cbn [snd at_ made attr held]. repeat match goal with |- _ /\ _ => split end; auto.
    + intros b x. destruct (N.eqb_spec b a) as [->|n]; [rewrite upd_same|rewrite upd_other by assumption; apply h3].
      intros e. injection e as <-. exact Ea.
    + intros x i. destruct (N.eqb_spec x t) as [->|n].
      * rewrite upd_same. intros e. injection e as <-. exists a, (pid s). now rewrite upd_same.
      * rewrite upd_other by assumption. intros e. destruct (h4 _ _ e) as (b & q & e1 & e2 & e3). exists b, q.
        rewrite upd_other; [auto|]. intros ->. apply n. eauto.
  - destruct (attr s t) as [i|] eqn:Et; [|exact hi]. destruct (str_eqb i console); [exact hi|].
    unfold inv. cbn [snd at_ made attr held]. repeat match goal with |- _ /\ _ => split end; auto.
    intros x j. destruct (N.eqb_spec x t) as [->|n]; [rewrite upd_same; discriminate|]. rewrite upd_other by assumption. apply h4.
  - destruct (hc t eq_refl).
  - exact hi.
Qed.

Lemma run_snd s o ops : snd (run s (o :: ops)) = snd (run (snd (step s o)) ops).
Proof. cbn [run]. destruct (step s o) as [a s1]. cbn [snd]. now destruct (run s1 ops). Qed.

Lemma inv_run ops : forall s, inv s -> no_console ops -> inv (snd (run s ops)).
Proof.
  induction ops as [|o ops IH]; intros s hi hc; [exact hi|]. rewrite run_snd. apply IH.
  - apply inv_step; [exact hi|]. intros t ->. apply (hc t). now left.
  - intros t i. apply (hc t). now right.
Qed.

(** A held thread keeps its address for ever. *)
Lemma held_step s o t a : inv s -> held s a = Some t -> held (snd (step s o)) a = Some t.
Proof.
  intros (h1 & _ & h3 & _) h. destruct o as [x b|x|x|x|x|c]; cbn [step].
  - now destruct (negb (existsb (N.eqb x) (made s)) && is_free s b).
  - destruct (at_ s x) as [b|]; [|exact h]. now destruct (match held s b with Some u => N.eqb u x | None => false end).
  - destruct (at_ s x) as [b|] eqn:E; [|exact h]. destruct (attr s x); [exact h|]. cbn [snd held].
    destruct (N.eqb_spec a b) as [->|n]; [|now rewrite upd_other]. rewrite upd_same. f_equal. apply (h1 x t b); auto.
  - destruct (attr s x) as [i|]; [|exact h]. now destruct (str_eqb i console).
  - now destruct (at_ s x).
  - exact h.
Qed.

Lemma held_run ops t a : forall s, inv s -> no_console ops -> held s a = Some t -> held (snd (run s ops)) a = Some t.
Proof.
  induction ops as [|o ops IH]; intros s hi hc h; [exact h|]. rewrite run_snd. apply IH.
  - apply inv_step; [exact hi|]. intros x ->. apply (hc x). now left.
  - intros x i. apply (hc x). now right.
  - now apply held_step.
Qed.

(** Answers are made from the address and from the process number if the thread has no id of another process. *)
Definition current (s : state) (t : N) : Prop := forall i, attr s t = Some i -> exists a, i = id_text (pid s) a.

Lemma current_step s o t : (forall c, o <> Fork c) -> (forall x, o <> Console x) -> current s t -> current (snd (step s o)) t.
Proof.
  intros hf hc h. destruct o as [x b|x|x|x|x|c]; cbn [step].
  - destruct (negb (existsb (N.eqb x) (made s)) && is_free s b); [|exact h]. intros i. cbn [snd attr pid].
    destruct (N.eqb_spec t x) as [->|n]; [rewrite upd_same; discriminate|rewrite upd_other by assumption; apply h].
  - destruct (at_ s x) as [b|]; [|exact h]. now destruct (match held s b with Some u => N.eqb u x | None => false end).
  - destruct (at_ s x) as [b|] eqn:E; [|exact h]. destruct (attr s x) eqn:Ex; [exact h|]. intros i. cbn [snd attr pid].
    destruct (N.eqb_spec t x) as [->|n]; [rewrite upd_same|rewrite upd_other by assumption; apply h].
    intros e. injection e as <-. now exists b.
  - destruct (attr s x) as [i|]; [|exact h]. destruct (str_eqb i console); [exact h|]. intros j. cbn [snd attr pid].
    destruct (N.eqb_spec t x) as [->|n]; [rewrite upd_same; discriminate|rewrite upd_other by assumption; apply h].
  - destruct (hc x eq_refl).
  - destruct (hf c eq_refl).
Qed.

Lemma pid_step s o : (forall c, o <> Fork c) -> pid (snd (step s o)) = pid s.
Proof.
  intros hf. destruct o as [x b|x|x|x|x|c]; cbn [step]; try (destruct (hf c eq_refl)).
  - now destruct (negb (existsb (N.eqb x) (made s)) && is_free s b).
  - destruct (at_ s x) as [b|]; [|reflexivity]. now destruct (match held s b with Some u => N.eqb u x | None => false end).
  - destruct (at_ s x) as [b|]; [|reflexivity]. now destruct (attr s x).
  - destruct (attr s x) as [i|]; [|reflexivity]. now destruct (str_eqb i console).
  - now destruct (at_ s x).
Qed.

(** Every answer: the thread is held at the end, and the id is made from the address. *)
Lemma answers ops : forall s, inv s -> no_console ops ->
  forall t i, In (t, i) (fst (run s ops)) ->
  exists a q, held (snd (run s ops)) a = Some t /\ i = id_text q a /\ (no_fork ops -> current s t -> q = pid s).
Proof.
  induction ops as [|o ops IH]; intros s hi hc t i h; [destruct h|].
  assert (hc' : no_console ops) by (intros x j; apply (hc x); now right).
  assert (hco : forall x, o <> Console x) by (intros x ->; apply (hc x); now left).
  assert (hi' : inv (snd (step s o))) by now apply inv_step.
  rewrite run_snd.
  assert (tail : In (t, i) (fst (run (snd (step s o)) ops)) ->
    exists a q, held (snd (run (snd (step s o)) ops)) a = Some t /\ i = id_text q a /\
                (no_fork (o :: ops) -> current s t -> q = pid s)).
  { intros h'. destruct (IH _ hi' hc' t i h') as (a & q & e1 & e2 & e3). exists a, q. split; [exact e1|]. split; [exact e2|].
    intros hf hcur. assert (hfo : forall c, o <> Fork c) by (intros c ->; apply (hf c); now left).
    rewrite <- (pid_step s o hfo). apply e3; [intros c j; apply (hf c); now right|]. now apply current_step. }
  cbn [run] in h. destruct (step s o) as [a s1] eqn:S. cbn [snd] in *. destruct (run s1 ops) as [l s2] eqn:R. cbn [fst snd] in *.
  destruct o as [x b|x|x|x|x|c]; auto. destruct a as [j|]; auto. destruct h as [e|h]; [|auto]. injection e as -> ->.
  cbn [step] in S. destruct (at_ s t) as [b|] eqn:Eb; [|discriminate]. destruct (attr s t) as [k|] eqn:Ek.
  - injection S as <- <-. destruct hi as (_ & _ & _ & h4). destruct (h4 _ _ Ek) as (b' & q & e1 & e2 & e3).
    exists b', q. split; [|split; [exact e3|]].
    + replace s2 with (snd (run s ops)) by now rewrite R. apply held_run; auto.
    + intros _ hcur. destruct (hcur _ Ek) as (b2 & e4). rewrite e3 in e4. now apply id_text_inj in e4.
  - injection S as <- <-. exists b, (pid s). split; [|split; [reflexivity|auto]].
    match type of R with run ?s1 ops = _ => replace s2 with (snd (run s1 ops)) by now rewrite R end.
    apply held_run; auto. cbn [held]. apply upd_same.
Qed.

Lemma current_start p t : current (start p) t.
Proof. intros i. discriminate. Qed.

(** In one process, two threads never have the same id - also if one had ended, and its memory was used again, before the other
    began. *)
Theorem ids_distinct p ops t u i :
  no_console ops -> In (t, i) (fst (run (start p) ops)) -> In (u, i) (fst (run (start p) ops)) -> t = u.
Proof.
  intros hc h1 h2. destruct (answers ops _ (inv_start p) hc _ _ h1) as (a & q & e1 & e2 & _).
  destruct (answers ops _ (inv_start p) hc _ _ h2) as (b & r & e3 & e4 & _). rewrite e2 in e4.
  apply id_text_inj in e4 as (_ & ->). congruence.
Qed.

(** In one process, the id of a thread is always the same, also after the ids were cleared. *)
Theorem ids_stay p ops t i j :
  no_console ops -> no_fork ops -> In (t, i) (fst (run (start p) ops)) -> In (t, j) (fst (run (start p) ops)) -> i = j.
Proof.
  intros hc hf h1 h2. destruct (answers ops _ (inv_start p) hc _ _ h1) as (a & q & e1 & e2 & e3).
  destruct (answers ops _ (inv_start p) hc _ _ h2) as (b & r & e4 & e5 & e6).
  pose proof (inv_run ops _ (inv_start p) hc) as (_ & _ & h3 & _). pose proof (h3 _ _ e1) as e7. pose proof (h3 _ _ e4) as e8.
  rewrite (e3 hf (current_start p t)) in e2. rewrite (e6 hf (current_start p t)) in e5. congruence.
Qed.

(** After a fork, when the ids were cleared, no thread of the child has an id which a thread of the parent has had. *)
Theorem child_distinct p ops1 c ops2 t i u j :
  no_console ops1 -> no_console ops2 -> no_fork ops1 -> no_fork ops2 -> c <> p ->
  In (u, j) (fst (run (start p) ops1)) ->
  In (t, i) (fst (run (snd (step (snd (step (snd (run (start p) ops1)) (Fork c))) (Clear t))) ops2)) -> i <> j.
Proof.
  intros hc1 hc2 hf1 hf2 hne h1 h2 ->.
  destruct (answers ops1 _ (inv_start p) hc1 _ _ h1) as (a & q & _ & e2 & e3). specialize (e3 hf1 (current_start p u)).
  assert (hi : inv (snd (step (snd (step (snd (run (start p) ops1)) (Fork c))) (Clear t)))).
  { apply inv_step; [|discriminate]. apply inv_step; [|discriminate]. apply inv_run; [apply inv_start|exact hc1]. }
  destruct (answers ops2 _ hi hc2 _ _ h2) as (b & r & _ & e5 & e6).
  assert (r = c) as ->.
  { rewrite e6; [|exact hf2|].
    - rewrite pid_step by discriminate. reflexivity.
    - pose proof (inv_run ops1 _ (inv_start p) hc1) as (_ & _ & _ & h4). intros k. cbn [step snd attr].
      destruct (attr (snd (run (start p) ops1)) t) as [k0|] eqn:E; cbn [attr]; [|cbn [snd attr]; congruence].
      destruct (h4 _ _ E) as (b0 & q0 & _ & _ & ->). destruct (str_eqb_spec (id_text q0 b0) console) as [e|_].
      + destruct (not_console _ _ e).
      + cbn [snd attr]. rewrite upd_same. discriminate. }
  rewrite e2 in e5. apply id_text_inj in e5 as (e5 & _). cbn in e3. congruence.
Qed.

(** The console's thread keeps its id when ids are cleared. *)
Theorem console_kept s t ops :
  attr s t = Some console -> at_ s t <> None -> (forall x, ~ In (Collect x) ops) -> In t (made s) ->
  fst (step (snd (run s ops)) (Ask t)) = Some console.
Proof.
  intros h1 h2 hc hm.
  assert (h : attr (snd (run s ops)) t = Some console /\ at_ (snd (run s ops)) t <> None /\ In t (made (snd (run s ops)))).
  { revert s h1 h2 hm. induction ops as [|o ops IH]; intros s h1 h2 hm; [auto|]. rewrite run_snd.
    assert (hx : attr (snd (step s o)) t = Some console /\ at_ (snd (step s o)) t <> None /\ In t (made (snd (step s o)))).
    { destruct o as [x b|x|x|x|x|c]; cbn [step].
      - destruct (negb (existsb (N.eqb x) (made s)) && is_free s b) eqn:E; [|auto]. cbn [snd attr at_ made].
        apply andb_prop in E as (E & _). apply negb_true_iff in E.
        assert (n : t <> x). { intros ->. assert (existsb (N.eqb x) (made s) = true); [|congruence]. apply existsb_exists.
          exists x. split; [exact hm|apply N.eqb_refl]. }
        rewrite !upd_other by assumption. split; [exact h1|]. split; [exact h2|now right].
      - exfalso. apply (hc x). now left.
      - destruct (at_ s x) as [b|] eqn:E; [|auto]. destruct (attr s x) eqn:Ex; [auto|]. cbn [snd attr at_ made].
        rewrite upd_other; [auto|]. intros ->. congruence.
      - destruct (attr s x) as [i|] eqn:E; [|auto]. destruct (str_eqb_spec i console) as [_|n]; [auto|]. cbn [snd attr at_ made].
        rewrite upd_other; [auto|]. intros ->. congruence.
      - destruct (at_ s x) as [b|] eqn:E; [|auto]. cbn [snd attr at_ made]. split; [|auto].
        destruct (N.eqb_spec t x) as [->|n]; [now rewrite upd_same|now rewrite upd_other].
      - auto. }
    destruct hx as (a1 & a2 & a3). apply IH; auto. intros x i. apply (hc x). now right. }
  destruct h as (a1 & a2 & _). cbn [step]. destruct (at_ (snd (run s ops)) t); [|congruence]. now rewrite a1.
Qed.

(** Witnesses. *)
Example two_threads :
  fst (run (start 7) [Create 1 100; Ask 1; Create 2 200; Collect 2; Create 3 200; Ask 3; Clear 1; Ask 1; Collect 1; Create 4 100; Ask 4])
  = [(1, lit "pid_7_id_100"); (3, lit "pid_7_id_200"); (1, lit "pid_7_id_100")]%N.
Proof. vm_compute. reflexivity. Qed.

Example child :
  fst (run (start 7) [Create 1 100; Ask 1; Fork 8; Clear 1; Ask 1]) = [(1, lit "pid_7_id_100"); (1, lit "pid_8_id_100")]%N.
Proof. vm_compute. reflexivity. Qed.

Example console1 :
  fst (run (start 7) [Create 1 100; Console 1; Clear 1; Ask 1]) = [(1%N, lit "console_main")].
Proof. vm_compute. reflexivity. Qed.

(** Finding: in a child process the main thread has the id it has in the parent until the debugger clears it. *)
Theorem fork_stale_refuted :
  exists p ops c t i, no_console ops /\ no_fork ops /\ c <> p /\ In (t, i) (fst (run (start p) ops)) /\
    fst (step (snd (step (snd (run (start p) ops)) (Fork c))) (Ask t)) = Some i.
Proof.
  exists 7%N, [Create 1 100; Ask 1]%N, 8%N, 1%N, (lit "pid_7_id_100").
  split; [intros t [e|[e|[]]]; discriminate|]. split; [intros t [e|[e|[]]]; discriminate|]. split; [discriminate|].
  split; [vm_compute; auto|vm_compute; reflexivity].
Qed.

(** Finding: a thread whose id was asked for is never freed, even if the program no longer has it. *)
Theorem never_freed_refuted :
  exists p ops t a, no_console ops /\
    forall more, no_console more -> at_ (snd (run (snd (run (start p) ops)) more)) t = Some a.
Proof.
  exists 7%N, [Create 1 100; Ask 1]%N, 1%N, 100%N. split; [intros t [e|[e|[]]]; discriminate|]. intros more hc.
  set (s := snd (run (start 7) [Create 1 100; Ask 1]%N)).
  assert (hi : inv s). { apply inv_run; [apply inv_start|]. intros t [e|[e|[]]]; discriminate. }
  pose proof (inv_run more s hi hc) as (_ & _ & h3 & _). apply h3. apply held_run; auto.
Qed.

Print Assumptions ids_distinct.
Print Assumptions ids_stay.
Print Assumptions child_distinct.
Print Assumptions console_kept.
Print Assumptions fork_stale_refuted.
Print Assumptions never_freed_refuted.
