(** C15: a timeout callback runs at most once, never too early, and not after the block was seen to have ended. *)
From Coq Require Import List ZArith NArith Bool String Lia.
From Verif Require Import Base Dict Timeout.
Import ListNotations.
Open Scope Z_scope.

Definition count_calls (h : N) (l : list call) : nat := List.length (filter (fun c => N.eqb (c_handle c) h) l).

(** the job of a position *)
Definition job_of (p : tpc) : option job :=
  match p with
  | Waiting _ => None
  | Loop j | ReadKw j _ | ReadCb j _ _ | Check j _ _ _ | Set1 j _ _ _ | Set2 j _ _ _ | Set3 j _ _ _ | Call j _ _ _ => Some j
  end.
(** handle being executed, and whether it has passed the check *)
Definition current (p : tpc) : option N :=
  match p with
  | ReadKw _ h | ReadCb _ h _ | Check _ h _ _ | Set1 _ h _ _ | Set2 _ h _ _ | Set3 _ h _ _ | Call _ h _ _ => Some h
  | _ => None
  end.
Definition passed (p : tpc) : option (N * (bool * bool)) :=
  match p with
  | Set1 _ h kw cb | Set2 _ h kw cb | Set3 _ h kw cb | Call _ h kw cb => Some (h, (kw, cb))
  | _ => None
  end.
Definition passed_disposed (p : tpc) : option N :=
  match p with Set2 _ h _ _ | Set3 _ h _ _ | Call _ h _ _ => Some h | _ => None end.

Lemma get_setN {V} k k' (v : V) d : get N.eqb k (set N.eqb k' v d) = if N.eqb k k' then Some v else get N.eqb k d.
Proof. rewrite (get_set _ N.eqb_spec). destruct (N.eqb_spec k k'), (N.eqb_spec k' k); subst; auto; congruence. Qed.
Lemma get_upd h f t k : get N.eqb k (upd h f t) = if N.eqb k h then option_map f (get N.eqb k t) else get N.eqb k t.
Proof.
  unfold upd. destruct (get N.eqb h t) as [x|] eqn:E.
  - rewrite get_setN. destruct (N.eqb_spec k h); subst; [now rewrite E|auto].
  - destruct (N.eqb_spec k h); subst; [now rewrite E|auto].
Qed.
Lemma get_app_new {V} k h (v : V) t : get N.eqb h t = None ->
  get N.eqb k (t ++ [(h, v)]) = if N.eqb k h then Some v else get N.eqb k t.
Proof.
  intros H. induction t as [|[a b] t IH]; simpl in *; [destruct (N.eqb k h); auto|].
  destruct (N.eqb_spec h a); [discriminate|]. destruct (N.eqb_spec k a); [|auto].
  subst. destruct (N.eqb_spec a h); congruence.
Qed.

Record inv (s : state) : Prop := {
  (* a callback that was called, or is about to be, is disposed *)
  i_called : forall c, In c (calls s) -> exists x, get N.eqb (c_handle c) (table s) = Some x /\ h_disposed x = true /\ h_abs x <= c_clock c /\ c_kw c = true /\ c_cb c = true;
  i_once : forall h, (count_calls h (calls s) <= 1)%nat;
  i_passed : forall h kc, passed (timer s) = Some (h, kc) -> kc = (true, true) /\ count_calls h (calls s) = 0%nat;
  i_pd : forall h, passed_disposed (timer s) = Some h -> exists x, get N.eqb h (table s) = Some x /\ h_disposed x = true;
  (* while executing: the handle timed out, or is disposed *)
  i_cur : forall h j, current (timer s) = Some h -> job_of (timer s) = Some j -> exists x, get N.eqb h (table s) = Some x /\
     (h_abs x <= cur j \/ (h_disposed x = true /\ passed (timer s) = None));
  (* None is only read from a disposed handle *)
  i_kw : forall h x, get N.eqb h (table s) = Some x -> h_disposed x = false -> h_kw x = true /\ h_cb x = true /\ h_exit x = 0%nat;
  i_kw1 : forall j h, timer s = ReadCb j h false -> exists x, get N.eqb h (table s) = Some x /\ h_disposed x = true;
  i_kw2 : forall j h kw cb, timer s = Check j h kw cb -> kw && cb = false -> exists x, get N.eqb h (table s) = Some x /\ h_disposed x = true
}.

Lemma inv_init : inv init.
Proof. split; simpl; try tauto; try discriminate; intros; unfold count_calls; simpl; lia. Qed.

Lemma disposed_exit x : h_disposed x = true -> h_disposed (exit_step x) = true.
Proof. unfold exit_step. destruct (h_exit x) as [|[|[|]]]; auto. Qed.
Lemma abs_exit x : h_abs (exit_step x) = h_abs x.
Proof. unfold exit_step, h_abs. destruct (h_exit x) as [|[|[|]]]; auto. Qed.

(** Transfer of the invariant when only the table changes, monotonically. *)
Lemma inv_table s t : inv s ->
  (forall k x, get N.eqb k (table s) = Some x -> exists y, get N.eqb k t = Some y /\ h_abs y = h_abs x /\ (h_disposed x = true -> h_disposed y = true)) ->
  (forall k y, get N.eqb k t = Some y -> h_disposed y = false -> h_kw y = true /\ h_cb y = true /\ h_exit y = 0%nat) ->
  inv (with_table s t (timer s)).
Proof.
  intros I M K. split; simpl.
  - intros c Hc. destruct (i_called _ I _ Hc) as (x & A & B & C & D). destruct (M _ _ A) as (y & A' & B' & C'). exists y. rewrite B'. auto.
  - apply (i_once _ I).
  - apply (i_passed _ I).
  - intros h H. destruct (i_pd _ I _ H) as (x & A & B). destruct (M _ _ A) as (y & A' & B' & C'). eauto.
  - intros h j H J. destruct (i_cur _ I _ _ H J) as (x & A & B). destruct (M _ _ A) as (y & A' & B' & C'). exists y. split; auto. rewrite B'. intuition.
  - auto.
  - intros j h H. destruct (i_kw1 _ I _ _ H) as (x & A & B). destruct (M _ _ A) as (y & A' & B' & C'). eauto.
  - intros j h kw cb H E. destruct (i_kw2 _ I _ _ _ _ H E) as (x & A & B). destruct (M _ _ A) as (y & A' & B' & C'). eauto.
Qed.

Lemma inv_timer s : inv s -> forall clock, inv (timer_step s clock).
Proof.
  intros I clock. unfold timer_step. destruct (timer s) as [w|j|j h|j h kw|j h kw cb|j h kw cb|j h kw cb|j h kw cb|j h kw cb] eqn:E.
  - destruct I; split; simpl; auto; try discriminate.
  - destruct (rest j) as [|h r] eqn:Er.
    + destruct I; split; simpl; auto; try discriminate.
    + destruct (get N.eqb h (table s)) as [x|] eqn:Eg.
      * destruct (Z.ltb (cur j) (h_abs x) && negb (h_disposed x)) eqn:Ec.
        -- destruct I; split; simpl; auto; try discriminate.
        -- assert (D : h_abs x <= cur j \/ h_disposed x = true).
           { apply andb_false_iff in Ec. destruct Ec as [Ec|Ec]; [apply Z.ltb_ge in Ec; auto|apply negb_false_iff in Ec; auto]. }
           destruct I; split; simpl; auto; try discriminate.
           intros h' j' [= <-] [= <-]. exists x. split; auto. simpl. tauto.
      * destruct I; split; simpl; auto; try discriminate.
  - pose proof (i_cur _ I h j) as C. rewrite E in C. destruct (C eq_refl eq_refl) as (x & A & B). rewrite A.
    destruct I; split; simpl; auto; try discriminate.
    + intros h' j' [= <-] [= <-]. exists x. auto.
    + intros j' h' [= <- <- Hk]. exists x. split; auto. destruct (h_disposed x) eqn:Hd; auto. apply i_kw0 in A; auto. intuition congruence.
  - pose proof (i_cur _ I h j) as C. rewrite E in C. destruct (C eq_refl eq_refl) as (x & A & B). rewrite A.
    destruct I; split; simpl; auto; try discriminate.
    + intros h' j' [= <-] [= <-]. exists x. auto.
    + intros j' h' kw' cb' [= <- <- <- <-] Hk. destruct kw.
      * simpl in Hk. exists x. split; auto. destruct (h_disposed x) eqn:Hd; auto. apply i_kw0 in A; auto. intuition congruence.
      * apply (i_kw3 j h). auto.
  - pose proof (i_cur _ I h j) as C. rewrite E in C. destruct (C eq_refl eq_refl) as (x & A & B). rewrite A.
    destruct (h_disposed x) eqn:Hd.
    + destruct I; split; simpl; auto; try discriminate.
    + assert (KC : kw = true /\ cb = true).
      { pose proof (i_kw2 _ I j h kw cb E) as K. destruct kw, cb; auto; destruct K as (y & Ky & Dy); auto; rewrite A in Ky; injection Ky as <-; congruence. }
      assert (NC : count_calls h (calls s) = 0%nat).
      { destruct (count_calls h (calls s)) eqn:Cc; auto. unfold count_calls in Cc.
        destruct (filter _ (calls s)) as [|c l] eqn:F; [discriminate|].
        assert (Hc : In c (filter (fun c => N.eqb (c_handle c) h) (calls s))) by (rewrite F; left; auto).
        apply filter_In in Hc. destruct Hc as [Hc1 Hc2]. apply N.eqb_eq in Hc2. subst h.
        destruct (i_called _ I _ Hc1) as (y & Ky & Dy & _). rewrite A in Ky. injection Ky as <-. congruence. }
      destruct KC as [-> ->]. destruct I; split; simpl; auto; try discriminate.
      * intros h' kc [= <- <-]. auto.
      * intros h' j' [= <-] [= <-]. exists x. split; auto. destruct B as [B|[B _]]; [auto|congruence].
  - assert (M : forall k y, get N.eqb k (table s) = Some y -> exists z, get N.eqb k (upd h dispose (table s)) = Some z /\ h_abs z = h_abs y /\ (h_disposed y = true -> h_disposed z = true)).
    { intros k y Hy. rewrite get_upd. destruct (N.eqb k h); [rewrite Hy; simpl; eauto|eauto]. }
    assert (K : forall k y, get N.eqb k (upd h dispose (table s)) = Some y -> h_disposed y = false -> h_kw y = true /\ h_cb y = true /\ h_exit y = 0%nat).
    { intros k y. rewrite get_upd. destruct (N.eqb k h); [destruct (get N.eqb k (table s)); simpl; [intros [= <-]; simpl; discriminate|discriminate]|apply (i_kw _ I)]. }
    pose proof (inv_table _ _ I M K) as I'. rewrite E in I'.
    pose proof (i_cur _ I h j) as C. rewrite E in C. destruct (C eq_refl eq_refl) as (x & A & B).
    destruct I'; split; simpl in *; auto; try discriminate.
    intros h' [= <-]. exists (dispose x). rewrite get_upd, N.eqb_refl, A. auto.
  - assert (M : forall k y, get N.eqb k (table s) = Some y -> exists z, get N.eqb k (upd h drop_kw (table s)) = Some z /\ h_abs z = h_abs y /\ (h_disposed y = true -> h_disposed z = true)).
    { intros k y Hy. rewrite get_upd. destruct (N.eqb k h); [rewrite Hy; simpl; eauto|eauto]. }
    pose proof (i_pd _ I h) as D. rewrite E in D. destruct (D eq_refl) as (x & A & Dx).
    assert (K : forall k y, get N.eqb k (upd h drop_kw (table s)) = Some y -> h_disposed y = false -> h_kw y = true /\ h_cb y = true /\ h_exit y = 0%nat).
    { intros k y. rewrite get_upd. destruct (N.eqb_spec k h); [|apply (i_kw _ I)]. subst. rewrite A. simpl. intros [= <-]. simpl. congruence. }
    pose proof (inv_table _ _ I M K) as I'. rewrite E in I'. destruct I'; split; simpl in *; auto; discriminate.
  - assert (M : forall k y, get N.eqb k (table s) = Some y -> exists z, get N.eqb k (upd h drop_cb (table s)) = Some z /\ h_abs z = h_abs y /\ (h_disposed y = true -> h_disposed z = true)).
    { intros k y Hy. rewrite get_upd. destruct (N.eqb k h); [rewrite Hy; simpl; eauto|eauto]. }
    pose proof (i_pd _ I h) as D. rewrite E in D. destruct (D eq_refl) as (x & A & Dx).
    assert (K : forall k y, get N.eqb k (upd h drop_cb (table s)) = Some y -> h_disposed y = false -> h_kw y = true /\ h_cb y = true /\ h_exit y = 0%nat).
    { intros k y. rewrite get_upd. destruct (N.eqb_spec k h); [|apply (i_kw _ I)]. subst. rewrite A. simpl. intros [= <-]. simpl. congruence. }
    pose proof (inv_table _ _ I M K) as I'. rewrite E in I'. destruct I'; split; simpl in *; auto; discriminate.
  - pose proof (i_pd _ I h) as D. rewrite E in D. destruct (D eq_refl) as (x & A & Dx).
    pose proof (i_cur _ I h j) as C. rewrite E in C. destruct (C eq_refl eq_refl) as (x' & A' & B). rewrite A in A'. injection A' as <-.
    pose proof (i_passed _ I h (kw, cb)) as P. rewrite E in P. destruct (P eq_refl) as [[= -> ->] P0].
    destruct I; split; simpl; auto; try discriminate.
    + intros c [<-|Hc]; auto. simpl. exists x. split; auto. split; auto. split; auto. destruct B as [B|[_ B]]; [auto|discriminate].
    + intros h'. unfold count_calls in *. simpl. destruct (N.eqb_spec h h'); simpl; [subst; rewrite P0; lia|auto].
Qed.

Lemma inv_step s o : inv s -> inv (step s o).
Proof.
  intros I. destruct o as [h t d|h|clock]; simpl.
  - destruct (is_waiting (timer s)) eqn:W; simpl; auto. destruct (mem N.eqb h (table s)) eqn:Hm; simpl; auto.
    assert (Hg : get N.eqb h (table s) = None) by (unfold mem in Hm; destruct (get N.eqb h (table s)); congruence).
    assert (I' : inv (with_table s (table s ++ [(h, Handle t d false true true 0)]) (timer s))).
    { apply inv_table; auto.
      - intros k x Hx. exists x. rewrite get_app_new by auto. destruct (N.eqb_spec k h); [congruence|auto].
      - intros k y. rewrite get_app_new by auto. destruct (N.eqb k h); [intros [= <-]; auto|apply (i_kw _ I)]. }
    destruct I'; split; simpl in *; auto.
  - apply inv_table; auto.
    + intros k x Hx. rewrite get_upd. destruct (N.eqb k h); [|eauto]. rewrite Hx. simpl. exists (exit_step x).
      split; auto. split; [apply abs_exit|apply disposed_exit].
    + intros k y. rewrite get_upd. destruct (N.eqb k h); [|apply (i_kw _ I)].
      destruct (get N.eqb k (table s)) as [x|] eqn:E; simpl; [|discriminate]. intros [= <-]. unfold exit_step.
      destruct (h_exit x) as [|[|[|]]] eqn:Ex; simpl; try discriminate; intros Hd; destruct (i_kw _ I _ _ E Hd) as (_ & _ & X); congruence.
  - now apply inv_timer.
Qed.

Lemma inv_run ops : inv (run ops).
Proof. unfold run. rewrite <- fold_left_rev_right. induction (rev ops); simpl; [apply inv_init|apply inv_step; auto]. Qed.

(** * Registration data never changes *)
Lemma table_reg ops h x : get N.eqb h (table (run ops)) = Some x -> In (Add h (h_time x) (h_delay x)) ops.
Proof.
  revert x. induction ops as [|o ops IH] using rev_ind; [discriminate|].
  unfold run. rewrite fold_left_app. simpl. fold (run ops). intros x.
  assert (W : forall k f t, (forall y, h_time (f y) = h_time y /\ h_delay (f y) = h_delay y) -> forall z, get N.eqb h (upd k f t) = Some z ->
    exists y, get N.eqb h t = Some y /\ h_time z = h_time y /\ h_delay z = h_delay y).
  { intros k f t Hf z. rewrite get_upd. destruct (N.eqb h k); [|eauto]. destruct (get N.eqb h t) as [y|]; simpl; [|discriminate].
    intros [= <-]. destruct (Hf y). eauto. }
  assert (T : forall y, get N.eqb h (table (run ops)) = Some y -> h_time x = h_time y -> h_delay x = h_delay y -> In (Add h (h_time x) (h_delay x)) (ops ++ [o])).
  { intros y Hy -> ->. apply in_or_app. left. auto. }
  destruct o as [k t d|k|clock]; simpl.
  - destruct (is_waiting _); simpl; [|intros; eapply T; eauto]. destruct (mem N.eqb k (table (run ops))) eqn:Hm; simpl; [intros; eapply T; eauto|].
    unfold mem in Hm. destruct (get N.eqb k (table (run ops))) eqn:Hg; [discriminate|]. rewrite get_app_new by auto.
    destruct (N.eqb_spec h k); [|intros; eapply T; eauto]. subst. intros [= <-]. simpl. apply in_or_app. simpl. auto.
  - intros H. apply W in H; [|intros y; unfold exit_step; destruct (h_exit y) as [|[|[|]]]; auto]. destruct H as (y & A & B & C). eapply T; eauto.
  - unfold timer_step. destruct (timer (run ops)) as [w|j|j k|j k kw|j k kw cb|j k kw cb|j k kw cb|j k kw cb|j k kw cb]; simpl; try (intros; eapply T; eauto; fail).
    + destruct (rest j) as [|n l]; simpl; [intros; eapply T; eauto|]. destruct (get N.eqb n (table (run ops))) as [y|]; simpl; [destruct (_ && _); simpl|]; intros; eapply T; eauto.
    + destruct (get N.eqb k (table (run ops))) as [y|]; simpl; [destruct (h_disposed y); simpl|]; intros; eapply T; eauto.
    + intros H. apply W in H; [|auto]. destruct H as (y & A & B & C). eapply T; eauto.
    + intros H. apply W in H; [|auto]. destruct H as (y & A & B & C). eapply T; eauto.
    + intros H. apply W in H; [|auto]. destruct H as (y & A & B & C). eapply T; eauto.
Qed.

(** * Theorems *)
(** Each callback is called at most once. *)
Theorem timeout_once (ops : list op) (h : N) : (count_calls h (calls (run ops)) <= 1)%nat.
Proof. apply (i_once _ (inv_run ops)). Qed.

(** Never before its timeout elapsed, by the clock the timer read; and with the callback and arguments registered. *)
Theorem timeout_not_early (ops : list op) (c : call) : In c (calls (run ops)) ->
  c_kw c = true /\ c_cb c = true /\
  exists clock delay, In (Add (c_handle c) clock delay) ops /\ clock + delay <= c_clock c.
Proof.
  intros H. destruct (i_called _ (inv_run ops) _ H) as (x & A & B & C & D & E). split; auto. split; auto.
  exists (h_time x), (h_delay x). split; [now apply table_reg|exact C].
Qed.

(** Once the end of the block marked the handle, before the timer's check of it, the callback is never called. *)
Definition examining (p : tpc) (h : N) : Prop := exists kc, passed p = Some (h, kc).

Lemma disposed_stays s o h x : get N.eqb h (table s) = Some x -> h_disposed x = true ->
  exists y, get N.eqb h (table (step s o)) = Some y /\ h_disposed y = true.
Proof.
  intros H D.
  assert (W : forall k f t, (forall y, h_disposed y = true -> h_disposed (f y) = true) -> get N.eqb h t = Some x ->
     exists y, get N.eqb h (upd k f t) = Some y /\ h_disposed y = true).
  { intros k f t Hf Hg. rewrite get_upd. destruct (N.eqb h k); [rewrite Hg; simpl; eauto|eauto]. }
  destruct o as [k t d|k|clock]; simpl.
  - destruct (is_waiting _); simpl; [|eauto]. destruct (mem N.eqb k (table s)) eqn:Hm; simpl; [eauto|].
    unfold mem in Hm. destruct (get N.eqb k (table s)) eqn:Hg; [discriminate|]. rewrite get_app_new by auto.
    destruct (N.eqb_spec h k); [congruence|eauto].
  - apply W; auto. apply disposed_exit.
  - unfold timer_step. destruct (timer s) as [w|j|j k|j k kw|j k kw cb|j k kw cb|j k kw cb|j k kw cb|j k kw cb]; simpl; eauto.
    + destruct (rest j) as [|n l]; simpl; eauto. destruct (get N.eqb n (table s)); simpl; eauto. destruct (_ && _); simpl; eauto.
    + destruct (get N.eqb k (table s)) as [y|]; simpl; eauto. destruct (h_disposed y); simpl; eauto.
Qed.

Lemma not_called_step s o h x : get N.eqb h (table s) = Some x -> h_disposed x = true -> ~ examining (timer s) h ->
  ~ examining (timer (step s o)) h /\ count_calls h (calls (step s o)) = count_calls h (calls s).
Proof.
  intros H D NE. destruct o as [k t d|k|clock]; simpl.
  - destruct (is_waiting _); simpl; auto. destruct (mem N.eqb k (table s)); simpl; auto.
  - auto.
  - unfold timer_step, examining in *. destruct (timer s) as [w|j|j k|j k kw|j k kw cb|j k kw cb|j k kw cb|j k kw cb|j k kw cb] eqn:E; simpl in *.
    + split; auto.
    + destruct (rest j) as [|n l]; simpl; [split; auto; intros [? F]; discriminate|]. destruct (get N.eqb n (table s)); simpl; [destruct (_ && _); simpl|]; split; auto; intros [? F]; discriminate.
    + split; auto; intros [? F]; discriminate.
    + split; auto; intros [? F]; discriminate.
    + destruct (get N.eqb k (table s)) as [y|] eqn:Eg; simpl; [destruct (h_disposed y) eqn:Ed; simpl|]; split; auto; intros [? F]; try discriminate.
      injection F as -> _. congruence.
    + auto.
    + auto.
    + auto.
    + split; [intros [? F]; discriminate|]. unfold count_calls. simpl. destruct (N.eqb_spec k h); auto. subst. exfalso. apply NE. eauto.
Qed.

Theorem timeout_not_after_end (pre post : list op) (h : N) (x : handle) :
  get N.eqb h (table (run pre)) = Some x -> (1 <= h_exit x)%nat ->
  ~ examining (timer (run pre)) h -> count_calls h (calls (run pre)) = 0%nat ->
  count_calls h (calls (run (pre ++ post))) = 0%nat.
Proof.
  intros H X NE C.
  assert (D : h_disposed x = true).
  { destruct (h_disposed x) eqn:Ed; auto. destruct (i_kw _ (inv_run pre) _ _ H Ed) as (_ & _ & E). lia. }
  clear X. unfold run. rewrite fold_left_app. fold (run pre). revert H D NE C. generalize (run pre). intros s. revert s x.
  induction post as [|o post IH]; simpl; intros s x H D NE C; auto.
  destruct (disposed_stays s o h x H D) as (y & Hy & Dy). destruct (not_called_step s o h x H D NE) as [NE' C'].
  apply (IH _ y); auto. congruence.
Qed.

(** No timeout is forgotten: while the timer waits, either its event is set or every registered handle is due no
    earlier than the end of the wait. *)
Definition due_ok (s : state) (w : option Z) : Prop :=
  forall h x, In h (handles s) -> get N.eqb h (table s) = Some x ->
    exists w', w = Some w' /\ lastcur s + w' <= h_abs x /\ 0 < w'.

Record inv2 (s : state) : Prop := {
  j_wait : forall w, timer s = Waiting w -> event s = true \/ due_ok s w;
  j_job : forall j, job_of (timer s) = Some j -> cur j = lastcur s /\
     (forall m, mn j = Some m -> lastcur s < m) /\
     (forall h x, In h (new j) -> get N.eqb h (table s) = Some x -> exists m, mn j = Some m /\ m <= h_abs x);
  j_known : forall h, In h (handles s) \/ (exists j, job_of (timer s) = Some j /\ (In h (new j) \/ In h (rest j))) -> exists x, get N.eqb h (table s) = Some x
}.

Lemma inv2_init : inv2 init.
Proof.
  split; simpl.
  - intros w _. right. intros h x [].
  - discriminate.
  - intros h [[]|(j & H & _)]. discriminate.
Qed.

Lemma inv2_table s t p : inv2 s -> job_of p = job_of (timer s) -> (forall w, p = Waiting w -> timer s = Waiting w) ->
  (forall k x, get N.eqb k t = Some x -> exists y, get N.eqb k (table s) = Some y /\ h_abs y = h_abs x) ->
  (forall k y, get N.eqb k (table s) = Some y -> exists x, get N.eqb k t = Some x) ->
  inv2 (with_table s t p).
Proof.
  intros I J W M M'. split; simpl.
  - intros w Hw. destruct (j_wait _ I w (W _ Hw)) as [A|A]; auto. right. intros h x Hi Hx. simpl in *.
    destruct (M _ _ Hx) as (y & Hy & <-). exact (A h y Hi Hy).
  - intros j Hj. rewrite J in Hj. destruct (j_job _ I j Hj) as (A & B & C). split; auto. split; auto.
    intros h x Hi Hx. destruct (M _ _ Hx) as (y & Hy & <-). eauto.
  - intros h H. rewrite J in H. destruct (j_known _ I h H) as [y Hy]. eauto.
Qed.

Lemma inv2_step s o : inv2 s -> inv2 (step s o).
Proof.
  intros I. destruct o as [h t d|h|clock]; simpl.
  - destruct (timer s) as [w| | | | | | | |] eqn:E; simpl; try exact I.
    destruct (mem N.eqb h (table s)) eqn:Hm; simpl; auto.
    assert (Hg : get N.eqb h (table s) = None) by (unfold mem in Hm; destruct (get N.eqb h (table s)); congruence).
    split; simpl.
    + auto.
    + discriminate.
    + intros k H. rewrite get_app_new by auto. destruct (N.eqb_spec k h); [eauto|]. apply (j_known _ I k). left.
      destruct H as [H|(j & H & _)]; [|discriminate]. apply in_app_or in H. destruct H as [H|[H|[]]]; auto; congruence.
  - apply inv2_table; auto.
    + intros k x. rewrite get_upd. destruct (N.eqb k h); [|eauto]. destruct (get N.eqb k (table s)) as [y|]; simpl; [|discriminate].
      intros [= <-]. exists y. split; auto. symmetry. apply abs_exit.
    + intros k y Hy. rewrite get_upd, Hy. destruct (N.eqb k h); simpl; eauto.
  - unfold timer_step. destruct (timer s) as [w|j|j h|j h kw|j h kw cb|j h kw cb|j h kw cb|j h kw cb|j h kw cb] eqn:E.
    + split; simpl; [discriminate| |].
      * intros j [= <-]. simpl. split; auto. split; [discriminate|]. intros h x [].
      * intros h [[]|(j & [= <-] & [[]|H])]. simpl in H. apply (j_known _ I). auto.
    + pose proof (j_job _ I j) as J. rewrite E in J. destruct (J eq_refl) as (J1 & J2 & J3). pose proof (j_known _ I) as K.
      destruct (rest j) as [|h r] eqn:Er.
      * split; simpl; [|discriminate|].
        -- intros w [= <-]. right. intros h x Hi Hx. simpl in *. destruct (J3 h x Hi Hx) as (m & Hm & Hle). rewrite Hm.
           exists (m - cur j). split; auto. specialize (J2 m Hm). lia.
        -- intros h [H|(j' & H & _)]; [|discriminate]. apply K. right. exists j. split; [now rewrite E|auto].
      * assert (Kn : forall k, In k (handles s) \/ In k (new j) \/ k = h \/ In k r -> exists x, get N.eqb k (table s) = Some x).
        { intros k H. apply K. destruct H as [H|H]; auto. right. exists j. split; [now rewrite E|]. rewrite Er. simpl. intuition. }
        destruct (get N.eqb h (table s)) as [x|] eqn:Eg.
        -- destruct (Z.ltb_spec (cur j) (h_abs x)); simpl; [destruct (h_disposed x); simpl|].
           ++ split; simpl; [discriminate| |].
              ** intros j' [= <-]. simpl. auto.
              ** intros k [Hk|(j' & [= <-] & Hk)]; apply Kn; auto. simpl in Hk. intuition.
           ++ split; simpl; [discriminate| |].
              ** intros j' [= <-]. simpl. split; auto. split.
                 { intros m. destruct (mn j) as [m0|] eqn:Em; [destruct (Z.ltb_spec (h_abs x) m0)|]; intros [= <-]; try lia. apply J2; auto. }
                 { intros k y Hk Hy. apply in_app_or in Hk. destruct Hk as [Hk|[<-|[]]].
                   - destruct (J3 k y Hk Hy) as (m & -> & Hle). destruct (Z.ltb_spec (h_abs x) m); eexists; split; eauto; lia.
                   - rewrite Eg in Hy. injection Hy as <-. destruct (mn j) as [m0|]; [destruct (Z.ltb_spec (h_abs x) m0)|]; eexists; split; eauto; lia. }
              ** intros k [Hk|(j' & [= <-] & Hk)]; apply Kn; auto. simpl in Hk. rewrite in_app_iff in Hk. simpl in Hk. intuition.
           ++ split; simpl; [discriminate| |].
              ** intros j' [= <-]. simpl. auto.
              ** intros k [Hk|(j' & [= <-] & Hk)]; apply Kn; auto. simpl in Hk. intuition.
        -- exfalso. destruct (Kn h); auto. congruence.
    + apply (inv2_table s (table s)); simpl; auto; try (rewrite E; auto); try discriminate; eauto.
    + apply (inv2_table s (table s)); simpl; auto; try (rewrite E; auto); try discriminate; eauto.
    + destruct (get N.eqb h (table s)) as [x|]; [destruct (h_disposed x)|];
      apply (inv2_table s (table s)); simpl; auto; try (rewrite E; auto); try discriminate; eauto.
    + apply inv2_table; simpl; auto; try (rewrite E; auto); try discriminate.
      * intros k x. rewrite get_upd. destruct (N.eqb k h); [|eauto]. destruct (get N.eqb k (table s)) as [y|]; simpl; [|discriminate]. intros [= <-]. eauto.
      * intros k y Hy. rewrite get_upd, Hy. destruct (N.eqb k h); simpl; eauto.
    + apply inv2_table; simpl; auto; try (rewrite E; auto); try discriminate.
      * intros k x. rewrite get_upd. destruct (N.eqb k h); [|eauto]. destruct (get N.eqb k (table s)) as [y|]; simpl; [|discriminate]. intros [= <-]. eauto.
      * intros k y Hy. rewrite get_upd, Hy. destruct (N.eqb k h); simpl; eauto.
    + apply inv2_table; simpl; auto; try (rewrite E; auto); try discriminate.
      * intros k x. rewrite get_upd. destruct (N.eqb k h); [|eauto]. destruct (get N.eqb k (table s)) as [y|]; simpl; [|discriminate]. intros [= <-]. eauto.
      * intros k y Hy. rewrite get_upd, Hy. destruct (N.eqb k h); simpl; eauto.
    + assert (I' : inv2 (with_table s (table s) (Loop j))).
      { apply (inv2_table s (table s)); simpl; auto; try (rewrite E; auto); try discriminate; eauto. }
      destruct I'; split; simpl in *; auto.
Qed.

Lemma inv2_run ops : inv2 (run ops).
Proof. unfold run. rewrite <- fold_left_rev_right. induction (rev ops); simpl; [apply inv2_init|apply inv2_step; auto]. Qed.

(** Every handle registered is still in the list, or was called, or its block ended. *)
Definition kept (s : state) (h : N) : Prop :=
  In h (handles s) \/ (exists j, job_of (timer s) = Some j /\ (In h (new j) \/ In h (rest j))) \/ current (timer s) = Some h \/
  exists x, get N.eqb h (table s) = Some x /\ h_disposed x = true.

Record inv3 (s : state) : Prop := {
  k_empty : forall j, job_of (timer s) = Some j -> handles s = [];
  k_kept : forall h x, get N.eqb h (table s) = Some x -> kept s h;
  k_why : forall h x, get N.eqb h (table s) = Some x -> h_disposed x = true ->
     (1 <= h_exit x)%nat \/ count_calls h (calls s) = 1%nat \/ passed_disposed (timer s) = Some h
}.

Lemma kept_step s o h : (forall j, job_of (timer s) = Some j -> handles s = []) -> inv s -> inv2 s -> kept s h -> kept (step s o) h.
Proof.
  intros Em I I2 K. destruct K as [K|[(j & J & K)|[K|(x & Hx & D)]]].
  4: { destruct (disposed_stays s o h x Hx D) as (y & A & B). right. right. right. eauto. }
  - destruct o as [k t d|k|clock]; simpl.
    + destruct (is_waiting _); simpl; [|left; auto]. destruct (mem _ _ _); simpl; left; auto. simpl. apply in_or_app; auto.
    + left. auto.
    + destruct (job_of (timer s)) as [j|] eqn:J; [rewrite (Em j eq_refl) in K; destruct K|].
      unfold timer_step. destruct (timer s); try discriminate. right. left. exists (Job clock (handles s) [] None). simpl. auto.
  - destruct o as [k t d|k|clock]; simpl.
    + assert (W : is_waiting (timer s) = false) by (destruct (timer s); [discriminate|auto..]). rewrite W. right. left. eauto.
    + right. left. eauto.
    + unfold timer_step. destruct (timer s) as [w|j'|j' k|j' k kw|j' k kw cb|j' k kw cb|j' k kw cb|j' k kw cb|j' k kw cb] eqn:E; simpl in J; try discriminate; injection J as ->;
      try (right; left; simpl; eauto; fail).
      * destruct (rest j) as [|k r] eqn:Er; [left; simpl; destruct K as [K|[]]; exact K|].
        destruct (get N.eqb k (table s)) as [y|] eqn:Eg; [destruct (_ && _)|].
        -- right. left. eexists. split; [reflexivity|]. simpl in *. rewrite in_app_iff. simpl. tauto.
        -- destruct K as [K|[->|K]]; [right; left|right; right; left; reflexivity|right; left]; eexists; (split; [reflexivity|]); simpl; auto.
        -- destruct (j_known _ I2 k) as [z Hz]; [right; exists j; rewrite E; simpl; rewrite Er; simpl; auto|congruence].
      * destruct (get N.eqb k (table s)) as [y|]; [destruct (h_disposed y)|]; right; left; simpl; eauto.
  - destruct o as [k t d|k|clock]; simpl.
    + assert (W : is_waiting (timer s) = false) by (destruct (timer s); [discriminate|auto..]). rewrite W. right. right. left. auto.
    + right. right. left. auto.
    + unfold timer_step. destruct (timer s) as [w|j'|j' k|j' k kw|j' k kw cb|j' k kw cb|j' k kw cb|j' k kw cb|j' k kw cb] eqn:E; simpl in K; try discriminate; injection K as ->;
      try (right; right; left; simpl; eauto; fail).
      * destruct (get N.eqb h (table s)) as [y|] eqn:Eg.
        -- destruct (h_disposed y) eqn:Ed; [right; right; right; simpl; eauto|right; right; left; auto].
        -- destruct (i_cur _ I h j') as (x & A & _); [now rewrite E..|congruence].
      * destruct (i_pd _ I h) as (x & A & B); [now rewrite E|]. right. right. right. simpl. eauto.
Qed.

Lemma kept_new s h k t d : get N.eqb k (table s) = None -> kept s h ->
  kept (State (table s ++ [(k, Handle t d false true true 0)]) (handles s ++ [k]) true (timer s) (lastcur s) (calls s)) h.
Proof.
  intros Hg [K|[K|[K|(x & A & B)]]].
  - left. simpl. apply in_or_app. auto.
  - right. left. auto.
  - right. right. left. auto.
  - right. right. right. exists x. simpl. rewrite get_app_new by auto. destruct (N.eqb_spec h k); [congruence|auto].
Qed.

Lemma why_upd s k f h x p cl : inv3 s ->
  (forall y, h_exit y <= h_exit (f y))%nat ->
  (forall y, h_disposed (f y) = true -> h_disposed y = true \/ (1 <= h_exit (f y))%nat \/ passed_disposed p = Some k) ->
  (forall g, passed_disposed (timer s) = Some g -> count_calls g cl = 1%nat \/ passed_disposed p = Some g) ->
  (forall g, count_calls g (calls s) = 1 -> count_calls g cl = 1)%nat ->
  get N.eqb h (upd k f (table s)) = Some x -> h_disposed x = true ->
  (1 <= h_exit x)%nat \/ count_calls h cl = 1%nat \/ passed_disposed p = Some h.
Proof.
  intros I Fe Fd Fp Fc. rewrite get_upd. destruct (N.eqb_spec h k) as [->|].
  - destruct (get N.eqb k (table s)) as [y|] eqn:E; simpl; [|discriminate]. intros [= <-] D.
    destruct (Fd y D) as [D'|[D'|D']]; auto. destruct (k_why _ I _ _ E D') as [A|[A|A]].
    + left. specialize (Fe y). lia.
    + auto.
    + destruct (Fp _ A); auto.
  - intros Hx D. destruct (k_why _ I _ _ Hx D) as [A|[A|A]]; auto.
Qed.

Lemma table_known s o h x : get N.eqb h (table (step s o)) = Some x ->
  (exists y, get N.eqb h (table s) = Some y) \/ (exists t d, o = Add h t d /\ In h (handles (step s o))).
Proof.
  assert (W : forall k f, get N.eqb h (upd k f (table s)) = Some x -> exists y, get N.eqb h (table s) = Some y).
  { intros k f. rewrite get_upd. destruct (N.eqb h k); [|eauto]. destruct (get N.eqb h (table s)); simpl; [eauto|discriminate]. }
  destruct o as [k t d|k|clock]; simpl.
  - destruct (is_waiting _); simpl; [|eauto]. destruct (mem N.eqb k (table s)) eqn:Hm; simpl; [eauto|].
    unfold mem in Hm. destruct (get N.eqb k (table s)) eqn:Hg; [discriminate|]. rewrite get_app_new by auto.
    destruct (N.eqb_spec h k); [|eauto]. subst. right. exists t, d. split; auto. apply in_or_app. simpl. auto.
  - intros H. apply W in H. auto.
  - unfold timer_step. destruct (timer s) as [w|j|j k|j k kw|j k kw cb|j k kw cb|j k kw cb|j k kw cb|j k kw cb]; simpl; eauto; try (intros H; left; eapply W; eassumption).
    + destruct (rest j) as [|n l]; simpl; [eauto|]. destruct (get N.eqb n (table s)); simpl; [destruct (_ && _); simpl|]; eauto.
    + destruct (get N.eqb k (table s)) as [y|]; simpl; [destruct (h_disposed y); simpl|]; eauto.
Qed.

Lemma inv3_step s o : inv s -> inv2 s -> inv3 s -> inv3 (step s o).
Proof.
  intros I I2 I3. split.
  - pose proof (k_empty _ I3) as Em. destruct o as [k t d|k|clock]; simpl.
    + destruct (timer s) eqn:E; simpl; try (rewrite E; exact Em). destruct (mem _ _ _); simpl; [rewrite E|]; discriminate.
    + exact Em.
    + unfold timer_step. destruct (timer s) as [w|j|j k|j k kw|j k kw cb|j k kw cb|j k kw cb|j k kw cb|j k kw cb] eqn:E; simpl; auto; try (intros; now apply (Em j)).
      * destruct (rest j) as [|k r]; [discriminate|]. destruct (get N.eqb k (table s)) as [y|]; [destruct (_ && _)|]; intros; now apply (Em j).
      * destruct (get N.eqb k (table s)) as [y|]; [destruct (h_disposed y)|]; intros; now apply (Em j).
  - intros h x Hx. destruct (table_known _ _ _ _ Hx) as [[y Hy]|(t & d & _ & Hin)].
    + apply kept_step; auto; [apply (k_empty _ I3)|]. eapply k_kept; eauto.
    + left. auto.
  - intros h x. destruct o as [k t d|k|clock]; simpl.
    + destruct (is_waiting _); simpl; [|apply (k_why _ I3)]. destruct (mem N.eqb k (table s)) eqn:Hm; simpl; [apply (k_why _ I3)|].
      unfold mem in Hm. destruct (get N.eqb k (table s)) eqn:Hg; [discriminate|]. rewrite get_app_new by auto.
      destruct (N.eqb h k); [intros [= <-]; discriminate|apply (k_why _ I3)].
    + apply (why_upd s); auto.
      * intros y. unfold exit_step. destruct (h_exit y) as [|[|[|]]] eqn:Ey; simpl; lia.
      * intros y. unfold exit_step. destruct (h_exit y) as [|[|[|]]] eqn:Ey; simpl; lia || auto.
    + assert (Id : forall p cl, (forall g, passed_disposed (timer s) = Some g -> count_calls g cl = 1%nat \/ passed_disposed p = Some g) ->
        (forall g, count_calls g (calls s) = 1 -> count_calls g cl = 1)%nat ->
        get N.eqb h (table s) = Some x -> h_disposed x = true -> (1 <= h_exit x)%nat \/ count_calls h cl = 1%nat \/ passed_disposed p = Some h).
      { intros p cl Fp Fc Hx D. destruct (k_why _ I3 _ _ Hx D) as [A|[A|A]]; auto. }
      unfold timer_step. destruct (timer s) as [w|j|j k|j k kw|j k kw cb|j k kw cb|j k kw cb|j k kw cb|j k kw cb] eqn:E.
      * apply (Id (Loop (Job clock (handles s) [] None))); simpl; auto; discriminate.
      * destruct (rest j) as [|n l]; [apply (Id (Waiting None)); simpl; auto; discriminate|].
        destruct (get N.eqb n (table s)) as [y|]; [destruct (_ && _)|]; apply (Id (Waiting None)); simpl; auto; discriminate.
      * apply (Id (Waiting None)); simpl; auto; discriminate.
      * apply (Id (Waiting None)); simpl; auto; discriminate.
      * destruct (get N.eqb k (table s)) as [y|]; [destruct (h_disposed y)|]; apply (Id (Waiting None)); simpl; auto; discriminate.
      * apply (why_upd s k dispose h x (Set2 j k kw cb) (calls s)); simpl; auto; rewrite E; discriminate.
      * apply (why_upd s k drop_kw h x (Set3 j k kw cb) (calls s)); simpl; auto; rewrite E; auto.
      * apply (why_upd s k drop_cb h x (Call j k kw cb) (calls s)); simpl; auto; rewrite E; auto.
      * simpl. apply (Id (Loop j) (MkCall k (cur j) kw cb :: calls s)); simpl.
        -- intros g [= <-]. left. destruct (i_passed _ I k (kw, cb)) as [_ P]; [now rewrite E|]. unfold count_calls in *. simpl. rewrite N.eqb_refl. simpl. now rewrite P.
        -- intros g Hg. destruct (i_passed _ I k (kw, cb)) as [_ P]; [now rewrite E|]. unfold count_calls in *. simpl. destruct (N.eqb_spec k g); auto. subst. lia.
Qed.

Lemma inv3_run ops : inv3 (run ops).
Proof.
  induction ops as [|o ops IH] using rev_ind.
  - split; simpl; discriminate.
  - unfold run. rewrite fold_left_app. simpl. fold (run ops). apply inv3_step; auto; [apply inv_run|apply inv2_run].
Qed.

(** While the timer waits and no wake-up is due, every registered callback was called, or its block has ended, or it is
    due no earlier than the end of the wait. *)
Theorem timeout_not_forgotten (ops : list op) (w : option Z) (h : N) (x : handle) :
  timer (run ops) = Waiting w -> event (run ops) = false ->
  get N.eqb h (table (run ops)) = Some x ->
  count_calls h (calls (run ops)) = 1%nat \/ (1 <= h_exit x)%nat \/
  exists w', w = Some w' /\ 0 < w' /\ lastcur (run ops) + w' <= h_time x + h_delay x.
Proof.
  intros E Ev Hx. destruct (k_kept _ (inv3_run ops) _ _ Hx) as [Hi|[(j & J & _)|[K|(y & Hy & D)]]].
  - destruct (j_wait _ (inv2_run ops) w E) as [A|A]; [congruence|]. destruct (A h x Hi Hx) as (w' & B & C & D). right. right. eauto.
  - rewrite E in J. discriminate.
  - rewrite E in K. discriminate.
  - rewrite Hx in Hy. injection Hy as <-. destruct (k_why _ (inv3_run ops) _ _ Hx D) as [A|[A|A]]; auto. rewrite E in A. discriminate.
Qed.

(** A registration is always recorded while the timer waits. *)
Theorem timeout_registered (ops : list op) (h : N) (clock delay : Z) :
  is_waiting (timer (run ops)) = true -> mem N.eqb h (table (run ops)) = false ->
  let s := run (ops ++ [Add h clock delay]) in
  event s = true /\ get N.eqb h (table s) = Some (Handle clock delay false true true 0) /\ In h (handles s).
Proof.
  intros W M. unfold run. rewrite fold_left_app. fold (run ops). cbn [fold_left step]. rewrite W, M. cbn [andb negb event table handles].
  unfold mem in M. destruct (get N.eqb h (table (run ops))) eqn:Hg; [discriminate|]. rewrite get_app_new, N.eqb_refl by auto.
  split; auto. split; auto. apply in_or_app. simpl. auto.
Qed.

(** But the end of the block does not wait for a callback that already passed the check: it can run afterwards, since
    exec_on_timeout and __exit__ hold different locks. *)
Theorem timeout_not_after_end_refuted : exists pre post h x,
  get N.eqb h (table (run pre)) = Some x /\ h_exit x = 3%nat /\ count_calls h (calls (run pre)) = 0%nat /\
  count_calls h (calls (run (pre ++ post))) = 1%nat.
Proof.
  exists [Add 1%N 0 5; Timer 7; Timer 7; Timer 7; Timer 7; Timer 7; Exit 1%N; Exit 1%N; Exit 1%N].
  exists [Timer 7; Timer 7; Timer 7; Timer 7], 1%N. eexists. vm_compute. repeat split; reflexivity.
Qed.

(** * Examples: two callbacks, one whose block ends in time *)
Definition ex_ops : list op := [Add 1%N 0 5; Add 2%N 1 3; Timer 2; Timer 0; Timer 0; Timer 0; Exit 1%N; Exit 1%N; Exit 1%N]
  ++ repeat (Timer 6) 18.
Example ex_calls : map c_handle (calls (run ex_ops)) = [2%N] /\ timer (run ex_ops) = Waiting None.
Proof. vm_compute. auto. Qed.
Example ex_wait : timer (run [Add 1%N 0 5; Add 2%N 1 3; Timer 2; Timer 0; Timer 0; Timer 0]) = Waiting (Some 2).
Proof. vm_compute. auto. Qed.
Example ex_end : let s := run (firstn 7 ex_ops) in
  (exists x, get N.eqb 1%N (table s) = Some x /\ h_exit x = 1%nat) /\ passed (timer s) = None /\ count_calls 1%N (calls s) = 0%nat.
Proof. vm_compute. repeat split; eauto. Qed.

Print Assumptions timeout_once.
Print Assumptions timeout_not_early.
Print Assumptions timeout_not_after_end.
Print Assumptions timeout_not_forgotten.
Print Assumptions timeout_registered.
Print Assumptions timeout_not_after_end_refuted.
