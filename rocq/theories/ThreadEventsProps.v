(** C18: each thread is announced before its exit is reported, and not twice. *)
From Coq Require Import List NArith Bool Lia Arith.
From Verif Require Import Base Dict ThreadEvents.
Import ListNotations.

(** * Specification: what the client knows about a thread id, from the events received in this session *)
Fixpoint announced (t : N) (l : list event) : bool :=      (* newest first *)
  match l with
  | [] | Session :: _ => false
  | Started u :: r => if N.eqb u t then true else announced t r
  | Exited u :: r => if N.eqb u t then false else announced t r
  end.
(** 'started' only for a thread not announced, 'exited' only for one that is *)
Fixpoint proper (l : list event) : Prop :=
  match l with
  | [] => True
  | Started t :: r => announced t r = false /\ proper r
  | Exited t :: r => announced t r = true /\ proper r
  | Session :: r => proper r
  end.

(** Messages are sent before any other agent takes the lock. *)
Fixpoint prompt (ops : list op) : Prop :=
  match ops with
  | [] => True
  | Created a _ _ :: r => (match r with Send b :: _ => b = a | _ => False end) /\ prompt r
  | NotAlive a _ :: r => (match r with Send b :: _ => b = a | _ => False end) /\ prompt r
  | _ :: r => prompt r
  end.

Record inv (s : state) : Prop := {
  v_proper : proper (events s);
  v_run : enabled s = true -> forall t, announced t (events s) = mem N.eqb t (running s);
  v_nodup : NoDup (keys (running s))
}.

Lemma mem_set t u o (d : list (N * N)) : mem N.eqb t (set N.eqb u o d) = (N.eqb t u || mem N.eqb t d)%bool.
Proof. unfold mem. rewrite (get_set _ N.eqb_spec). destruct (N.eqb t u); auto. Qed.
Lemma mem_del t u (d : list (N * N)) : NoDup (keys d) -> mem N.eqb t (del N.eqb u d) = (negb (N.eqb t u) && mem N.eqb t d)%bool.
Proof.
  intros ND. unfold mem. destruct (N.eqb_spec t u) as [->|n].
  - now rewrite (get_del_same _ N.eqb_spec).
  - rewrite (get_del_other _ N.eqb_spec) by congruence. auto.
Qed.

Lemma inv_created s x : inv s -> inv (created_now s x).
Proof.
  intros I. unfold created_now, created. destruct x as [t obj]. cbn [fst snd]. destruct (enabled s) eqn:E; cbn [negb]; [|exact I].
  destruct (mem N.eqb t (running s)) eqn:M; [exact I|]. destruct (memN obj (killed s)); [exact I|]. cbn [send].
  split; cbn [events running enabled pending killed].
  - split; [rewrite (v_run _ I E); auto|apply (v_proper _ I)].
  - intros _ u. cbn [announced]. rewrite mem_set. destruct (N.eqb_spec t u) as [->|n]; [now rewrite N.eqb_refl|].
    destruct (N.eqb_spec u t); [congruence|]. apply (v_run _ I E).
  - apply (NoDup_keys_set _ N.eqb_spec). apply (v_nodup _ I).
Qed.
Lemma inv_not_alive s t : inv s -> inv (not_alive_now s t).
Proof.
  intros I. unfold not_alive_now, not_alive. destruct (enabled s) eqn:E; cbn [negb]; [|exact I].
  destruct (get N.eqb t (running s)) as [obj|] eqn:G; [|exact I]. cbn [send].
  split; cbn [events running enabled pending killed].
  - split; [rewrite (v_run _ I E); unfold mem; now rewrite G|apply (v_proper _ I)].
  - intros _ u. cbn [announced]. rewrite mem_del by apply (v_nodup _ I). destruct (N.eqb_spec t u) as [->|n]; [now rewrite N.eqb_refl|].
    destruct (N.eqb_spec u t); [congruence|]. apply (v_run _ I E).
  - apply NoDup_keys_del. apply (v_nodup _ I).
Qed.
Lemma inv_fold {A} (f : state -> A -> state) l s : (forall s x, inv s -> inv (f s x)) -> inv s -> inv (fold_left f l s).
Proof. intros H. revert s. induction l; simpl; auto. Qed.
Lemma inv_reconcile s alive : inv s -> inv (reconcile s alive).
Proof. intros I. unfold reconcile. apply inv_fold; [intros; now apply inv_not_alive|]. apply inv_fold; auto. intros; now apply inv_created. Qed.
Lemma inv_enable s b : inv s -> inv (enable s b).
Proof.
  intros I. unfold enable. destruct (Bool.eqb (enabled s) b); [exact I|]. destruct b; split; cbn [events running enabled]; auto; try discriminate.
  - cbn. apply (v_proper _ I).
  - constructor.
  - apply (v_proper _ I).
  - apply (v_nodup _ I).
Qed.

(** a prompt run is a run of whole notifications *)
Definition whole (s : state) (o : op) : state :=
  match o with
  | Created _ t obj => created_now s (t, obj)
  | NotAlive _ t => not_alive_now s t
  | Send _ => s
  | Reconcile alive => reconcile s alive
  | Enable b => enable s b
  end.

Lemma pending_created s t obj : pending (fst (created s t obj)) = pending s /\ events (fst (created s t obj)) = events s.
Proof. unfold created. destruct (negb _); auto. destruct (mem _ _ _); auto. destruct (memN _ _); auto. Qed.
Lemma pending_not_alive s t : pending (fst (not_alive s t)) = pending s /\ events (fst (not_alive s t)) = events s.
Proof. unfold not_alive. destruct (negb _); auto. destruct (get _ _ _); auto. Qed.
Lemma later_send s a e : pending s = [] -> step (later s a e) (Send a) = send s e.
Proof.
  intros P. destruct e as [e|]; cbn [later step].
  - cbn [pending]. rewrite P. cbn [set get]. rewrite N.eqb_refl. cbn [del]. rewrite N.eqb_refl. cbn [enabled running killed events send]. now rewrite P.
  - rewrite P. reflexivity.
Qed.
Lemma now_pending s : pending s = [] -> (forall x, pending (created_now s x) = []) /\ (forall t, pending (not_alive_now s t) = []).
Proof.
  intros P. split.
  - intros [t obj]. unfold created_now. cbn [fst snd]. pose proof (pending_created s t obj) as [H _]. destruct (created s t obj) as [s' [e|]]; simpl in *; congruence.
  - intros t. unfold not_alive_now. pose proof (pending_not_alive s t) as [H _]. destruct (not_alive s t) as [s' [e|]]; simpl in *; congruence.
Qed.
Lemma whole_pending s o : pending s = [] -> pending (whole s o) = [].
Proof.
  intros P. destruct o; cbn [whole]; auto; try (now apply now_pending).
  - unfold reconcile. assert (F : forall A (f : state -> A -> state) l s, (forall s x, pending s = [] -> pending (f s x) = []) -> pending s = [] -> pending (fold_left f l s) = []).
    { intros A f l. induction l; simpl; auto. }
    apply F; [intros; now apply now_pending|]. apply F; auto. intros; now apply now_pending.
  - unfold enable. destruct (Bool.eqb _ _); auto.
Qed.

Lemma prompt_run : forall ops s, pending s = [] -> prompt ops -> fold_left step ops s = fold_left whole ops s /\ pending (fold_left whole ops s) = [].
Proof.
  intros ops. induction ops as [ops IH] using (induction_ltof1 _ (@length op)). unfold ltof in IH. intros s P H.
  destruct ops as [|o r]; [auto|]. cbn [fold_left].
  assert (D : (exists a, r = Send a :: tl r /\ step (step s o) (Send a) = whole s o) \/ step s o = whole s o).
  { destruct o as [a t obj|a t|a|alive|b]; cbn [prompt] in H.
    - left. destruct H as [H _]. destruct r as [|[| |b| |] r]; try tauto. subst b. exists a. split; auto. cbn [step]. rewrite P. cbn [mem get whole].
      unfold created_now. cbn [fst snd]. pose proof (pending_created s t obj) as [Q _]. destruct (created s t obj) as [s' e]. simpl in Q. apply later_send. congruence.
    - left. destruct H as [H _]. destruct r as [|[| |b| |] r]; try tauto. subst b. exists a. split; auto. cbn [step]. rewrite P. cbn [mem get whole].
      unfold not_alive_now. pose proof (pending_not_alive s t) as [Q _]. destruct (not_alive s t) as [s' e]. simpl in Q. apply later_send. congruence.
    - right. cbn [step whole]. now rewrite P.
    - auto.
    - auto. }
  assert (Hr : prompt r) by (destruct o; cbn [prompt] in H; tauto).
  destruct D as [(a & Er & D)|D].
  - rewrite Er. cbn [fold_left]. rewrite D. replace (whole (whole s o) (Send a)) with (whole s o) by reflexivity.
    apply IH; [rewrite Er; simpl; lia|now apply whole_pending|]. rewrite Er in Hr. exact Hr.
  - rewrite D. apply IH; [simpl; lia|now apply whole_pending|auto].
Qed.

Lemma inv_prompt ops : prompt ops -> inv (run ops).
Proof.
  intros H. unfold run. destruct (prompt_run ops init eq_refl H) as [-> _].
  assert (G : forall l s, inv s -> inv (fold_left whole l s)).
  { induction l as [|o l IH]; simpl; auto. intros s I. apply IH. destruct o; cbn [whole]; auto using inv_created, inv_not_alive, inv_reconcile, inv_enable. }
  apply G. split; simpl; auto; constructor.
Qed.

(** * Theorems *)
(** When each message is sent before another agent takes the lock: within a session a thread is announced before its
    exit is reported, and neither twice in a row. *)
Theorem thread_events_proper (ops : list op) : prompt ops -> proper (events (run ops)).
Proof. intros H. apply (v_proper _ (inv_prompt ops H)). Qed.

(** What the client knows is what the debugger tracks. *)
Theorem thread_events_known (ops : list op) (t : N) : prompt ops -> enabled (run ops) = true ->
  announced t (events (run ops)) = mem N.eqb t (running (run ops)).
Proof. intros H E. apply (v_run _ (inv_prompt ops H) E). Qed.

(** After reconciling, exactly the live threads not already reported as exited are announced. *)
Lemma created_fold_enabled l : forall s, enabled (fold_left created_now l s) = enabled s /\ killed (fold_left created_now l s) = killed s.
Proof.
  induction l as [|[t obj] l IH]; cbn [fold_left]; auto. intros s. destruct (IH (created_now s (t, obj))) as [A B]. rewrite A, B.
  unfold created_now, created. cbn [fst snd]. destruct (enabled s) eqn:E; cbn [negb send]; auto. destruct (mem _ _ _); auto. destruct (memN _ _); auto.
Qed.
Lemma created_fold l : forall s, enabled s = true -> NoDup (keys l) -> forall t,
  mem N.eqb t (running (fold_left created_now l s)) =
    (mem N.eqb t (running s) || match get N.eqb t l with Some obj => negb (memN obj (killed s)) | None => false end)%bool.
Proof.
  induction l as [|[u obj] l IH]; intros s E ND t; cbn [fold_left get]; [now rewrite orb_false_r|].
  inversion_clear ND as [|? ? Hn ND']. pose proof (created_fold_enabled [(u, obj)] s) as [Ee Ek]. cbn [fold_left] in Ee, Ek.
  rewrite IH by (auto; congruence). rewrite Ek.
  assert (R : mem N.eqb t (running (created_now s (u, obj))) = (mem N.eqb t (running s) || (N.eqb t u && negb (memN obj (killed s))))%bool).
  { unfold created_now, created. cbn [fst snd]. rewrite E. cbn [negb].
    destruct (mem N.eqb u (running s)) eqn:M; cbn [send].
    - destruct (N.eqb_spec t u); subst; [now rewrite M|now rewrite orb_false_r].
    - destruct (memN obj (killed s)); cbn [send running]; [now rewrite andb_false_r, orb_false_r|]. rewrite mem_set, andb_true_r. apply orb_comm. }
  rewrite R. destruct (N.eqb_spec t u).
  - subst. rewrite (proj2 (get_None _ N.eqb_spec _ _)) by auto. now rewrite orb_false_r.
  - now rewrite orb_false_r.
Qed.
Lemma not_alive_fold l : forall s, enabled s = true -> NoDup (keys (running s)) -> forall t,
  mem N.eqb t (running (fold_left not_alive_now l s)) = (mem N.eqb t (running s) && negb (existsb (N.eqb t) l))%bool.
Proof.
  induction l as [|u l IH]; intros s E ND t; cbn [fold_left existsb]; [now rewrite andb_true_r|].
  assert (Ee : enabled (not_alive_now s u) = true) by (unfold not_alive_now, not_alive; rewrite E; cbn [negb]; destruct (get _ _ _); auto).
  assert (En : NoDup (keys (running (not_alive_now s u)))).
  { unfold not_alive_now, not_alive. rewrite E. cbn [negb]. destruct (get _ _ _); auto. cbn [send running]. now apply NoDup_keys_del. }
  rewrite IH by auto. assert (R : mem N.eqb t (running (not_alive_now s u)) = (mem N.eqb t (running s) && negb (N.eqb t u))%bool).
  { unfold not_alive_now, not_alive. rewrite E. cbn [negb]. destruct (get N.eqb u (running s)) eqn:G; cbn [send running].
    - rewrite mem_del by auto. apply andb_comm.
    - destruct (N.eqb_spec t u); subst; [unfold mem; now rewrite G|now rewrite andb_true_r]. }
  rewrite R, negb_orb, andb_assoc. reflexivity.
Qed.
Lemma created_fold_nodup l : forall s, NoDup (keys (running s)) -> NoDup (keys (running (fold_left created_now l s))).
Proof.
  induction l as [|[u obj] l IH]; cbn [fold_left]; auto. intros s H. apply IH. unfold created_now, created. cbn [fst snd]. destruct (negb _); auto.
  destruct (mem _ _ _); auto. destruct (memN _ _); auto. cbn [send running]. now apply (NoDup_keys_set _ N.eqb_spec).
Qed.

Theorem thread_events_reconcile (ops : list op) (alive : list (N * N)) (t : N) : prompt ops -> enabled (run ops) = true ->
  NoDup (keys alive) ->
  announced t (events (run (ops ++ [Reconcile alive]))) = true <->
  exists obj, get N.eqb t alive = Some obj /\ (announced t (events (run ops)) = true \/ ~ In obj (killed (run ops))).
Proof.
  intros H E ND.
  assert (H' : prompt (ops ++ [Reconcile alive])).
  { clear E ND. revert H. induction ops as [|o r IH]; cbn; auto. destruct o; cbn [prompt]; intros; try (now apply IH).
    - destruct H as [A B]. split; [|now apply IH]. destruct r; cbn [app]; [tauto|auto].
    - destruct H as [A B]. split; [|now apply IH]. destruct r; cbn [app]; [tauto|auto]. }
  pose proof (inv_prompt ops H) as I. pose proof (inv_prompt _ H') as I'. set (s := run ops) in *.
  assert (R : run (ops ++ [Reconcile alive]) = reconcile s alive) by (unfold run; now rewrite fold_left_app).
  assert (E' : enabled (run (ops ++ [Reconcile alive])) = true).
  { rewrite R. unfold reconcile. pose proof (created_fold_enabled alive s) as [A _]. revert A. generalize (fold_left created_now alive s). intros s1 A.
    assert (F : forall l s, enabled (fold_left not_alive_now l s) = enabled s).
    { induction l as [|u l IH]; cbn [fold_left]; auto. intros s0. rewrite IH. unfold not_alive_now, not_alive. destruct (enabled s0) eqn:E0; cbn [negb send]; auto. destruct (get _ _ _); auto. }
    rewrite F. congruence. }
  rewrite (v_run _ I' E'), (v_run _ I E), R. unfold reconcile.
  rewrite not_alive_fold by (try (rewrite (proj1 (created_fold_enabled alive s)); auto); apply created_fold_nodup, (v_nodup _ I)).
  rewrite created_fold by auto.
  set (m := mem N.eqb t (running (fold_left created_now alive s))).
  assert (M : m = (mem N.eqb t (running s) || match get N.eqb t alive with Some obj => negb (memN obj (killed s)) | None => false end)%bool) by (apply created_fold; auto).
  rewrite <- M.
  assert (X : existsb (N.eqb t) (filter (fun u => negb (mem N.eqb u alive)) (keys (running (fold_left created_now alive s)))) = (m && negb (mem N.eqb t alive))%bool).
  { apply eq_true_iff_eq. rewrite existsb_exists, andb_true_iff. split.
    - intros (x & Hx & e). apply N.eqb_eq in e. subst x. apply filter_In in Hx. destruct Hx as [Hk Ha]. split; auto. unfold m, mem.
      destruct (get N.eqb t (running (fold_left created_now alive s))) eqn:G; auto. apply (get_None _ N.eqb_spec) in G. tauto.
    - intros [Hm Ha]. exists t. rewrite N.eqb_refl. split; auto. apply filter_In. split; auto. unfold m, mem in Hm.
      destruct (get N.eqb t (running (fold_left created_now alive s))) eqn:G; [|discriminate]. apply (get_In _ N.eqb_spec) in G. apply in_map_iff. exists (t, n). auto. }
  rewrite X. unfold mem at 1. destruct (get N.eqb t alive) as [obj|] eqn:G.
  - cbn [negb]. rewrite andb_false_r. cbn [negb]. rewrite andb_true_r, M. rewrite orb_true_iff, negb_true_iff. split.
    + intros D. exists obj. split; auto. destruct D as [D|D]; auto. right. intros Hi. unfold memN in D.
      assert (existsb (N.eqb obj) (killed s) = true) by (apply existsb_exists; exists obj; split; auto; apply N.eqb_refl). congruence.
    + intros (o & [= <-] & [D|D]); auto. right. destruct (memN obj (killed s)) eqn:K; auto. exfalso. apply D. unfold memN in K.
      apply existsb_exists in K. destruct K as (x & Hx & e). apply N.eqb_eq in e. now subst.
  - cbn [negb]. rewrite andb_true_r. split; [destruct m; discriminate|]. intros (o & F & _). discriminate.
Qed.

(** Once the exit of a thread object was noticed it is never announced again, whatever happens in between. *)
Lemma killed_mono s o obj : In obj (killed s) -> In obj (killed (step s o)).
Proof.
  assert (C : forall s t o, In obj (killed s) -> In obj (killed (fst (created s t o)))).
  { intros s0 t o0 H. unfold created. destruct (negb _); auto. destruct (mem _ _ _); auto. destruct (memN _ _); auto. }
  assert (D : forall s t, In obj (killed s) -> In obj (killed (fst (not_alive s t)))).
  { intros s0 t H. unfold not_alive. destruct (negb _); auto. destruct (get _ _ _); auto. cbn [fst killed]. destruct (memN _ _); simpl; auto. }
  assert (E : forall s e, killed (send s e) = killed s) by (intros s0 [e|]; auto).
  assert (F : forall s a e, killed (later s a e) = killed s) by (intros s0 a [e|]; auto).
  intros H. destruct o as [a t o|a t|a|alive|b]; cbn [step].
  - destruct (mem _ _ _); auto. specialize (C s t o H). destruct (created s t o). simpl in C. now rewrite F.
  - destruct (mem _ _ _); auto. specialize (D s t H). destruct (not_alive s t). simpl in D. now rewrite F.
  - destruct (get _ _ _); auto.
  - unfold reconcile. assert (G1 : forall l s, In obj (killed s) -> In obj (killed (fold_left created_now l s))).
    { induction l as [|x l IH]; cbn [fold_left]; auto. intros s0 H0. apply IH. unfold created_now. specialize (C s0 (fst x) (snd x) H0). destruct (created s0 (fst x) (snd x)). now rewrite E. }
    assert (G2 : forall l s, In obj (killed s) -> In obj (killed (fold_left not_alive_now l s))).
    { induction l as [|x l IH]; cbn [fold_left]; auto. intros s0 H0. apply IH. unfold not_alive_now. specialize (D s0 x H0). destruct (not_alive s0 x). now rewrite E. }
    auto.
  - unfold enable. destruct (Bool.eqb _ _); auto.
Qed.
Theorem thread_not_revived (pre post : list op) (a b t u obj : N) :
  enabled (run pre) = true -> mem N.eqb a (pending (run pre)) = false -> get N.eqb t (running (run pre)) = Some obj ->
  run (pre ++ NotAlive a t :: post ++ [Created b u obj]) = run (pre ++ NotAlive a t :: post).
Proof.
  intros E P G. unfold run. rewrite !fold_left_app. fold (run pre). cbn [fold_left]. rewrite fold_left_app. cbn [fold_left].
  set (s1 := step (run pre) (NotAlive a t)).
  assert (K : In obj (killed s1)).
  { unfold s1. cbn [step]. rewrite P. unfold not_alive. rewrite E. cbn [negb]. rewrite G. cbn [later killed].
    destruct (memN obj (killed (run pre))) eqn:M; simpl; auto. unfold memN in M. apply existsb_exists in M. destruct M as (x & Hx & e). apply N.eqb_eq in e. now subst. }
  assert (K2 : In obj (killed (fold_left step post s1))).
  { clearbody s1. revert s1 K. induction post as [|o r IH]; cbn [fold_left]; auto. intros s1 K. apply IH. now apply killed_mono. }
  set (s2 := fold_left step post s1) in *. clear P. cbn [step]. destruct (mem N.eqb b (pending s2)); auto. unfold created. destruct (negb (enabled s2)); auto. destruct (mem N.eqb u (running s2)); auto.
  assert (M : memN obj (killed s2) = true) by (unfold memN; apply existsb_exists; exists obj; split; auto; apply N.eqb_refl). now rewrite M.
Qed.
Example not_revived_case : get N.eqb 7%N (running (run [Created 1 7 70; Send 1]%N)) = Some 70%N /\ enabled (run [Created 1 7 70; Send 1]%N) = true /\
  mem N.eqb 1%N (pending (run [Created 1 7 70; Send 1]%N)) = false.
Proof. vm_compute. auto. Qed.

(** For every schedule, in the first session: no more exits than announcements, counting messages on their way. *)
Definition is_started t e := match e with Started u => N.eqb u t | _ => false end.
Definition is_exited t e := match e with Exited u => N.eqb u t | _ => false end.
Definition cnt (p : event -> bool) (l : list event) : nat := length (filter p l).
Definition all_events (s : state) : list event := map snd (pending s) ++ events s.

Lemma cnt_set p a e (d : list (N * event)) : mem N.eqb a d = false -> cnt p (map snd (set N.eqb a e d)) = cnt p (map snd d) + (if p e then 1 else 0).
Proof.
  unfold mem, cnt. induction d as [|[k v] d IH]; cbn [get set map filter snd].
  - destruct (p e); auto.
  - destruct (N.eqb a k) eqn:E; [discriminate|]. cbn [map filter snd]. intros H. destruct (p v); cbn [length]; rewrite IH by auto; lia.
Qed.
Lemma cnt_del p a e (d : list (N * event)) : get N.eqb a d = Some e -> cnt p (map snd d) = cnt p (map snd (del N.eqb a d)) + (if p e then 1 else 0).
Proof.
  unfold cnt. induction d as [|[k v] d IH]; cbn [get del map filter snd]; [discriminate|].
  destruct (N.eqb a k) eqn:E.
  - intros [= ->]. destruct (p e); cbn [length]; lia.
  - intros H. cbn [map filter snd]. destruct (p v); cbn [length]; rewrite IH by auto; lia.
Qed.

Record cinv (t : N) (s : state) : Prop := {
  c_eq : cnt (is_started t) (all_events s) = cnt (is_exited t) (all_events s) + (if mem N.eqb t (running s) then 1 else 0);
  c_nd : NoDup (keys (running s))
}.
Lemma cnt_app p a b : cnt p (a ++ b) = cnt p a + cnt p b.
Proof. unfold cnt. now rewrite filter_app, app_length. Qed.
Lemma cnt_cons p e b : cnt p (e :: b) = (if p e then 1 else 0) + cnt p b.
Proof. unfold cnt. simpl. destruct (p e); auto. Qed.

Definition first_session (ops : list op) : Prop := forall b, ~ In (Enable b) ops.

Lemma cinv_created t s u obj s' e : cinv t s -> created s u obj = (s', e) ->
  pending s' = pending s /\ events s' = events s /\ NoDup (keys (running s')) /\
  cnt (is_started t) (all_events s) + (match e with Some e => if is_started t e then 1 else 0 | None => 0 end) =
  cnt (is_exited t) (all_events s) + (match e with Some e => if is_exited t e then 1 else 0 | None => 0 end) + (if mem N.eqb t (running s') then 1 else 0).
Proof.
  intros [C ND] H. unfold created in H. destruct (negb (enabled s)); [injection H as <- <-; rewrite C; repeat split; auto; lia|].
  destruct (mem N.eqb u (running s)) eqn:M; [injection H as <- <-; rewrite C; repeat split; auto; lia|].
  destruct (memN obj (killed s)); injection H as <- <-; [rewrite C; repeat split; auto; lia|]. cbn [pending events running is_started is_exited].
  split; auto. split; auto. split; [now apply (NoDup_keys_set _ N.eqb_spec)|]. rewrite mem_set, C.
  destruct (N.eqb_spec u t); subst; [rewrite N.eqb_refl, M; cbn; lia|]. destruct (N.eqb_spec t u); [congruence|]. cbn. lia.
Qed.
Lemma cinv_not_alive t s u s' e : cinv t s -> not_alive s u = (s', e) ->
  pending s' = pending s /\ events s' = events s /\ NoDup (keys (running s')) /\
  cnt (is_started t) (all_events s) + (match e with Some e => if is_started t e then 1 else 0 | None => 0 end) =
  cnt (is_exited t) (all_events s) + (match e with Some e => if is_exited t e then 1 else 0 | None => 0 end) + (if mem N.eqb t (running s') then 1 else 0).
Proof.
  intros [C ND] H. unfold not_alive in H. destruct (negb (enabled s)); [injection H as <- <-; rewrite C; repeat split; auto; lia|].
  destruct (get N.eqb u (running s)) eqn:M; injection H as <- <-; [|rewrite C; repeat split; auto; lia]. cbn [pending events running is_started is_exited].
  split; auto. split; auto. split; [now apply NoDup_keys_del|]. rewrite mem_del by auto. rewrite C.
  destruct (N.eqb_spec u t); subst; [rewrite N.eqb_refl; unfold mem; rewrite M; cbn; lia|]. destruct (N.eqb_spec t u); [congruence|]. cbn. lia.
Qed.
Lemma cinv_send t s0 s e : pending s = pending s0 -> events s = events s0 -> NoDup (keys (running s)) ->
  cnt (is_started t) (all_events s0) + (match e with Some e => if is_started t e then 1 else 0 | None => 0 end) =
  cnt (is_exited t) (all_events s0) + (match e with Some e => if is_exited t e then 1 else 0 | None => 0 end) + (if mem N.eqb t (running s) then 1 else 0) ->
  cinv t (send s e).
Proof.
  intros P E ND C. destruct e as [e|]; cbn [send]; split; unfold all_events in *; cbn [pending events running]; auto; rewrite ?cnt_app, ?cnt_cons in *; rewrite P, E; lia.
Qed.
Lemma cinv_later t a s0 s e : pending s = pending s0 -> events s = events s0 -> NoDup (keys (running s)) -> mem N.eqb a (pending s0) = false ->
  cnt (is_started t) (all_events s0) + (match e with Some e => if is_started t e then 1 else 0 | None => 0 end) =
  cnt (is_exited t) (all_events s0) + (match e with Some e => if is_exited t e then 1 else 0 | None => 0 end) + (if mem N.eqb t (running s) then 1 else 0) ->
  cinv t (later s a e).
Proof.
  intros P E ND M C. destruct e as [e|]; cbn [later]; split; unfold all_events in *; cbn [pending events running]; auto; rewrite ?cnt_app in *; rewrite P, E.
  - rewrite !cnt_set by auto. lia.
  - lia.
Qed.

Lemma cinv_step t s o : (forall b, o <> Enable b) -> cinv t s -> cinv t (step s o).
Proof.
  intros NE I. destruct o as [a u obj|a u|a|alive|b]; cbn [step].
  - destruct (mem N.eqb a (pending s)) eqn:M; auto. destruct (created s u obj) as [s' e] eqn:H. destruct (cinv_created t s u obj s' e I H) as (A & B & C & D).
    eapply cinv_later; eauto.
  - destruct (mem N.eqb a (pending s)) eqn:M; auto. destruct (not_alive s u) as [s' e] eqn:H. destruct (cinv_not_alive t s u s' e I H) as (A & B & C & D).
    eapply cinv_later; eauto.
  - destruct (get N.eqb a (pending s)) as [e|] eqn:G; auto. destruct I as [C ND]. split; unfold all_events in *; cbn [pending events running]; auto.
    pose proof (cnt_del (is_started t) a e _ G). pose proof (cnt_del (is_exited t) a e _ G). rewrite !cnt_app, ?cnt_cons in *. lia.
  - unfold reconcile. assert (F1 : forall l s, cinv t s -> cinv t (fold_left created_now l s)).
    { induction l as [|[u obj] l IH]; cbn [fold_left]; auto. intros s0 I0. apply IH. unfold created_now. cbn [fst snd].
      destruct (created s0 u obj) as [s' e] eqn:H. destruct (cinv_created t s0 u obj s' e I0 H) as (A & B & C & D). eapply cinv_send; eauto. }
    assert (F2 : forall l s, cinv t s -> cinv t (fold_left not_alive_now l s)).
    { induction l as [|u l IH]; cbn [fold_left]; auto. intros s0 I0. apply IH. unfold not_alive_now.
      destruct (not_alive s0 u) as [s' e] eqn:H. destruct (cinv_not_alive t s0 u s' e I0 H) as (A & B & C & D). eapply cinv_send; eauto. }
    auto.
  - destruct (NE b eq_refl).
Qed.

Theorem thread_events_balanced (ops : list op) (t : N) : first_session ops ->
  cnt (is_exited t) (all_events (run ops)) <= cnt (is_started t) (all_events (run ops)) <= cnt (is_exited t) (all_events (run ops)) + 1.
Proof.
  intros F. assert (I : cinv t (run ops)).
  { unfold run. assert (G : forall l s, (forall b, ~ In (Enable b) l) -> cinv t s -> cinv t (fold_left step l s)).
    { induction l as [|o l IH]; cbn [fold_left]; auto. intros s H I. apply IH; [intros b Hb; apply (H b); right; auto|]. apply cinv_step; auto.
      intros b ->. apply (H b). left. auto. }
    apply G; auto. split; [reflexivity|constructor]. }
  rewrite (c_eq _ _ I). destruct (mem _ _ _); lia.
Qed.

(** But messages are sent outside the lock: the exit can be reported before the start. *)
Theorem thread_events_order_refuted : exists ops t, first_session ops /\ events (run ops) = [Started t; Exited t].
Proof.
  exists [Created 1 7 70; NotAlive 2 7; Send 2; Send 1], 7%N. split; [|reflexivity].
  intros b H. simpl in H. intuition discriminate.
Qed.
(** And enabling notifications again announces threads twice, and never reports the exit of those that ended meanwhile. *)
Theorem thread_events_sessions_refuted : exists ops t u, prompt ops /\
  events (run ops) = [Started t; Session; Started u; Started t] /\ mem N.eqb u (running (run ops)) = false.
Proof.
  exists [Created 1 7 70; Send 1; Created 1 8 80; Send 1; Enable false; NotAlive 1 8; Send 1; Enable true; Reconcile [(7, 70)]]%N, 7%N, 8%N.
  vm_compute. repeat split.
Qed.

(** * Examples *)
Definition ex_ops : list op := [Created 1 7 70; Send 1; Reconcile [(7, 70); (8, 80)]; NotAlive 1 7; Send 1; Reconcile [(7, 71)]]%N.
Example ex_events : prompt ex_ops /\ events (run ex_ops) = [Exited 8; Started 7; Exited 7; Started 8; Started 7]%N /\ enabled (run ex_ops) = true /\ first_session ex_ops.
Proof. split; [vm_compute; auto|]. split; [reflexivity|]. split; [reflexivity|]. intros b H. simpl in H. intuition discriminate. Qed.

Print Assumptions thread_events_proper.
Print Assumptions thread_events_known.
Print Assumptions thread_events_reconcile.
Print Assumptions thread_not_revived.
Print Assumptions thread_events_balanced.
Print Assumptions thread_events_order_refuted.
Print Assumptions thread_events_sessions_refuted.
