(** C16: internal commands are executed at most once and in order, by the thread they are for; none is lost. *)
From Coq Require Import List NArith Bool String Lia Arith.
From Verif Require Import Base Dict CmdQueue.
Import ListNotations.

(** * Specification: what was posted, what was executed *)
Definition posted (ops : list op) : list cmd := flat_map (fun o => match o with Post c => [c] | _ => [] end) ops.
Definition executed (s : state) : list cmd := rev (map snd (log s)).
Definition executed_by (t : str) (s : state) : list cmd := rev (map snd (filter (fun e => str_eqb (fst e) t) (log s))).
(** commands waiting in a queue or already taken by a thread that has not run them yet *)
Definition held (f : frame) : list cmd :=
  match f with Coll _ _ b c | Back _ _ b c => b ++ c | Exec c _ => c end.
Definition waiting (s : state) : list cmd :=
  flat_map snd (queues s) ++ flat_map (fun e => flat_map held (snd e)) (stacks s).
Definition cnt (i : N) (l : list cmd) : nat := List.length (filter (fun c => N.eqb (cid c) i) l).
Definition no_raise (ops : list op) : Prop := forall t, ~ In (Raise t) ops.

Lemma cnt_app i a b : cnt i (a ++ b) = cnt i a + cnt i b.
Proof. unfold cnt. now rewrite filter_app, app_length. Qed.
Lemma cnt_rev i a : cnt i (rev a) = cnt i a.
Proof. induction a; simpl; auto. rewrite cnt_app, IHa. unfold cnt. simpl. destruct (N.eqb _ _); simpl; lia. Qed.
Lemma cnt_cons i c a : cnt i (c :: a) = cnt i [c] + cnt i a.
Proof. now rewrite <- cnt_app. Qed.
Lemma cnt_nil i : cnt i [] = 0. Proof. reflexivity. Qed.

Lemma getl_set {A} k k' (v : list A) d : getl k (set str_eqb k' v d) = if str_eqb k k' then v else getl k d.
Proof. unfold getl. rewrite (get_set _ str_eqb_spec). destruct (str_eqb k k'); auto. Qed.

Lemma cnt_set {A} (h : A -> list cmd) i k v (d : list (str * list A)) :
  cnt i (flat_map (fun e => flat_map h (snd e)) (set str_eqb k v d)) + cnt i (flat_map h (getl k d)) =
  cnt i (flat_map (fun e => flat_map h (snd e)) d) + cnt i (flat_map h v).
Proof.
  induction d as [|[k' v'] d IH]; unfold getl in *; simpl.
  - rewrite app_nil_r. unfold cnt; simpl; lia.
  - destruct (str_eqb k k'); simpl; rewrite !cnt_app; [lia|]. unfold getl in IH. lia.
Qed.
Lemma cnt_setq i k v (d : list (str * list cmd)) :
  cnt i (flat_map snd (set str_eqb k v d)) + cnt i (getl k d) = cnt i (flat_map snd d) + cnt i v.
Proof.
  induction d as [|[k' v'] d IH]; unfold getl in *; simpl.
  - rewrite app_nil_r. unfold cnt; simpl; lia.
  - destruct (str_eqb k k'); simpl; rewrite !cnt_app; [lia|]. unfold getl in IH. lia.
Qed.

Definition total (i : N) (s : state) : nat :=
  cnt i (flat_map snd (queues s)) + cnt i (flat_map (fun e => flat_map held (snd e)) (stacks s)) + cnt i (map snd (log s)).

Lemma total_setq i s k v : total i (setq s k v) + cnt i (getl k (queues s)) = total i s + cnt i v.
Proof. unfold total, setq. simpl. pose proof (cnt_setq i k v (queues s)). lia. Qed.
Lemma total_setst i s t v : total i (setst s t v) + cnt i (flat_map held (getl t (stacks s))) = total i s + cnt i (flat_map held v).
Proof. unfold total, setst. simpl. pose proof (cnt_set held i t v (stacks s)). lia. Qed.

Ltac cnts := repeat (rewrite ?cnt_app, ?cnt_nil in * ); simpl flat_map in *; repeat rewrite ?cnt_app, ?cnt_nil in *.

Lemma total_step i s o : (forall t, o <> Raise t) -> total i (step s o) = total i s + cnt i (match o with Post c => [c] | _ => [] end).
Proof.
  intros NR. destruct o as [c|t all|t ok|t ok|t]; cbn [step].
  - pose proof (total_setq i s (key c) (getl (key c) (queues s) ++ [c])) as H. rewrite cnt_app in H. lia.
  - destruct (free _); [|rewrite cnt_nil; lia]. pose proof (total_setst i s t ((if all then Coll t [lit "*"] [] [] else Coll (lit "*") [] [] []) :: getl t (stacks s))) as H.
    rewrite cnt_nil. destruct all; cbn [flat_map held app] in H; lia.
  - rewrite cnt_nil. destruct (getl t (stacks s)) as [|f st] eqn:E; [lia|].
    assert (S1 : forall f', total i (setst s t (f' :: st)) + cnt i (held f) = total i s + cnt i (held f')).
    { intros f'. pose proof (total_setst i s t (f' :: st)) as H. rewrite E in H. cbn [flat_map] in H. rewrite !cnt_app in H. lia. }
    assert (S2 : forall k v f', total i (setst (setq s k v) t (f' :: st)) + cnt i (held f) + cnt i (getl k (queues s)) = total i s + cnt i (held f') + cnt i v).
    { intros k v f'. pose proof (total_setst i (setq s k v) t (f' :: st)) as H. change (stacks (setq s k v)) with (stacks s) in H. rewrite E in H. cbn [flat_map] in H. rewrite !cnt_app in H.
      pose proof (total_setq i s k v). lia. }
    destruct f as [q more back cmds|q more back cmds|cs r].
    + destruct (getl q (queues s)) as [|c r] eqn:Eq.
      * specialize (S1 (Back q more back cmds)). cbn [held] in S1. lia.
      * destruct (can c t ok).
        -- specialize (S2 q r (Coll q more back (cmds ++ [c]))). rewrite Eq in S2. cbn [held] in S2. rewrite !cnt_app in S2. rewrite (cnt_cons i c r) in S2. lia.
        -- specialize (S2 q r (Coll q more (back ++ [c]) cmds)). rewrite Eq in S2. cbn [held] in S2. rewrite !cnt_app in S2. rewrite (cnt_cons i c r) in S2. lia.
    + destruct back as [|b bs]; [destruct more as [|q' more]|].
      * specialize (S1 (Exec cmds None)). cbn [held app] in S1. lia.
      * specialize (S1 (Coll q' more [] cmds)). cbn [held app] in S1. lia.
      * specialize (S2 q (getl q (queues s) ++ [b]) (Back q more bs cmds)). cbn [held] in S2. rewrite !cnt_app in S2. rewrite (cnt_cons i b bs) in S2. destruct more; lia.
    + destruct r as [c|]; [specialize (S1 (Exec cs None)); cbn [held] in S1; destruct cs; lia|]. destruct cs as [|c cs].
      * pose proof (total_setst i s t st) as H. rewrite E in H. cbn [flat_map held app] in H. lia.
      * specialize (S1 (Exec cs (Some c))). cbn [held] in S1. rewrite (cnt_cons i c cs) in S1. unfold total in *. cbn [queues stacks log setst map] in *.
        cbn [snd]. rewrite (cnt_cons i c). lia.
  - rewrite cnt_nil. destruct (free _); [|lia]. destruct (getl t (queues s)) as [|c r] eqn:Eq; [lia|]. destruct (can c t ok).
    + pose proof (total_setst i (setq s t r) t (Exec [c] None :: getl t (stacks s))) as H. change (stacks (setq s t r)) with (stacks s) in H. cbn [flat_map held] in H. rewrite cnt_app in H.
      pose proof (total_setq i s t r) as H2. rewrite Eq, (cnt_cons i c r) in H2. lia.
    + pose proof (total_setq i s t (r ++ [c])) as H2. rewrite Eq, (cnt_cons i c r), cnt_app in H2. lia.
  - destruct (NR t eq_refl).
Qed.

Lemma total_run i ops : no_raise ops -> total i (run ops) = cnt i (posted ops).
Proof.
  induction ops as [|o ops IH] using rev_ind; intros NR; [reflexivity|].
  unfold run, posted in *. rewrite fold_left_app, flat_map_app, cnt_app. cbn [fold_left]. rewrite total_step.
  - rewrite IH by (intros t H; apply (NR t), in_or_app; auto). simpl flat_map. now rewrite app_nil_r.
  - intros t ->. apply (NR t), in_or_app. simpl. auto.
Qed.

(** Nothing is lost or duplicated: however often a command was posted, it is that often executed or waiting. *)
Theorem cmd_conserved (ops : list op) (i : N) : no_raise ops ->
  cnt i (posted ops) = cnt i (executed (run ops)) + cnt i (waiting (run ops)).
Proof. intros H. rewrite <- (total_run i ops H). unfold total, executed, waiting. rewrite cnt_rev, cnt_app. lia. Qed.

(** So each command is executed at most once, by at most one thread. *)
Theorem cmd_once (ops : list op) (i : N) : no_raise ops -> cnt i (posted ops) <= 1 ->
  cnt i (executed (run ops)) <= 1 /\
  (cnt i (posted ops) = 1 -> cnt i (executed (run ops)) = 0 -> cnt i (waiting (run ops)) = 1).
Proof. intros H P. pose proof (cmd_conserved ops i H). lia. Qed.

(** Even when computing whether a command can run raises, nothing is executed twice. *)
Lemma total_step_le i s o : total i (step s o) <= total i s + cnt i (match o with Post c => [c] | _ => [] end).
Proof.
  destruct o as [c|t all|t ok|t ok|t]; try (rewrite total_step; [lia|discriminate]).
  cbn [step]. rewrite cnt_nil. destruct (getl t (stacks s)) as [|f st] eqn:E; [lia|]. destruct f as [q more back cmds|q more back cmds|cs r]; try lia.
  destruct (getl q (queues s)) as [|c r] eqn:Eq; [lia|].
  pose proof (total_setst i (setq s q r) t st) as H. change (stacks (setq s q r)) with (stacks s) in H. rewrite E in H. cbn [flat_map] in H. rewrite !cnt_app in H.
  pose proof (total_setq i s q r) as H2. rewrite Eq, (cnt_cons i c r) in H2. lia.
Qed.
Theorem cmd_at_most_once (ops : list op) (i : N) : cnt i (executed (run ops)) <= cnt i (posted ops).
Proof.
  assert (H : total i (run ops) <= cnt i (posted ops)).
  { induction ops as [|o ops IH] using rev_ind; [reflexivity|].
    unfold run, posted in *. rewrite fold_left_app, flat_map_app, cnt_app. cbn [fold_left].
    eapply Nat.le_trans; [apply total_step_le|]. simpl flat_map. rewrite app_nil_r. lia. }
  unfold executed. rewrite cnt_rev. unfold total in H. lia.
Qed.

(** * Who executes *)
(** The thread that reads a queue can always execute the plain commands put there for it. *)
Lemma after_bar_spec s : forall cur pre, ((exists x, pre ++ s = x ++ 124%N :: cur) \/ cur = pre ++ s) ->
  (exists x, pre ++ s = x ++ 124%N :: after_bar s cur) \/ after_bar s cur = pre ++ s.
Proof.
  induction s as [|c r IH]; intros cur pre H; simpl; [exact H|].
  replace (pre ++ c :: r) with ((pre ++ [c]) ++ r) in * by (now rewrite <- app_assoc).
  destruct (N.eqb_spec c 124); apply IH; [|exact H].
  subst. left. exists pre. now rewrite <- app_assoc.
Qed.

Theorem owner_can (c : cmd) (t : str) (ok : bool) : ckind c = Plain -> queue_of (ctid c) = t -> can c t ok = true.
Proof.
  intros K Q. unfold can. rewrite K. unfold queue_of in Q. destruct (starts_with _ (ctid c)).
  - destruct (after_bar_spec (ctid c) (ctid c) []) as [[x H]|H]; [auto| |].
    + rewrite Q in H. simpl in H. apply orb_true_iff. right. apply ends_with_spec. exists x. exact H.
    + rewrite Q in H. simpl in H. rewrite H. now rewrite (proj2 (str_eqb_eq _ _) eq_refl).
  - subst. now rewrite (proj2 (str_eqb_eq _ _) eq_refl).
Qed.

(** A command for a frame of a thread goes to the queue of that thread. *)
Lemma after_bar_nobar t : ~ In 124%N t -> forall cur, after_bar t cur = cur.
Proof.
  induction t as [|c t IH]; simpl; auto. intros H cur. destruct (N.eqb_spec c 124); [subst; tauto|]. apply IH. tauto.
Qed.
Theorem frame_queue (pre t : str) : ~ In 124%N t -> queue_of (lit "__frame__" ++ pre ++ 124%N :: t) = t.
Proof.
  intros H. unfold queue_of. rewrite (proj2 (starts_with_spec _ _)) by eauto.
  generalize (lit "__frame__" ++ pre ++ 124%N :: t) at 2. rewrite app_assoc. generalize (lit "__frame__" ++ pre).
  intros l. induction l as [|c l IH]; intros cur; cbn [app after_bar]; [cbn; now apply after_bar_nobar|].
  destruct (N.eqb c 124); apply IH.
Qed.
Example frame_queue_case : queue_of (lit "__frame__:12|pid_3_id_4") = lit "pid_3_id_4". Proof. reflexivity. Qed.

(** * Order.  [own t]: commands posted to the queue of thread t *)
Definition own (t : str) (c : cmd) : bool := str_eqb (key c) t.

(** Commands are not executed while another activation of the same thread is still running its commands. *)
Fixpoint flat_from (s : state) (ops : list op) : Prop :=
  match ops with
  | [] => True
  | o :: r => (match o with Begin t _ | Take t _ => getl t (stacks s) = [] | Raise _ => False | _ => True end) /\ flat_from (step s o) r
  end.
Definition flat (ops : list op) : Prop := flat_from init ops.

(** thread ids are not "*"; they are not frame ids *)
Definition real_thread (t : str) : Prop := t <> lit "*".

Definition own_held (t : str) (l : list frame) : list cmd := filter (own t) (flat_map held l).

Record oinv (t : str) (p : list cmd) (s : state) : Prop := {
  o_eq : filter (own t) (executed s) ++ own_held t (getl t (stacks s)) ++ getl t (queues s) = filter (own t) p;
  o_len : List.length (getl t (stacks s)) <= 1;
  o_q : forall k c, In c (getl k (queues s)) -> key c = k;
  o_held : forall u f c, In f (getl u (stacks s)) -> In c (held f) -> key c = u \/ key c = lit "*";
  o_frames : forall u f, In f (getl u (stacks s)) ->
     match f with
     | Coll q more back cmds => (q = u \/ q = lit "*") /\ (forall x, In x more -> x = lit "*") /\ (forall c, In c back -> key c = lit "*" /\ q = lit "*")
     | Back q more back cmds => (q = u \/ q = lit "*") /\ (forall x, In x more -> x = lit "*") /\ (forall c, In c back -> key c = lit "*" /\ q = lit "*")
     | Exec cmds _ => True
     end;
  o_log : forall u c, In (u, c) (log s) -> key c = u \/ key c = lit "*"
}.

Lemma oinv_init t : oinv t [] init.
Proof. split; simpl; try tauto; try lia; reflexivity. Qed.

Lemma own_key t c : own t c = true <-> key c = t.
Proof. unfold own. apply str_eqb_eq. Qed.
Lemma own_no t c k : key c = k -> k <> t -> own t c = false.
Proof. intros H N. destruct (own t c) eqn:E; auto. apply own_key in E. congruence. Qed.
Lemma filter_none t l : (forall c, In c l -> key c <> t) -> filter (own t) l = [].
Proof.
  induction l as [|c l IH]; simpl; auto. intros H. rewrite IH by auto. destruct (own t c) eqn:E; auto. apply own_key in E. destruct (H c); auto.
Qed.
Lemma filter_all t l : (forall c, In c l -> key c = t) -> filter (own t) l = l.
Proof. induction l as [|c l IH]; simpl; auto. intros H. rewrite IH by auto. now rewrite (proj2 (own_key t c)) by auto. Qed.
Lemma own_can t c ok : real_thread t -> key c = t -> can c t ok = true.
Proof.
  intros R K. unfold key in K. destruct (ckind c) eqn:E; try (destruct R; now symmetry). now apply owner_can.
Qed.

Lemma str_eqb_neq a b : a <> b -> str_eqb a b = false.
Proof. intros H. destruct (str_eqb_spec a b); congruence. Qed.

Lemma queue_put t p s c : oinv t p s ->
  filter (own t) (executed s) ++ own_held t (getl t (stacks s)) ++ getl t (set str_eqb (key c) (getl (key c) (queues s) ++ [c]) (queues s)) = filter (own t) (p ++ [c]).
Proof.
  intros I. rewrite getl_set, filter_app. simpl. destruct (str_eqb_spec t (key c)) as [e|n].
  - rewrite (proj2 (own_key t c)) by auto. rewrite <- (o_eq _ _ _ I), <- e. now rewrite !app_assoc.
  - rewrite (own_no t c (key c)) by auto. rewrite app_nil_r. apply (o_eq _ _ _ I).
Qed.

(** Change of the stack of thread [u] and of queue [k] that keeps the equation, and of the log *)
Lemma oinv_upd t p s s' : oinv t p s ->
  filter (own t) (executed s') ++ own_held t (getl t (stacks s')) ++ getl t (queues s') = filter (own t) p ->
  List.length (getl t (stacks s')) <= 1 ->
  (forall k c, In c (getl k (queues s')) -> In c (getl k (queues s)) \/ key c = k) ->
  (forall u f c, In f (getl u (stacks s')) -> In c (held f) -> In f (getl u (stacks s)) \/ key c = u \/ key c = lit "*") ->
  (forall u f, In f (getl u (stacks s')) -> In f (getl u (stacks s)) \/
     match f with
     | Coll q more back cmds => (q = u \/ q = lit "*") /\ (forall x, In x more -> x = lit "*") /\ (forall c, In c back -> key c = lit "*" /\ q = lit "*")
     | Back q more back cmds => (q = u \/ q = lit "*") /\ (forall x, In x more -> x = lit "*") /\ (forall c, In c back -> key c = lit "*" /\ q = lit "*")
     | Exec cmds _ => True
     end) ->
  (forall u c, In (u, c) (log s') -> In (u, c) (log s) \/ key c = u \/ key c = lit "*") ->
  oinv t p s'.
Proof.
  intros I A B C D E F. split; auto.
  - intros k c H. destruct (C _ _ H); auto. eapply o_q; eauto.
  - intros u f c H1 H2. destruct (D _ _ _ H1 H2); auto. eapply o_held; eauto.
  - intros u f H. destruct (E _ _ H) as [H'|H']; auto. exact (o_frames _ _ _ I _ _ H').
  - intros u c H. destruct (F _ _ H); auto. eapply o_log; eauto.
Qed.

(** [replace f' for f]: the top frame of thread u is replaced, queue k becomes v *)
Lemma oinv_frame t p s u f st f' k v : oinv t p s -> real_thread t ->
  getl u (stacks s) = f :: st ->
  (u = t -> own_held t (f' :: st) ++ getl t (set str_eqb k v (queues s)) = own_held t (f :: st) ++ getl t (queues s)) ->
  (u <> t -> k <> t) ->
  (forall c, In c v -> key c = k) ->
  (forall c, In c (held f') -> key c = u \/ key c = lit "*") ->
  match f' with
     | Coll q more back cmds => (q = u \/ q = lit "*") /\ (forall x, In x more -> x = lit "*") /\ (forall c, In c back -> key c = lit "*" /\ q = lit "*")
     | Back q more back cmds => (q = u \/ q = lit "*") /\ (forall x, In x more -> x = lit "*") /\ (forall c, In c back -> key c = lit "*" /\ q = lit "*")
     | Exec cmds _ => True
  end ->
  oinv t p (setst (setq s k v) u (f' :: st)).
Proof.
  intros I R E A K V H F. eapply oinv_upd; [exact I|..]; cbn [setst setq stacks queues log].
  - change (executed (setst (setq s k v) u (f' :: st))) with (executed s). rewrite getl_set.
    destruct (str_eqb_spec t u) as [->|n].
    + rewrite A by auto. rewrite <- E. apply (o_eq _ _ _ I).
    + rewrite getl_set. rewrite (str_eqb_neq t k) by (intros ->; apply K; auto). apply (o_eq _ _ _ I).
  - rewrite getl_set. destruct (str_eqb_spec t u) as [->|n]; [|apply (o_len _ _ _ I)].
    pose proof (o_len _ _ _ I) as L. rewrite E in L. exact L.
  - intros k' c. rewrite getl_set. destruct (str_eqb_spec k' k) as [->|n]; auto.
  - intros u' f0 c. rewrite getl_set. destruct (str_eqb_spec u' u) as [->|n]; auto. intros [<-|Hi] Hc; auto. left. rewrite E. right. auto.
  - intros u' f0. rewrite getl_set. destruct (str_eqb_spec u' u) as [->|n]; auto. intros [<-|Hi]; auto. left. rewrite E. right. auto.
  - auto.
Qed.

Lemma oinv_frame0 t p s u f st f' : oinv t p s -> real_thread t ->
  getl u (stacks s) = f :: st ->
  (u = t -> own_held t (f' :: st) = own_held t (f :: st)) ->
  (forall c, In c (held f') -> key c = u \/ key c = lit "*") ->
  match f' with
     | Coll q more back cmds => (q = u \/ q = lit "*") /\ (forall x, In x more -> x = lit "*") /\ (forall c, In c back -> key c = lit "*" /\ q = lit "*")
     | Back q more back cmds => (q = u \/ q = lit "*") /\ (forall x, In x more -> x = lit "*") /\ (forall c, In c back -> key c = lit "*" /\ q = lit "*")
     | Exec cmds _ => True
  end ->
  oinv t p (setst s u (f' :: st)).
Proof.
  intros I R E A H F. eapply oinv_upd; [exact I|..]; cbn [setst stacks queues log].
  - change (executed (setst s u (f' :: st))) with (executed s). rewrite getl_set.
    destruct (str_eqb_spec t u) as [->|n]; [|apply (o_eq _ _ _ I)]. rewrite A by auto. rewrite <- E. apply (o_eq _ _ _ I).
  - rewrite getl_set. destruct (str_eqb_spec t u) as [->|n]; [|apply (o_len _ _ _ I)].
    pose proof (o_len _ _ _ I) as L. rewrite E in L. exact L.
  - auto.
  - intros u' f0 c. rewrite getl_set. destruct (str_eqb_spec u' u) as [->|n]; auto. intros [<-|Hi] Hc; auto. left. rewrite E. right. auto.
  - intros u' f0. rewrite getl_set. destruct (str_eqb_spec u' u) as [->|n]; auto. intros [<-|Hi]; auto. left. rewrite E. right. auto.
  - auto.
Qed.

Lemma own_held_cons t f st : own_held t (f :: st) = filter (own t) (held f) ++ own_held t st.
Proof. unfold own_held. simpl. apply filter_app. Qed.

Lemma oinv_step t p s o : real_thread t -> oinv t p s ->
  (match o with Begin t _ | Take t _ => getl t (stacks s) = [] | Raise _ => False | _ => True end) ->
  oinv t (p ++ match o with Post c => [c] | _ => [] end) (step s o).
Proof.
  intros R I Fl. destruct o as [c|u all|u ok|u ok|u]; cbn [step].
  - pose proof (queue_put t p s c I) as Q. destruct I. split; cbn [setq stacks queues log]; auto.
    intros k c'. rewrite getl_set. destruct (str_eqb_spec k (key c)) as [->|n]; auto. intros H. apply in_app_or in H. destruct H as [H|[<-|[]]]; auto.
  - rewrite app_nil_r. rewrite Fl. cbn [free].
    assert (I' : oinv t p (setst s u [if all then Coll u [lit "*"] [] [] else Coll (lit "*") [] [] []])).
    { eapply oinv_upd; [exact I|..]; cbn [setst stacks queues log]; auto.
      - change (executed (setst s u [if all then Coll u [lit "*"] [] [] else Coll (lit "*") [] [] []])) with (executed s).
        rewrite getl_set. destruct (str_eqb_spec t u) as [->|n]; [|apply (o_eq _ _ _ I)].
        rewrite <- (o_eq _ _ _ I), Fl. destruct all; reflexivity.
      - rewrite getl_set. destruct (str_eqb_spec t u); [simpl; lia|apply (o_len _ _ _ I)].
      - intros u' f c. rewrite getl_set. destruct (str_eqb_spec u' u); auto. intros [<-|[]]. destruct all; intros [].
      - intros u' f. rewrite getl_set. destruct (str_eqb_spec u' u) as [->|]; auto. intros [<-|[]]. right. destruct all; simpl; intuition. }
    exact I'.
  - rewrite app_nil_r. destruct (getl u (stacks s)) as [|f st] eqn:E; [exact I|].
    pose proof (o_frames _ _ _ I u f) as Ff. rewrite E in Ff. specialize (Ff (or_introl eq_refl)).
    assert (Fh : forall c, In c (held f) -> key c = u \/ key c = lit "*").
    { intros c Hc. apply (o_held _ _ _ I u f); auto. rewrite E. left. auto. }
    destruct f as [q more back cmds|q more back cmds|cs r]; cbn [held] in Fh.
    + destruct Ff as (Fq & Fm & Fb). destruct (getl q (queues s)) as [|c r] eqn:Eq.
      * eapply oinv_frame0; eauto.
      * assert (Kc : key c = q). { apply (o_q _ _ _ I). rewrite Eq. left. auto. }
        assert (Kr : forall c', In c' r -> key c' = q). { intros c' H. apply (o_q _ _ _ I). rewrite Eq. right. auto. }
        assert (Kq : u <> t -> q <> t). { intros n e. destruct Fq as [-> | ->]; [congruence|]. apply R. auto. }
        destruct (can c u ok) eqn:Ec; cbn zeta; cbv iota.
        -- eapply oinv_frame; eauto.
           ++ intros ->. rewrite !own_held_cons. cbn [held]. rewrite getl_set. rewrite !filter_app. simpl.
              destruct (str_eqb_spec t q) as [->|n].
              ** rewrite (proj2 (own_key q c)) by auto. rewrite Eq.
                 assert (st = []) as ->. { pose proof (o_len _ _ _ I) as L. rewrite E in L. destruct st; auto. simpl in L. lia. }
                 unfold own_held. simpl. rewrite !app_nil_r, <- !app_assoc. reflexivity.
              ** rewrite (own_no t c q) by auto. now rewrite app_nil_r.
           ++ cbn [held]. intros c' H. rewrite !in_app_iff in H. destruct H as [H|[H|[<-|[]]]].
              ** apply Fh. apply in_or_app. auto.
              ** apply Fh. apply in_or_app. auto.
              ** rewrite Kc. auto.
        -- assert (Nq : q = lit "*").
           { destruct Fq as [->|]; auto. destruct (str_eqb_spec u (lit "*")) as [e|n]; auto.
             pose proof (own_can u c ok n Kc). congruence. }
           eapply oinv_frame; eauto.
           ++ intros ->. rewrite !own_held_cons. cbn [held]. rewrite getl_set. rewrite !filter_app. simpl.
              rewrite (own_no t c q) by (try exact Kc; intros e; apply R; congruence). rewrite (str_eqb_neq t q) by (intros e; apply R; congruence). now rewrite app_nil_r.
           ++ cbn [held]. intros c' H. rewrite !in_app_iff in H. destruct H as [[H|[<-|[]]]|H].
              ** apply Fh. apply in_or_app. auto.
              ** rewrite Kc. auto.
              ** apply Fh. apply in_or_app. auto.
           ++ split; auto. split; auto. intros c' H. apply in_app_or in H. destruct H as [H|[<-|[]]]; auto. split; congruence.
    + destruct Ff as (Fq & Fm & Fb). destruct back as [|b bs]; [destruct more as [|q' more]|].
      * eapply oinv_frame0; eauto.
      * eapply oinv_frame0; eauto. split; [right; apply Fm; left; auto|]. split; [intros; apply Fm; right; auto|intros ? []].
      * assert (Kb : key b = lit "*" /\ q = lit "*") by (apply Fb; left; auto). destruct Kb as [Kb ->].
        assert (G : oinv t p (setst (setq s (lit "*") (getl (lit "*") (queues s) ++ [b])) u (Back (lit "*") more bs cmds :: st))).
        { eapply oinv_frame; eauto.
          - intros ->. rewrite !own_held_cons. cbn [held app]. rewrite getl_set. rewrite (str_eqb_neq t (lit "*")) by exact R.
            simpl filter. rewrite (own_no t b (lit "*")) by (auto; intros e; apply R; auto). reflexivity.
          - intros c H. apply in_app_or in H. destruct H as [H|[<-|[]]]; auto. apply (o_q _ _ _ I). auto.
          - cbn [held]. intros c H. apply Fh. right. auto.
          - split; auto. split; auto. intros c H. apply Fb. right. auto. }
        destruct more; exact G.
    + destruct r as [c|]; [assert (G : oinv t p (setst s u (Exec cs None :: st))) by (eapply oinv_frame0; eauto); destruct cs; exact G|].
      destruct cs as [|c cs].
      * eapply oinv_upd; [exact I|..]; cbn [setst stacks queues log]; auto.
        -- change (executed (setst s u st)) with (executed s). rewrite getl_set. destruct (str_eqb_spec t u) as [->|n]; [|apply (o_eq _ _ _ I)].
           rewrite <- (o_eq _ _ _ I), E. reflexivity.
        -- rewrite getl_set. pose proof (o_len _ _ _ I) as L. destruct (str_eqb_spec t u) as [->|n]; auto. rewrite E in L. simpl in L. lia.
        -- intros u' f c. rewrite getl_set. destruct (str_eqb_spec u' u) as [->|n]; auto. intros. left. rewrite E. right. auto.
        -- intros u' f. rewrite getl_set. destruct (str_eqb_spec u' u) as [->|n]; auto. intros. left. rewrite E. right. auto.
      * assert (Kc : key c = u \/ key c = lit "*") by (apply Fh; left; auto).
        eapply oinv_upd; [exact I|..]; cbn [setst stacks queues log]; auto.
        -- unfold executed. cbn [log map snd rev]. rewrite filter_app. fold (executed s). simpl filter. rewrite getl_set.
           destruct (str_eqb_spec t u) as [->|n].
           ++ rewrite <- (o_eq _ _ _ I), E. rewrite !own_held_cons. cbn [held]. simpl filter. destruct (own u c); simpl; rewrite <- ?app_assoc, ?app_nil_r; reflexivity.
           ++ rewrite (own_no t c (key c)) by first [reflexivity | destruct Kc as [E1|E1]; rewrite E1; [congruence|intros e; apply R; congruence]]. rewrite app_nil_r. apply (o_eq _ _ _ I).
        -- rewrite getl_set. pose proof (o_len _ _ _ I) as L. destruct (str_eqb_spec t u) as [->|n]; auto. rewrite E in L. exact L.
        -- intros u' f c'. rewrite getl_set. destruct (str_eqb_spec u' u) as [->|n]; auto. intros [<-|Hi] Hc; [|left; rewrite E; right; auto].
           right. apply Fh. right. exact Hc.
        -- intros u' f. rewrite getl_set. destruct (str_eqb_spec u' u) as [->|n]; auto. intros [<-|Hi]; auto. left. rewrite E. right. auto.
        -- intros u' c' [[= <- <-]|H]; auto.
  - rewrite app_nil_r. rewrite Fl. cbn [free]. destruct (getl u (queues s)) as [|c r] eqn:Eq; [exact I|].
    assert (Kc : key c = u). { apply (o_q _ _ _ I). rewrite Eq. left. auto. }
    assert (Kr : forall c', In c' r -> key c' = u). { intros c' H. apply (o_q _ _ _ I). rewrite Eq. right. auto. }
    destruct (can c u ok) eqn:Ec.
    + eapply oinv_upd; [exact I|..]; cbn [setst setq stacks queues log]; auto.
      * change (executed (setst (setq s u r) u [Exec [c] None])) with (executed s). rewrite !getl_set.
        destruct (str_eqb_spec t u) as [->|n]; [|apply (o_eq _ _ _ I)].
        rewrite <- (o_eq _ _ _ I), Fl, Eq. unfold own_held. simpl. rewrite (proj2 (own_key u c)) by auto. reflexivity.
      * rewrite getl_set. destruct (str_eqb_spec t u); [simpl; lia|apply (o_len _ _ _ I)].
      * intros k c'. rewrite getl_set. destruct (str_eqb_spec k u) as [->|]; auto.
      * intros u' f c'. rewrite getl_set. destruct (str_eqb_spec u' u) as [->|]; auto. intros [<-|[]] [<-|[]]. auto.
      * intros u' f. rewrite getl_set. destruct (str_eqb_spec u' u) as [->|]; auto. intros [<-|[]]. auto.
    + assert (Nu : u = lit "*").
      { destruct (str_eqb_spec u (lit "*")) as [e|n]; auto. pose proof (own_can u c ok n Kc). congruence. }
      eapply oinv_upd; [exact I|..]; cbn [setq stacks queues log]; auto.
      * change (executed (setq s u (r ++ [c]))) with (executed s). rewrite getl_set. rewrite (str_eqb_neq t u) by (intros e; apply R; congruence). apply (o_eq _ _ _ I).
      * apply (o_len _ _ _ I).
      * intros k c'. rewrite getl_set. destruct (str_eqb_spec k u) as [->|]; auto. intros H. apply in_app_or in H. destruct H as [H|[<-|[]]]; auto.
  - destruct Fl.
Qed.

Lemma oinv_run t ops : real_thread t -> flat ops -> oinv t (posted ops) (run ops).
Proof.
  intros R. unfold flat, run, posted. change (@nil cmd) with ([] ++ @nil cmd) at 1.
  assert (H : forall ops p s, oinv t p s -> flat_from s ops ->
     oinv t (p ++ flat_map (fun o => match o with Post c => [c] | _ => [] end) ops) (fold_left step ops s)).
  { clear ops. induction ops as [|o ops IH]; intros p s I F; cbn [fold_left flat_map]; [now rewrite app_nil_r|].
    destruct F as [F1 F2]. rewrite app_assoc. apply IH; auto. apply oinv_step; auto. }
  intros F. apply (H ops [] init); auto. apply oinv_init.
Qed.

(** The commands for a thread executed so far, then those it has taken, then those in its queue, are exactly those
    posted for it in the order of posting. *)
Theorem cmd_fifo (ops : list op) (t : str) : real_thread t -> flat ops ->
  exists taken, filter (own t) (executed (run ops)) ++ taken ++ getl t (queues (run ops)) = filter (own t) (posted ops).
Proof. intros R F. eexists. apply (o_eq _ _ _ (oinv_run t ops R F)). Qed.

(** A command for one thread is only executed by that thread. *)
Theorem cmd_by_target (ops : list op) (t u : str) (c : cmd) : flat ops -> In (u, c) (log (run ops)) ->
  ckind c = Plain -> queue_of (ctid c) = t -> real_thread t -> u = t.
Proof.
  intros F H K Q R. destruct (o_log _ _ _ (oinv_run t ops R F) _ _ H) as [E|E]; unfold key in E; rewrite K in E; [congruence|].
  exfalso. apply R. congruence.
Qed.

(** When a command runs code that processes commands itself (a nested stop while evaluating), later commands overtake
    the rest of the batch. *)
Definition c1 := Cmd 1 (lit "t") Plain.
Definition c2 := Cmd 2 (lit "t") Plain.
Definition c3 := Cmd 3 (lit "t") Plain.
Theorem cmd_fifo_nested_refuted : exists ops t, real_thread t /\ no_raise ops /\
  filter (own t) (posted ops) = [c1; c2; c3] /\ executed (run ops) = [c1; c3; c2].
Proof.
  exists ([Post c1; Post c2; Begin (lit "t") true] ++ repeat (Step (lit "t") true) 7 ++
    [Post c3; Take (lit "t") true] ++ repeat (Step (lit "t") true) 5), (lit "t").
  split; [discriminate|]. split; [intros t H; vm_compute in H; intuition discriminate|]. vm_compute. auto.
Qed.

(** When computing whether a command can run raises, that command and those already collected are lost. *)
Theorem cmd_conserved_raise_refuted : exists ops i, cnt i (posted ops) = 1 /\
  cnt i (executed (run ops)) = 0 /\ cnt i (waiting (run ops)) = 0.
Proof.
  exists [Post c1; Post (Cmd 2 (lit "u") Stack); Begin (lit "t") true; Step (lit "t") true; Step (lit "t") true; Step (lit "t") true; Raise (lit "t")], 1%N.
  vm_compute. auto.
Qed.

(** * A whole pass over the queue of a thread executes all that is there *)
Fixpoint steps (n : nat) (t : str) (s : state) : state := match n with O => s | S n => steps n t (step s (Step t false)) end.
Lemma steps_add n m t s : steps (n + m) t s = steps m t (steps n t s).
Proof. revert s. induction n; simpl; auto. Qed.

Lemma collect_all t : forall l s more back cmds st, real_thread t -> getl t (queues s) = l -> (forall c, In c l -> key c = t) ->
  getl t (stacks s) = Coll t more back cmds :: st ->
  let s' := steps (List.length l) t s in
  getl t (stacks s') = Coll t more back (cmds ++ l) :: st /\ getl t (queues s') = [] /\ log s' = log s /\
  (forall k, k <> t -> getl k (queues s') = getl k (queues s)).
Proof.
  induction l as [|c l IH]; intros s more back cmds st R Q K S; cbn [List.length steps].
  - rewrite app_nil_r. auto.
  - cbn [step]. rewrite S, Q. rewrite own_can by (auto; apply K; left; auto).
    specialize (IH (setst (setq s t l) t (Coll t more back (cmds ++ [c]) :: st)) more back (cmds ++ [c]) st R).
    cbn [setst setq queues stacks log] in IH. rewrite !getl_set in IH. rewrite (proj2 (str_eqb_eq t t) eq_refl) in IH.
    destruct (IH eq_refl) as (A & B & C & D); auto.
    { intros; apply K; right; auto. }
    rewrite <- app_assoc in A. split; [exact A|]. split; [exact B|]. split; [exact C|].
    intros k N. rewrite D by auto. rewrite getl_set, str_eqb_neq; auto.
Qed.

Lemma exec_all t : forall l s st, getl t (stacks s) = Exec l None :: st ->
  let s' := steps (2 * List.length l) t s in
  getl t (stacks s') = Exec [] None :: st /\ log s' = rev (map (pair t) l) ++ log s /\ queues s' = queues s.
Proof.
  induction l as [|c l IH]; intros s st S; [cbn; auto|].
  replace (2 * List.length (c :: l)) with (2 + 2 * List.length l) by (simpl; lia). rewrite steps_add. cbn [steps]. cbn [step]. rewrite S.
  cbn [setst stacks queues log]. rewrite getl_set, (proj2 (str_eqb_eq t t) eq_refl).
  set (s2 := State _ _ _). specialize (IH (setst s2 t (Exec l None :: st)) st).
  assert (E : (match l with [] => setst s2 t (Exec l None :: st) | _ :: _ => setst s2 t (Exec l None :: st) end) = setst s2 t (Exec l None :: st)) by (destruct l; auto).
  rewrite E. cbn [setst stacks] in IH. rewrite getl_set, (proj2 (str_eqb_eq t t) eq_refl) in IH. destruct (IH eq_refl) as (A & B & C).
  split; auto. split; [|exact C]. rewrite B. cbn [setst log s2 map rev]. now rewrite <- app_assoc.
Qed.

Lemma step_empty s t ok q more back cmds st : getl t (stacks s) = Coll q more back cmds :: st -> getl q (queues s) = [] ->
  step s (Step t ok) = setst s t (Back q more back cmds :: st).
Proof. intros A B. cbn [step]. now rewrite A, B. Qed.
Lemma step_next s t ok q q' more cmds st : getl t (stacks s) = Back q (q' :: more) [] cmds :: st ->
  step s (Step t ok) = setst s t (Coll q' more [] cmds :: st).
Proof. intros A. cbn [step]. now rewrite A. Qed.
Lemma step_exec s t ok q cmds st : getl t (stacks s) = Back q [] [] cmds :: st ->
  step s (Step t ok) = setst s t (Exec cmds None :: st).
Proof. intros A. cbn [step]. now rewrite A. Qed.

Theorem cmd_pass (ops : list op) (t : str) : real_thread t -> flat ops -> getl t (stacks (run ops)) = [] -> getl (lit "*") (queues (run ops)) = [] ->
  exists n, executed (steps n t (step (run ops) (Begin t true))) = executed (run ops) ++ getl t (queues (run ops)) /\
    getl t (queues (steps n t (step (run ops) (Begin t true)))) = [].
Proof.
  intros R F S Star. set (l := getl t (queues (run ops))).
  assert (K : forall c, In c l -> key c = t) by (intros c H; apply (o_q _ _ _ (oinv_run t ops R F)); auto).
  cbn [step]. rewrite S. cbn [free]. set (s1 := setst _ t _).
  assert (S1 : getl t (stacks s1) = [Coll t [lit "*"] [] []]) by (unfold s1; cbn [setst stacks]; rewrite getl_set, (proj2 (str_eqb_eq t t) eq_refl); auto).
  destruct (collect_all t l s1 [lit "*"] [] [] [] R eq_refl K S1) as (A & B & C & D). set (s2 := steps (List.length l) t s1) in *. simpl app in A.
  assert (T : str_eqb t t = true) by (apply str_eqb_eq; auto).
  (* Empty, back, collect *, Empty, exec *)
  assert (X : exists s3, s3 = steps 4 t s2 /\ getl t (stacks s3) = [Exec l None] /\ log s3 = log s2 /\ queues s3 = queues s2).
  { eexists. split; [reflexivity|]. cbn [steps].
    rewrite (step_empty s2 t false t [lit "*"] [] l [] A B).
    rewrite (step_next (setst s2 t _) t false t (lit "*") [] l []) by (cbn [setst stacks]; rewrite getl_set, T; auto).
    rewrite (step_empty (setst (setst s2 t _) t _) t false (lit "*") [] [] l []); [|cbn [setst stacks]; rewrite getl_set, T; auto|].
    2: { cbn [setst queues]. rewrite D by (intros e; apply R; auto). exact Star. }
    rewrite (step_exec (setst (setst (setst s2 t _) t _) t _) t false (lit "*") l []) by (cbn [setst stacks]; rewrite getl_set, T; auto).
    cbn [setst stacks log queues]. rewrite getl_set, T. auto. }
  destruct X as (s3 & E3 & A3 & B3 & C3). destruct (exec_all t l s3 [] A3) as (A4 & B4 & C4).
  exists (List.length l + (4 + 2 * List.length l)). rewrite steps_add, steps_add. fold s2. rewrite <- E3. split.
  - unfold executed. rewrite B4, B3, C. unfold s1. cbn [setst log]. rewrite map_app, rev_app_distr, map_rev, rev_involutive, map_map. simpl. now rewrite map_id.
  - rewrite C4, C3. exact B.
Qed.

(** * Examples *)
Definition ex_ops : list op := [Post c1; Post (Cmd 9 (lit "__frame__:1|t") Plain); Post (Cmd 5 (lit "*") AnyThread); Post (Cmd 7 (lit "u") Stack); Begin (lit "t") true] ++ repeat (Step (lit "t") false) 12 ++ [Post c2].
Example ex_exec : map cid (executed (run ex_ops)) = [1; 9]%N /\ map cid (waiting (run ex_ops)) = [2; 7; 5]%N.
Proof. vm_compute. auto. Qed.
Example ex_flat : flat ex_ops /\ no_raise ex_ops /\ real_thread (lit "t") /\ map cid (filter (own (lit "t")) (posted ex_ops)) = [1; 9; 2]%N.
Proof.
  split; [vm_compute; repeat split|]. split; [intros t H; vm_compute in H; intuition discriminate|]. split; [discriminate|reflexivity].
Qed.
Example ex_pass : getl (lit "t") (stacks (run [Post c1; Post c2])) = [] /\ getl (lit "*") (queues (run [Post c1; Post c2])) = [] /\ flat [Post c1; Post c2].
Proof. vm_compute. auto. Qed.

Print Assumptions cmd_conserved.
Print Assumptions cmd_once.
Print Assumptions cmd_at_most_once.
Print Assumptions owner_can.
Print Assumptions frame_queue.
Print Assumptions cmd_fifo.
Print Assumptions cmd_by_target.
Print Assumptions cmd_pass.
Print Assumptions cmd_fifo_nested_refuted.
Print Assumptions cmd_conserved_raise_refuted.
