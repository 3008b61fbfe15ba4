(** Which processes are terminated with the program (C67). *)
From Coq Require Import List Bool Arith Lia NArith.
From Verif Require Import Base KillTree.
Import ListNotations.
Open Scope nat_scope.
Open Scope list_scope.

(** ** Specification *)

Definition alive_in (o : os) (q : nat) : Prop := exists x, look o q = Some x /\ alive (st x) = true.
Definition st_in (o : os) (q : nat) (s : status) : Prop := exists x, look o q = Some x /\ st x = s.

(** q was made by p, or by a process made by p, and so on, and each process on the way (q included)
    satisfies [ok] *)
Inductive below (ok : nat -> Prop) (o : os) (p : nat) : nat -> Prop :=
| below_one q x : look o q = Some x -> born x = p -> ok q -> below ok o p q
| below_more q x : look o q = Some x -> below ok o p (born x) -> ok q -> below ok o p q.

(** a process between p and q ended on its own *)
Definition brk (ok : nat -> Prop) (o : os) (p q : nat) : Prop :=
  exists a, st_in o a Exited /\ (a = p \/ below ok o p a) /\ below ok o a q.

(** states of an operating system: parents are older than their children; the parent is the process
    which forked it, as long as this one lives, or process 1; the debugged process runs *)
Record wf (o : os) : Prop := WF {
  wf_born : forall q x, look o q = Some x -> born x < q \/ q = 0 /\ born x = 0;
  wf_ppid : forall q x, look o q = Some x -> ppid x = born x \/ ppid x = 1;
  wf_parent : forall q x, look o q = Some x -> alive (st x) = true -> alive_in o (born x) -> ppid x = born x;
  wf_reaped : forall q x, look o q = Some x -> reaped x = true -> alive (st x) = false;
  wf_me : st_in o (me o) Running /\ 1 < me o }.

(** no process carries the mark of a kill by the debugger yet *)
Definition fresh (o : os) : Prop := forall q, ~ st_in o q Killed.

(** the debugged process itself starts no more processes *)
Definition no_fork (n : nat) (w : world) : Prop := forall ms, In ms (sched w) -> ~ In (Fork n) ms.

(** the processes which are not named in the set of those to be kept, as texts *)
Definition unnamed (skip : list pyval) (q : nat) : Prop := ~ In (VStr (dec (N.of_nat q))) skip.

(** ** Acts *)

Inductive act := AMove (m : move) | AStop (p : nat) | AKill (p : nat).

Definition acted (o : os) (a : act) : os :=
  match a with AMove m => moved o m | AStop p => stop p o | AKill p => kill p o end.

Definition harmless (n : nat) (a : act) : Prop := a <> AStop n /\ a <> AKill n.

Definition quiet (n : nat) (a : act) : Prop := harmless n a /\ a <> AMove (Fork n).

Definition reach (P : act -> Prop) (o o' : os) : Prop := exists l, Forall P l /\ o' = fold_left acted l o.

Lemma reach_refl P o : reach P o o.
Proof. exists []. split; [constructor|reflexivity]. Qed.

Lemma reach_trans P a b c : reach P a b -> reach P b c -> reach P a c.
Proof.
  intros (l1 & F1 & ->) (l2 & F2 & ->). exists (l1 ++ l2). split.
  - apply Forall_app; split; assumption.
  - rewrite fold_left_app; reflexivity.
Qed.

Lemma reach_one (P : act -> Prop) o a : P a -> reach P o (acted o a).
Proof. intros H. exists [a]. split; [repeat constructor; exact H|reflexivity]. Qed.

Lemma reach_weaken (P Q : act -> Prop) o o' : (forall a, P a -> Q a) -> reach P o o' -> reach Q o o'.
Proof. intros H (l & F & E). exists l. split; [|exact E]. eapply Forall_impl; [|exact F]. exact H. Qed.

Lemma reach_ind (P : act -> Prop) (I : os -> Prop) o o' :
  (forall o a, I o -> P a -> I (acted o a)) -> reach P o o' -> I o -> I o'.
Proof.
  intros H (l & F & ->). revert o. induction F as [|a l Pa F IH]; intros o Io; cbn; [exact Io|].
  apply IH, H; assumption.
Qed.

(** ** Lookups *)

Lemma nth_upd p f l q :
  nth_error (upd p f l) q = if Nat.eqb q p then option_map f (nth_error l q) else nth_error l q.
Proof.
  revert p q. induction l as [|x l IH]; intros [|p] [|q]; cbn; try reflexivity.
  - destruct (Nat.eqb q p); reflexivity.
  - apply IH.
Qed.

Lemma length_upd p f l : length (upd p f l) = length l.
Proof. revert p. induction l; intros [|p]; cbn; congruence. Qed.

Lemma look_die s p o q :
  look (die s p o) q =
  option_map (fun x => orphan p (if Nat.eqb q p then with_st s x else x)) (look o q).
Proof.
  unfold look, die. cbn [procs]. rewrite nth_error_map, nth_upd.
  destruct (Nat.eqb q p); destruct (nth_error (procs o) q); reflexivity.
Qed.

Lemma born_orphan p x : born (orphan p x) = born x.
Proof. unfold orphan. destruct (Nat.eqb (ppid x) p); reflexivity. Qed.
Lemma st_orphan p x : st (orphan p x) = st x.
Proof. unfold orphan. destruct (Nat.eqb (ppid x) p); reflexivity. Qed.
Lemma reaped_orphan p x : reaped (orphan p x) = reaped x.
Proof. unfold orphan. destruct (Nat.eqb (ppid x) p); reflexivity. Qed.

(** how the state of a process may change *)
Definition goes (s s' : status) : Prop :=
  match s with
  | Running => True
  | Stopped => s' = Stopped \/ s' = Killed
  | Exited => s' = Exited
  | Killed => s' = Killed
  end.

Lemma goes_refl s : goes s s.
Proof. destruct s; cbn; auto. Qed.

Definition kept (o o' : os) : Prop :=
  me o' = me o /\
  length (procs o) <= length (procs o') /\
  forall q x, look o q = Some x -> exists x', look o' q = Some x' /\ born x' = born x /\ goes (st x) (st x').

Lemma kept_refl o : kept o o.
Proof. split; [reflexivity|split; [lia|]]. intros q x E. exists x. repeat split; auto using goes_refl. Qed.

Lemma is_running_eq s : is_running s = true -> s = Running.
Proof. destruct s; cbn; congruence. Qed.

Lemma kept_die s p o x : look o p = Some x -> goes (st x) s -> kept o (die s p o).
Proof.
  intros Ex G. split; [reflexivity|split].
  - unfold die; cbn [procs]. rewrite map_length, length_upd. lia.
  - intros q y Ey. rewrite look_die, Ey. cbn [option_map].
    eexists. split; [reflexivity|]. rewrite born_orphan, st_orphan.
    destruct (Nat.eqb_spec q p) as [->|N].
    + rewrite Ex in Ey. injection Ey as <-. split; [reflexivity|exact G].
    + split; [reflexivity|apply goes_refl].
Qed.

Lemma kept_upd p f o :
  (forall x, look o p = Some x -> born (f x) = born x /\ goes (st x) (st (f x))) ->
  kept o (OS (upd p f (procs o)) (me o)).
Proof.
  intros H. split; [reflexivity|split].
  - cbn [procs]. rewrite length_upd. lia.
  - intros q y Ey. unfold look. cbn [procs]. rewrite nth_upd. unfold look in Ey. rewrite Ey.
    destruct (Nat.eqb_spec q p) as [->|N]; cbn [option_map].
    + destruct (H y Ey) as [B G]. eexists; split; [reflexivity|]. split; assumption.
    + eexists; split; [reflexivity|]. split; [reflexivity|apply goes_refl].
Qed.

Lemma look_app o p q :
  look (OS (procs o ++ [p]) (me o)) q =
  if Nat.ltb q (length (procs o)) then look o q
  else if Nat.eqb q (length (procs o)) then Some p else None.
Proof.
  unfold look. cbn [procs]. destruct (Nat.ltb_spec q (length (procs o))) as [L|L].
  - apply nth_error_app1; exact L.
  - rewrite nth_error_app2 by exact L.
    destruct (Nat.eqb_spec q (length (procs o))) as [->|N].
    + rewrite Nat.sub_diag. reflexivity.
    + apply nth_error_None. cbn. lia.
Qed.

Lemma look_lt o q x : look o q = Some x -> q < length (procs o).
Proof. intros E. apply nth_error_Some. unfold look in E. rewrite E. discriminate. Qed.

Lemma acted_kept o a : kept o (acted o a).
Proof.
  destruct a as [[p|p|p]|p|p]; cbn [acted moved]; unfold stop, kill;
    destruct (look o p) as [x|] eqn:E; try apply kept_refl.
  - destruct (is_running (st x)) eqn:R; [|apply kept_refl].
    split; [reflexivity|split].
    + cbn [procs]. rewrite app_length. lia.
    + intros q y Ey. rewrite look_app. pose proof (look_lt _ _ _ Ey) as L.
      apply Nat.ltb_lt in L. rewrite L. exists y. repeat split; auto using goes_refl.
  - destruct (is_running (st x) && negb (Nat.eqb p (me o))) eqn:R; [|apply kept_refl].
    apply andb_true_iff in R as [R _]. apply is_running_eq in R.
    eapply kept_die; [exact E|]. rewrite R. exact I.
  - destruct (alive (st x)) eqn:R; [apply kept_refl|]. apply kept_upd.
    intros y Ey. cbn. split; [reflexivity|apply goes_refl].
  - destruct (is_running (st x)) eqn:R; [|apply kept_refl]. apply kept_upd.
    intros y Ey. rewrite E in Ey. injection Ey as <-. apply is_running_eq in R. cbn. rewrite R.
    split; [reflexivity|exact I].
  - destruct (alive (st x)) eqn:R; [|apply kept_refl].
    eapply kept_die; [exact E|]. destruct (st x); cbn in *; auto; discriminate.
Qed.

(** only a fork makes a process *)
Lemma acted_new o a q x :
  look (acted o a) q = Some x ->
  (exists y, look o q = Some y) \/
  (exists p, a = AMove (Fork p) /\ st_in o p Running /\ x = Proc p p Running false /\ q = length (procs o)).
Proof.
  intros Eq. destruct (look o q) as [y|] eqn:Ey; [left; eauto|right].
  destruct a as [[p|p|p]|p|p]; cbn [acted moved] in Eq; unfold stop, kill in Eq;
    destruct (look o p) as [z|] eqn:E; try congruence.
  - destruct (is_running (st z)) eqn:R; [|congruence].
    rewrite look_app in Eq. destruct (Nat.ltb q (length (procs o))); [congruence|].
    destruct (Nat.eqb_spec q (length (procs o))) as [->|]; [|discriminate].
    injection Eq as <-. exists p. apply is_running_eq in R. repeat split. exists z. auto.
  - destruct (is_running (st z) && negb (Nat.eqb p (me o))); [|congruence].
    rewrite look_die, Ey in Eq. discriminate.
  - destruct (alive (st z)); [congruence|]. unfold look in Eq, Ey. cbn [procs] in Eq.
    rewrite nth_upd, Ey in Eq. destruct (Nat.eqb q p); discriminate.
  - destruct (is_running (st z)); [|congruence]. unfold look in Eq, Ey. cbn [procs] in Eq.
    rewrite nth_upd, Ey in Eq. destruct (Nat.eqb q p); discriminate.
  - destruct (alive (st z)); [|congruence]. rewrite look_die, Ey in Eq. discriminate.
Qed.

Lemma below_weaken (ok ok' : nat -> Prop) o p q :
  (forall r, ok r -> ok' r) -> below ok o p q -> below ok' o p q.
Proof. intros H B. induction B; [eapply below_one|eapply below_more]; eauto. Qed.

Lemma below_kept ok o o' p q : kept o o' -> below ok o p q -> below ok o' p q.
Proof.
  intros (_ & _ & K) B. induction B as [q x E <- O|q x E B IH O].
  - destruct (K _ _ E) as (x' & E' & B' & _). eapply below_one; eauto.
  - destruct (K _ _ E) as (x' & E' & B' & _). eapply below_more; [exact E'| |exact O]. rewrite B'. exact IH.
Qed.

Lemma goes_exited s : goes Exited s -> s = Exited.
Proof. cbn. auto. Qed.

Lemma exited_kept o o' q : kept o o' -> st_in o q Exited -> st_in o' q Exited.
Proof.
  intros (_ & _ & K) (x & E & S). destruct (K _ _ E) as (x' & E' & _ & G). rewrite S in G.
  exists x'. auto.
Qed.

Lemma brk_kept ok o o' p q : kept o o' -> brk ok o p q -> brk ok o' p q.
Proof.
  intros K (a & A & B & C). exists a. split; [eapply exited_kept; eauto|]. split; [|eapply below_kept; eauto].
  destruct B as [->|B]; [left; reflexivity|right; eapply below_kept; eauto].
Qed.

Definition ordered (o : os) : Prop := forall q x, look o q = Some x -> born x < q \/ q = 0 /\ born x = 0.

Lemma below_lt_o ok o p q : ordered o -> p <> 0 -> below ok o p q -> p < q.
Proof.
  intros W N B. induction B as [q x E <- O|q x E B IH O];
    destruct (W _ _ E) as [L|[-> Z]]; lia.
Qed.

Lemma below_lt ok o p q : wf o -> p <> 0 -> below ok o p q -> p < q.
Proof. intros W. apply below_lt_o. exact (wf_born _ W). Qed.

Lemma look_some o q : q < length (procs o) -> exists x, look o q = Some x.
Proof.
  intros L. unfold look. destruct (nth_error (procs o) q) eqn:E; [eauto|].
  apply nth_error_None in E. lia.
Qed.

Lemma below_old_o ok o o' p q : ordered o' -> kept o o' -> q < length (procs o) -> below ok o' p q -> below ok o p q.
Proof.
  intros W (_ & _ & K) L B. induction B as [q x' E' <- O|q x' E' B IH O].
  - destruct (look_some _ _ L) as (x & E). destruct (K _ _ E) as (x2 & E2 & B2 & _).
    rewrite E2 in E'. injection E' as <-. eapply below_one; eauto.
  - destruct (look_some _ _ L) as (x & E). destruct (K _ _ E) as (x2 & E2 & B2 & _).
    rewrite E2 in E'. injection E' as <-. eapply below_more; [exact E| |exact O].
    rewrite <- B2. apply IH. destruct (W _ _ E2) as [X|[-> Z]]; lia.
Qed.

Lemma below_old ok o o' p q : wf o' -> kept o o' -> q < length (procs o) -> below ok o' p q -> below ok o p q.
Proof. intros W. apply below_old_o. exact (wf_born _ W). Qed.

Lemma dead_not_alive s : alive s = false <-> s = Exited \/ s = Killed.
Proof. destruct s; cbn; intuition congruence. Qed.

Lemma wf_die s p o : wf o -> p <> me o -> alive s = false -> wf (die s p o).
Proof.
  intros W N D. constructor.
  - intros q x. rewrite look_die. destruct (look o q) as [y|] eqn:E; [|discriminate]. cbn. intros [= <-].
    rewrite born_orphan. destruct (Nat.eqb q p); apply (wf_born _ W _ _ E).
  - intros q x. rewrite look_die. destruct (look o q) as [y|] eqn:E; [|discriminate]. cbn. intros [= <-].
    rewrite born_orphan. unfold orphan.
    destruct (Nat.eqb (ppid (if Nat.eqb q p then with_st s y else y)) p); cbn; [right; reflexivity|].
    destruct (Nat.eqb q p); cbn; apply (wf_ppid _ W _ _ E).
  - intros q x. rewrite look_die. destruct (look o q) as [y|] eqn:E; [|discriminate]. cbn. intros [= <-].
    rewrite born_orphan, st_orphan. destruct (Nat.eqb_spec q p) as [->|Q]; [cbn; congruence|].
    intros A (z & Ez & Az). rewrite look_die in Ez. destruct (look o (born y)) as [z0|] eqn:Eb; [|discriminate].
    cbn in Ez. injection Ez as <-. rewrite st_orphan in Az.
    destruct (Nat.eqb_spec (born y) p) as [Eqb|Nb]; [cbn in Az; congruence|].
    assert (P : ppid y = born y). { apply (wf_parent _ W _ _ E A). exists z0. auto. }
    unfold orphan. rewrite P. apply Nat.eqb_neq in Nb. rewrite Nb. exact P.
  - intros q x. rewrite look_die. destruct (look o q) as [y|] eqn:E; [|discriminate]. cbn. intros [= <-].
    rewrite reaped_orphan, st_orphan. destruct (Nat.eqb q p); cbn; [auto|apply (wf_reaped _ W _ _ E)].
  - destruct (wf_me _ W) as ((x & E & S) & L). split; [|exact L].
    exists (orphan p x). change (me (die s p o)) with (me o). rewrite look_die, E. cbn [option_map].
    assert (X : Nat.eqb (me o) p = false) by (apply Nat.eqb_neq; congruence).
    rewrite X. split; [reflexivity|]. rewrite st_orphan. exact S.
Qed.

Lemma look_upd p f o q :
  look (OS (upd p f (procs o)) (me o)) q = if Nat.eqb q p then option_map f (look o q) else look o q.
Proof. unfold look. cbn [procs]. apply nth_upd. Qed.

(** a change of one process which keeps its parents and does not bring it back to life *)
Lemma wf_upd p f o :
  wf o -> p <> me o ->
  (forall x, look o p = Some x -> born (f x) = born x /\ ppid (f x) = ppid x /\
     (alive (st (f x)) = true -> alive (st x) = true) /\
     (reaped (f x) = true -> alive (st (f x)) = false)) ->
  wf (OS (upd p f (procs o)) (me o)).
Proof.
  intros W N F.
  assert (H : forall q x', look (OS (upd p f (procs o)) (me o)) q = Some x' ->
     exists x, look o q = Some x /\ born x' = born x /\ ppid x' = ppid x /\
       (alive (st x') = true -> alive (st x) = true) /\ (reaped x' = true -> alive (st x') = false)).
  { intros q x'. rewrite look_upd. destruct (Nat.eqb_spec q p) as [->|Q].
    - destruct (look o p) as [x|] eqn:E; [|discriminate]. cbn. intros [= <-].
      destruct (F x eq_refl) as (A & B & C & D). exists x. repeat split; auto.
    - intros E. exists x'. repeat split; auto. apply (wf_reaped _ W _ _ E). }
  constructor.
  - intros q x' E. destruct (H _ _ E) as (x & Ex & -> & _). apply (wf_born _ W _ _ Ex).
  - intros q x' E. destruct (H _ _ E) as (x & Ex & -> & -> & _). apply (wf_ppid _ W _ _ Ex).
  - intros q x' E A (y' & Ey & Ay). destruct (H _ _ E) as (x & Ex & Eb & -> & L & _).
    rewrite Eb in *. apply (wf_parent _ W _ _ Ex); [auto|].
    destruct (H _ _ Ey) as (y & Ey' & _ & _ & Ly & _). exists y. auto.
  - intros q x' E. destruct (H _ _ E) as (x & Ex & _ & _ & _ & R). exact R.
  - destruct (wf_me _ W) as ((x & E & S) & L). split; [|exact L]. exists x. cbn [me].
    rewrite look_upd. assert (X : Nat.eqb (me o) p = false) by (apply Nat.eqb_neq; congruence).
    rewrite X. auto.
Qed.

Lemma acted_wf o a : wf o -> harmless (me o) a -> wf (acted o a).
Proof.
  intros W [H1 H2]. destruct a as [[p|p|p]|p|p]; cbn [acted moved]; unfold stop, kill;
    destruct (look o p) as [x|] eqn:E; try exact W.
  - destruct (is_running (st x)) eqn:R; [|exact W]. pose proof (look_lt _ _ _ E) as L.
    assert (H : forall q y, look (OS (procs o ++ [Proc p p Running false]) (me o)) q = Some y ->
       look o q = Some y \/ q = length (procs o) /\ y = Proc p p Running false).
    { intros q y. rewrite look_app. destruct (Nat.ltb_spec q (length (procs o))); [auto|].
      destruct (Nat.eqb_spec q (length (procs o))); [|discriminate]. intros [= <-]. auto. }
    constructor.
    + intros q y Ey. destruct (H _ _ Ey) as [Eo|[-> ->]]; [apply (wf_born _ W _ _ Eo)|]. left. exact L.
    + intros q y Ey. destruct (H _ _ Ey) as [Eo|[-> ->]]; [apply (wf_ppid _ W _ _ Eo)|]. left. reflexivity.
    + intros q y Ey A (z & Ez & Az). destruct (H _ _ Ey) as [Eo|[-> ->]]; [|reflexivity].
      apply (wf_parent _ W _ _ Eo A). destruct (H _ _ Ez) as [Ezo|[Q ->]]; [exists z; auto|].
      pose proof (look_lt _ _ _ Eo). destruct (wf_born _ W _ _ Eo) as [X|[-> Z]]; lia.
    + intros q y Ey. destruct (H _ _ Ey) as [Eo|[-> ->]]; [apply (wf_reaped _ W _ _ Eo)|discriminate].
    + destruct (wf_me _ W) as ((y & Ey & S) & L2). split; [|exact L2]. exists y. cbn [me].
      rewrite look_app. pose proof (look_lt _ _ _ Ey) as L3. apply Nat.ltb_lt in L3. rewrite L3. auto.
  - destruct (is_running (st x) && negb (Nat.eqb p (me o))) eqn:R; [|exact W].
    apply andb_true_iff in R as [_ R]. apply negb_true_iff, Nat.eqb_neq in R.
    apply wf_die; auto.
  - destruct (alive (st x)) eqn:R; [exact W|].
    apply wf_upd; [exact W| |].
    + intros ->. destruct (wf_me _ W) as ((y & Ey & S) & _). rewrite Ey in E. injection E as ->.
      rewrite S in R. discriminate.
    + intros y Ey. rewrite Ey in E. injection E as ->. cbn. repeat split; auto.
  - destruct (is_running (st x)) eqn:R; [|exact W].
    apply wf_upd; [exact W|congruence|].
    intros y Ey. rewrite Ey in E. injection E as ->. cbn. apply is_running_eq in R.
    split; [reflexivity|split; [reflexivity|split; [intros _; rewrite R; reflexivity|]]]. intros Z. pose proof (wf_reaped _ W _ _ Ey Z). rewrite R in *. discriminate.
  - destruct (alive (st x)) eqn:R; [|exact W]. apply wf_die; [exact W|congruence|reflexivity].
Qed.

Lemma acted_me o a : me (acted o a) = me o.
Proof. apply acted_kept. Qed.

Lemma reach_kept P o o' : reach P o o' -> kept o o'.
Proof.
  intros (l & _ & ->). revert o. induction l as [|a l IH]; intros o; cbn; [apply kept_refl|].
  destruct (acted_kept o a) as (M1 & L1 & K1). destruct (IH (acted o a)) as (M2 & L2 & K2).
  split; [congruence|split; [lia|]]. intros q x E. destruct (K1 _ _ E) as (x1 & E1 & B1 & G1).
  destruct (K2 _ _ E1) as (x2 & E2 & B2 & G2). exists x2. split; [exact E2|split; [congruence|]].
  destruct (st x), (st x1); cbn in *; intuition congruence.
Qed.

Lemma reach_wf o o' : reach (harmless (me o)) o o' -> wf o -> wf o'.
Proof.
  intros R W.
  enough (H : wf o' /\ me o' = me o) by apply H.
  apply (reach_ind (harmless (me o)) (fun s => wf s /\ me s = me o) o o'); auto.
  intros s a [Ws Ms] H. split; [|rewrite acted_me; exact Ms]. apply acted_wf; [exact Ws|]. rewrite Ms. exact H.
Qed.

Lemma quiet_harmless n a : quiet n a -> harmless n a.
Proof. intros [H _]; exact H. Qed.

(** ** A process which does not run, or the debugged one if it forks no more, gets no more children *)

Definition frozen (o : os) (p : nat) : Prop := p = me o \/ exists x, look o p = Some x /\ is_running (st x) = false.

Lemma frozen_acted o a p : frozen o p -> frozen (acted o a) p.
Proof.
  intros [->|(x & E & R)]; [left; symmetry; apply acted_me|]. right.
  destruct (acted_kept o a) as (_ & _ & K). destruct (K _ _ E) as (x' & E' & _ & G). exists x'. split; [exact E'|].
  destruct (st x), (st x'); cbn in *; intuition congruence.
Qed.

Lemma frozen_reach P o o' p : reach P o o' -> frozen o p -> frozen o' p.
Proof.
  apply (reach_ind P (fun s => frozen s p)). intros s a F _. apply frozen_acted, F.
Qed.

Lemma no_new_child o a p q x :
  wf o -> quiet (me o) a -> frozen o p -> look (acted o a) q = Some x -> born x = p ->
  exists y, look o q = Some y /\ born y = p.
Proof.
  intros W [_ Q] F E B. destruct (acted_kept o a) as (_ & _ & K).
  destruct (acted_new _ _ _ _ E) as [(y & Ey)|(p' & -> & (z & Ez & R) & -> & ->)].
  - exists y. split; [exact Ey|]. destruct (K _ _ Ey) as (x' & E' & B' & _). congruence.
  - cbn in B. subst p'. destruct F as [->|(x & Ex & Rx)]; [congruence|].
    rewrite Ez in Ex. injection Ex as <-. rewrite R in Rx. discriminate.
Qed.

Lemma no_new_child_reach o o' p q x :
  wf o -> reach (quiet (me o)) o o' -> frozen o p -> look o' q = Some x -> born x = p ->
  exists y, look o q = Some y /\ born y = p.
Proof.
  intros W (l & F & ->). revert o W F. induction l as [|a l IH]; intros o W F Fr E B; cbn in E; [eauto|].
  inversion F as [|a' l' Qa Fl]; subst a' l'.
  destruct (IH (acted o a)) as (y & Ey & By); auto.
  - apply acted_wf; [exact W|]. apply quiet_harmless, Qa.
  - rewrite acted_me. exact Fl.
  - apply frozen_acted, Fr.
  - eapply no_new_child; eauto.
Qed.

(** ** What is found covers everything below *)

Section Cover.
Variable ok : nat -> Prop.

Definition cov (p : nat) (L : list nat) (o : os) : Prop :=
  forall q, alive_in o q -> below ok o p q -> brk ok o p q \/ (st_in o q Stopped /\ In q L).

(** chains *)
Lemma below_head o p q :
  below ok o p q -> exists k x, look o k = Some x /\ born x = p /\ ok k /\ (q = k \/ below ok o k q).
Proof.
  intros B. induction B as [q x E B O|q x E B (k & y & Ey & By & Ok & C) O].
  - exists q, x. auto 6.
  - exists k, y. repeat split; auto. right. destruct C as [C|C].
    + eapply below_one; [exact E|exact C|exact O].
    + eapply below_more; eauto.
Qed.

Lemma below_trans o p a q : below ok o p a -> below ok o a q -> below ok o p q.
Proof.
  intros B1 B2. induction B2 as [q x E B O|q x E B IH O].
  - eapply below_more; [exact E| |exact O]. rewrite B. exact B1.
  - eapply below_more; eauto.
Qed.

Lemma alive_acted_old o a q x : look o q = Some x -> alive_in (acted o a) q -> alive (st x) = true.
Proof.
  intros E (y & Ey & Ay). destruct (acted_kept o a) as (_ & _ & K). destruct (K _ _ E) as (x' & E' & _ & G).
  rewrite Ey in E'. injection E' as <-. destruct (st x), (st y); cbn in *; intuition congruence.
Qed.

Lemma cov_acted p L o a :
  wf o -> quiet (me o) a -> frozen o p -> cov p L o -> cov p L (acted o a).
Proof.
  intros W Q F C q A B.
  assert (W' : wf (acted o a)) by (apply acted_wf; [exact W|apply quiet_harmless, Q]).
  pose proof (acted_kept o a) as K.
  assert (OLD : forall x, look o q = Some x -> brk ok (acted o a) p q \/ (st_in (acted o a) q Stopped /\ In q L)).
  { intros x E. destruct (C q) as [D|[(y & Ey & Sy) I]].
    - exists x. split; [exact E|]. eapply alive_acted_old; eauto.
    - eapply below_old; eauto. eapply look_lt; eauto.
    - left. eapply brk_kept; eauto.
    - right. split; [|exact I]. destruct K as (_ & _ & K). destruct (K _ _ Ey) as (x' & E' & _ & G).
      rewrite Sy in G. destruct A as (z & Ez & Az). rewrite Ez in E'. injection E' as ->.
      exists x'. split; [exact Ez|]. destruct G as [G|G]; [exact G|]. rewrite G in Az. discriminate. }
  destruct A as (x & Ex & Ax).
  destruct (acted_new _ _ _ _ Ex) as [(y & Ey)|(p' & -> & (z & Ez & R) & -> & Lq)]; [eauto|].
  clear OLD. left.
  (* a new process, made by a running one *)
  assert (Np : p' <> p).
  { intros ->. destruct F as [->|(x & Ex' & Rx)].
    - destruct Q as [_ Q]. congruence.
    - rewrite Ez in Ex'. injection Ex' as <-. rewrite R in Rx. discriminate. }
  assert (B' : below ok (acted o (AMove (Fork p'))) p p').
  { inversion B as [q' x' E' Bo O|q' x' E' Bo O]; subst q'; rewrite Ex in E'; injection E' as <-; cbn in Bo.
    - congruence.
    - exact Bo. }
  assert (Okq : ok q) by (inversion B; assumption).
  destruct (C p') as [D|[(y & Ey & Sy) _]].
  - exists z. split; [exact Ez|]. rewrite R. reflexivity.
  - eapply below_old; eauto. eapply look_lt; eauto.
  - apply (brk_kept _ _ _ _ _ K) in D. destruct D as (a & A1 & A2 & A3).
    exists a. repeat split; auto. eapply below_more; [exact Ex|exact A3|exact Okq].
  - rewrite Ez in Ey. injection Ey as <-. congruence.
Qed.

Lemma cov_reach p L o o' :
  wf o -> reach (quiet (me o)) o o' -> frozen o p -> cov p L o -> cov p L o'.
Proof.
  intros W (l & F & ->). revert o W F. induction l as [|a l IH]; intros o W F Fr C; cbn; [exact C|].
  inversion F as [|a' l' Qa Fl]; subst a' l'. apply IH.
  - apply acted_wf; [exact W|apply quiet_harmless, Qa].
  - rewrite acted_me. exact Fl.
  - apply frozen_acted, Fr.
  - apply cov_acted; assumption.
Qed.

Lemma cov_incl p L L' o : incl L L' -> cov p L o -> cov p L' o.
Proof. intros I C q A B. destruct (C q A B) as [D|[S J]]; auto. Qed.

End Cover.

(** ** Commands *)

Lemma pyval_eqb_eq a b : pyval_eqb a b = true <-> a = b.
Proof.
  destruct a as [m|s], b as [n|t]; cbn; split; intros H; try discriminate.
  - apply Nat.eqb_eq in H. congruence.
  - injection H as <-. apply Nat.eqb_refl.
  - destruct (str_eqb_spec s t); congruence.
  - injection H as <-. apply str_eqb_refl.
Qed.

Lemma contains_in v l : contains v l = true <-> In v l.
Proof.
  unfold contains. rewrite existsb_exists. split.
  - intros (x & I & E). apply pyval_eqb_eq in E. congruence.
  - intros I. exists v. split; [exact I|]. apply pyval_eqb_eq. reflexivity.
Qed.

Lemma spared_unnamed skip k : spared skip k = false <-> unnamed skip k.
Proof.
  unfold spared, unnamed, text_of. rewrite <- contains_in. destruct (contains _ skip); split; congruence.
Qed.

(** what a listing does: [NF] says that the debugged process forks no more *)
Definition lists (NF : Prop) (n : nat) (a : act) : Prop :=
  harmless n a /\ (NF -> a <> AMove (Fork n)) /\ forall q, a <> AKill q.

Definition any (NF : Prop) (n : nat) (a : act) : Prop := harmless n a /\ (NF -> a <> AMove (Fork n)).

Lemma lists_any NF n a : lists NF n a -> any NF n a.
Proof. intros (A & B & _). split; assumption. Qed.

Lemma any_harmless NF n a : any NF n a -> harmless n a.
Proof. intros (A & _). exact A. Qed.

Lemma any_quiet (NF : Prop) n a : NF -> any NF n a -> quiet n a.
Proof. intros F (A & B). split; auto. Qed.

Lemma tick_reach (NF : Prop) w :
  (NF -> no_fork (me (sys w)) w) -> reach (lists NF (me (sys w))) (sys w) (sys (tick w)).
Proof.
  intros H. unfold tick. destruct (sched w) as [|ms r] eqn:E; [apply reach_refl|]. cbn [sys].
  exists (map AMove ms). split.
  - apply Forall_map, Forall_forall. intros m I. split; [split; discriminate|]. split; [|discriminate].
    intros F [= ->]. apply (H F ms); [rewrite E; left; reflexivity|exact I].
  - generalize (sys w). clear. induction ms as [|m ms IH]; intros o; cbn; [reflexivity|apply IH].
Qed.

Lemma tick_no_fork n w : no_fork n w -> no_fork n (tick w).
Proof.
  unfold no_fork, tick. destruct (sched w) as [|ms r] eqn:E; [rewrite E; auto|]. cbn [sched].
  intros H x I. apply H. right. exact I.
Qed.

Lemma length_moved o m : length (procs (moved o m)) <= S (length (procs o)).
Proof.
  destruct m as [p|p|p]; cbn [moved]; destruct (look o p) as [x|]; try lia.
  - destruct (is_running (st x)); [|lia]. cbn [procs]. rewrite app_length. cbn. lia.
  - destruct (is_running (st x) && negb (Nat.eqb p (me o))); [|lia].
    unfold die; cbn [procs]. rewrite map_length, length_upd. lia.
  - destruct (alive (st x)); [lia|]. cbn [procs]. rewrite length_upd. lia.
Qed.

Lemma room_tick w : room (tick w) <= room w.
Proof.
  unfold room, tick. destruct (sched w) as [|ms r] eqn:E; [rewrite E; cbn; lia|]. cbn [sys sched].
  cbn [concat]. rewrite app_length.
  assert (H : forall o, length (procs (fold_left moved ms o)) <= length (procs o) + length ms).
  { clear. induction ms as [|m ms IH]; intros o; cbn; [lia|]. specialize (IH (moved o m)).
    pose proof (length_moved o m). lia. }
  specialize (H (sys w)). lia.
Qed.

Lemma sent_tick w : sent (tick w) = sent w.
Proof. unfold tick. destruct (sched w); reflexivity. Qed.

Lemma me_tick w : me (sys (tick w)) = me (sys w).
Proof.
  assert (R : reach (lists False (me (sys w))) (sys w) (sys (tick w))) by (apply tick_reach; tauto).
  apply reach_kept in R. apply R.
Qed.

Lemma acted_stopped o a q : st_in (acted o a) q Stopped -> st_in o q Stopped \/ a = AStop q.
Proof.
  intros (x & E & S). destruct a as [[p|p|p]|p|p]; cbn [acted moved] in E; unfold stop, kill in E;
    destruct (look o p) as [y|] eqn:Ey; try (left; exists x; split; assumption).
  - destruct (is_running (st y)); [|left; exists x; split; assumption].
    rewrite look_app in E. destruct (Nat.ltb q (length (procs o))); [left; exists x; split; assumption|].
    destruct (Nat.eqb q (length (procs o))); [|discriminate]. injection E as <-. discriminate.
  - destruct (is_running (st y) && negb (Nat.eqb p (me o))); [|left; exists x; split; assumption].
    rewrite look_die in E. destruct (look o q) as [z|] eqn:Ez; [|discriminate]. cbn in E. injection E as <-.
    rewrite st_orphan in S. destruct (Nat.eqb q p); [discriminate|]. left. exists z. auto.
  - destruct (alive (st y)); [left; exists x; split; assumption|].
    rewrite look_upd in E. destruct (Nat.eqb q p); [|left; exists x; split; assumption].
    destruct (look o q) as [z|] eqn:Ez; [|discriminate]. cbn in E. injection E as <-. left. exists z. auto.
  - destruct (is_running (st y)); [|left; exists x; split; assumption].
    rewrite look_upd in E. destruct (Nat.eqb_spec q p) as [->|]; [right; reflexivity|left; exists x; split; assumption].
  - destruct (alive (st y)); [|left; exists x; split; assumption].
    rewrite look_die in E. destruct (look o q) as [z|] eqn:Ez; [|discriminate]. cbn in E. injection E as <-.
    rewrite st_orphan in S. destruct (Nat.eqb q p); [discriminate|]. left. exists z. auto.
Qed.

Lemma tick_stopped w q : st_in (sys (tick w)) q Stopped -> st_in (sys w) q Stopped.
Proof.
  unfold tick. destruct (sched w) as [|ms r]; [auto|]. cbn [sys]. generalize (sys w).
  induction ms as [|m ms IH]; intros o H; cbn in H; [exact H|]. apply IH in H.
  destruct (acted_stopped o (AMove m) q H) as [A|A]; [exact A|discriminate].
Qed.

Lemma acted_killed o a q : st_in (acted o a) q Killed -> st_in o q Killed \/ a = AKill q.
Proof.
  intros (x & E & S). destruct a as [[p|p|p]|p|p]; cbn [acted moved] in E; unfold stop, kill in E;
    destruct (look o p) as [y|] eqn:Ey; try (left; exists x; split; assumption).
  - destruct (is_running (st y)); [|left; exists x; split; assumption].
    rewrite look_app in E. destruct (Nat.ltb q (length (procs o))); [left; exists x; split; assumption|].
    destruct (Nat.eqb q (length (procs o))); [|discriminate]. injection E as <-. discriminate.
  - destruct (is_running (st y) && negb (Nat.eqb p (me o))); [|left; exists x; split; assumption].
    rewrite look_die in E. destruct (look o q) as [z|] eqn:Ez; [|discriminate]. cbn in E. injection E as <-.
    rewrite st_orphan in S. destruct (Nat.eqb q p); [discriminate|]. left. exists z. auto.
  - destruct (alive (st y)); [left; exists x; split; assumption|].
    rewrite look_upd in E. destruct (Nat.eqb q p); [|left; exists x; split; assumption].
    destruct (look o q) as [z|] eqn:Ez; [|discriminate]. cbn in E. injection E as <-. left. exists z. auto.
  - destruct (is_running (st y)); [|left; exists x; split; assumption].
    rewrite look_upd in E. destruct (Nat.eqb q p); [|left; exists x; split; assumption].
    destruct (look o q) as [z|] eqn:Ez; [|discriminate]. cbn in E. injection E as <-. discriminate.
  - destruct (alive (st y)); [|left; exists x; split; assumption].
    rewrite look_die in E. destruct (look o q) as [z|] eqn:Ez; [|discriminate]. cbn in E. injection E as <-.
    rewrite st_orphan in S. destruct (Nat.eqb_spec q p) as [->|]; [right; reflexivity|]. left. exists z. auto.
Qed.

Lemma fresh_acted o a : (forall q, a <> AKill q) -> fresh o -> fresh (acted o a).
Proof.
  intros N F q H. destruct (acted_killed _ _ _ H) as [A|A]; [apply (F q A)|apply (N q A)].
Qed.

Lemma killed_reach NF n o o' q : reach (lists NF n) o o' -> st_in o' q Killed -> st_in o q Killed.
Proof.
  intros R. apply (reach_ind (lists NF n) (fun s => st_in s q Killed -> st_in o q Killed) o o'); auto.
  intros s a H (_ & _ & N) K. destruct (acted_killed _ _ _ K) as [A|A]; [auto|]. destruct (N q A).
Qed.

Lemma fresh_reach NF n o o' : reach (lists NF n) o o' -> fresh o -> fresh o'.
Proof. apply (reach_ind (lists NF n) fresh). intros s a F (_ & _ & N). apply fresh_acted; assumption. Qed.

Lemma stop_frozen p o x : look o p = Some x -> frozen (stop p o) p.
Proof.
  intros E. right. unfold stop. rewrite E. destruct (is_running (st x)) eqn:R.
  - rewrite look_upd, Nat.eqb_refl, E. cbn. eexists; split; reflexivity.
  - exists x. auto.
Qed.

Lemma pgrep_in p o k : In k (pgrep p o) <-> exists x, look o k = Some x /\ ppid x = p /\ reaped x = false.
Proof.
  unfold pgrep. rewrite filter_In, in_seq. split.
  - intros (_ & H). destruct (look o k) as [x|]; [|discriminate]. apply andb_true_iff in H as [H1 H2].
    apply Nat.eqb_eq in H1. apply negb_true_iff in H2. eauto.
  - intros (x & E & P & R). rewrite E, P, Nat.eqb_refl, R. split; [|reflexivity].
    apply look_lt in E. lia.
Qed.

(** ** Listing *)

Section Listing.
Variables (skip : list pyval) (NF : Prop).
Notation ok := (unnamed skip).

Record found (w : world) (roots : list nat) (l : list nat) (w' : world) : Prop := Found {
  f_reach : reach (lists NF (me (sys w))) (sys w) (sys w');
  f_nofork : NF -> no_fork (me (sys w)) w';
  f_room : room w' <= room w;
  f_sent : exists s, sent w' = sent w ++ s /\ forall g, In g s -> exists q, g = SStop q /\ (In q roots \/ In q l);
  f_stopped : forall q, st_in (sys w') q Stopped -> st_in (sys w) q Stopped \/ In q roots \/ In q l }.

Record start (w : world) (p : nat) : Prop := Start {
  s_wf : wf (sys w);
  s_nofork : NF -> no_fork (me (sys w)) w;
  s_ge : me (sys w) <= p;
  s_in : p < length (procs (sys w)) }.

(** the specification of the recursive call *)
Definition good (rec : world -> nat -> option (list nat * world)) : Prop :=
  forall w p l w', rec w p = Some (l, w') -> start w p -> p <> me (sys w) ->
    found w [p] l w' /\
    (forall q, In q l -> below ok (sys w') p q) /\
    (NF -> fresh (sys w) -> frozen (sys w') p /\ cov ok p l (sys w')).

Lemma found_refl w : (NF -> no_fork (me (sys w)) w) -> found w [] [] w.
Proof.
  intros H. constructor; auto using reach_refl.
  exists []. split; [symmetry; apply app_nil_r|intros g []].
Qed.

Lemma found_me w r l w' : found w r l w' -> me (sys w') = me (sys w).
Proof. intros F. pose proof (reach_kept _ _ _ (f_reach _ _ _ _ F)) as K. apply K. Qed.

Lemma found_wf w r l w' : found w r l w' -> wf (sys w) -> wf (sys w').
Proof.
  intros F W. eapply reach_wf; [|exact W]. eapply reach_weaken; [|exact (f_reach _ _ _ _ F)].
  intros a H. eapply any_harmless, lists_any, H.
Qed.

Lemma found_quiet w r l w' : NF -> found w r l w' -> reach (quiet (me (sys w))) (sys w) (sys w').
Proof.
  intros N F. eapply reach_weaken; [|exact (f_reach _ _ _ _ F)].
  intros a H. eapply any_quiet; [exact N|]. apply lists_any, H.
Qed.

Lemma found_trans a b c r1 l1 r2 l2 r l :
  found a r1 l1 b -> found b r2 l2 c ->
  (forall q, In q r1 \/ In q l1 \/ In q r2 \/ In q l2 -> In q r \/ In q l) -> found a r l c.
Proof.
  intros F G H. pose proof (found_me _ _ _ _ F) as M. constructor.
  - eapply reach_trans; [apply (f_reach _ _ _ _ F)|]. rewrite <- M. apply (f_reach _ _ _ _ G).
  - rewrite <- M. apply (f_nofork _ _ _ _ G).
  - pose proof (f_room _ _ _ _ F). pose proof (f_room _ _ _ _ G). lia.
  - destruct (f_sent _ _ _ _ F) as (s1 & E1 & S1). destruct (f_sent _ _ _ _ G) as (s2 & E2 & S2).
    exists (s1 ++ s2). split; [rewrite E2, E1, app_assoc; reflexivity|].
    intros g I. apply in_app_or in I as [I|I].
    + destruct (S1 g I) as (q & -> & J). exists q. split; [reflexivity|]. apply H. tauto.
    + destruct (S2 g I) as (q & -> & J). exists q. split; [reflexivity|]. apply H. tauto.
  - intros q S. destruct (f_stopped _ _ _ _ G q S) as [A|A].
    + destruct (f_stopped _ _ _ _ F q A) as [B|B]; [auto|]. right. apply H. tauto.
    + right. apply H. tauto.
Qed.

Lemma visit_good rec kids w l w' :
  good rec -> visit skip rec kids w = Some (l, w') ->
  wf (sys w) -> (NF -> no_fork (me (sys w)) w) ->
  (forall k, In k kids -> me (sys w) < k /\ k < length (procs (sys w))) ->
  found w [] l w' /\
  (forall q, In q l -> exists k, In k kids /\ ok k /\ (q = k \/ below ok (sys w') k q)) /\
  (NF -> fresh (sys w) -> forall k, In k kids -> ok k -> frozen (sys w') k /\ cov ok k l (sys w') /\ In k l).
Proof.
  intros G. revert w l w'. induction kids as [|k kids IH]; intros w l w' V W N B; cbn [visit] in V.
  - injection V as <- <-. split; [apply found_refl, N|]. split; [intros q []|intros _ _ k []].
  - destruct (spared skip k) eqn:Sk.
    + destruct (IH _ _ _ V W N) as (F & L & C). { intros k' I. apply B. right. exact I. }
      split; [exact F|]. split.
      * intros q I. destruct (L q I) as (k' & I' & X). exists k'. split; [right; exact I'|exact X].
      * intros NFh Fr k' [<-|I] Ok; [|apply C; assumption].
        apply spared_unnamed in Ok. congruence.
    + apply spared_unnamed in Sk. destruct (rec w k) as [[l1 w1]|] eqn:R; [|discriminate].
      destruct (visit skip rec kids w1) as [[l2 w2]|] eqn:V2; [|discriminate]. injection V as <- <-.
      destruct (B k (or_introl eq_refl)) as [B1 B2].
      destruct (G w k l1 w1 R) as (F1 & L1 & C1).
      { constructor; auto. lia. }
      { lia. }
      pose proof (found_me _ _ _ _ F1) as M1. pose proof (found_wf _ _ _ _ F1 W) as W1.
      destruct (IH w1 l2 w2 V2 W1) as (F2 & L2 & C2).
      { rewrite M1. apply (f_nofork _ _ _ _ F1). }
      { intros k' I. rewrite M1. destruct (B k' (or_intror I)) as [X Y]. split; [exact X|].
        destruct (reach_kept _ _ _ (f_reach _ _ _ _ F1)) as (_ & LL & _). lia. }
      assert (K2 : kept (sys w1) (sys w2)) by (eapply reach_kept, (f_reach _ _ _ _ F2)).
      split; [|split].
      * eapply found_trans; [exact F1|exact F2|]. intros q. cbn. rewrite in_app_iff. intuition.
      * intros q [<-|I]; [exists k; cbn; auto|]. apply in_app_or in I as [I|I].
        -- exists k. split; [left; reflexivity|]. split; [exact Sk|]. right.
           eapply below_kept; [exact K2|]. apply L1, I.
        -- destruct (L2 q I) as (k' & I' & X). exists k'. split; [right; exact I'|exact X].
      * intros NFh Fr k' I Ok. assert (Fr1 : fresh (sys w1)) by (eapply fresh_reach; [exact (f_reach _ _ _ _ F1)|exact Fr]).
        destruct I as [<-|I].
        -- destruct (C1 NFh Fr) as [Z C]. split; [|split].
           ++ eapply frozen_reach; [exact (f_reach _ _ _ _ F2)|exact Z].
           ++ apply (cov_incl _ _ l1). { intros q J. right. apply in_or_app. left. exact J. }
              eapply cov_reach; [exact W1|eapply found_quiet; eassumption|exact Z|exact C].
           ++ left. reflexivity.
        -- destruct (C2 NFh Fr1 k' I Ok) as (Z & C & J). split; [exact Z|split].
           ++ eapply cov_incl; [|exact C]. intros q Q. right. apply in_or_app. right. exact Q.
           ++ right. apply in_or_app. right. exact J.
Qed.

(** the end of a listing: after pgrep and the loop over its lines *)
Lemma listing rec w p l w' :
  good rec -> start w p -> visit skip rec (pgrep p (sys (tick w))) (tick w) = Some (l, w') ->
  found w [] l w' /\
  (forall q, In q l -> below ok (sys w') p q) /\
  (NF -> fresh (sys w) -> frozen (sys w) p -> frozen (sys w') p /\ cov ok p l (sys w')).
Proof.
  intros G S V. destruct S as [W N Ge Lt].
  assert (Ft : found w [] [] (tick w)).
  { constructor.
    - apply tick_reach, N.
    - intros H. apply tick_no_fork, N, H.
    - apply room_tick.
    - exists []. rewrite app_nil_r. split; [apply sent_tick|intros g []].
    - intros q H. left. apply tick_stopped, H. }
  pose proof (found_wf _ _ _ _ Ft W) as Wt. pose proof (me_tick w) as Mt.
  destruct (wf_me _ W) as [_ M1].
  assert (P1 : 1 < p) by lia.
  assert (KID : forall k, In k (pgrep p (sys (tick w))) -> exists x, look (sys (tick w)) k = Some x /\ born x = p /\ p < k).
  { intros k I. apply pgrep_in in I as (x & E & P & R). exists x. split; [exact E|].
    destruct (wf_ppid _ Wt _ _ E) as [Q|Q]; [|lia].
    split; [congruence|]. destruct (wf_born _ Wt _ _ E) as [L|[-> Z]]; lia. }
  destruct (visit_good _ _ _ _ _ G V Wt) as (F & L & C).
  { rewrite Mt. apply (f_nofork _ _ _ _ Ft). }
  { intros k I. destruct (KID k I) as (x & E & B & Q). rewrite Mt. split; [lia|]. eapply look_lt, E. }
  assert (Kt : kept (sys (tick w)) (sys w')) by (eapply reach_kept, (f_reach _ _ _ _ F)).
  split; [|split].
  - eapply found_trans; [exact Ft|exact F|]. intros q. cbn. tauto.
  - intros q I. destruct (L q I) as (k & Ik & Ok & X). destruct (KID k Ik) as (x & E & B & _).
    assert (Bk : below ok (sys w') p k). { eapply below_kept; [exact Kt|]. eapply below_one; eauto. }
    destruct X as [->|X]; [exact Bk|]. eapply below_trans; eassumption.
  - intros NFh Fr Z.
    assert (Zt : frozen (sys (tick w)) p) by (eapply frozen_reach; [exact (f_reach _ _ _ _ Ft)|exact Z]).
    assert (Frt : fresh (sys (tick w))) by (eapply fresh_reach; [exact (f_reach _ _ _ _ Ft)|exact Fr]).
    assert (Qt : reach (quiet (me (sys (tick w)))) (sys (tick w)) (sys w')) by (eapply found_quiet; eassumption).
    split; [eapply frozen_reach; [exact Qt|exact Zt]|].
    intros q A B. destruct (below_head _ _ _ _ B) as (k & x' & Ek' & Bk & Ok & X).
    destruct (no_new_child_reach _ _ _ _ _ Wt Qt Zt Ek' Bk) as (x & Ek & Bx).
    assert (Bpk : below ok (sys w') p k) by (eapply below_one; eauto).
    (* the parent died on its own *)
    destruct (look_some (sys (tick w)) p) as (xp & Ep).
    { destruct (reach_kept _ _ _ (f_reach _ _ _ _ Ft)) as (_ & LL & _). lia. }
    destruct (alive (st xp)) eqn:Ap.
    2:{ left. exists p. split; [|split; [left; reflexivity|exact B]].
        eapply exited_kept; [exact Kt|]. exists xp. split; [exact Ep|].
        apply dead_not_alive in Ap as [Ap|Ap]; [exact Ap|]. exfalso. apply (Frt p). exists xp. auto. }
    destruct (alive (st x)) eqn:Ax.
    2:{ (* the child died on its own *)
        assert (Ex : st_in (sys w') k Exited).
        { eapply exited_kept; [exact Kt|]. exists x. split; [exact Ek|].
          apply dead_not_alive in Ax as [Ax|Ax]; [exact Ax|]. exfalso. apply (Frt k). exists x. auto. }
        destruct X as [->|X].
        - destruct A as (y & Ey & Ay). destruct Ex as (y2 & Ey2 & Sy). rewrite Ey in Ey2. injection Ey2 as <-.
          rewrite Sy in Ay. discriminate.
        - left. exists k. split; [exact Ex|]. split; [right; exact Bpk|exact X]. }
    assert (Ik : In k (pgrep p (sys (tick w)))).
    { apply pgrep_in. exists x. split; [exact Ek|]. split.
      - rewrite <- Bx. apply (wf_parent _ Wt _ _ Ek Ax). rewrite Bx. exists xp. auto.
      - destruct (reaped x) eqn:Rx; [|reflexivity]. pose proof (wf_reaped _ Wt _ _ Ek Rx). congruence. }
    destruct (C NFh Frt k Ik Ok) as (Zk & Ck & Il).
    destruct X as [->|X].
    + right. split; [|exact Il]. destruct A as (y & Ey & Ay).
      destruct Zk as [Zk|(y2 & Ey2 & Ry)].
      * destruct (KID k Ik) as (_ & _ & _ & Q). pose proof (found_me _ _ _ _ F). lia.
      * rewrite Ey in Ey2. injection Ey2 as <-. exists y. split; [exact Ey|].
        destruct (st y); cbn in *; congruence.
    + destruct (Ck q A X) as [D|D]; [left|right; exact D].
      destruct D as (a & A1 & A2 & A3). exists a. split; [exact A1|]. split; [|exact A3].
      right. destruct A2 as [->|A2]; [exact Bpk|]. eapply below_trans; eassumption.
Qed.

Lemma list_good fuel : good (list_children skip fuel true).
Proof.
  induction fuel as [|f IH]; intros w p l w' E S Np; cbn [list_children] in E; [discriminate|].
  cbn [do_pgrep] in E. unfold do_pgrep in E.
  destruct S as [W N Ge Lt].
  assert (Fs : found w [p] [] (do_stop p w)).
  { constructor.
    - unfold do_stop. cbn [sys].
      eapply reach_trans; [apply tick_reach, N|].
      change (stop p (sys (tick w))) with (acted (sys (tick w)) (AStop p)). apply reach_one.
      split; [split; congruence|]. split; congruence.
    - intros H. unfold no_fork, do_stop. cbn [sched]. apply tick_no_fork, N, H.
    - unfold do_stop, room. cbn [sys sched].
      assert (X : length (procs (stop p (sys (tick w)))) = length (procs (sys (tick w)))).
      { unfold stop. destruct (look _ p) as [x|]; [|reflexivity]. destruct (is_running (st x)); [|reflexivity].
        cbn [procs]. apply length_upd. }
      rewrite X. apply room_tick.
    - exists [SStop p]. unfold do_stop. cbn [sent]. rewrite sent_tick. split; [reflexivity|].
      intros g [<-|[]]. exists p. cbn. auto.
    - intros q H. unfold do_stop in H. cbn [sys] in H.
      destruct (acted_stopped (sys (tick w)) (AStop p) q H) as [A|A].
      + left. apply tick_stopped, A.
      + injection A as ->. right. left. left. reflexivity. }
  pose proof (found_wf _ _ _ _ Fs W) as Ws. pose proof (found_me _ _ _ _ Fs) as Ms.
  assert (Ls : p < length (procs (sys (do_stop p w)))).
  { destruct (reach_kept _ _ _ (f_reach _ _ _ _ Fs)) as (_ & LL & _). lia. }
  assert (St : start (do_stop p w) p).
  { constructor; auto.
    - rewrite Ms. apply (f_nofork _ _ _ _ Fs).
    - rewrite Ms. exact Ge. }
  destruct (listing _ _ _ _ _ IH St E) as (F & L & C).
  split; [|split].
  - eapply found_trans; [exact Fs|exact F|]. intros q. cbn. tauto.
  - exact L.
  - intros NFh Fr. apply C; [exact NFh| |].
    + eapply fresh_reach; [exact (f_reach _ _ _ _ Fs)|exact Fr].
    + unfold do_stop. cbn [sys]. destruct (look_some (sys (tick w)) p) as (x & Ex).
      { destruct (reach_kept _ _ _ (tick_reach NF w N)) as (_ & LL & _). lia. }
      eapply stop_frozen, Ex.
Qed.

(** the recursion always ends *)
Definition ends (rec : world -> nat -> option (list nat * world)) (fuel : nat) : Prop :=
  forall w p, start w p -> p <> me (sys w) -> room w < fuel + p -> rec w p <> None.

Lemma visit_ends rec f kids w :
  good rec -> ends rec f -> wf (sys w) -> (NF -> no_fork (me (sys w)) w) ->
  (forall k, In k kids -> me (sys w) < k /\ k < length (procs (sys w)) /\ room w < f + k) ->
  visit skip rec kids w <> None.
Proof.
  intros G T. revert w. induction kids as [|k kids IH]; intros w W N B; cbn [visit]; [discriminate|].
  assert (B' : forall k, In k kids -> me (sys w) < k /\ k < length (procs (sys w)) /\ room w < f + k).
  { intros k' I. apply B. right. exact I. }
  destruct (spared skip k); [apply IH; auto|].
  destruct (B k (or_introl eq_refl)) as (B1 & B2 & B3).
  assert (S : start w k) by (constructor; auto; lia).
  destruct (rec w k) as [[l1 w1]|] eqn:R.
  2:{ intros _. eapply (T w k); eauto. lia. }
  destruct (G w k l1 w1 R S) as (F1 & _); [lia|].
  pose proof (found_me _ _ _ _ F1) as M1. pose proof (f_room _ _ _ _ F1) as R1.
  destruct (visit skip rec kids w1) as [[l2 w2]|] eqn:V; [discriminate|]. exfalso.
  eapply (IH w1); [apply (found_wf _ _ _ _ F1 W)| | |exact V].
  - rewrite M1. apply (f_nofork _ _ _ _ F1).
  - intros k' I. destruct (B' k' I) as (X & Y & Z). rewrite M1.
    destruct (reach_kept _ _ _ (f_reach _ _ _ _ F1)) as (_ & LL & _). split; [exact X|]. split; lia.
Qed.

Lemma listing_ends rec f w p :
  good rec -> ends rec f -> start w p -> room w < S f + p ->
  visit skip rec (pgrep p (sys (tick w))) (tick w) <> None.
Proof.
  intros G T S R. destruct S as [W N Ge Lt].
  assert (Wt : wf (sys (tick w))).
  { eapply reach_wf; [|exact W]. eapply reach_weaken; [|exact (tick_reach NF w N)].
    intros a H. eapply any_harmless, lists_any, H. }
  pose proof (me_tick w) as Mt. pose proof (room_tick w). destruct (wf_me _ W) as [_ M1].
  eapply visit_ends; [exact G|exact T|exact Wt| |].
  - rewrite Mt. intros H'. apply tick_no_fork, N, H'.
  - intros k I. apply pgrep_in in I as (x & E & P & _).
    assert (p < k). { destruct (wf_ppid _ Wt _ _ E) as [Q|Q]; [|lia].
      destruct (wf_born _ Wt _ _ E) as [L|[-> Z]]; lia. }
    rewrite Mt. split; [lia|]. split; [eapply look_lt, E|lia].
Qed.

Lemma do_stop_start w p : start w p -> p <> me (sys w) -> start (do_stop p w) p /\ room (do_stop p w) <= room w.
Proof.
  intros [W N Ge Lt] Np.
  assert (R : reach (lists NF (me (sys w))) (sys w) (sys (do_stop p w))).
  { unfold do_stop. cbn [sys]. eapply reach_trans; [apply tick_reach, N|].
    change (stop p (sys (tick w))) with (acted (sys (tick w)) (AStop p)). apply reach_one.
    split; [split; congruence|]. split; congruence. }
  destruct (reach_kept _ _ _ R) as (M & L & _). split.
  - constructor.
    + eapply reach_wf; [|exact W]. eapply reach_weaken; [|exact R]. intros a H. eapply any_harmless, lists_any, H.
    + rewrite M. intros H. unfold no_fork, do_stop. cbn [sched]. apply tick_no_fork, N, H.
    + rewrite M. exact Ge.
    + lia.
  - unfold do_stop, room. cbn [sys sched].
    assert (X : length (procs (stop p (sys (tick w)))) = length (procs (sys (tick w)))).
    { unfold stop. destruct (look _ p) as [x|]; [|reflexivity]. destruct (is_running (st x)); [|reflexivity].
      cbn [procs]. apply length_upd. }
    rewrite X. apply room_tick.
Qed.

Lemma list_ends f : ends (list_children skip f true) f.
Proof.
  induction f as [|f IH]; intros w p S Np R.
  - destruct S as [_ _ _ Lt]. unfold room in R. lia.
  - cbn [list_children]. unfold do_pgrep. destruct (do_stop_start w p S Np) as [S' R'].
    eapply listing_ends; [apply list_good|exact IH|exact S'|]. lia.
Qed.

End Listing.

(** ** Killing *)

Lemma kill_dead p o x : look o p = Some x -> exists y, look (kill p o) p = Some y /\ alive (st y) = false.
Proof.
  intros E. unfold kill. rewrite E. destruct (alive (st x)) eqn:A.
  - rewrite look_die, E, Nat.eqb_refl. cbn. eexists. split; [reflexivity|]. rewrite st_orphan. reflexivity.
  - exists x. auto.
Qed.

Definition dead_in (o : os) (q : nat) : Prop := exists x, look o q = Some x /\ alive (st x) = false.

Lemma dead_kept o o' q : kept o o' -> dead_in o q -> dead_in o' q.
Proof.
  intros (_ & _ & K) (x & E & A). destruct (K _ _ E) as (y & Ey & _ & G). exists y. split; [exact Ey|].
  destruct (st x), (st y); cbn in *; intuition congruence.
Qed.

Record killed (NF : Prop) (w : world) (l found : list nat) (found' : list nat) (w' : world) : Prop := KilledAll {
  k_reach : reach (any NF (me (sys w))) (sys w) (sys w');
  k_nofork : NF -> no_fork (me (sys w)) w';
  k_dead : forall q, In q l \/ In q found' -> dead_in (sys w') q;
  k_sent : exists s, sent w' = sent w ++ s /\ forall g, In g s -> exists q, g = SKill q /\ In q l;
  k_stopped : forall q, st_in (sys w') q Stopped -> st_in (sys w) q Stopped;
  k_killed : forall q, st_in (sys w') q Killed -> st_in (sys w) q Killed \/ In q l }.

Lemma any_kept NF w w' : reach (any NF (me (sys w))) (sys w) (sys w') -> kept (sys w) (sys w').
Proof. apply reach_kept. Qed.

Lemma kill_new_spec (NF : Prop) l : forall found new w found' new' w',
  kill_new l found new w = (found', new', w') ->
  (NF -> no_fork (me (sys w)) w) ->
  (forall q, In q l -> q <> me (sys w) /\ q < length (procs (sys w))) ->
  (forall q, In q found -> dead_in (sys w) q) ->
  killed NF w l found found' w'.
Proof.
  induction l as [|p l IH]; intros found new w found' new' w' E N B D; cbn [kill_new] in E.
  - injection E as <- _ <-. constructor; auto using reach_refl.
    + intros q [[]|I]. auto.
    + exists []. rewrite app_nil_r. split; [reflexivity|intros g []].
  - destruct (existsb (Nat.eqb p) found) eqn:X.
    + destruct (IH _ _ _ _ _ _ E N) as [R F K S T U]; auto.
      { intros q I. apply B. right. exact I. }
      constructor; auto.
      * intros q [[<-|I]|I]; auto. apply existsb_exists in X as (p' & I & Q). apply Nat.eqb_eq in Q. subst p'.
        eapply dead_kept; [eapply reach_kept, R|]. auto.
      * destruct S as (s & Es & Hs). exists s. split; [exact Es|]. intros g I. destruct (Hs g I) as (q & -> & J).
        exists q. split; [reflexivity|right; exact J].
      * intros q Q. destruct (U q Q) as [A|A]; [left; exact A|right; right; exact A].
    + assert (R1 : reach (any NF (me (sys w))) (sys w) (sys (do_kill p w))).
      { unfold do_kill. cbn [sys]. eapply reach_trans.
        - eapply reach_weaken; [|exact (tick_reach NF w N)]. intros a. apply lists_any.
        - change (kill p (sys (tick w))) with (acted (sys (tick w)) (AKill p)). apply reach_one.
          destruct (B p (or_introl eq_refl)) as [Q _]. split; [split; congruence|congruence]. }
      pose proof (reach_kept _ _ _ R1) as K1. destruct K1 as (M1 & L1 & K1').
      destruct (IH _ _ _ _ _ _ E) as [R F K S T U].
      { rewrite M1. intros H. unfold no_fork, do_kill. cbn [sched]. apply tick_no_fork, N, H. }
      { intros q I. rewrite M1. destruct (B q (or_intror I)). split; [assumption|lia]. }
      { intros q [<-|I].
        - unfold do_kill. cbn [sys]. destruct (look_some (sys (tick w)) p) as (x & Ex).
          { destruct (reach_kept _ _ _ (tick_reach NF w N)) as (_ & LL & _).
            destruct (B p (or_introl eq_refl)). lia. }
          eapply kill_dead, Ex.
        - eapply dead_kept; [eapply reach_kept, R1|]. auto. }
      constructor.
      * eapply reach_trans; [exact R1|]. rewrite <- M1. exact R.
      * rewrite <- M1. exact F.
      * intros q [[<-|I]|I]; auto.
        eapply dead_kept; [eapply reach_kept, R|].
        unfold do_kill. cbn [sys]. destruct (look_some (sys (tick w)) p) as (x & Ex).
        { destruct (reach_kept _ _ _ (tick_reach NF w N)) as (_ & LL & _).
          destruct (B p (or_introl eq_refl)). lia. }
        eapply kill_dead, Ex.
      * destruct S as (s & Es & Hs). exists (SKill p :: s). split.
        { rewrite Es. unfold do_kill. cbn [sent]. rewrite sent_tick, <- app_assoc. reflexivity. }
        intros g [<-|I]; [exists p; cbn; auto|]. destruct (Hs g I) as (q & -> & J).
        exists q. split; [reflexivity|right; exact J].
      * intros q Q. apply T in Q. unfold do_kill in Q. cbn [sys] in Q.
        destruct (acted_stopped (sys (tick w)) (AKill p) q Q) as [A|A]; [|discriminate].
        apply tick_stopped, A.
      * intros q Q. destruct (U q Q) as [A|A]; [|right; right; exact A].
        unfold do_kill in A. cbn [sys] in A.
        destruct (acted_killed (sys (tick w)) (AKill p) q A) as [A'|A'].
        -- left. eapply killed_reach; [exact (tick_reach NF w N)|exact A'].
        -- injection A' as ->. right. left. reflexivity.
Qed.

(** ** Rounds *)

Section Rounds.
Variables (skip : list pyval) (NF : Prop).
Notation ok := (unnamed skip).

Definition ready (w : world) : Prop := wf (sys w) /\ (NF -> no_fork (me (sys w)) w).

Lemma ready_start w : ready w -> start NF w (me (sys w)).
Proof.
  intros [W N]. constructor; auto. destruct (wf_me _ W) as ((x & E & _) & _). eapply look_lt, E.
Qed.

Lemma one_round w l w1 found found' new w2 :
  ready w -> (forall q, In q found -> dead_in (sys w) q) ->
  list_children skip (S (room w)) false w (me (sys w)) = Some (l, w1) ->
  kill_new l found false w1 = (found', new, w2) ->
  ready w2 /\ me (sys w2) = me (sys w) /\ kept (sys w) (sys w2) /\
  reach (any NF (me (sys w))) (sys w) (sys w2) /\
  (forall q, In q found' -> dead_in (sys w2) q) /\
  (exists s, sent w2 = sent w ++ s /\
     forall g, In g s -> exists q, (g = SStop q \/ g = SKill q) /\ below ok (sys w2) (me (sys w)) q) /\
  (forall q, st_in (sys w2) q Stopped -> st_in (sys w) q Stopped) /\
  (forall q, st_in (sys w2) q Killed -> st_in (sys w) q Killed \/ below ok (sys w2) (me (sys w)) q) /\
  (NF -> fresh (sys w) -> cov ok (me (sys w)) [] (sys w2)).
Proof.
  intros R D E K. pose proof (ready_start _ R) as S. destruct R as [W N].
  cbn [list_children] in E. unfold do_pgrep in E.
  destruct (listing _ _ _ _ _ _ _ (list_good skip NF _) S E) as (F & L & C).
  pose proof (found_me _ _ _ _ _ F) as M1. pose proof (found_wf _ _ _ _ _ F W) as W1.
  destruct (wf_me _ W) as [_ Me].
  assert (K1 : kept (sys w) (sys w1)) by (eapply reach_kept, (f_reach _ _ _ _ _ F)).
  assert (KS : killed NF w1 l found found' w2).
  { eapply kill_new_spec; [exact K| | |].
    - rewrite M1. apply (f_nofork _ _ _ _ _ F).
    - intros q I. pose proof (L q I) as B. rewrite M1. split.
      + apply (below_lt _ _ _ _ W1) in B; lia.
      + destruct B as [q x Eq _ _|q x Eq _ _]; eapply look_lt, Eq.
    - intros q I. eapply dead_kept; [exact K1|auto]. }
  destruct KS as [R2 F2 D2 S2 T2 U2]. pose proof (reach_kept _ _ _ R2) as K2.
  assert (M2 : me (sys w2) = me (sys w)) by (destruct K2 as (X & _); congruence).
  assert (W2 : wf (sys w2)).
  { eapply reach_wf; [|exact W1]. eapply reach_weaken; [|exact R2]. intros a. apply any_harmless. }
  rewrite M1 in *.
  assert (RR : reach (any NF (me (sys w))) (sys w) (sys w2)).
  { eapply reach_trans; [|exact R2]. eapply reach_weaken; [|exact (f_reach _ _ _ _ _ F)]. intros a. apply lists_any. }
  split; [split; [exact W2|rewrite M2; exact F2]|].
  split; [exact M2|]. split; [eapply reach_kept, RR|]. split; [exact RR|]. split; [auto|]. split; [|split; [|split]].
  - destruct (f_sent _ _ _ _ _ F) as (s1 & E1 & H1). destruct S2 as (s2 & E2 & H2).
    exists (s1 ++ s2). split; [rewrite E2, E1, app_assoc; reflexivity|].
    intros g I. apply in_app_or in I as [I|I].
    + destruct (H1 g I) as (q & -> & [[]|J]). exists q. split; [left; reflexivity|].
      eapply below_kept; [exact K2|]. apply L, J.
    + destruct (H2 g I) as (q & -> & J). exists q. split; [right; reflexivity|].
      eapply below_kept; [exact K2|]. apply L, J.
  - intros q Q. pose proof Q as Q'. apply T2 in Q. destruct (f_stopped _ _ _ _ _ F q Q) as [A|[[]|I]]; [exact A|].
    exfalso. destruct (D2 q (or_introl I)) as (x & Ex & Ax). destruct Q' as (y & Ey & Sy).
    rewrite Ex in Ey. injection Ey as <-. rewrite Sy in Ax. discriminate.
  - intros q Q. destruct (U2 q Q) as [A|I].
    + left. eapply killed_reach; [exact (f_reach _ _ _ _ _ F)|exact A].
    + right. eapply below_kept; [exact K2|]. apply L, I.
  - intros NFh Fr. destruct (C NFh Fr (or_introl eq_refl)) as [Z Cv].
    assert (C2 : cov ok (me (sys w)) l (sys w2)).
    { rewrite <- M1. eapply cov_reach; [exact W1| |rewrite M1; exact Z|rewrite M1; exact Cv].
      rewrite M1. eapply reach_weaken; [|exact R2]. intros a. apply any_quiet, NFh. }
    intros q A B. destruct (C2 q A B) as [X|[_ I]]; [left; exact X|]. exfalso.
    destruct (D2 q (or_introl I)) as (x & Ex & Ax). destruct A as (y & Ey & Ay). congruence.
Qed.

Lemma rounds_spec n : forall found w w',
  ready w -> (forall q, In q found -> dead_in (sys w) q) ->
  rounds skip n found w = Some w' ->
  reach (any NF (me (sys w))) (sys w) (sys w') /\ wf (sys w') /\
  (exists s, sent w' = sent w ++ s /\
     forall g, In g s -> exists q, (g = SStop q \/ g = SKill q) /\ below ok (sys w') (me (sys w)) q) /\
  (forall q, st_in (sys w') q Stopped -> st_in (sys w) q Stopped) /\
  (forall q, st_in (sys w') q Killed -> st_in (sys w) q Killed \/ below ok (sys w') (me (sys w)) q) /\
  (NF -> fresh (sys w) -> 0 < n -> cov ok (me (sys w)) [] (sys w')).
Proof.
  induction n as [|n IH]; intros found w w' R D E; cbn [rounds] in E.
  - injection E as <-. split; [apply reach_refl|]. split; [apply R|]. split; [|split; [auto|split; [auto|lia]]].
    exists []. rewrite app_nil_r. split; [reflexivity|intros g []].
  - destruct (list_children skip (S (room w)) false w (me (sys w))) as [[l w1]|] eqn:EL; [|discriminate].
    destruct (kill_new l found false w1) as [[found' new] w2] eqn:EK.
    destruct (one_round _ _ _ _ _ _ _ R D EL EK) as (R2 & M2 & K2 & RR & D2 & S2 & T2 & U2 & C2).
    destruct new.
    + destruct (IH _ _ _ R2 D2 E) as (RR' & W' & S' & T' & U' & _). rewrite M2 in *.
      pose proof (reach_kept _ _ _ RR') as K'.
      split; [eapply reach_trans; eassumption|]. split; [exact W'|]. split; [|split; [|split]].
      * destruct S2 as (s2 & E2 & H2). destruct S' as (s' & E' & H'). exists (s2 ++ s').
        split; [rewrite E', E2, app_assoc; reflexivity|]. intros g I. apply in_app_or in I as [I|I]; [|auto].
        destruct (H2 g I) as (q & Hq & Bq). exists q. split; [exact Hq|]. eapply below_kept; eassumption.
      * auto.
      * intros q Q. destruct (U' q Q) as [A|A]; [|right; exact A]. destruct (U2 q A) as [A2|A2]; [left; exact A2|].
        right. eapply below_kept; eassumption.
      * intros NFh Fr _. rewrite <- M2. eapply cov_reach; [apply R2| |left; reflexivity|rewrite M2; auto].
        rewrite M2. eapply reach_weaken; [|exact RR']. intros a. apply any_quiet, NFh.
    + injection E as <-. split; [exact RR|]. split; [apply R2|]. split; [exact S2|]. split; [exact T2|]. split; [exact U2|]. auto.
Qed.

Lemma rounds_total n : forall found w,
  ready w -> (forall q, In q found -> dead_in (sys w) q) -> rounds skip n found w <> None.
Proof.
  induction n as [|n IH]; intros found w R D; cbn [rounds]; [discriminate|].
  destruct (list_children skip (S (room w)) false w (me (sys w))) as [[l w1]|] eqn:EL.
  - destruct (kill_new l found false w1) as [[found' new] w2] eqn:EK.
    destruct (one_round _ _ _ _ _ _ _ R D EL EK) as (R2 & M2 & K2 & RR & D2 & _).
    destruct new; [apply IH; assumption|discriminate].
  - exfalso. cbn [list_children] in EL. unfold do_pgrep in EL. pose proof (ready_start _ R) as S.
    eapply (listing_ends skip NF _ (room w)); [apply list_good|apply list_ends|exact S|lia|exact EL].
Qed.

End Rounds.

(** ** Linux and macOS *)

(** The termination always ends. *)
Theorem unix_total skip w : wf (sys w) -> terminate_unix skip w <> None.
Proof. intros W. apply (rounds_total skip False); [split; [exact W|tauto]|intros q []]. Qed.

(** If the debugged process starts no more processes itself, then, whatever all the others do while
    this goes on, in the end each process which descends from it lives only if it, or a process
    above it, was to be kept, or if a process between it and the debugged one had ended on its own. *)
Theorem unix_complete skip w w' :
  wf (sys w) -> fresh (sys w) -> no_fork (me (sys w)) w -> terminate_unix skip w = Some w' ->
  forall q, alive_in (sys w') q -> below (unnamed skip) (sys w') (me (sys w)) q ->
  exists a, st_in (sys w') a Exited /\ below (unnamed skip) (sys w') (me (sys w)) a /\
            below (unnamed skip) (sys w') a q.
Proof.
  intros W F N E q A B.
  destruct (rounds_spec skip True 50 [] w w') as (RR & W' & _ & _ & _ & C); [split; auto|intros q' []|exact E|].
  destruct (C I F) with (q := q) as [(a & A1 & A2 & A3)|[_ []]]; auto; [lia|].
  exists a. split; [exact A1|]. split; [|exact A3]. destruct A2 as [->|A2]; [|exact A2].
  exfalso. destruct (wf_me _ W') as ((x & Ex & Sx) & _). destruct (reach_kept _ _ _ RR) as (M & _).
  rewrite M in Ex. destruct A1 as (y & Ey & Sy). congruence.
Qed.

(** Only processes which descend from the debugged one are killed or get signals, and of these none
    which is to be kept or which is below one to be kept; this holds even if it goes on to start
    processes. *)
Theorem unix_only skip w w' :
  wf (sys w) -> terminate_unix skip w = Some w' ->
  (forall q, st_in (sys w') q Killed -> st_in (sys w) q Killed \/ below (unnamed skip) (sys w') (me (sys w)) q) /\
  exists s, sent w' = sent w ++ s /\
    forall q, In (SStop q) s \/ In (SKill q) s -> below (unnamed skip) (sys w') (me (sys w)) q.
Proof.
  intros W E.
  destruct (rounds_spec skip False 50 [] w w') as (_ & _ & (s & Es & H) & _ & U & _); [split; tauto|intros q []|exact E|].
  split; [exact U|]. exists s. split; [exact Es|].
  intros q [I|I]; destruct (H _ I) as (q' & [X|X] & B); injection X as <- || discriminate X; exact B.
Qed.

Lemma below_between (ok1 ok2 ok3 : nat -> Prop) o p a q :
  wf o -> p <> 0 -> below ok1 o p q -> below ok2 o p a -> a = q \/ below ok3 o a q -> ok1 a.
Proof.
  intros W Np B1 Ba C. revert C. induction B1 as [q x E B O|q x E B IH O]; intros [->|C]; auto.
  - exfalso. assert (La : p < a) by (eapply below_lt; eassumption).
    assert (C' : below ok3 o a p \/ a = p).
    { inversion C as [q' y Ey By Oy|q' y Ey By Oy]; subst q'; rewrite E in Ey; injection Ey as <-; [right; congruence|].
      left. rewrite <- B. exact By. }
    destruct C' as [C'| ->]; [|lia]. apply below_lt in C'; [lia|exact W|lia].
  - apply IH. inversion C as [q' y Ey By Oy|q' y Ey By Oy]; subst q'; rewrite E in Ey; injection Ey as <-;
      [left; congruence|right; exact By].
Qed.

(** A process given as a text is kept, with all below it. *)
Corollary unix_keeps skip w w' a q :
  wf (sys w) -> fresh (sys w) -> terminate_unix skip w = Some w' ->
  In (VStr (dec (N.of_nat a))) skip -> below (fun _ => True) (sys w') (me (sys w)) a ->
  a = q \/ below (fun _ => True) (sys w') a q ->
  ~ st_in (sys w') q Killed /\
  exists s, sent w' = sent w ++ s /\ ~ In (SStop q) s /\ ~ In (SKill q) s.
Proof.
  intros W F E I Ba C.
  destruct (rounds_spec skip False 50 [] w w') as (RR & W' & _); [split; tauto|intros q' []|exact E|].
  assert (N : ~ below (unnamed skip) (sys w') (me (sys w)) q).
  { intros B. assert (Z : me (sys w) <> 0) by (destruct (wf_me _ W); lia).
    exact (below_between _ _ _ _ _ _ _ W' Z B Ba C I). }
  destruct (unix_only _ _ _ W E) as (U & s & Es & H). split.
  - intros K. destruct (U q K) as [A|A]; [exact (F q A)|exact (N A)].
  - exists s. split; [exact Es|]. split; intros J; apply N, H; auto.
Qed.

(** No process is left stopped. *)
Theorem unix_none_stopped skip w w' :
  wf (sys w) -> terminate_unix skip w = Some w' ->
  forall q, st_in (sys w') q Stopped -> st_in (sys w) q Stopped.
Proof.
  intros W E.
  destruct (rounds_spec skip False 50 [] w w') as (_ & _ & _ & T & _ & _); [split; tauto|intros q []|exact E|].
  exact T.
Qed.

(** ** Windows *)

Notation anyone := (fun _ : nat => True).

Inductive wact := WMove (m : move) | WTask (p : nat).
Definition wacted (o : os) (a : wact) : os :=
  match a with WMove m => moved_win o m | WTask p => taskkill p o end.

(** p and all below it which live, with all on the way living *)
Inductive lives (o : os) (p : nat) : nat -> Prop :=
| lives_one q x : look o q = Some x -> born x = p -> alive (st x) = true -> lives o p q
| lives_more q x : look o q = Some x -> lives o p (born x) -> alive (st x) = true -> lives o p q.

Lemma lives_below o p q : lives o p q -> below anyone o p q.
Proof. intros L. induction L; [eapply below_one|eapply below_more]; eauto. Qed.

Lemma lives_trans o p a q : lives o p a -> lives o a q -> lives o p q.
Proof.
  intros A B. induction B as [q x E B S|q x E B IH S]; eapply lives_more; eauto. rewrite B. exact A.
Qed.

Definition grow (o : os) (acc : list nat) (q : nat) : list nat :=
  match look o q with
  | Some x => if alive (st x) && existsb (Nat.eqb (born x)) acc && negb (existsb (Nat.eqb q) acc)
              then acc ++ [q] else acc
  | None => acc
  end.

Lemma existsb_nat q l : existsb (Nat.eqb q) l = true <-> In q l.
Proof.
  rewrite existsb_exists. split.
  - intros (x & I & E). apply Nat.eqb_eq in E. congruence.
  - intros I. exists q. split; [exact I|apply Nat.eqb_refl].
Qed.

Lemma grow_mono o acc q r : In r acc -> In r (grow o acc q).
Proof.
  intros I. unfold grow. destruct (look o q) as [x|]; [|exact I].
  destruct (_ && _); [apply in_or_app; left|]; exact I.
Qed.

Lemma grow_fold o p m :
  ordered o -> p <> 0 ->
  In p (fold_left (grow o) (seq 0 m) [p]) /\
  (forall q, q < m -> lives o p q -> In q (fold_left (grow o) (seq 0 m) [p])) /\
  (forall q, In q (fold_left (grow o) (seq 0 m) [p]) -> q = p \/ lives o p q).
Proof.
  intros W Np. induction m as [|m (H1 & H2 & H3)].
  - cbn. split; [left; reflexivity|]. split; [lia|]. intros q [<-|[]]. left. reflexivity.
  - rewrite seq_S, fold_left_app. cbn [fold_left plus].
    remember (fold_left (grow o) (seq 0 m) [p]) as acc. clear Heqacc.
    split; [apply grow_mono, H1|]. split.
    + intros q L Lq. destruct (Nat.eq_dec q m) as [->|N]; [|apply grow_mono, H2; [lia|exact Lq]].
      unfold grow. assert (X : forall x, look o m = Some x -> In (born x) acc -> alive (st x) = true -> In m (grow o acc m)).
      { intros x E I A. unfold grow. rewrite E, A. apply existsb_nat in I. rewrite I. cbn [andb].
        destruct (existsb (Nat.eqb m) acc) eqn:Em; cbn [negb].
        - apply existsb_nat, Em.
        - apply in_or_app. right. left. reflexivity. }
      fold (grow o acc m).
      assert (Lm : p < m) by (eapply below_lt_o; [exact W|exact Np|apply lives_below, Lq]).
      destruct Lq as [q x E B A|q x E B A].
      * apply (X x E); [rewrite B; exact H1|exact A].
      * apply (X x E); [|exact A]. apply H2; [|exact B]. destruct (W _ _ E) as [Y|[-> Y]]; lia.
    + intros q I. unfold grow in I. destruct (look o m) as [x|] eqn:E; [|auto].
      destruct (alive (st x)) eqn:A; cbn [andb] in I; [|auto].
      destruct (existsb (Nat.eqb (born x)) acc) eqn:Eb; cbn [andb] in I; [|auto].
      destruct (negb (existsb (Nat.eqb m) acc)); [|auto].
      apply in_app_or in I as [I|[<-|[]]]; [auto|]. right. apply existsb_nat in Eb.
      destruct (H3 _ Eb) as [Q|Q]; [eapply lives_one; eauto|eapply lives_more; eauto].
Qed.

Lemma tree_in o p q : ordered o -> p <> 0 -> In q (tree p o) <-> q = p \/ lives o p q.
Proof.
  intros W N. change (tree p o) with (fold_left (grow o) (seq 0 (length (procs o))) [p]).
  destruct (grow_fold o p (length (procs o)) W N) as (H1 & H2 & H3). split; [apply H3|].
  intros [->|L]; [exact H1|]. apply H2; [|exact L]. destruct L as [q x E _ _|q x E _ _]; eapply look_lt, E.
Qed.

Lemma look_killed l : forall o q,
  look (fold_left set_killed l o) q =
  if existsb (Nat.eqb q) l then option_map (with_st Killed) (look o q) else look o q.
Proof.
  induction l as [|p l IH]; intros o q; cbn [fold_left existsb]; [reflexivity|].
  rewrite IH. unfold set_killed. rewrite look_upd.
  destruct (Nat.eqb q p); destruct (existsb (Nat.eqb q) l); cbn [orb]; destruct (look o q); reflexivity.
Qed.

Lemma me_killed l : forall o, me (fold_left set_killed l o) = me o.
Proof. induction l as [|p l IH]; intros o; cbn; [reflexivity|]. rewrite IH. reflexivity. Qed.

Lemma length_killed l : forall o, length (procs (fold_left set_killed l o)) = length (procs o).
Proof. induction l as [|p l IH]; intros o; cbn; [reflexivity|]. rewrite IH. cbn. apply length_upd. Qed.

Lemma lives_alive o p q : lives o p q -> alive_in o q.
Proof. intros [r x E _ A|r x E _ A]; exists x; auto. Qed.

Lemma wacted_kept o a : ordered o -> (forall p, a = WTask p -> p <> 0) -> kept o (wacted o a).
Proof.
  intros W N. destruct a as [[p|p|p]|p]; cbn [wacted moved_win].
  - apply (acted_kept o (AMove (Fork p))).
  - destruct (look o p) as [x|] eqn:E; [|apply kept_refl].
    destruct (is_running (st x) && negb (Nat.eqb p (me o))) eqn:R; [|apply kept_refl].
    apply andb_true_iff in R as [R _]. apply is_running_eq in R. apply kept_upd.
    intros y Ey. rewrite E in Ey. injection Ey as <-. cbn. rewrite R. split; [reflexivity|exact I].
  - apply kept_refl.
  - unfold taskkill. destruct (look o p) as [x|] eqn:E; [|apply kept_refl].
    destruct (alive (st x)) eqn:A; [|apply kept_refl].
    split; [apply me_killed|split; [rewrite length_killed; lia|]].
    intros q y Ey. rewrite look_killed, Ey. destruct (existsb (Nat.eqb q) (tree p o)) eqn:T; cbn [option_map].
    + exists (with_st Killed y). split; [reflexivity|]. split; [reflexivity|]. cbn [with_st st].
      apply existsb_nat, tree_in in T; [|exact W|apply (N p eq_refl)].
      assert (Ay : alive (st y) = true).
      { destruct T as [->|T]; [congruence|]. apply lives_alive in T as (z & Ez & Az). congruence. }
      destruct (st y); cbn in *; auto; discriminate.
    + exists y. repeat split. apply goes_refl.
Qed.

Lemma wacted_new o a q x :
  look (wacted o a) q = Some x ->
  (exists y, look o q = Some y) \/
  (exists p, a = WMove (Fork p) /\ st_in o p Running /\ x = Proc p p Running false /\ q = length (procs o)).
Proof.
  intros E. destruct a as [[p|p|p]|p]; cbn [wacted moved_win] in E.
  - destruct (acted_new o (AMove (Fork p)) q x E) as [A|(p' & A & B)]; [left; exact A|].
    injection A as <-. right. exists p. auto.
  - left. destruct (look o p) as [y|]; [|eauto].
    destruct (is_running (st y) && negb (Nat.eqb p (me o))); [|eauto].
    rewrite look_upd in E. destruct (Nat.eqb q p); [|eauto]. destruct (look o q); [eauto|discriminate].
  - eauto.
  - left. unfold taskkill in E. destruct (look o p) as [y|]; [|eauto].
    destruct (alive (st y)); [|eauto]. rewrite look_killed in E.
    destruct (existsb (Nat.eqb q) (tree p o)); [|eauto]. destruct (look o q); [eauto|discriminate].
Qed.

Lemma wacted_ordered o a : ordered o -> (forall p, a = WTask p -> p <> 0) -> ordered (wacted o a).
Proof.
  intros W N q x E. destruct (wacted_kept o a W N) as (_ & _ & K).
  destruct (wacted_new _ _ _ _ E) as [(y & Ey)|(p & -> & (z & Ez & _) & -> & ->)].
  - destruct (K _ _ Ey) as (x' & E' & B & _). rewrite E in E'. injection E' as <-. rewrite B. apply (W _ _ Ey).
  - left. cbn. eapply look_lt, Ez.
Qed.

(** below what was killed only the work of processes which ended on their own lives *)
Definition cut (o : os) : Prop :=
  forall a q, st_in o a Killed -> alive_in o q -> below anyone o a q -> brk anyone o a q.

Lemma gap o p q :
  below anyone o p q -> alive_in o q ->
  lives o p q \/ exists c, dead_in o c /\ below anyone o p c /\ below anyone o c q.
Proof.
  intros B. induction B as [q x E B _|q x E B IH _]; intros (y & Ey & Ay); rewrite E in Ey; injection Ey as <-.
  - left. eapply lives_one; eauto.
  - destruct (look o (born x)) as [z|] eqn:Ez.
    + destruct (alive (st z)) eqn:Az.
      * destruct IH as [L|(c & D & B1 & B2)]; [exists z; auto| |].
        -- left. eapply lives_more; eauto.
        -- right. exists c. split; [exact D|]. split; [exact B1|]. eapply below_more; eauto.
      * right. exists (born x). split; [exists z; auto|]. split; [exact B|]. eapply below_one; eauto.
    + exfalso. destruct B as [r w0 E0 _ _|r w0 E0 _ _]; congruence.
Qed.

Lemma alive_old o a q x :
  ordered o -> (forall p, a = WTask p -> p <> 0) ->
  look o q = Some x -> alive_in (wacted o a) q -> alive (st x) = true.
Proof.
  intros W N E (y & Ey & Ay). destruct (wacted_kept o a W N) as (_ & _ & K).
  destruct (K _ _ E) as (x' & E' & _ & G). rewrite Ey in E'. injection E' as <-.
  destruct (st x), (st y); cbn in *; intuition congruence.
Qed.

Lemma wacted_killed o a q :
  ordered o -> st_in (wacted o a) q Killed ->
  st_in o q Killed \/ exists p, a = WTask p /\ alive_in o p /\ (p = 0 \/ q = p \/ lives o p q).
Proof.
  intros W (x & E & S). destruct a as [[p|p|p]|p]; cbn [wacted moved_win] in E.
  - destruct (acted_killed o (AMove (Fork p)) q) as [A|A]; [exists x; split; assumption|left; exact A|discriminate].
  - left. destruct (look o p) as [y|] eqn:Ey; [|exists x; auto].
    destruct (is_running (st y) && negb (Nat.eqb p (me o))); [|exists x; auto].
    rewrite look_upd in E. destruct (Nat.eqb q p); [|exists x; auto].
    destruct (look o q) as [z|] eqn:Ez; [|discriminate]. cbn in E. injection E as <-. discriminate.
  - left. exists x. auto.
  - unfold taskkill in E. destruct (look o p) as [y|] eqn:Ey; [|left; exists x; auto].
    destruct (alive (st y)) eqn:Ay; [|left; exists x; auto]. rewrite look_killed in E.
    destruct (existsb (Nat.eqb q) (tree p o)) eqn:T; [|left; exists x; auto].
    right. exists p. split; [reflexivity|]. split; [exists y; auto|]. destruct (Nat.eq_dec p 0) as [->|Np]; [auto|].
    apply existsb_nat, tree_in in T; auto.
Qed.

Lemma taskkill_all o p q :
  ordered o -> p <> 0 -> q = p \/ lives o p q -> alive_in (taskkill p o) q -> ~ alive_in o p.
Proof.
  intros W N H (x & E & A) (y & Ey & Ay). unfold taskkill in E. rewrite Ey, Ay, look_killed in E.
  apply (tree_in o p q W N), existsb_nat in H. rewrite H in E.
  destruct (look o q); [|discriminate]. cbn in E. injection E as <-. discriminate.
Qed.

Lemma cut_acted o a :
  ordered o -> (forall p, a = WTask p -> p <> 0) -> cut o -> cut (wacted o a).
Proof.
  intros W N C b q Kb Aq B.
  pose proof (wacted_kept o a W N) as K. pose proof (wacted_ordered o a W N) as W'.
  destruct Aq as (x & E & A).
  destruct (wacted_new _ _ _ _ E) as [(y & Ey)|(p & -> & (z & Ez & R) & -> & Lq)].
  - assert (Aq' : alive_in (wacted o a) q) by (exists x; auto).
    assert (Ay : alive (st y) = true) by exact (alive_old o a q y W N Ey Aq').
    assert (Bo : below anyone o b q) by exact (below_old_o _ _ _ _ _ W' K (look_lt _ _ _ Ey) B).
    destruct (wacted_killed _ _ _ W Kb) as [Ko|(p & -> & Ap & [->|T])].
    + eapply brk_kept; [exact K|]. apply C; auto. exists y. auto.
    + destruct (N 0 eq_refl eq_refl).
    + pose proof (N p eq_refl) as Np. destruct (gap _ _ _ Bo) as [L|(c & D & B1 & B2)]; [exists y; auto| |].
      * (* q is in the tree itself *)
        assert (Lq : lives o p q) by (destruct T as [->|T]; [exact L|eapply lives_trans; eassumption]).
        exfalso. eapply taskkill_all; [exact W|exact Np|right; exact Lq|exact Aq'|exact Ap].
      * eapply brk_kept; [exact K|]. destruct D as (d & Ed & Ad).
        apply dead_not_alive in Ad as [Ad|Ad].
        -- exists c. split; [exists d; auto|]. split; [right; exact B1|exact B2].
        -- destruct (C c q) as (e & Se & Q & Be); [exists d; auto|exists y; auto|exact B2|].
           exists e. split; [exact Se|]. split; [right|exact Be].
           destruct Q as [->|Q]; [exact B1|eapply below_trans; eassumption].
  - (* a new process *)
    assert (B' : b = p \/ below anyone (wacted o (WMove (Fork p))) b p).
    { inversion B as [q' y Ey By _|q' y Ey By _]; subst q'; rewrite E in Ey; injection Ey as <-; cbn in By; auto. }
    destruct (wacted_killed _ _ _ W Kb) as [Ko|(p' & X & _)]; [|discriminate X].
    destruct B' as [->|B'].
    { destruct Ko as (u & Eu & Su). congruence. }
    assert (Br : brk anyone o b p).
    { apply C; [exact Ko|exists z; rewrite R; auto|]. eapply below_old_o; eauto. eapply look_lt, Ez. }
    apply (brk_kept _ _ _ _ _ K) in Br. destruct Br as (e & A1 & A2 & A3). exists e. split; [exact A1|]. split; [exact A2|].
    eapply below_more; [exact E|exact A3|exact I].
Qed.

Definition wfork (NF : Prop) (n : nat) (a : wact) : Prop :=
  (forall p, a = WTask p -> p <> 0 /\ p <> n) /\ (NF -> a <> WMove (Fork n)).

Definition wreach (P : wact -> Prop) (o o' : os) : Prop := exists l, Forall P l /\ o' = fold_left wacted l o.

Lemma wreach_refl P o : wreach P o o.
Proof. exists []. split; [constructor|reflexivity]. Qed.

Lemma wreach_trans P a b c : wreach P a b -> wreach P b c -> wreach P a c.
Proof.
  intros (l1 & F1 & ->) (l2 & F2 & ->). exists (l1 ++ l2). split; [apply Forall_app; split; assumption|].
  rewrite fold_left_app; reflexivity.
Qed.

Lemma wreach_ind (P : wact -> Prop) (J : os -> Prop) o o' :
  (forall o a, J o -> P a -> J (wacted o a)) -> wreach P o o' -> J o -> J o'.
Proof.
  intros H (l & F & ->). revert o. induction F as [|a l Pa F IH]; intros o Io; cbn; [exact Io|].
  apply IH, H; assumption.
Qed.

Lemma wfork_task NF n a : wfork NF n a -> forall p, a = WTask p -> p <> 0.
Proof. intros [H _] p E. apply (H p E). Qed.

Lemma kept_trans a b c : kept a b -> kept b c -> kept a c.
Proof.
  intros (M1 & L1 & K1) (M2 & L2 & K2). split; [congruence|split; [lia|]].
  intros q x E. destruct (K1 _ _ E) as (x1 & E1 & B1 & G1).
  destruct (K2 _ _ E1) as (x2 & E2 & B2 & G2). exists x2. split; [exact E2|split; [congruence|]].
  destruct (st x), (st x1); cbn in *; intuition congruence.
Qed.

Lemma wreach_kept NF n o o' : wreach (wfork NF n) o o' -> ordered o -> kept o o' /\ ordered o'.
Proof.
  intros R W. apply (wreach_ind (wfork NF n) (fun s => kept o s /\ ordered s) o o'); auto using kept_refl.
  intros s a [K Ws] P. split.
  - eapply kept_trans; [exact K|]. apply wacted_kept; [exact Ws|eapply wfork_task, P].
  - apply wacted_ordered; [exact Ws|eapply wfork_task, P].
Qed.

Lemma wreach_cut NF n o o' : wreach (wfork NF n) o o' -> ordered o -> cut o -> cut o'.
Proof.
  intros R W C. apply (wreach_ind (wfork NF n) (fun s => ordered s /\ cut s) o o'); auto.
  intros s a [Ws Cs] P. split; [apply wacted_ordered|apply cut_acted]; auto; eapply wfork_task, P.
Qed.

Lemma wtick_reach (NF : Prop) w :
  (NF -> no_fork (me (sys w)) w) -> wreach (wfork NF (me (sys w))) (sys w) (sys (tick_win w)).
Proof.
  intros H. unfold tick_win. destruct (sched w) as [|ms r] eqn:E; [apply wreach_refl|]. cbn [sys].
  exists (map WMove ms). split.
  - apply Forall_map, Forall_forall. intros m J. split; [discriminate|].
    intros F [= ->]. apply (H F ms); [rewrite E; left; reflexivity|exact J].
  - generalize (sys w). clear. induction ms as [|m ms IH]; intros o; cbn; [reflexivity|apply IH].
Qed.

Lemma wtick_no_fork n w : no_fork n w -> no_fork n (tick_win w).
Proof.
  unfold no_fork, tick_win. destruct (sched w) as [|ms r] eqn:E; [rewrite E; auto|]. cbn [sched].
  intros H x J. apply H. right. exact J.
Qed.

Lemma snapshot_in p o k : In k (snapshot_children p o) <-> exists x, look o k = Some x /\ born x = p /\ alive (st x) = true /\ k <> p.
Proof.
  unfold snapshot_children. rewrite filter_In, in_seq. split.
  - intros (_ & H). destruct (look o k) as [x|]; [|discriminate]. apply andb_true_iff in H as [H H3].
    apply andb_true_iff in H as [H1 H2]. apply Nat.eqb_eq in H1. apply negb_true_iff, Nat.eqb_neq in H3. eauto.
  - intros (x & E & P & A & N). apply Nat.eqb_neq in N. rewrite E, P, Nat.eqb_refl, A, N. split; [|reflexivity].
    apply look_lt in E. lia.
Qed.

Lemma task_dead o p x : ordered o -> p <> 0 -> look o p = Some x -> dead_in (taskkill p o) p.
Proof.
  intros W N E. unfold taskkill. rewrite E. destruct (alive (st x)) eqn:A; [|exists x; auto].
  exists (with_st Killed x). rewrite look_killed.
  assert (T : existsb (Nat.eqb p) (tree p o) = true) by (apply existsb_nat, tree_in; auto).
  rewrite T, E. split; reflexivity.
Qed.

Section Win.
Variables (skip : list pyval) (NF : Prop).

(** below a child of p which is not to be kept, or such a child *)
Definition meant (o : os) (p q : nat) : Prop :=
  exists k x, look o k = Some x /\ born x = p /\ ~ In (VInt k) skip /\ (q = k \/ below anyone o k q).

Lemma meant_kept o o' p q : kept o o' -> meant o p q -> meant o' p q.
Proof.
  intros K (k & x & E & B & S & C). pose proof K as (_ & _ & K'). destruct (K' _ _ E) as (x' & E' & B' & _).
  exists k, x'. split; [exact E'|]. split; [congruence|]. split; [exact S|].
  destruct C as [C|C]; [left; exact C|right; eapply below_kept; eassumption].
Qed.

Record wready (w : world) : Prop := WReady {
  wr_ord : ordered (sys w);
  wr_me : me (sys w) <> 0;
  wr_fork : NF -> no_fork (me (sys w)) w }.

Record did (w : world) (w' : world) : Prop := Did {
  d_reach : wreach (wfork NF (me (sys w))) (sys w) (sys w');
  d_ready : wready w';
  d_killed : forall q, st_in (sys w') q Killed -> st_in (sys w) q Killed \/ meant (sys w') (me (sys w)) q }.

Lemma did_kept w w' : wready w -> did w w' -> kept (sys w) (sys w').
Proof. intros [O _ _] [R _ _]. eapply wreach_kept; eauto. Qed.

Lemma did_trans a b c : wready a -> did a b -> did b c -> did a c.
Proof.
  intros Ra D1 D2. pose proof (did_kept _ _ Ra D1) as K1.
  pose proof (did_kept _ _ (d_ready _ _ D1) D2) as K2. pose proof K1 as (M & _).
  constructor.
  - eapply wreach_trans; [apply (d_reach _ _ D1)|]. rewrite <- M. apply (d_reach _ _ D2).
  - apply (d_ready _ _ D2).
  - intros q Q. destruct (d_killed _ _ D2 q Q) as [A|A]; [|right; rewrite <- M; exact A].
    destruct (d_killed _ _ D1 q A) as [B|B]; [left; exact B|]. right. eapply meant_kept; eassumption.
Qed.

Lemma did_tick w : wready w -> did w (tick_win w).
Proof.
  intros [O N F]. pose proof (wtick_reach NF w F) as R. destruct (wreach_kept _ _ _ _ R O) as [K O'].
  pose proof K as (M & _). constructor; [exact R| |].
  - constructor; [exact O'|congruence|]. rewrite M. intros H. apply wtick_no_fork, F, H.
  - intros q. clear R K O' M. unfold tick_win. destruct (sched w) as [|ms r]; [auto|]. cbn [sys].
    intros Q. left. revert O Q. generalize (sys w). induction ms as [|m ms IH]; intros o O Q; cbn in Q; [exact Q|].
    apply IH in Q.
    + destruct (wacted_killed o (WMove m) q O Q) as [A|(p & A & _)]; [exact A|discriminate].
    + apply (wacted_ordered o (WMove m)); [exact O|discriminate].
Qed.

Lemma did_task w p x :
  wready w -> look (sys w) p = Some x -> born x = me (sys w) -> ~ In (VInt p) skip ->
  did w (do_taskkill w p) /\ dead_in (sys (do_taskkill w p)) p.
Proof.
  intros R E B S. pose proof (did_tick w R) as D. pose proof (did_kept _ _ R D) as K. pose proof K as (M & L & K').
  destruct (K' _ _ E) as (x' & E' & B' & _). destruct D as [Rt [O N F] Kd].
  assert (Np : p <> 0 /\ p <> me (sys w)).
  { destruct (O _ _ E') as [X|[-> X]]; [lia|]. rewrite M in N. lia. }
  assert (T : wreach (wfork NF (me (sys w))) (sys (tick_win w)) (sys (do_taskkill w p))).
  { unfold do_taskkill. cbn [sys]. exists [WTask p]. split; [|reflexivity].
    constructor; [|constructor]. split; [intros p' [= <-]; tauto|discriminate]. }
  destruct (wreach_kept _ _ _ _ T O) as [K2 O2]. pose proof K2 as (M2 & _).
  split.
  - constructor.
    + eapply wreach_trans; eassumption.
    + constructor; [exact O2|congruence|]. rewrite M2. intros H.
      unfold no_fork, do_taskkill. cbn [sched]. apply F, H.
    + intros q Q. unfold do_taskkill in Q. cbn [sys] in Q.
      destruct (wacted_killed (sys (tick_win w)) (WTask p) q O Q) as [A|(p' & A & _ & C)].
      * destruct (Kd q A) as [A'|A']; [left; exact A'|]. right. eapply meant_kept; eassumption.
      * injection A as <-. right. eapply meant_kept; [exact K2|]. exists p, x'.
        split; [exact E'|]. split; [congruence|]. split; [exact S|].
        destruct C as [C|[C|C]]; [lia|left; exact C|right; apply lives_below, C].
  - unfold do_taskkill. cbn [sys]. eapply task_dead; [exact O|tauto|exact E'].
Qed.

Lemma did_tasks kids : forall w,
  wready w ->
  (forall k, In k kids -> exists x, look (sys w) k = Some x /\ born x = me (sys w) /\ ~ In (VInt k) skip) ->
  did w (fold_left do_taskkill kids w) /\ forall k, In k kids -> dead_in (sys (fold_left do_taskkill kids w)) k.
Proof.
  induction kids as [|k kids IH]; intros w R H; cbn [fold_left].
  - split; [|intros k []]. constructor; auto using wreach_refl.
  - destruct (H k (or_introl eq_refl)) as (x & E & B & S).
    destruct (did_task w k x R E B S) as [D Dk]. pose proof (did_kept _ _ R D) as (M & L & K).
    destruct (IH (do_taskkill w k)) as [D2 D2k].
    + apply (d_ready _ _ D).
    + intros k' J. destruct (H k' (or_intror J)) as (y & Ey & By & Sy). destruct (K _ _ Ey) as (y' & Ey' & By' & _).
      exists y'. rewrite M. split; [exact Ey'|]. split; [congruence|exact Sy].
    + split; [eapply did_trans; eassumption|]. intros k' [<-|J]; [|auto].
      eapply dead_kept; [|exact Dk]. eapply did_kept; [apply (d_ready _ _ D)|exact D2].
Qed.

(** all children which are not to be kept are dead *)
Definition gone (o : os) : Prop :=
  forall k x, look o k = Some x -> born x = me o -> ~ In (VInt k) skip -> k <> me o -> dead_in o k.

Lemma gone_later w w' : NF -> wready w -> did w w' -> gone (sys w) -> gone (sys w').
Proof.
  intros NFh [O N F] [R _ _] G.
  enough (X : gone (sys w') /\ ordered (sys w') /\ me (sys w') = me (sys w)) by apply X.
  apply (wreach_ind (wfork NF (me (sys w))) (fun s => gone s /\ ordered s /\ me s = me (sys w)) (sys w) (sys w')); auto.
  intros s a (Gs & Os & Ms) P. pose proof (wacted_kept s a Os (wfork_task _ _ _ P)) as K. pose proof K as (M & _ & K').
  split; [|split; [apply wacted_ordered; [exact Os|eapply wfork_task, P]|congruence]].
  intros k x E B S Nk. rewrite M in B, Nk.
  destruct (wacted_new _ _ _ _ E) as [(y & Ey)|(p & -> & _ & -> & _)].
  - eapply dead_kept; [exact K|]. destruct (K' _ _ Ey) as (x' & E' & B' & _). rewrite E in E'. injection E' as <-.
    apply (Gs k y Ey); congruence.
  - cbn in B. subst p. destruct P as [_ P]. exfalso. apply (P NFh). congruence.
Qed.

Lemma rounds_win_did n : forall w, wready w -> did w (rounds_win skip n w) /\ (NF -> 0 < n -> gone (sys (rounds_win skip n w))).
Proof.
  induction n as [|n IH]; intros w R; cbn [rounds_win].
  - split; [|lia]. constructor; auto using wreach_refl.
  - pose proof (did_tick w R) as D. pose proof (d_ready _ _ D) as R1.
    set (w1 := tick_win w) in *. set (keep := filter _ _).
    assert (KI : forall k, In k keep <-> In k (snapshot_children (me (sys w1)) (sys w1)) /\ ~ In (VInt k) skip).
    { intros k. unfold keep. rewrite filter_In, negb_true_iff, <- contains_in. destruct (contains (VInt k) skip); intuition congruence. }
    assert (G : forall w2, NF -> did w1 w2 -> (forall k, In k keep -> dead_in (sys w2) k) -> gone (sys w2)).
    { intros w2 NFh D2 H k x E B S Nk. pose proof (did_kept _ _ R1 D2) as K2. pose proof K2 as (M2 & _ & K2').
      destruct (look (sys w1) k) as [y|] eqn:Ey.
      - destruct (K2' _ _ Ey) as (x' & E' & B' & G'). rewrite E in E'. injection E' as <-.
        destruct (alive (st y)) eqn:Ay.
        + apply H, KI. split; [|exact S]. apply snapshot_in. exists y. repeat split; auto; congruence.
        + eapply dead_kept; [exact K2|]. exists y. auto.
      - (* a new child: impossible *)
        exfalso. pose proof (d_reach _ _ D2) as RR. clear D2 H K2 K2'.
        assert (X : (forall y, look (sys w2) k = Some y -> born y = me (sys w1) -> exists z, look (sys w1) k = Some z) /\ ordered (sys w2) /\ me (sys w2) = me (sys w1)).
        { apply (wreach_ind (wfork NF (me (sys w1))) (fun s => (forall y, look s k = Some y -> born y = me (sys w1) -> exists z, look (sys w1) k = Some z) /\ ordered s /\ me s = me (sys w1)) (sys w1) (sys w2)); auto.
          - intros s a (Hs & Os & Ms) P. pose proof (wacted_kept s a Os (wfork_task _ _ _ P)) as K. pose proof K as (M & _ & K').
            split; [|split; [apply wacted_ordered; [exact Os|eapply wfork_task, P]|congruence]].
            intros y E2 B2. destruct (wacted_new _ _ _ _ E2) as [(z & Ez)|(p & -> & _ & -> & _)].
            + destruct (K' _ _ Ez) as (y' & E' & B' & _). rewrite E2 in E'. injection E' as <-. apply (Hs z Ez). congruence.
            + cbn in B2. subst p. destruct P as [_ P]. destruct (P NFh eq_refl).
          - split; [eauto|]. split; [apply R1|reflexivity]. }
        destruct X as (X & _ & _). destruct (X x E) as (z & Ez); congruence. }
    destruct keep as [|k0 ks] eqn:EK.
    + split; [exact D|]. intros NFh _. apply G; [exact NFh| |intros k []].
      constructor; auto using wreach_refl.
    + destruct (did_tasks (k0 :: ks) w1 R1) as [D2 D2k].
      { intros k J. apply KI in J as [J S]. apply snapshot_in in J as (x & E & B & _ & _). exists x. auto. }
      destruct (IH _ (d_ready _ _ D2)) as [D3 _].
      assert (D12 : did w (fold_left do_taskkill (k0 :: ks) w1)) by (eapply did_trans; eassumption).
      split; [eapply did_trans; eassumption|]. intros NFh _.
      eapply gone_later; [exact NFh|apply (d_ready _ _ D2)|exact D3|]. apply G; assumption.
Qed.

End Win.

(** The same for Windows, where a child of the debugged process is kept if its number was given, and
    taskkill takes the tree below a process as it is at that moment. *)
Theorem win_complete skip w w' :
  wf (sys w) -> fresh (sys w) -> no_fork (me (sys w)) w -> terminate_win skip w = w' ->
  forall k x q, look (sys w') k = Some x -> born x = me (sys w) -> ~ In (VInt k) skip ->
    q = k \/ below anyone (sys w') k q -> alive_in (sys w') q ->
  exists a, st_in (sys w') a Exited /\ (a = k \/ below anyone (sys w') k a) /\ below anyone (sys w') a q.
Proof.
  intros W F N <- k x q E B S C A. destruct (wf_me _ W) as [_ Me].
  assert (R : wready True w) by (constructor; [exact (wf_born _ W)|lia|auto]).
  destruct (rounds_win_did skip True 50 w R) as [D G]. fold (terminate_win skip w) in *.
  pose proof (did_kept _ _ _ _ R D) as (M & _).
  assert (Nk : k <> me (sys w)).
  { destruct (wr_ord _ _ (d_ready _ _ _ _ D) _ _ E) as [X|[-> X]]; lia. }
  destruct (G I ltac:(lia) k x E) as (x' & E' & Dx); [congruence|exact S|congruence|].
  rewrite E in E'. injection E' as <-.
  destruct C as [->|C]; [destruct A as (y & Ey & Ay); congruence|].
  apply dead_not_alive in Dx as [Dx|Dx].
  - exists k. split; [exists x; auto|]. split; [left; reflexivity|exact C].
  - assert (Cut : cut (sys (terminate_win skip w))).
    { eapply wreach_cut; [apply (d_reach _ _ _ _ D)|exact (wf_born _ W)|].
      intros a r Ka _ _. destruct (F a Ka). }
    destruct (Cut k q) as (a & Sa & Qa & Ba); [exists x; auto|exact A|exact C|].
    exists a. auto.
Qed.

(** Only descendants of the debugged process are killed, and none below a child to be kept. *)
Theorem win_only skip w w' q :
  wf (sys w) -> fresh (sys w) -> terminate_win skip w = w' -> st_in (sys w') q Killed ->
  exists k x, look (sys w') k = Some x /\ born x = me (sys w) /\ ~ In (VInt k) skip /\
              (q = k \/ below anyone (sys w') k q).
Proof.
  intros W F <- Q. destruct (wf_me _ W) as [_ Me].
  assert (R : wready False w) by (constructor; [exact (wf_born _ W)|lia|tauto]).
  destruct (rounds_win_did skip False 50 w R) as [D _].
  destruct (d_killed _ _ _ _ D q Q) as [A|A]; [destruct (F q A)|exact A].
Qed.

(** ** Requests *)

Definition is_terminate (r : request) : bool :=
  match r with Terminate => true | Disconnect b => b end.

Definition is_detach (e : effect) : bool := match e with EDetach => true | _ => false end.

(** Each terminate request, and each disconnect request which asks for it, ends the process; with
    onTerminate set to KeyboardInterrupt the first one only interrupts the main thread. Any other
    disconnect request ends nothing. *)
Theorem terminate_requests rs : forall d,
  filter (fun e => negb (is_detach e)) (snd (on_requests d rs)) =
  match length (filter is_terminate rs) with
  | O => []
  | S n => (if by_interrupt d && negb (interrupted d) then EInterrupt else EEnd) :: repeat EEnd n
  end.
Proof.
  induction rs as [|r rs IH]; intros d; [reflexivity|].
  cbn [on_requests]. destruct (on_request d r) as [d1 e1] eqn:E1. destruct (on_requests d1 rs) as [d2 e2] eqn:E2.
  cbn [snd]. rewrite filter_app. specialize (IH d1). rewrite E2 in IH. cbn [snd] in IH. rewrite IH.
  destruct (is_terminate r) eqn:T; cbn [filter]; rewrite T; cbn [length].
  - assert (R : on_request d r = request_terminate_process d) by (destruct r as [|[|]]; cbn in *; congruence).
    rewrite R in E1. unfold request_terminate_process in E1.
    destruct (by_interrupt d && negb (interrupted d)) eqn:B; injection E1 as <- <-.
    + cbn [filter is_detach negb app by_interrupt interrupted]. rewrite andb_false_r.
      destruct (length (filter is_terminate rs)); reflexivity.
    + cbn [filter is_detach negb app by_interrupt interrupted]. rewrite B.
      destruct (length (filter is_terminate rs)); reflexivity.
  - destruct r as [|[|]]; try discriminate T. cbn [on_request] in E1. injection E1 as <- <-.
    cbn [filter is_detach negb app by_interrupt interrupted]. reflexivity.
Qed.

(** the client lets the thread run *)
Definition resumes (h : happening) : bool :=
  match h with HResume => true | HRequest (Disconnect false) => true | _ => false end.

(** Once a request ends the process, a thread waiting at a breakpoint runs no more code of the program,
    unless the client resumes it: disposing of the debugger does not let it go. *)
Theorem terminate_keeps_waiting d pre r post :
  In EEnd (snd (on_request (happen d pre) r)) ->
  suspended (happen d pre) = true -> waiting (happen d pre) = true ->
  existsb resumes post = false ->
  waiting (happen d (pre ++ HRequest r :: post)) = true.
Proof.
  intros E S Wt P. unfold happen at 1. rewrite fold_left_app. fold (happen d pre). cbn [fold_left].
  assert (H : terminating (happens (happen d pre) (HRequest r)) = true /\
              suspended (happens (happen d pre) (HRequest r)) = true /\
              waiting (happens (happen d pre) (HRequest r)) = true).
  { cbn [happens]. destruct r as [|[|]]; cbn [on_request] in *; unfold request_terminate_process in *.
    - destruct (by_interrupt (happen d pre) && _); cbn in *; [destruct E as [E|[]]; discriminate|auto].
    - destruct (by_interrupt (happen d pre) && _); cbn in *; [destruct E as [E|[]]; discriminate|auto].
    - destruct E as [E|[]]; discriminate. }
  revert H P. generalize (happens (happen d pre) (HRequest r)). clear.
  induction post as [|h post IH]; intros d (T & S & Wt) P; cbn [fold_left]; [exact Wt|].
  cbn [existsb] in P. apply orb_false_iff in P as [P1 P2]. apply IH; [|exact P2].
  destruct h as [[|[|]]| | |]; try discriminate P1; cbn [happens on_request]; unfold request_terminate_process.
  - destruct (by_interrupt d && _); cbn; auto.
  - destruct (by_interrupt d && _); cbn; auto.
  - cbn; auto.
  - rewrite S, T. cbn [negb orb]. rewrite andb_false_r. auto.
Qed.

(** ** Findings *)

(** 2 is debugged; 3 and 5 are its children, 4 is a child of 3 *)
Definition os_ex : os :=
  OS [Proc 0 0 Running false; Proc 0 0 Running false; Proc 1 1 Running false;
      Proc 2 2 Running false; Proc 3 3 Running false; Proc 2 2 Running false] 2.

Lemma os_ex_wf : wf os_ex /\ fresh os_ex.
Proof.
  assert (D : forall q x, look os_ex q = Some x ->
    (born x < q \/ q = 0 /\ born x = 0) /\ ppid x = born x /\ reaped x = false /\ st x = Running).
  { intros q x. unfold look. do 6 (destruct q as [|q]; [cbn; intros [= <-]; cbn; repeat split; lia|]).
    cbn. destruct q; discriminate. }
  split; [constructor|].
  - intros q x E. apply (D q x E).
  - intros q x E. left. apply (D q x E).
  - intros q x E _ _. apply (D q x E).
  - intros q x E R. destruct (D q x E) as (_ & _ & X & _). congruence.
  - split; [|cbn; lia]. eexists. split; reflexivity.
  - intros q (x & E & S). destruct (D q x E) as (_ & _ & _ & X). congruence.
Qed.

(** a number, as add_dont_terminate_child_pid takes it, has no effect: the listing has texts *)
Lemma ints_spare_none skip k : (forall v, In v skip -> exists n, v = VInt n) -> spared skip k = false.
Proof.
  intros H. apply spared_unnamed. intros I. destruct (H _ I) as (n & E). discriminate.
Qed.

Lemma visit_ext skip1 skip2 f g kids : forall w,
  (forall k, spared skip1 k = spared skip2 k) -> (forall w k, f w k = g w k) ->
  visit skip1 f kids w = visit skip2 g kids w.
Proof.
  induction kids as [|k kids IH]; intros w S E; cbn [visit]; [reflexivity|].
  rewrite S, E. destruct (spared skip2 k); [apply IH; assumption|].
  destruct (g w k) as [[l w1]|]; [|reflexivity]. rewrite (IH w1 S E). reflexivity.
Qed.

Lemma list_ext skip1 skip2 n : (forall k, spared skip1 k = spared skip2 k) ->
  forall b w p, list_children skip1 n b w p = list_children skip2 n b w p.
Proof.
  intros S. induction n as [|n IH]; intros b w p; cbn [list_children]; [reflexivity|].
  destruct (do_pgrep p (if b then do_stop p w else w)) as [kids w2]. apply visit_ext; auto.
Qed.

Theorem unix_numbers_ignored skip w :
  (forall v, In v skip -> exists n, v = VInt n) -> terminate_unix skip w = terminate_unix [] w.
Proof.
  intros H. unfold terminate_unix.
  assert (S : forall k, spared skip k = spared [] k).
  { intros k. rewrite (ints_spare_none skip k H). reflexivity. }
  generalize 50 at 1 2. intros n. generalize (@nil nat) as found. revert w.
  induction n as [|n IH]; intros w found; cbn [rounds]; [reflexivity|].
  rewrite (list_ext skip [] _ S). destruct (list_children [] (Datatypes.S (room w)) false w (me (sys w))) as [[l w1]|]; [|reflexivity].
  destruct (kill_new l found false w1) as [[f' new] w2]. destruct new; [apply IH|reflexivity].
Qed.

(** so a child whose number was given is killed *)
Theorem unix_keeps_refuted :
  exists w w' k, wf (sys w) /\ fresh (sys w) /\ no_fork (me (sys w)) w /\
    terminate_unix [VInt k] w = Some w' /\ below (fun _ => True) (sys w) (me (sys w)) k /\
    st_in (sys w') k Killed.
Proof.
  exists (World os_ex [] []). eexists. exists 3. split; [apply os_ex_wf|]. split; [apply os_ex_wf|].
  split; [intros ms []|]. split; [vm_compute; reflexivity|]. split.
  - eapply below_one; [reflexivity|reflexivity|exact I].
  - eexists. split; reflexivity.
Qed.

(** a process whose parent ended before is not found and lives on *)
Theorem unix_orphan_refuted :
  exists w w' q, wf (sys w) /\ fresh (sys w) /\ no_fork (me (sys w)) w /\
    terminate_unix [] w = Some w' /\ below (fun _ => True) (sys w) (me (sys w)) q /\
    alive_in (sys w) q /\ alive_in (sys w') q.
Proof.
  exists (World os_ex [[Exit 3]] []). eexists. exists 4. split; [apply os_ex_wf|]. split; [apply os_ex_wf|].
  split; [intros ms [<-|[]] [J|[]]; discriminate|]. split; [vm_compute; reflexivity|]. split.
  - eapply below_more; [reflexivity|eapply below_one; [reflexivity|reflexivity|exact I]|exact I].
  - split; eexists; split; reflexivity.
Qed.

(** a process which the debugged one starts after the last listing lives on *)
Theorem unix_late_refuted :
  exists w w' q, wf (sys w) /\ fresh (sys w) /\
    terminate_unix [] w = Some w' /\ below (fun _ => True) (sys w') (me (sys w)) q /\
    alive_in (sys w') q /\ forall a, ~ st_in (sys w') a Exited.
Proof.
  exists (World os_ex [[]; []; []; []; []; []; []; []; []; []; []; [Fork 2]] []). eexists. exists 6.
  split; [apply os_ex_wf|]. split; [apply os_ex_wf|]. split; [vm_compute; reflexivity|]. split.
  - eapply below_one; [reflexivity|reflexivity|exact I].
  - split; [eexists; split; reflexivity|].
    intros a (x & E & S). revert E. unfold look. do 7 (destruct a as [|a]; [cbn; intros [= <-]; discriminate|]).
    cbn. destruct a; discriminate.
Qed.

(** on Windows a process whose number was given is killed if its parent is terminated *)
Theorem win_keeps_refuted :
  exists w k, wf (sys w) /\ fresh (sys w) /\ no_fork (me (sys w)) w /\
    below (fun _ => True) (sys w) (me (sys w)) k /\ st_in (sys (terminate_win [VInt k] w)) k Killed.
Proof.
  exists (World os_ex [] []), 4. split; [apply os_ex_wf|]. split; [apply os_ex_wf|]. split; [intros ms []|]. split.
  - eapply below_more; [reflexivity|eapply below_one; [reflexivity|reflexivity|exact I]|exact I].
  - eexists. split; vm_compute; reflexivity.
Qed.

(** ** Examples *)

(** while 3 is being stopped it forks, 5 forks and its child forks, then one of these ends *)
Definition w_ex : world :=
  World os_ex [[]; [Fork 3; Fork 5]; [Fork 4; Fork 7]; [Exit 8; Fork 7]; [Reap 8; Fork 7]; [Fork 5]] [].

Example unix_example :
  wf (sys w_ex) /\ fresh (sys w_ex) /\ no_fork (me (sys w_ex)) w_ex /\
  exists w', terminate_unix [] w_ex = Some w' /\
    length (procs (sys w')) = 13 /\
    forallb (fun q => match look (sys w') q with Some x => negb (alive (st x)) | None => false end) (seq 3 10) = true /\
    forallb (fun q => match look (sys w') q with Some x => alive (st x) | None => false end) (seq 0 3) = true.
Proof.
  split; [apply os_ex_wf|]. split; [apply os_ex_wf|]. split.
  - intros ms J. cbn in J. repeat (destruct J as [<-|J]; [cbn; intuition discriminate|]). destruct J.
  - eexists. split; [vm_compute; reflexivity|]. vm_compute. auto.
Qed.

(** 3 is kept, with the child 4 *)
Example unix_keeps_example :
  exists w', terminate_unix [VStr (dec 3)] (World os_ex [] []) = Some w' /\
    sent w' = [SStop 5; SKill 5; SStop 5] /\ alive_in (sys w') 3 /\ alive_in (sys w') 4 /\ st_in (sys w') 5 Killed.
Proof.
  eexists. split; [vm_compute; reflexivity|]. split; [reflexivity|].
  split; [|split]; eexists; split; reflexivity.
Qed.

Example unix_stopped_example :
  exists w', terminate_unix [] (World os_ex [] []) = Some w' /\ st_in (sys w') 3 Killed /\ st_in (sys w') 4 Killed /\
    sent w' = [SStop 3; SStop 4; SStop 5; SKill 3; SKill 4; SKill 5; SStop 3; SStop 5].
Proof. eexists. split; [vm_compute; reflexivity|]. split; [|split; [|reflexivity]]; eexists; split; reflexivity. Qed.

Example win_example :
  let w' := terminate_win [VInt 3] (World os_ex [[Fork 4]; [Fork 5; Fork 7]] []) in
  st_in (sys w') 5 Killed /\ st_in (sys w') 7 Killed /\ st_in (sys w') 8 Killed /\ alive_in (sys w') 3 /\ alive_in (sys w') 4 /\ alive_in (sys w') 6.
Proof. cbn zeta. repeat match goal with |- _ /\ _ => split end; eexists; split; vm_compute; reflexivity. Qed.

Example requests_example :
  snd (on_requests (DB true false false false true true) [Disconnect false; Terminate; Disconnect true]) = [EDetach; EInterrupt; EEnd].
Proof. reflexivity. Qed.

Example waiting_example :
  let d := DB false false false false true true in
  waiting (happen d [HLook; HRequest Terminate; HDispose; HLook]) = true /\
  waiting (happen d [HDispose; HLook]) = false /\
  waiting (happen d [HRequest Terminate; HDispose; HResume; HLook]) = false.
Proof. repeat split. Qed.

Print Assumptions unix_total.
Print Assumptions unix_complete.
Print Assumptions unix_only.
Print Assumptions unix_keeps.
Print Assumptions unix_none_stopped.
Print Assumptions win_complete.
Print Assumptions win_only.
Print Assumptions terminate_requests.
Print Assumptions terminate_keeps_waiting.
Print Assumptions unix_numbers_ignored.
Print Assumptions unix_keeps_refuted.
Print Assumptions unix_orphan_refuted.
Print Assumptions unix_late_refuted.
Print Assumptions win_keeps_refuted.
