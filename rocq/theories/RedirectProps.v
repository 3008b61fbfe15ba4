(** C27: redirections of the standard streams are undone completely, and while redirected every text written
    reaches the original stream and the redirection, in order. *)
From Coq Require Import List NArith Bool Arith Lia.
From Verif Require Import Base Redirect.
Import ListNotations.

(** ** Specification *)

(** What a program may do with properly nested redirections: a redirection around something, the block in which
    output is sent to the client, its own replacement of a stream undone at the end (as
    contextlib.redirect_stdout does). *)
Inductive prog :=
| Skip
| Seq (p q : prog)
| WithStart (keep : bool) (t : target) (r : stream) (p : prog)
| WithClient (p : prog)
| WithOwn (s : std) (x : stream) (p : prog).

Fixpoint exec_prog (w : world) (p : prog) : option world :=
  match p with
  | Skip => Some w
  | Seq p q => match exec_prog w p with Some w => exec_prog w q | None => None end
  | WithStart k t r p =>
      match exec w (Start k t r) with
      | Some w => match exec_prog w p with Some w => exec w (End t) | None => None end
      | None => None
      end
  | WithClient p =>
      match exec w Enter with
      | Some w => match exec_prog w p with Some w => exec w Exit | None => None end
      | None => None
      end
  | WithOwn s x p =>
      match exec w (Assign s x) with
      | Some w' => match exec_prog w' p with Some w' => exec w' (Assign s (cur (chan_of w s))) | None => None end
      | None => None
      end
  end.

(** Nothing of the streams has changed. *)
Definition same (w w' : world) : Prop := (forall s, chan_of w' s = chan_of w s) /\ ctxs w' = ctxs w.

(** The order of one list is kept in another *)
Inductive within {A} : list A -> list A -> Prop :=
| within_nil : forall l, within [] l
| within_keep : forall a l m, within l m -> within (a :: l) (a :: m)
| within_skip : forall a l m, within l m -> within l (a :: m).

(** The schedules in which a thread only calls write when the lock is free and the thread is not writing *)
Fixpoint enabled (x : tee) (l : list action) : Prop :=
  match l with
  | [] => True
  | a :: r => (match a with Call t _ => owner x = None /\ pcs x t = Idle | _ => True end) /\ enabled (act x a) r
  end.
(** The texts a thread passed to write *)
Fixpoint texts (t : nat) (l : list action) : list str :=
  match l with
  | [] => []
  | Call u s :: r => if Nat.eqb u t then s :: texts t r else texts t r
  | _ :: r => texts t r
  end.
Definition of_thread (t : nat) (l : list (nat * str)) : list str := map snd (filter (fun p => Nat.eqb (fst p) t) l).
Definition idle (x : tee) : Prop := forall t, pcs x t = Idle.
Definition no_raise (l : list action) : Prop := forall t, ~ In (Raise t) l.

(** ** Redirections are undone *)
Lemma same_refl w : same w w.
Proof. split; reflexivity. Qed.
Lemma same_trans a b c : same a b -> same b c -> same a c.
Proof. intros [H K] [H' K']. split; [intro s; rewrite H', H; reflexivity | congruence]. Qed.

Lemma is_refl s : is s s = true.
Proof. destruct s; cbn; try reflexivity; apply N.eqb_refl. Qed.

Lemma chan_upd w s c s' : chan_of (upd w s c) s' = match s, s' with Out, Out | Err, Err => c | _, _ => chan_of w s' end.
Proof. destruct s, s'; reflexivity. Qed.
Lemma ctxs_upd w s c : ctxs (upd w s c) = ctxs w.
Proof. destruct s; reflexivity. Qed.

Lemma start_chan w k t r : exists a b,
  start w k t r = World a b (fresh (start w k t r)) (ctxs w)
  /\ forall s, chan_of (start w k t r) s =
       if existsb (fun x => match x, s with Out, Out | Err, Err => true | _, _ => false end) (stds t)
       then Chan (cur (chan_of (start w k t r) s)) (Info (cur (chan_of w s)) (cur (chan_of (start w k t r) s)) :: stack (chan_of w s)) (held (chan_of w s))
       else chan_of w s.
Proof.
  exists (out (start w k t r)), (err (start w k t r)). split; [|destruct t as [[]|], k; intros []; reflexivity].
  destruct t as [[]|], k; reflexivity.
Qed.

Lemma end_start w k t r w1 : same (start w k t r) w1 -> exists w2, end_all w1 (stds t) = Some w2 /\ same w w2.
Proof.
  intros [H K]. destruct (start_chan w k t r) as (a & b & E & C).
  assert (Kc : ctxs w1 = ctxs w) by (rewrite K, E; reflexivity).
  assert (Restore : forall c c' : chan, stack c = stack c' -> held c = held c' -> cur c = cur c' -> c = c')
    by (intros [] [] ? ? ?; cbn in *; congruence).
  destruct t as [[]|]; cbn [stds end_all].
  - pose proof (H Out) as H1. rewrite (C Out) in H1. cbn in H1. unfold end1. cbn [chan_of]. rewrite H1. cbn [stack].
    eexists; split; [reflexivity|]. split.
    + intros []; rewrite chan_upd; cbn [original held chan_of].
      * apply Restore; reflexivity.
      * pose proof (H Err) as H2. rewrite (C Err) in H2. cbn in H2. exact H2.
    + rewrite ctxs_upd. exact Kc.
  - pose proof (H Err) as H1. rewrite (C Err) in H1. cbn in H1. unfold end1. cbn [chan_of]. rewrite H1. cbn [stack].
    eexists; split; [reflexivity|]. split.
    + intros []; rewrite chan_upd; cbn [original held chan_of].
      * pose proof (H Out) as H2. rewrite (C Out) in H2. cbn in H2. exact H2.
      * apply Restore; reflexivity.
    + rewrite ctxs_upd. exact Kc.
  - pose proof (H Out) as H1. pose proof (H Err) as H2. rewrite (C Out) in H1. rewrite (C Err) in H2.
    cbn in H1, H2. unfold end1. cbn [chan_of]. rewrite H1. cbn [stack upd err]. rewrite H2. cbn [stack].
    eexists; split; [reflexivity|]. split; [|exact Kc].
    intros []; cbn [chan_of upd out err original held]; apply Restore; reflexivity.
Qed.

(** One stream in the block whose output is sent to the client *)
Definition entered (c c1 : chan) (added : bool) : Prop :=
  match held c with
  | Some _ => c1 = c /\ added = false
  | None => added = true /\ exists id n, let x := Tee id (cur c) (Msgs n) true in
      c1 = Chan x (Info (cur c) x :: stack c) (Some (Info (cur c) x))
  end.
Lemma redirect_entered w s : entered (chan_of w s) (chan_of (fst (redirect w s)) s) (snd (redirect w s))
  /\ (forall s', s' <> s -> chan_of (fst (redirect w s)) s' = chan_of w s') /\ ctxs (fst (redirect w s)) = ctxs w.
Proof.
  unfold redirect, entered. destruct (held (chan_of w s)) eqn:E; cbn [fst snd].
  - repeat split.
  - split; [|split].
    + split; [reflexivity|]. exists (N.succ (fresh w)), (N.succ (fresh w)). destruct s; reflexivity.
    + intros s' N. destruct s, s'; try contradiction; reflexivity.
    + destruct s; reflexivity.
Qed.
Lemma enter_spec w : exists l, ctxs (enter w) = l :: ctxs w /\
  forall s, entered (chan_of w s) (chan_of (enter w) s) (existsb (fun x => match x, s with Out, Out | Err, Err => true | _, _ => false end) l)
  /\ NoDup l.
Proof.
  unfold enter. destruct (redirect w Out) as [w1 a] eqn:E1. destruct (redirect w1 Err) as [w2 b] eqn:E2.
  pose proof (redirect_entered w Out) as (A & B & C). rewrite E1 in A, B, C. cbn [fst snd] in A, B, C.
  pose proof (redirect_entered w1 Err) as (A' & B' & C'). rewrite E2 in A', B', C'. cbn [fst snd] in A', B', C'.
  eexists. split; [cbn [ctxs]; rewrite C', C; reflexivity|]. intros s. split.
  - destruct s; cbn [chan_of out err].
    + change (out w2) with (chan_of w2 Out). rewrite B' by discriminate. destruct a, b; exact A.
    + change (err w2) with (chan_of w2 Err). rewrite B in A' by discriminate. destruct a, b; exact A'.
  - destruct a, b; repeat constructor; cbn; intuition discriminate.
Qed.

Lemma stop_one w s c1 c : chan_of w s = c1 -> entered c c1 true -> held c = None ->
  exists w', stop w s = Some w' /\ chan_of w' s = c /\ (forall s', s' <> s -> chan_of w' s' = chan_of w s') /\ ctxs w' = ctxs w.
Proof.
  intros E H Hn. unfold entered in H. rewrite Hn in H. destruct H as (_ & id & n & ->).
  unfold stop. rewrite E. cbn [held stack cur redirect_to original]. rewrite is_refl.
  eexists. split; [reflexivity|]. split; [|split].
  - rewrite chan_upd. destruct c as [cu st hd]. cbn in Hn |- *. subst hd. destruct s; reflexivity.
  - intros s' N. rewrite chan_upd. destruct s, s'; try contradiction; reflexivity.
  - apply ctxs_upd.
Qed.
Lemma exit_enter w w1 : same (enter w) w1 -> exists w2, exit w1 = Some w2 /\ same w w2.
Proof.
  intros [H K]. destruct (enter_spec w) as (l & El & S). unfold exit. rewrite K, El.
  set (w0 := World (out w1) (err w1) (fresh w1) (ctxs w)).
  assert (H0 : forall s, chan_of w0 s = chan_of (enter w) s) by (intro s; rewrite <- H; destruct s; reflexivity).
  assert (Done : forall w' s, chan_of w' s = chan_of w0 s ->
            existsb (fun x => match x, s with Out, Out | Err, Err => true | _, _ => false end) l = false ->
            chan_of w' s = chan_of w s).
  { intros w' s E N. destruct (S s) as [X _]. rewrite N in X. unfold entered in X. rewrite E, H0.
    destruct (held (chan_of w s)); destruct X; congruence. }
  assert (Held : forall s, existsb (fun x => match x, s with Out, Out | Err, Err => true | _, _ => false end) l = true ->
            held (chan_of w s) = None).
  { intros s N. destruct (S s) as [X _]. rewrite N in X. unfold entered in X.
    destruct (held (chan_of w s)); [destruct X; discriminate | reflexivity]. }
  assert (L : l = [] \/ l = [Out] \/ l = [Err] \/ l = [Out; Err]).
  { clear - El. unfold enter in El. destruct (redirect w Out) as [w1 a] eqn:E1. destruct (redirect w1 Err) as [w2 b] eqn:E2.
    cbn [ctxs] in El. injection El as <- _. destruct a, b; auto. }
  destruct L as [-> | [-> | [-> | ->]]]; cbn [stop_all].
  - eexists. split; [reflexivity|]. split; [intro s; apply Done; reflexivity | reflexivity].
  - destruct (stop_one w0 Out _ (chan_of w Out) (H0 Out)) as (w2 & E & A & B & C); [apply (S Out) | apply Held; reflexivity|].
    rewrite E. eexists. split; [reflexivity|]. split; [|exact C].
    intros []; [exact A|]. apply Done; [apply B; discriminate | reflexivity].
  - destruct (stop_one w0 Err _ (chan_of w Err) (H0 Err)) as (w2 & E & A & B & C); [apply (S Err) | apply Held; reflexivity|].
    rewrite E. eexists. split; [reflexivity|]. split; [|exact C].
    intros []; [|exact A]. apply Done; [apply B; discriminate | reflexivity].
  - destruct (stop_one w0 Out _ (chan_of w Out) (H0 Out)) as (w2 & E & A & B & C); [apply (S Out) | apply Held; reflexivity|].
    rewrite E.
    destruct (stop_one w2 Err (chan_of (enter w) Err) (chan_of w Err)) as (w3 & E' & A' & B' & C');
      [rewrite B by discriminate; apply H0 | apply (S Err) | apply Held; reflexivity|].
    rewrite E'. eexists. split; [reflexivity|]. split; [|rewrite C', C; reflexivity].
    intros []; [rewrite B' by discriminate; exact A | exact A'].
Qed.

(** However redirections, blocks and replacements are nested, afterwards both streams, and what is redirected,
    are what they were before. *)
Theorem redirections_undone : forall p w, exists w', exec_prog w p = Some w' /\ same w w'.
Proof.
  induction p as [|p IHp q IHq|k t r p IH|p IH|s x p IH]; intro w; cbn [exec_prog].
  - exists w. split; [reflexivity | apply same_refl].
  - destruct (IHp w) as (w1 & -> & S1). destruct (IHq w1) as (w2 & -> & S2).
    exists w2. split; [reflexivity | eapply same_trans; eassumption].
  - cbn [exec]. destruct (IH (start w k t r)) as (w1 & -> & S1). exact (end_start w k t r w1 S1).
  - cbn [exec]. destruct (IH (enter w)) as (w1 & -> & S1). exact (exit_enter w w1 S1).
  - cbn [exec]. cbv zeta. destruct (IH (upd w s (Chan x (stack (chan_of w s)) (held (chan_of w s))))) as (w1 & -> & [S1 K1]).
    eexists. split; [reflexivity|]. split.
    + intro s'. rewrite chan_upd. pose proof (S1 s) as Ss. pose proof (S1 s') as Ss'. rewrite chan_upd in Ss, Ss'.
      destruct s, s'; try exact Ss'; rewrite Ss; cbn [stack held]; destruct (chan_of w _); reflexivity.
    + rewrite ctxs_upd, K1. apply ctxs_upd.
Qed.

(** ** What is written while redirected *)

(** In a redirection which keeps the original, after any nested use, a text written to the stream reaches all the
    destinations the stream had and then those of the redirection. *)
Theorem redirected_text_reaches_both : forall w s r p w1, exec_prog (start w true (One s) r) p = Some w1 ->
  dests (cur (chan_of w1 s)) = dests (cur (chan_of w s)) ++ dests r.
Proof.
  intros w s r p w1 H. destruct (redirections_undone p (start w true (One s) r)) as (w' & E & [S _]).
  rewrite H in E. injection E as <-. rewrite S. destruct s; reflexivity.
Qed.

(** In a block whose output is sent to the client: text and binary output reach the original and the client; a
    stream already sent to the client is not sent twice. *)
Theorem client_output_reaches_both : forall w s p w1, exec_prog (enter w) p = Some w1 ->
  match held (chan_of w s) with
  | Some _ => cur (chan_of w1 s) = cur (chan_of w s)
  | None => exists n, dests (cur (chan_of w1 s)) = dests (cur (chan_of w s)) ++ [DClient n]
      /\ forall b, buffer (cur (chan_of w s)) = Some b ->
         exists b', buffer (cur (chan_of w1 s)) = Some b' /\ dests b' = dests b ++ [DClient n]
  end.
Proof.
  intros w s p w1 H. destruct (redirections_undone p (enter w)) as (w' & E & [S _]).
  rewrite H in E. injection E as <-. rewrite S. destruct (enter_spec w) as (l & _ & X). destruct (X s) as [Y _].
  unfold entered in Y. destruct (held (chan_of w s)).
  - destruct Y as [-> _]. reflexivity.
  - destruct Y as (_ & id & n & ->). exists n. cbn [cur]. split; [reflexivity|].
    intros b Hb. cbn [buffer]. rewrite Hb. eexists. split; reflexivity.
Qed.

(** A stream the program assigned meanwhile is not overwritten when sending to the client stops. *)
Theorem own_stream_kept : forall w s x, held (chan_of w s) = None ->
  is x (cur (chan_of (fst (redirect w s)) s)) = false ->
  exists w', run w [Redirect s; Assign s x; Stop s] = Some w'
    /\ cur (chan_of w' s) = x /\ stack (chan_of w' s) = stack (chan_of w s) /\ held (chan_of w' s) = None.
Proof.
  intros w s x Hn Hx. destruct (redirect_entered w s) as (A & _ & _). unfold entered in A. rewrite Hn in A.
  destruct A as (_ & id & n & E). cbn [run exec]. cbv zeta. set (w1 := fst (redirect w s)) in *.
  rewrite E in Hx |- *. cbn [cur] in Hx. cbn [stack held]. unfold stop.
  rewrite chan_upd. replace (match s, s with Out, Out | Err, Err => _ | _, _ => _ end) with
    (Chan x (Info (cur (chan_of w s)) (Tee id (cur (chan_of w s)) (Msgs n) true) :: stack (chan_of w s))
            (Some (Info (cur (chan_of w s)) (Tee id (cur (chan_of w s)) (Msgs n) true)))) by (destruct s; reflexivity).
  cbn [held stack cur redirect_to]. rewrite Hx. eexists. split; [reflexivity|].
  rewrite chan_upd. destruct s; repeat split.
Qed.

(** Redirections which overlap without being nested are not undone: a capture started before output is sent to the
    client and ended before that stops leaves the program writing to the capture for ever, although nothing is
    redirected any more; and the client gets nothing after the capture ended. *)
Definition w_plain : world := World (Chan (Plain 1 true) [] None) (Chan (Plain 2 true) [] None) 10 [].
Theorem redirect_overlap_refuted : exists w ops w' ops' w1,
  ops = [Start true (One Out) (IOBuf 5); Redirect Out; End (One Out); Stop Out]
  /\ run w ops = Some w' /\ stack (out w') = [] /\ held (out w') = None
  /\ dests (cur (out w')) <> dests (cur (out w))
  /\ ops' = [Start true (One Out) (IOBuf 5); Redirect Out; End (One Out)]
  /\ run w ops' = Some w1 /\ held (out w1) <> None /\ (forall n, ~ In (DClient n) (dests (cur (out w1)))).
Proof.
  exists w_plain. do 4 eexists. split; [reflexivity|]. split; [vm_compute; reflexivity|].
  split; [reflexivity|]. split; [reflexivity|]. split; [vm_compute; discriminate|]. split; [reflexivity|].
  split; [vm_compute; reflexivity|]. split; [vm_compute; discriminate|].
  intros n. vm_compute. intuition discriminate.
Qed.

(** A capture does not see binary output, as it has no binary buffer. *)
Theorem capture_binary_refuted : exists w r b, let w1 := start w true (One Out) r in
  buffer (cur (out w1)) = Some b /\ dests (cur (out w1)) = [DProgram 1; DBuf 5] /\ dests b = [DRaw 1].
Proof. exists w_plain, (IOBuf 5). eexists. cbv zeta. split; [vm_compute; reflexivity|]. split; reflexivity. Qed.

(** ** Writes of several threads *)
Definition lock_inv (x : tee) : Prop :=
  match owner x with
  | None => (forall t, pcs x t = Idle) /\ writing x = false
  | Some t => (forall u, u <> t -> pcs x u = Idle)
      /\ match pcs x t with Idle => False | Locked _ => writing x = false | _ => writing x = true end
  end.
Lemma setpc_same f t p : setpc f t p t = p.
Proof. unfold setpc. rewrite Nat.eqb_refl. reflexivity. Qed.
Lemma setpc_other f t p u : u <> t -> setpc f t p u = f u.
Proof. intro H. unfold setpc. destruct (Nat.eqb_spec u t); [contradiction | reflexivity]. Qed.

Lemma lock_inv_owner x t : lock_inv x -> pcs x t <> Idle -> owner x = Some t.
Proof.
  unfold lock_inv. destruct (owner x) as [o|].
  - intros [H _] N. destruct (Nat.eq_dec t o) as [->|E]; [reflexivity|]. destruct (N (H t E)).
  - intros [H _] N. destruct (N (H t)).
Qed.
Lemma lock_inv_act x a : lock_inv x -> lock_inv (act x a).
Proof.
  intro H. destruct a as [t s|t|t s|t]; cbn [act].
  - destruct (owner x) eqn:Eo; [exact H|]. destruct (pcs x t) eqn:Ep; try exact H.
    unfold lock_inv in *. rewrite Eo in H. destruct H as [A B]. cbn [owner pcs writing].
    split; [intros u Hu; rewrite setpc_other by exact Hu; apply A | rewrite setpc_same; exact B].
  - destruct (pcs x t) eqn:Ep; try exact H.
    all: pose proof (lock_inv_owner x t H ltac:(congruence)) as Eo; unfold lock_inv in H; rewrite Eo, Ep in H;
      destruct H as [A B]; unfold lock_inv.
    + rewrite B. cbn [owner pcs writing]. rewrite Eo, setpc_same. split; [|reflexivity].
      intros u Hu; rewrite setpc_other by exact Hu; apply A, Hu.
    + cbn [owner pcs writing]. rewrite Eo, setpc_same. split; [|exact B].
      intros u Hu; rewrite setpc_other by exact Hu; apply A, Hu.
    + cbn [owner pcs writing]. rewrite Eo, setpc_same. split; [|exact B].
      intros u Hu; rewrite setpc_other by exact Hu; apply A, Hu.
    + cbn [owner pcs writing]. split; [|reflexivity]. intro u. destruct (Nat.eq_dec u t) as [->|E];
        [apply setpc_same | rewrite setpc_other by exact E; apply A, E].
  - destruct (pcs x t) eqn:Ep; try exact H;
      pose proof (lock_inv_owner x t H ltac:(congruence)) as Eo; pose proof H as H'; unfold lock_inv in H'; rewrite Eo, Ep in H';
      destruct H' as [_ ->]; exact H.
  - destruct (pcs x t) eqn:Ep; try exact H.
    all: pose proof (lock_inv_owner x t H ltac:(congruence)) as Eo; unfold lock_inv in H; rewrite Eo, Ep in H;
      destruct H as [A B]; unfold lock_inv; cbn [owner pcs writing]; split; [|reflexivity];
      intro u; destruct (Nat.eq_dec u t) as [->|E]; [apply setpc_same | rewrite setpc_other by exact E; apply A, E].
Qed.
Lemma lock_inv0 : lock_inv tee0.
Proof. split; reflexivity. Qed.

(** The texts the thread holding the lock has already passed on *)
Definition pending1 (x : tee) : list (nat * str) :=
  match owner x with Some t => match pcs x t with Second s | Ending s => [(t, s)] | _ => [] end | None => [] end.
Definition pending2 (x : tee) : list (nat * str) :=
  match owner x with Some t => match pcs x t with Ending s => [(t, s)] | _ => [] end | None => [] end.
(** and those it has been given *)
Definition given (x : tee) : list (nat * str) :=
  match owner x with Some t => match pcs x t with Idle => [] | Locked s | First s | Second s | Ending s => [(t, s)] end | None => [] end.

Definition logs_inv (x : tee) : Prop := log1 x = completed x ++ pending1 x /\ log2 x = completed x ++ pending2 x.
Lemma logs_inv_act x a : (forall t, a <> Raise t) -> lock_inv x -> logs_inv x -> logs_inv (act x a).
Proof.
  intros Hr L [H1 H2]. destruct a as [t s|t|t s|t]; cbn [act]; [| | |destruct (Hr t eq_refl)].
  - destruct (owner x) eqn:Eo; [split; assumption|]. destruct (pcs x t) eqn:Ep; try (split; assumption).
    unfold logs_inv, pending1, pending2 in *. cbn [owner pcs log1 log2 completed]. rewrite setpc_same. rewrite Eo in *. auto.
  - destruct (pcs x t) eqn:Ep; try (split; assumption).
    all: pose proof (lock_inv_owner x t L ltac:(congruence)) as Eo; unfold lock_inv in L; rewrite Eo, Ep in L; destruct L as [A B];
      unfold logs_inv, pending1, pending2 in *; rewrite Eo, Ep in H1, H2; cbn [owner pcs log1 log2 completed].
    + rewrite B. cbn [owner pcs log1 log2 completed]. rewrite Eo, setpc_same. auto.
    + rewrite Eo, setpc_same, H1, H2, app_nil_r. auto.
    + rewrite Eo, setpc_same, H1, H2, app_nil_r. auto.
    + rewrite !app_nil_r. auto.
  - destruct (pcs x t) eqn:Ep; try (split; assumption);
      pose proof (lock_inv_owner x t L ltac:(congruence)) as Eo; unfold lock_inv in L; rewrite Eo, Ep in L; destruct L as [_ ->]; split; assumption.
Qed.

Lemma acts_inv (P : tee -> Prop) (Q : action -> Prop) : P tee0 -> (forall x a, Q a -> lock_inv x -> P x -> P (act x a)) ->
  forall l, (forall a, In a l -> Q a) -> P (acts l) /\ lock_inv (acts l).
Proof.
  intros H0 Hs. unfold acts.
  assert (G : forall l x, P x -> lock_inv x -> (forall a, In a l -> Q a) -> P (fold_left act l x) /\ lock_inv (fold_left act l x)).
  { induction l as [|a l IH]; intros x Hx Lx Hq; [split; assumption|]. cbn [fold_left]. apply IH.
    - apply Hs; [apply Hq; left; reflexivity | exact Lx | exact Hx].
    - apply lock_inv_act, Lx.
    - intros b Hb. apply Hq. right. exact Hb. }
  intros l Hq. apply G; [exact H0 | exact lock_inv0 | exact Hq].
Qed.

Lemma idle_none x : lock_inv x -> idle x -> owner x = None.
Proof.
  unfold lock_inv, idle. destruct (owner x) as [t|]; [|reflexivity]. intros [_ H] I. rewrite (I t) in H. destruct H.
Qed.

(** However the threads interleave, when none of them is writing the original stream and the redirection have
    received the same texts in the same order. *)
Theorem writes_same_order : forall l, no_raise l -> idle (acts l) ->
  log1 (acts l) = completed (acts l) /\ log2 (acts l) = completed (acts l).
Proof.
  intros l Hr I. destruct (acts_inv logs_inv (fun a => forall t, a <> Raise t)) with (l := l) as [[H1 H2] L].
  - split; reflexivity.
  - intros x a Q Lx. apply logs_inv_act; assumption.
  - intros a Ha t ->. exact (Hr t Ha).
  - pose proof (idle_none _ L I) as Eo. unfold pending1, pending2 in *. rewrite Eo in *. rewrite app_nil_r in *. auto.
Qed.

Lemma of_thread_app t a b : of_thread t (a ++ b) = of_thread t a ++ of_thread t b.
Proof. unfold of_thread. rewrite filter_app, map_app. reflexivity. Qed.

(** Nothing a thread wrote is lost or reordered: the texts of each thread are what it passed to write. *)
Theorem writes_complete : forall l t, no_raise l -> enabled tee0 l -> idle (acts l) ->
  of_thread t (completed (acts l)) = texts t l.
Proof.
  intros l t Hr He I. unfold acts in *.
  assert (G : forall l x, no_raise l -> enabled x l -> lock_inv x ->
     of_thread t (completed (fold_left act l x) ++ given (fold_left act l x)) = of_thread t (completed x ++ given x) ++ texts t l
     /\ lock_inv (fold_left act l x)).
  { clear. induction l as [|a l IH]; intros x Hr He L; cbn [fold_left texts].
    - rewrite app_nil_r. auto.
    - destruct He as [Ha He]. assert (Hr' : no_raise l) by (intros u Hu; apply (Hr u); right; exact Hu).
      destruct (IH (act x a) Hr' He (lock_inv_act _ _ L)) as [E L']. split; [|exact L']. rewrite E. clear E L' IH.
      destruct a as [u s|u|u s|u]; [| | |destruct (Hr u (or_introl eq_refl))]; cbn [act texts].
      + destruct Ha as [Eo Ep]. rewrite Eo, Ep. unfold given. cbn [owner pcs completed]. rewrite Eo, setpc_same, app_nil_r, of_thread_app, <- app_assoc.
        f_equal. unfold of_thread. cbn [filter fst]. destruct (Nat.eqb u t); reflexivity.
      + f_equal. destruct (pcs x u) eqn:Ep; try reflexivity.
        all: pose proof (lock_inv_owner x u L ltac:(congruence)) as Eo; unfold lock_inv in L; rewrite Eo, Ep in L; destruct L as [A B].
        all: unfold given; rewrite ?B, ?Eo; cbn [owner pcs completed]; rewrite ?Eo, ?setpc_same, ?Ep; try reflexivity.
        rewrite app_nil_r. reflexivity.
      + f_equal. destruct (pcs x u) eqn:Ep; try reflexivity;
          pose proof (lock_inv_owner x u L ltac:(congruence)) as Eo; unfold lock_inv in L; rewrite Eo, Ep in L; destruct L as [_ ->]; reflexivity. }
  destruct (G l tee0 Hr He lock_inv0) as [E L]. pose proof (idle_none _ L I) as Eo.
  unfold given in E. rewrite Eo in E. cbn [tee0 owner completed] in E. rewrite app_nil_r in E. exact E.
Qed.

(** Also when streams raise: the lock is free again and later writes are not dropped (the object is not marked as
    writing), and every write that returned normally is in both streams, in order. *)
Lemma within_refl {A} (l : list A) : within l l.
Proof. induction l; constructor; assumption. Qed.
Lemma within_app {A} (a b c : list A) : within a b -> within a (b ++ c).
Proof. induction 1; cbn [app]; constructor; assumption. Qed.
Lemma within_app2 {A} (a b c : list A) : within a b -> within (a ++ c) (b ++ c).
Proof.
  induction 1; cbn [app]; [|constructor; assumption ..].
  induction l as [|x l IH]; [apply within_refl | constructor; exact IH].
Qed.
Lemma within_left {A} (a b c : list A) : within (a ++ b) c -> within a c.
Proof.
  revert a. intros a H. remember (a ++ b) as d eqn:E. revert a E. induction H as [l|x l m H IH|x l m H IH]; intros a E.
  - symmetry in E. apply app_eq_nil in E. destruct E as [-> _]. constructor.
  - destruct a as [|y a]; [constructor|]. cbn [app] in E. injection E as -> ->. constructor. apply IH. reflexivity.
  - constructor. apply IH. exact E.
Qed.

Definition sub_inv (x : tee) : Prop := within (completed x ++ pending1 x) (log1 x) /\ within (completed x ++ pending2 x) (log2 x).
Theorem writes_with_exceptions : forall l, idle (acts l) ->
  owner (acts l) = None /\ writing (acts l) = false
  /\ within (completed (acts l)) (log1 (acts l)) /\ within (completed (acts l)) (log2 (acts l)).
Proof.
  intros l I. destruct (acts_inv sub_inv (fun _ => True)) with (l := l) as [[H1 H2] L].
  - split; constructor.
  - clear. intros x a _ L [H1 H2]. destruct a as [t s|t|t s|t]; cbn [act].
    + destruct (owner x) eqn:Eo; [split; assumption|]. destruct (pcs x t) eqn:Ep; try (split; assumption).
      unfold sub_inv, pending1, pending2 in *. cbn [owner pcs log1 log2 completed]. rewrite setpc_same. rewrite Eo in *. auto.
    + destruct (pcs x t) eqn:Ep; try (split; assumption).
      all: pose proof (lock_inv_owner x t L ltac:(congruence)) as Eo; unfold lock_inv in L; rewrite Eo, Ep in L; destruct L as [A B];
        unfold sub_inv, pending1, pending2 in *; rewrite Eo, Ep in H1, H2; cbn [owner pcs log1 log2 completed].
      * rewrite B. cbn [owner pcs log1 log2 completed]. rewrite Eo, setpc_same. auto.
      * rewrite Eo, setpc_same. split; [|assumption]. apply within_app2. rewrite app_nil_r in H1. exact H1.
      * rewrite Eo, setpc_same. split; [assumption|]. apply within_app2. rewrite app_nil_r in H2. exact H2.
      * rewrite !app_nil_r. auto.
    + destruct (pcs x t) eqn:Ep; try (split; assumption);
        pose proof (lock_inv_owner x t L ltac:(congruence)) as Eo; unfold lock_inv in L; rewrite Eo, Ep in L; destruct L as [_ ->]; split; assumption.
    + destruct (pcs x t) eqn:Ep; try (split; assumption);
        unfold sub_inv, pending1, pending2; cbn [owner completed log1 log2]; rewrite app_nil_r; split;
        eapply within_left; eassumption.
  - auto.
  - pose proof (idle_none _ L I) as Eo. split; [exact Eo|]. unfold lock_inv in L. rewrite Eo in L. split; [apply L|].
    unfold pending1, pending2 in *. rewrite Eo in *. rewrite app_nil_r in *. auto.
Qed.

(** ** Concrete cases *)
Example ex_nested : exists w', exec_prog w_plain
    (WithStart true Both (IOBuf 5) (WithClient (Seq (WithOwn Out (Plain 3 false) (WithClient Skip)) (WithStart false (One Err) (IOBuf 6) Skip)))) = Some w'
    /\ same w_plain w'.
Proof. eexists. split; [vm_compute; reflexivity|]. split; [intros []; reflexivity | reflexivity]. Qed.
Example ex_client : exists w1, exec_prog (enter w_plain) Skip = Some w1 /\ held (chan_of w_plain Out) = None
  /\ buffer (cur (chan_of w_plain Out)) = Some (Raw 1) /\ dests (cur (out w1)) = [DProgram 1; DClient 11].
Proof. eexists. repeat split; vm_compute; reflexivity. Qed.
Example ex_own : held (chan_of w_plain Out) = None /\ is (Plain 7 true) (cur (chan_of (fst (redirect w_plain Out)) Out)) = false.
Proof. split; reflexivity. Qed.
Definition ex_sched : list action :=
  [Call 0 [97%N]; Step 0; Call 1 [98%N]; Step 0; Nested 0 [99%N]; Step 0; Step 0; Call 1 [98%N]; Step 1; Step 1; Step 1; Step 1].
Example ex_writes : idle (acts ex_sched) /\ log2 (acts ex_sched) = [(0, [97%N]); (1, [98%N])].
Proof. split; [|reflexivity]. intros [|[|t]]; reflexivity. Qed.
Definition ex_sched2 : list action :=
  [Call 0 [97%N]; Step 0; Step 0; Nested 0 [99%N]; Step 0; Step 0; Call 1 [98%N]; Step 1; Step 1; Step 1; Step 1].
Example ex_enabled : enabled tee0 ex_sched2 /\ idle (acts ex_sched2) /\ texts 1 ex_sched2 = [[98%N]].
Proof. split; [cbn; repeat split|]. split; [|reflexivity]. intros [|[|t]]; reflexivity. Qed.
Example ex_raise : let l := [Call 0 [97%N]; Step 0; Step 0; Raise 0; Call 1 [98%N]; Step 1; Step 1; Step 1; Step 1] in
  idle (acts l) /\ log1 (acts l) = [(0, [97%N]); (1, [98%N])] /\ log2 (acts l) = [(1, [98%N])] /\ completed (acts l) = [(1, [98%N])].
Proof. cbv zeta. split; [|repeat split]. intros [|[|t]]; reflexivity. Qed.

Print Assumptions redirections_undone.
Print Assumptions redirected_text_reaches_both.
Print Assumptions client_output_reaches_both.
Print Assumptions own_stream_kept.
Print Assumptions redirect_overlap_refuted.
Print Assumptions capture_binary_refuted.
Print Assumptions writes_same_order.
Print Assumptions writes_complete.
Print Assumptions writes_with_exceptions.
