(** Property C04: outgoing messages leave in queue order. *)
From Coq Require Import List NArith Bool Lia.
From Verif Require Import Writer.
Import ListNotations.

(** Specification, from the history alone (most recent operation first). *)
Fixpoint was_killed (h : list op) : bool :=
  match h with [] => false | Kill :: _ => true | _ :: r => was_killed r end.

(** What thread [t] is about to put: its last [Check], unless it came after a kill or was put. *)
Fixpoint about_to_put (t : N) (h : list op) : option cmd :=
  match h with
  | [] => None
  | Check t' c :: r => if N.eqb t t' then (if was_killed r then None else Some c) else about_to_put t r
  | Put t' :: r => if N.eqb t t' then None else about_to_put t r
  | _ :: r => about_to_put t r
  end.

(** The commands posted, oldest first. *)
Fixpoint posted_rev (h : list op) : list cmd :=
  match h with
  | [] => []
  | Put t :: r => posted_rev r ++ match about_to_put t r with Some c => [c] | None => [] end
  | _ :: r => posted_rev r
  end.
Definition posted (ops : list op) : list cmd := posted_rev (rev ops).

Definition inv (s : wstate) (h : list op) : Prop :=
  sent s ++ failed s ++ queue s = posted_rev h /\
  (wstatus s = Running -> failed s = [] /\ Forall (fun c => is_exit c = false) (sent s)) /\
  (length (failed s) <= 1)%nat /\
  (forall a b, sent s = a ++ b -> b <> [] -> Forall (fun c => is_exit c = false) a) /\
  kill s = was_killed h /\
  (forall t, slot s t = about_to_put t h) /\
  (wstatus s = Finished ->
     failed s <> [] \/ kill s = true \/ exists a c, sent s = a ++ [c] /\ is_exit c = true).

Lemma snoc_cases {A} (a b l : list A) x : l ++ [x] = a ++ b -> b <> [] ->
  exists b', b = b' ++ [x] /\ l = a ++ b'.
Proof.
  intros E Hb. destruct (exists_last Hb) as (b' & y & ->).
  rewrite app_assoc in E. apply app_inj_tail in E. destruct E as [-> ->]. eauto.
Qed.

Lemma inv_step s h o : inv s h -> inv (step s o) (o :: h).
Proof.
  intros (H1 & H2 & H3 & H4 & H5 & H6 & H7).
  destruct o as [t c|t| |ok|]; cbn [step].
  - unfold inv; simpl. repeat split; auto; try (apply H2; auto).
    intros t'. unfold upd. destruct (N.eqb t' t); auto. now rewrite H5.
  - destruct (slot s t) as [c|] eqn:Et; unfold inv; simpl; rewrite <- ?H6, ?Et.
    + repeat split; auto; try (apply H2; auto).
      * rewrite <- H1, <- !app_assoc. reflexivity.
      * intros t'. unfold upd. destruct (N.eqb t' t); auto.
    + rewrite app_nil_r. repeat split; auto; try (apply H2; auto).
      intros t'. destruct (N.eqb t' t) eqn:E; auto. apply N.eqb_eq in E. now subst.
  - unfold inv; simpl. repeat split; auto; try (apply H2; auto).
  - destruct (wstatus s) eqn:Es, (queue s) as [|c q] eqn:Eq.
    1: { unfold inv; simpl; rewrite Es, Eq. repeat split; auto; try (apply H2; auto); discriminate. }
    2,3: unfold inv; simpl; rewrite Es, Eq; repeat split; auto; intros; discriminate.
    destruct (H2 eq_refl) as [Hf Hs]. rewrite Hf in *. simpl in H1.
    destruct ok; unfold inv; simpl; rewrite ?Hf.
    + split; [rewrite <- H1, <- app_assoc; reflexivity|].
      split.
      { destruct (is_exit c) eqn:Ec; [discriminate|]. intros _. split; auto.
        apply Forall_app; split; auto. }
      split; [simpl; lia|]. split.
      { intros a b E Hb. destruct (snoc_cases _ _ _ _ E Hb) as (b' & -> & Es').
        rewrite Es' in Hs. apply Forall_app in Hs. tauto. }
      repeat split; auto. destruct (is_exit c) eqn:Ec; [|discriminate]. intros _. right; right. eauto.
    + split; [exact H1|]. split; [discriminate|]. split; [simpl; lia|]. repeat split; auto.
      intros _. left. discriminate.
  - destruct (wstatus s) eqn:Es, (queue s) as [|c q] eqn:Eq; try destruct (kill s) eqn:Ek;
      unfold inv; simpl; rewrite ?Es, ?Eq, ?Ek; repeat split; auto; try discriminate; try (apply H2; auto).
Qed.

Lemma inv_run : forall ops s h, inv s h -> inv (fold_left step ops s) (rev ops ++ h).
Proof.
  induction ops as [|o ops IH]; intros s h H; auto.
  cbn [fold_left rev]. rewrite <- app_assoc. apply IH. now apply inv_step.
Qed.

Lemma inv_init : inv init [].
Proof.
  repeat split; simpl; auto; try discriminate.
  intros a b E Hb. destruct a, b; try discriminate; congruence.
Qed.

Lemma inv_of ops : inv (run ops) (rev ops).
Proof. unfold run. pose proof (inv_run ops init [] inv_init). now rewrite app_nil_r in H. Qed.

(** C04.  At any time the commands sent so far, then the one whose send failed (at most one), then
    the ones still queued, are exactly the commands posted, in that order. *)
Theorem writer_fifo :
  forall ops,
    sent (run ops) ++ failed (run ops) ++ queue (run ops) = posted ops /\
    (length (failed (run ops)) <= 1)%nat.
Proof. intros ops. destruct (inv_of ops) as (H1 & _ & H3 & _). split; auto. Qed.
Print Assumptions writer_fifo.

(** C04.  Nothing is sent after the exit message. *)
Theorem writer_exit_last :
  forall ops a c b, sent (run ops) = a ++ c :: b -> is_exit c = true -> b = [].
Proof.
  intros ops a c b E Hc. destruct (inv_of ops) as (_ & _ & _ & H4 & _).
  destruct b as [|x b]; auto. exfalso.
  assert (E' : sent (run ops) = (a ++ [c]) ++ x :: b).
  { rewrite E, <- app_assoc. reflexivity. }
  specialize (H4 _ _ E' ltac:(discriminate)). apply Forall_app in H4. destruct H4 as [_ H4].
  inversion H4. congruence.
Qed.
Print Assumptions writer_exit_last.

(** C04.  The writer stops only because a send failed, a kill was requested or it sent the exit message;
    from then on nothing more is ever sent. *)
Theorem writer_finished_reason :
  forall ops, wstatus (run ops) = Finished ->
    failed (run ops) <> [] \/ In Kill ops \/ exists a c, sent (run ops) = a ++ [c] /\ is_exit c = true.
Proof.
  intros ops H. destruct (inv_of ops) as (_ & _ & _ & _ & H5 & _ & H7).
  destruct (H7 H) as [|[K|]]; auto. right; left. rewrite H5 in K.
  apply in_rev. clear -K. induction (rev ops) as [|o l IH]; [discriminate|].
  destruct o; simpl in *; auto.
Qed.
Print Assumptions writer_finished_reason.

Lemma silent_step s o : wstatus s = Finished ->
  sent (step s o) = sent s /\ wstatus (step s o) = Finished.
Proof.
  intros Hs. destruct o as [t c|t| |ok|]; cbn [step]; rewrite ?Hs; auto.
  destruct (slot s t); auto.
Qed.

Theorem writer_finished_silent :
  forall ops more, wstatus (run ops) = Finished -> sent (run (ops ++ more)) = sent (run ops).
Proof.
  intros ops more. unfold run. rewrite fold_left_app.
  generalize (fold_left step ops init) as s. clear ops.
  induction more as [|o more IH]; intros s Hs; auto.
  cbn [fold_left]. destruct (silent_step s o Hs) as [E F]. now rewrite IH.
Qed.
Print Assumptions writer_finished_silent.

(** The commands up to and including the first exit message. *)
Fixpoint through_exit (l : list cmd) : list cmd :=
  match l with [] => [] | c :: r => c :: (if is_exit c then [] else through_exit r) end.

Lemma through_exit_app a b :
  Forall (fun c => is_exit c = false) a -> through_exit (a ++ b) = a ++ through_exit b.
Proof. induction 1; simpl; auto. rewrite H. now f_equal. Qed.

Lemma drain : forall q s, queue s = q -> wstatus s = Running ->
  sent (fold_left step (repeat (GetSend true) (length q)) s) = sent s ++ through_exit q.
Proof.
  induction q as [|c q IH]; intros s Hq Hs; [simpl; now rewrite app_nil_r|].
  cbn [length repeat fold_left]. cbn [step]. rewrite Hs, Hq. cbn [through_exit].
  destruct (is_exit c).
  - set (s' := W _ _ _ _ _ _). change (sent s ++ [c]) with (sent s').
    assert (F : wstatus s' = Finished) by reflexivity. clearbody s'.
    clear -F. revert s' F. induction (length q) as [|n IH]; intros s' F; auto.
    cbn [repeat fold_left]. destruct (silent_step s' (GetSend true) F) as [E G]. now rewrite IH.
  - rewrite IH by reflexivity. simpl. now rewrite <- app_assoc.
Qed.

(** C04.  While the writer runs, letting it work (with a working socket) sends everything posted so
    far, up to the first exit message: nothing posted is dropped, even if a kill was requested. *)
Theorem writer_drains :
  forall ops, wstatus (run ops) = Running ->
    sent (run (ops ++ repeat (GetSend true) (length (queue (run ops))))) = through_exit (posted ops).
Proof.
  intros ops Hr. unfold run at 1. rewrite fold_left_app. fold (run ops).
  rewrite (drain (queue (run ops))) by auto.
  destruct (inv_of ops) as (H1 & H2 & _). destruct (H2 Hr) as [Hf Hs].
  rewrite Hf in H1. simpl in H1. unfold posted. rewrite <- H1. now rewrite through_exit_app.
Qed.
Print Assumptions writer_drains.

(** C04.  When the writer ends on a kill with an empty queue, everything posted until then was sent. *)
Theorem writer_drained_on_kill :
  forall ops, wstatus (run ops) = Running -> wstatus (run (ops ++ [GetEmpty])) = Finished ->
    sent (run (ops ++ [GetEmpty])) = posted ops.
Proof.
  intros ops Hr Hf. destruct (inv_of ops) as (H1 & H2 & _). destruct (H2 Hr) as [Hfail _].
  unfold posted. rewrite <- H1, Hfail. unfold run in *. rewrite fold_left_app in *. cbn [fold_left] in *.
  cbn [step] in *. rewrite Hr in *. destruct (queue (fold_left step ops init)) as [|c q] eqn:Eq.
  - destruct (kill (fold_left step ops init)); [|congruence]. simpl. now rewrite app_nil_r.
  - congruence.
Qed.
Print Assumptions writer_drained_on_kill.

(** C04, what is not guaranteed: the test of the kill flag and the put are two steps, so a command can
    be queued after the writer has finished; it is then never sent. *)
Theorem writer_posted_is_sent_refuted :
  exists ops c,
    In c (posted ops) /\
    forall more, ~ In c (sent (run (ops ++ more))).
Proof.
  set (c := Cmd 1 false).
  exists [Check 7 c; Kill; GetEmpty; Put 7], c. split; [vm_compute; auto|].
  intros more. rewrite writer_finished_silent by reflexivity. vm_compute. tauto.
Qed.
Print Assumptions writer_posted_is_sent_refuted.

(** A concrete run: two messages and an exit from two interleaved threads, one sent, kill, rest sent. *)
Definition ca := Cmd 1 false. Definition cb := Cmd 2 false. Definition ce := Cmd 3 true.
Example writer_case :
  let ops := [Check 1 ca; Check 2 cb; Put 2; GetSend true; Put 1; Check 2 ce; Put 2; Kill;
              GetSend true; GetSend true; GetSend true] in
  posted ops = [cb; ca; ce] /\ sent (run ops) = [cb; ca; ce] /\ wstatus (run ops) = Finished.
Proof. vm_compute. auto. Qed.
Example writer_case_failure :
  let ops := [Check 1 ca; Put 1; Check 1 cb; Put 1; GetSend false] in
  sent (run ops) = [] /\ failed (run ops) = [ca] /\ queue (run ops) = [cb] /\ wstatus (run ops) = Finished.
Proof. vm_compute. auto. Qed.
Example writer_case_drain :
  let ops := [Check 1 ca; Put 1; GetSend true; Check 1 cb; Kill; Put 1] in
  wstatus (run ops) = Running /\ posted ops = [ca; cb] /\
  wstatus (run (ops ++ [GetSend true; GetEmpty])) = Finished.
Proof. vm_compute. auto. Qed.
