(** C17: 'stopped' and 'continued' events alternate properly. *)
From Coq Require Import List NArith ZArith Bool Lia.
From Verif Require Import Base Dict Notify.
Import ListNotations.
Open Scope Z_scope.

(** * Specification on the events in the order sent *)
Definition sent (ops : list op) : list event := rev (events (run ops)).
(** every 'continued' directly follows a 'stopped' *)
Definition alternates (l : list event) : Prop :=
  forall a b t, l = a ++ Continued t :: b -> exists a' u, a = a' ++ [Stopped u].
(** a 'stopped' has no 'continued' after it *)
Definition outstanding (l : list event) : Prop := exists a u, l = a ++ [Stopped u].

Definition top_stopped (l : list event) : bool := match l with Stopped _ :: _ => true | _ => false end.

Record inv (s : state) : Prop := {
  v_le : last_resume s <= last_suspend s;
  v_top : top_stopped (events s) = true <-> last_resume s < last_suspend s;
  v_alt : alternates (rev (events s));
  v_req : last_suspend s <= request s < next_time s /\ (forall g, In g (timeouts s) -> g <= request s);
  v_none : suspended s = [] -> last_resume s = last_suspend s
}.

Lemma alt_stopped l t : alternates l -> alternates (l ++ [Stopped t]).
Proof.
  intros H a b u E. destruct b as [|e b] using rev_ind.
  - apply app_inj_tail in E. destruct E; discriminate.
  - rewrite app_comm_cons, app_assoc in E. apply app_inj_tail in E. destruct E as [E _]. eapply H; eauto.
Qed.
Lemma alt_continued l t : alternates l -> outstanding l -> alternates (l ++ [Continued t]).
Proof.
  intros H (a0 & u0 & ->) a b u E. destruct b as [|e b] using rev_ind.
  - apply app_inj_tail in E. destruct E as [<- _]. eauto.
  - rewrite app_comm_cons, app_assoc in E. apply app_inj_tail in E. destruct E as [E _]. eapply H; eauto.
Qed.
Lemma top_out l : top_stopped l = true -> outstanding (rev l).
Proof. destruct l as [|[t|t] l]; simpl; try discriminate. intros _. exists (rev l), t. auto. Qed.
Lemma out_top l : outstanding (rev l) -> top_stopped l = true.
Proof. intros (a & u & E). destruct l as [|[t|t] l]; simpl in *; auto; [destruct a; discriminate|]. apply app_inj_tail in E. destruct E; discriminate. Qed.

Lemma inv_init : inv init.
Proof.
  split; cbn.
  - lia.
  - split; [discriminate|lia].
  - intros a b t E. destruct a; discriminate.
  - split; [lia|tauto].
  - auto.
Qed.

Lemma set_nonempty t (d : list (N * unit)) : set N.eqb t tt d <> [].
Proof. destruct d as [|[k v] d]; simpl; [discriminate|]. destruct (N.eqb t k); discriminate. Qed.

Lemma inv_step s o : inv s -> inv (step s o).
Proof.
  intros I. destruct I as [Vle Vtop Valt [Vr1 Vr2] Vn]. destruct o as [| |g|t plain|t]; cbn [step].
  - split; cbn [last_resume last_suspend events request next_time timeouts suspended]; auto. split; [lia|]. intros g H. specialize (Vr2 g H). lia.
  - split; cbn [last_resume last_suspend events request next_time timeouts suspended]; auto. split; [lia|]. intros g [<-|H]; [lia|auto].
  - destruct (existsb (Z.eqb g) (timeouts s)) eqn:Eg; [|split; auto]. destruct (suspended s) as [|[t u] d] eqn:Es; [split; auto; rewrite Es; auto|].
    apply existsb_exists in Eg. destruct Eg as (g' & Hg & E). apply Z.eqb_eq in E. subst g'. specialize (Vr2 g Hg) as Hle.
    destruct (Z.ltb_spec (last_suspend s) g); [|split; auto; rewrite Es; discriminate].
    split; cbn [send set_last last_resume last_suspend events request next_time timeouts suspended rev top_stopped]; auto.
    + lia.
    + split; [lia|auto].
    + now apply alt_stopped.
    + split; [lia|auto].
    + rewrite Es. discriminate.
  - assert (I0 : inv (set_susp s (set N.eqb t tt (suspended s)) false)).
    { split; cbn [set_susp last_resume last_suspend events request next_time timeouts suspended]; auto. intros E. now apply set_nonempty in E. }
    destruct (negb plain || pause s); [|exact I0]. cbn [set_susp last_suspend request].
    destruct (Z.ltb_spec (last_suspend s) (request s)); [|exact I0].
    split; cbn [send set_last set_susp last_resume last_suspend events request next_time timeouts suspended rev top_stopped]; auto.
    + lia.
    + split; [lia|auto].
    + now apply alt_stopped.
    + split; [lia|auto].
    + intros E. now apply set_nonempty in E.
  - destruct (mem N.eqb t (suspended s)); [|split; auto]. cbn [set_susp last_suspend last_resume].
    destruct (Z.ltb_spec (last_resume s) (last_suspend s)).
    + split; cbn [send set_last set_susp last_resume last_suspend events request next_time timeouts suspended rev top_stopped]; auto.
      * lia.
      * split; [discriminate|lia].
      * apply alt_continued; auto. apply top_out. now apply Vtop.
    + split; cbn [set_susp last_resume last_suspend events request next_time timeouts suspended]; auto. intros _. lia.
Qed.

Lemma inv_run ops : inv (run ops).
Proof. unfold run. rewrite <- fold_left_rev_right. induction (rev ops); simpl; [apply inv_init|apply inv_step; auto]. Qed.

(** * Theorems *)
(** Every 'continued' directly follows a 'stopped': never two in a row, never one first. *)
Theorem single_alternates (ops : list op) : alternates (sent ops).
Proof. apply (v_alt _ (inv_run ops)). Qed.

(** Once no thread is suspended, no 'stopped' is outstanding. *)
Theorem single_all_continued (ops : list op) : suspended (run ops) = [] -> ~ outstanding (sent ops).
Proof.
  intros H O. apply out_top in O. pose proof (inv_run ops) as I. apply (v_top _ I) in O. pose proof (v_none _ I H). lia.
Qed.

(** Right after a suspended thread resumed, no 'stopped' is outstanding. *)
Theorem single_resume (ops : list op) (t : N) : mem N.eqb t (suspended (run ops)) = true -> ~ outstanding (sent (ops ++ [Resume t])).
Proof.
  intros H O. pose proof (inv_run (ops ++ [Resume t])) as I. unfold sent in O. apply out_top in O. apply (v_top _ I) in O. revert O.
  unfold run. rewrite fold_left_app. fold (run ops). cbn [fold_left step]. rewrite H. cbn [set_susp last_resume last_suspend].
  destruct (Z.ltb_spec (last_resume (run ops)) (last_suspend (run ops))); cbn [send set_last set_susp last_resume last_suspend]; lia.
Qed.

(** A thread that stops at a breakpoint or the like, or for a pause requested, after a new request is announced. *)
Theorem single_announced (ops : list op) (t : N) (plain : bool) : plain = false \/ pause (run ops) = true ->
  sent (ops ++ [Increment; Suspend t plain]) = sent ops ++ [Stopped t].
Proof.
  intros H. unfold sent, run. rewrite fold_left_app. fold (run ops). set (s := run ops) in *. cbn [fold_left].
  pose proof (v_req _ (inv_run ops)) as [R _]. fold s in R. cbn [step pause].
  replace (negb plain || pause s) with true by (destruct H as [-> | ->]; [auto|now rewrite orb_true_r]).
  cbn [set_susp last_suspend request]. destruct (Z.ltb_spec (last_suspend s) (next_time s)); [reflexivity|lia].
Qed.

(** 'stopped' names a thread that is suspended, 'continued' one that just resumed. *)
Theorem single_names (ops : list op) (o : op) (e : event) : sent (ops ++ [o]) = sent ops ++ [e] ->
  match e with
  | Stopped t => mem N.eqb t (suspended (run (ops ++ [o]))) = true
  | Continued t => o = Resume t /\ mem N.eqb t (suspended (run ops)) = true
  end.
Proof.
  unfold sent, run. rewrite fold_left_app. fold (run ops). cbn [fold_left]. set (s := run ops).
  intros E. assert (E' : events (step s o) = e :: events s).
  { apply (f_equal (@rev event)) in E. rewrite rev_involutive, rev_app_distr, rev_involutive in E. exact E. }
  clear E. assert (NN : events s <> e :: events s) by (intros H; apply (f_equal (@length event)) in H; simpl in H; lia).
  destruct o as [| |g|t plain|t]; cbn [step] in *; try (now destruct (NN E')).
  - destruct (existsb _ _); [|now destruct (NN E')]. destruct (suspended s) as [|[t u] d] eqn:Es; [now destruct (NN E')|].
    destruct (Z.ltb _ _); [|now destruct (NN E')]. cbn [send events set_last] in E'. injection E' as <-. cbn [send set_last suspended].
    rewrite Es. unfold mem. simpl. now rewrite N.eqb_refl.
  - destruct (negb plain || pause s); [|now destruct (NN E')]. cbn [set_susp last_suspend request] in *.
    destruct (Z.ltb _ _); [|now destruct (NN E')]. cbn [send events set_last set_susp] in E'. injection E' as <-. cbn [send set_last set_susp suspended].
    unfold mem. now rewrite (get_set_same _ N.eqb_spec).
  - destruct (mem N.eqb t (suspended s)) eqn:M; [|now destruct (NN E')]. cbn [set_susp last_suspend last_resume] in *.
    destruct (Z.ltb _ _); [|now destruct (NN E')]. cbn [send events set_last set_susp] in E'. injection E' as <-. auto.
Qed.

(** One notification per request: there are at most as many 'stopped' events as requests. *)
Definition stops (l : list event) : nat := length (filter (fun e => match e with Stopped _ => true | _ => false end) l).
Definition requests (ops : list op) : nat := length (filter (fun o => match o with Increment => true | _ => false end) ops).

Theorem single_per_request (ops : list op) : (stops (sent ops) <= requests ops + 1)%nat.
Proof.
  assert (H : Z.of_nat (stops (events (run ops))) <= last_suspend (run ops) + 1 /\ next_time (run ops) = Z.of_nat (requests ops) + 1).
  { induction ops as [|o ops IH] using rev_ind; [cbn; lia|]. unfold run, requests in *. rewrite fold_left_app, filter_app, app_length. fold (run ops) in *.
    cbn [fold_left]. set (s := run ops) in *. destruct IH as [IH1 IH2].
    destruct o as [| |g|t plain|t]; cbn [step filter length].
    - cbn [events last_suspend next_time]. lia.
    - cbn [events last_suspend next_time]. lia.
    - destruct (existsb _ _); [|lia]. destruct (suspended s) as [|[t u] d]; [lia|]. destruct (Z.ltb_spec (last_suspend s) g); [|lia].
      cbn [send set_last events last_suspend next_time]. unfold stops in *. cbn [filter length]. lia.
    - destruct (negb plain || pause s); [|cbn [set_susp events last_suspend next_time]; lia]. cbn [set_susp last_suspend request].
      destruct (Z.ltb_spec (last_suspend s) (request s)); cbn [send set_last set_susp events last_suspend next_time]; [|lia].
      unfold stops in *. cbn [filter length]. lia.
    - destruct (mem _ _ _); [|lia]. cbn [set_susp last_resume last_suspend]. destruct (Z.ltb_spec (last_resume s) (last_suspend s)); cbn [send set_last set_susp events last_suspend next_time]; [|lia].
      unfold stops in *. cbn [filter length]. lia. }
  pose proof (v_req _ (inv_run ops)) as [R _]. unfold sent.
  assert (L : stops (rev (events (run ops))) = stops (events (run ops))).
  { generalize (events (run ops)). intros l. unfold stops. induction l as [|e l IHl]; [auto|]. cbn [rev]. rewrite filter_app, app_length, IHl. cbn [filter]. destruct e; cbn [length]; lia. }
  rewrite L. lia.
Qed.

(** But a thread that resumes late makes the client believe that all threads run although another has stopped since
    (the thread left its wait loop before the new stop). *)
Theorem single_stale_continued_refuted : exists ops t, sent ops = [Stopped 1%N; Continued 1%N; Stopped 1%N; Continued t] /\
  mem N.eqb 1%N (suspended (run ops)) = true /\ t <> 1%N.
Proof.
  exists [Suspend 1%N false; Suspend 2%N true; Resume 1%N; Increment; Suspend 1%N false; Resume 2%N], 2%N. vm_compute. repeat split; discriminate.
Qed.

(** And a thread that stops again inside a stop (a breakpoint in an evaluation) is forgotten when the inner stop ends:
    it resumes from the outer stop with a KeyError. *)
Theorem single_nested_refuted : exists ops t, sent ops = [Stopped t; Stopped t; Continued t] /\
  ops = [Suspend t false; Increment; Suspend t false; Resume t] /\ mem N.eqb t (suspended (run ops)) = false.
Proof. exists [Suspend 1%N false; Increment; Suspend 1%N false; Resume 1%N], 1%N. vm_compute. auto. Qed.

(** * Examples *)
Definition ex_ops := [Suspend 1%N false; Suspend 2%N true; Resume 2%N; Resume 1%N; Increment; Suspend 3%N true; Pause; Timeout 1; Resume 3%N].
Example ex_sent : sent ex_ops = [Stopped 1; Continued 2; Stopped 3; Continued 3]%N /\ suspended (run ex_ops) = [].
Proof. vm_compute. auto. Qed.
Example ex_pause : pause (run [Pause]) = true /\ sent [Pause; Increment; Suspend 4%N true] = [Stopped 4%N].
Proof. vm_compute. auto. Qed.

Print Assumptions single_alternates.
Print Assumptions single_all_continued.
Print Assumptions single_resume.
Print Assumptions single_announced.
Print Assumptions single_names.
Print Assumptions single_per_request.
Print Assumptions single_stale_continued_refuted.
Print Assumptions single_nested_refuted.
