(** C13: references to frames and variables resolve exactly while their thread is suspended. *)
From Coq Require Import List NArith ZArith Bool String Lia.
From Verif Require Import Base Dict Frames.
Import ListNotations.

Lemma Neqb_spec : forall a b : N, reflect (a = b) (N.eqb a b). Proof. exact N.eqb_spec. Qed.

(** * Specification: read off the history alone *)
Section Spec.
Context (addr : obj -> N).

(** A suspension [t] has ended. *)
Definition ended (ops : list op) (t : N) : Prop := In (Untrack t) ops.
(** [key] is a thread (or coroutine) shown by suspension [t]. *)
Definition shows (ops : list op) (t key : N) : Prop := exists th fr, In (Track t th key fr) ops.
(** [o] is a frame of suspension [t]. *)
Definition frame_of (ops : list op) (t : N) (o : obj) : Prop := exists th k fr, In (Track t th k fr) ops /\ In o fr.
(** [o] was sent to the client as a value during suspension [t]. *)
Definition sent (ops : list op) (t : N) (o : obj) : Prop :=
  frame_of ops t o \/ exists objs, In (Register t objs) ops /\ In o objs.
(** [t] is a suspension which shows some thread and has not ended. *)
Definition suspended (ops : list op) (t : N) : Prop := ~ ended ops t /\ exists k, shows ops t k.

Definition op_objs (o : op) : list obj :=
  match o with Track _ _ _ fr => fr | Register _ l => l | Untrack _ => [] end.
Definition op_tracker (o : op) : N := match o with Track t _ _ _ | Register t _ | Untrack t => t end.

(** Python's allocator: an object sent to the client is kept alive by its suspension, so an object appearing
    while it is held has another address; and an operation's own objects are alive together. *)
Definition fresh_addresses (pre : list op) (o : op) : Prop :=
  forall a b, In a (op_objs o) -> (In b (op_objs o) \/ exists t, ~ ended pre t /\ sent pre t b) -> addr a = addr b -> a = b.

(** A suspension starts to show threads before it ends; distinct suspensions show distinct threads and frames. *)
Definition own_thread (pre : list op) (o : op) : Prop :=
  match o with
  | Track t th key fr =>
      ~ ended pre t /\
      forall t', t' <> t -> ~ ended pre t' -> ~ shows pre t' key /\ forall f, In f fr -> ~ frame_of pre t' f
  | _ => True
  end.

Definition valid (ops : list op) : Prop :=
  forall pre o post, ops = pre ++ o :: post -> fresh_addresses pre o /\ own_thread pre o.
End Spec.

(** * Proof *)
Section Proofs.
Context (addr : obj -> N).
Notation run := (run addr). Notation step := (step addr).

Lemma get_setN {V} k k' (v : V) d : get N.eqb k (set N.eqb k' v d) = if N.eqb k k' then Some v else get N.eqb k d.
Proof. rewrite (get_set _ N.eqb_spec). destruct (N.eqb_spec k k'), (N.eqb_spec k' k); subst; auto; congruence. Qed.

Lemma upd_same f t x : upd f t x t = x. Proof. unfold upd. now rewrite N.eqb_refl. Qed.
Lemma upd_other f t x u : u <> t -> upd f t x u = f u.
Proof. unfold upd. destruct (N.eqb_spec u t); congruence. Qed.

Lemma reg_fold objs : forall tr,
  let tr' := fold_left (reg_var addr) objs tr in
  t_frames tr' = t_frames tr /\ t_threads tr' = t_threads tr /\ t_main tr' = t_main tr /\ t_untracked tr' = t_untracked tr.
Proof. induction objs as [|o l IH]; simpl; intros tr; auto. destruct (IH (reg_var addr tr o)) as (A&B&C&D). auto. Qed.

(** the last of several objects of one address is found *)
Lemma get_fold objs : forall tr r,
  get N.eqb r (t_vars (fold_left (reg_var addr) objs tr)) =
  match find (fun o => N.eqb r (addr o)) (rev objs) with Some o => Some o | None => get N.eqb r (t_vars tr) end.
Proof.
  induction objs as [|o l IH]; simpl; intros tr r; auto.
  rewrite IH. simpl. rewrite get_setN.
  assert (F : forall (p : obj -> bool) a b, find p (a ++ b) = match find p a with Some x => Some x | None => find p b end).
  { induction a; simpl; intros; auto. destruct (p a); auto. }
  rewrite F. destruct (find _ (rev l)); auto. simpl. destruct (N.eqb r (addr o)); auto.
Qed.

Definition exact_map (d : list (N * obj)) (P : obj -> Prop) : Prop :=
  forall r o, get N.eqb r d = Some o <-> (addr o = r /\ P o).

Lemma exact_fold objs tr P :
  exact_map (t_vars tr) P ->
  (forall a b, In a objs -> In b objs \/ P b -> addr a = addr b -> a = b) ->
  exact_map (t_vars (fold_left (reg_var addr) objs tr)) (fun o => P o \/ In o objs).
Proof.
  intros H U r o. rewrite get_fold. destruct (find _ _) as [x|] eqn:E.
  - apply find_some in E. destruct E as [Hi He]. apply in_rev in Hi. apply N.eqb_eq in He. subst r. split.
    + intros [= ->]. auto.
    + intros [He Hp]. f_equal. apply U; auto. tauto.
  - rewrite (H r o). split; [tauto|]. intros [He [Hp|Hp]]; auto.
    exfalso. assert (X : N.eqb r (addr o) = false) by (apply (find_none _ _ E o); now apply -> in_rev).
    apply N.eqb_neq in X. congruence.
Qed.

(** the loop of track: the tracker's tables are extended as by register, the frame table likewise *)
Lemma track_fold t fr : forall tr refs tr' refs',
  fold_left (track_frame addr t) fr (tr, refs) = (tr', refs') ->
  t_vars tr' = t_vars (fold_left (reg_var addr) fr tr) /\
  t_frames tr' = t_vars (fold_left (reg_var addr) fr (Tracker [] [] (t_frames tr) None false)) /\
  t_threads tr' = t_threads tr /\ t_main tr' = t_main tr /\ t_untracked tr' = t_untracked tr /\
  (forall r, get N.eqb r refs' = if existsb (fun f => N.eqb r (addr f)) fr then Some t else get N.eqb r refs) /\
  (NoDup (keys refs) -> NoDup (keys refs')).
Proof.
  assert (V : forall fr tr tr2, t_vars tr = t_vars tr2 ->
     t_vars (fold_left (reg_var addr) fr tr) = t_vars (fold_left (reg_var addr) fr tr2)).
  { induction fr0 as [|f l IH]; simpl; intros; auto. apply IH. simpl. now rewrite H. }
  induction fr as [|f l IH]; simpl; intros tr refs tr' refs' Hfold; [injection Hfold as <- <-; repeat split; auto|].
  apply IH in Hfold. destruct Hfold as (A & B & C & D & E & F & G). simpl in *.
  split; [rewrite A; now apply V|]. split; [rewrite B; now apply V|].
  do 3 (split; auto). split.
  - intros r. rewrite F, get_setN. destruct (N.eqb r (addr f)), (existsb _ l); auto.
  - intros HN. apply G. now apply (NoDup_keys_set _ N.eqb_spec).
Qed.

Lemma del_refs_ok ids : forall refs, NoDup ids -> (forall i, In i ids -> get N.eqb i refs <> None) -> NoDup (keys refs) ->
  exists refs', del_refs ids refs = (refs', true) /\ NoDup (keys refs') /\
  forall r, get N.eqb r refs' = if existsb (N.eqb r) ids then None else get N.eqb r refs.
Proof.
  induction ids as [|i l IH]; simpl; intros refs HD HI HN.
  - exists refs. auto.
  - inversion HD; subst. unfold mem. destruct (get N.eqb i refs) eqn:E; [|exfalso; apply (HI i); auto].
    destruct (IH (del N.eqb i refs)) as (refs' & A & B & C); auto.
    + intros j Hj. rewrite (get_del_other _ N.eqb_spec) by congruence. auto.
    + now apply NoDup_keys_del.
    + exists refs'. split; auto. split; auto. intros r. rewrite C.
      destruct (N.eqb_spec r i); simpl.
      * subst. rewrite (get_del_same _ N.eqb_spec) by auto. now destruct (existsb _ l).
      * rewrite (get_del_other _ N.eqb_spec) by congruence. auto.
Qed.

Lemma del_threads ks : forall m : list (N * N), NoDup (keys m) ->
  NoDup (keys (fold_left (fun m k => del N.eqb k m) ks m)) /\
  forall r, get N.eqb r (fold_left (fun m k => del N.eqb k m) ks m) = if existsb (N.eqb r) ks then None else get N.eqb r m.
Proof.
  induction ks as [|k l IH]; simpl; intros m HN; auto.
  destruct (IH (del N.eqb k m)) as [A B]; [now apply NoDup_keys_del|]. split; auto.
  intros r. rewrite B. destruct (N.eqb_spec r k); simpl.
  - subst. rewrite (get_del_same _ N.eqb_spec) by auto. now destruct (existsb _ l).
  - rewrite (get_del_other _ N.eqb_spec) by congruence. auto.
Qed.

(** ** Invariant *)
Record inv (ops : list op) (s : state) : Prop := {
  i_untr : forall t, t_untracked (s_tr s t) = true <-> ended ops t;
  i_vars : forall t, ~ ended ops t -> exact_map (t_vars (s_tr s t)) (sent ops t);
  i_frames : forall t, ~ ended ops t -> exact_map (t_frames (s_tr s t)) (frame_of ops t);
  i_fnd : forall t, NoDup (keys (t_frames (s_tr s t)));
  i_keys : forall t, ~ ended ops t -> forall k, In k (keys (t_threads (s_tr s t))) <-> shows ops t k;
  i_threads : forall k t, get N.eqb k (s_threads s) = Some t <-> (~ ended ops t /\ shows ops t k);
  i_refs : forall r t, get N.eqb r (s_refs s) = Some t <-> (~ ended ops t /\ exists o, addr o = r /\ frame_of ops t o);
  i_tnd : NoDup (keys (s_threads s));
  i_rnd : NoDup (keys (s_refs s))
}.

Lemma snoc_ended ops o t : ended (ops ++ [o]) t <-> ended ops t \/ o = Untrack t.
Proof. unfold ended. rewrite in_app_iff. simpl. intuition. Qed.
Lemma snoc_shows ops o t k : shows (ops ++ [o]) t k <-> shows ops t k \/ exists th fr, o = Track t th k fr.
Proof.
  unfold shows. split.
  - intros (th & fr & H). apply in_app_or in H. simpl in H. destruct H as [H|[H|[]]]; eauto.
  - intros [(th & fr & H)|(th & fr & ->)]; exists th, fr; apply in_or_app; simpl; auto.
Qed.
Lemma snoc_frame ops o t x : frame_of (ops ++ [o]) t x <-> frame_of ops t x \/ exists th k fr, o = Track t th k fr /\ In x fr.
Proof.
  unfold frame_of. split.
  - intros (th & k & fr & H & Hi). apply in_app_or in H. simpl in H. destruct H as [H|[H|[]]]; [left|right]; eauto 6.
  - intros [(th & k & fr & H & Hi)|(th & k & fr & -> & Hi)]; exists th, k, fr; (split; [apply in_or_app; simpl; auto|auto]).
Qed.
Lemma snoc_sent ops o t x : sent (ops ++ [o]) t x <-> sent ops t x \/ (op_tracker o = t /\ In x (op_objs o)).
Proof.
  unfold sent. rewrite snoc_frame. split.
  - intros [[H|(th & k & fr & -> & H)]|(objs & H & Hi)]; [tauto|right; auto|].
    apply in_app_or in H. simpl in H. destruct H as [H|[->|[]]]; [left; right; eauto|right; auto].
  - intros [[H|(objs & H & Hi)]|[<- H]]; [tauto| |].
    + right. exists objs. split; auto. apply in_or_app; auto.
    + destruct o; simpl in *; [|right|tauto].
      * left. right. eauto 6.
      * exists objs. split; auto. apply in_or_app; simpl; auto.
Qed.

Lemma track_shows ops t th k fr u k' : shows (ops ++ [Track t th k fr]) u k' <-> shows ops u k' \/ (u = t /\ k' = k).
Proof.
  rewrite snoc_shows. split; (intros [H|H]; [auto|right]).
  - destruct H as (a & b & H). inversion H. auto.
  - destruct H as [-> ->]. eauto.
Qed.
Lemma track_frame_of ops t th k fr u x : frame_of (ops ++ [Track t th k fr]) u x <-> frame_of ops u x \/ (u = t /\ In x fr).
Proof.
  rewrite snoc_frame. split; (intros [H|H]; [auto|right]).
  - destruct H as (a & b & c & H & Hi). inversion H. subst. auto.
  - destruct H as [-> H]. eauto 6.
Qed.

Lemma exact_ext d (P Q : obj -> Prop) : (forall o, P o <-> Q o) -> exact_map d P -> exact_map d Q.
Proof. intros H E r o. rewrite (E r o), H. tauto. Qed.

Lemma inv_init : inv [] init.
Proof.
  split.
  - intros t. simpl. split; [discriminate|intros []].
  - intros t _ r o. simpl. split; [discriminate|]. intros [_ [(?&?&?&[]&_)|(?&[]&_)]].
  - intros t _ r o. simpl. split; [discriminate|]. intros [_ (?&?&?&[]&_)].
  - intros t. constructor.
  - intros t _ k. simpl. split; [tauto|]. intros (?&?&[]).
  - intros k t. simpl. split; [discriminate|]. intros (_&?&?&[]).
  - intros r t. simpl. split; [discriminate|]. intros (_&?&_&?&?&?&[]&_).
  - constructor.
  - constructor.
Qed.

Lemma existsb_addr r fr : existsb (fun f => N.eqb r (addr f)) fr = true <-> exists f, In f fr /\ addr f = r.
Proof. rewrite existsb_exists. split; intros (f & A & B); exists f; split; auto; [apply N.eqb_eq in B|apply N.eqb_eq]; auto. Qed.

Lemma NoDup_fold objs : forall tr, NoDup (keys (t_vars tr)) -> NoDup (keys (t_vars (fold_left (reg_var addr) objs tr))).
Proof. induction objs; simpl; intros; auto. apply IHobjs. simpl. now apply (NoDup_keys_set _ N.eqb_spec). Qed.

Lemma inv_step ops s o : inv ops s -> fresh_addresses addr ops o -> own_thread ops o -> inv (ops ++ [o]) (step s o).
Proof.
  intros I HF HO. destruct o as [t th k fr|t objs|t]; simpl in HO.
  - (* track *)
    destruct HO as [HL HO]. simpl. unfold track.
    pose proof (track_fold t fr
      (Tracker (t_frames (s_tr s t)) (set N.eqb k (match get N.eqb k (t_threads (s_tr s t)) with Some l => l | None => [] end ++ map addr fr)
        (t_threads (s_tr s t))) (t_vars (s_tr s t)) (Some th) (t_untracked (s_tr s t))) (s_refs s)) as T.
    destruct (fold_left (track_frame addr t) fr _) as [tr' refs']. destruct (T _ _ eq_refl) as (A & B & C & D & E & F & G). clear T.
    cbn [t_frames t_threads t_vars t_main t_untracked] in *.
    assert (HE : forall u, ended (ops ++ [Track t th k fr]) u <-> ended ops u).
    { intros u. rewrite snoc_ended. intuition discriminate. }
    assert (NE : forall u, ~ ended (ops ++ [Track t th k fr]) u <-> ~ ended ops u).
    { intros u. rewrite HE. tauto. }
    split; cbn [s_tr s_threads s_refs].
    + intros u. rewrite HE. rewrite <- (i_untr _ _ I). destruct (N.eqb_spec u t) as [->|N]; [rewrite upd_same, E|rewrite upd_other by auto]; tauto.
    + intros u Hu. apply NE in Hu. destruct (N.eqb_spec u t) as [->|N].
      * rewrite upd_same, A. eapply exact_ext; [|apply (exact_fold _ _ (sent ops t))].
        -- intros x. rewrite snoc_sent. simpl. intuition.
        -- apply (i_vars _ _ I); auto.
        -- intros a b Ha Hb. apply HF; auto. simpl. destruct Hb; auto. right. eauto.
      * rewrite upd_other by auto. eapply exact_ext; [|apply (i_vars _ _ I); auto].
        intros x. rewrite snoc_sent. simpl. intuition congruence.
    + intros u Hu. apply NE in Hu. destruct (N.eqb_spec u t) as [->|N].
      * rewrite upd_same, B. eapply exact_ext; [|apply (exact_fold _ _ (frame_of ops t))].
        -- intros x. rewrite track_frame_of. intuition.
        -- simpl. apply (i_frames _ _ I); auto.
        -- intros a b Ha Hb. apply HF; auto. simpl. destruct Hb; auto. right. exists t. split; auto. left; auto.
      * rewrite upd_other by auto. eapply exact_ext; [|apply (i_frames _ _ I); auto].
        intros x. rewrite track_frame_of. intuition.
    + intros u. destruct (N.eqb_spec u t) as [->|N].
      * rewrite upd_same, B. apply NoDup_fold. simpl. apply (i_fnd _ _ I).
      * rewrite upd_other by auto. apply (i_fnd _ _ I).
    + intros u Hu k'. apply NE in Hu. rewrite track_shows. destruct (N.eqb_spec u t) as [->|N].
      * rewrite upd_same, C. rewrite (keys_set _ N.eqb_spec). pose proof (i_keys _ _ I t Hu) as HK. unfold mem.
        destruct (get N.eqb k (t_threads (s_tr s t))) eqn:Eg.
        -- rewrite HK. split; auto. intros [H|[_ ->]]; auto. apply HK.
           destruct (in_dec N.eq_dec k (keys (t_threads (s_tr s t)))) as [|Hn]; auto. apply (get_None _ N.eqb_spec) in Hn. congruence.
        -- rewrite in_app_iff, HK. simpl. intuition.
      * rewrite upd_other by auto. rewrite (i_keys _ _ I u Hu). split; auto. intros [H|[-> ->]]; auto; congruence.
    + intros k' u. rewrite get_setN, NE, track_shows. destruct (N.eqb_spec k' k) as [->|N].
      * split.
        -- intros [= <-]. split; auto.
        -- intros [Hu [H|[-> _]]]; auto. destruct (N.eq_dec u t) as [->|Nu]; auto.
           exfalso. apply (proj1 (HO u Nu Hu)). auto.
      * rewrite (i_threads _ _ I). split; [tauto|]. intros [Hu [H|[-> ->]]]; auto; congruence.
    + intros r u. rewrite F, NE. destruct (existsb _ fr) eqn:Ex.
      * apply existsb_addr in Ex. destruct Ex as (f & Hf & <-). split.
        -- intros [= <-]. split; auto. exists f. split; auto. apply track_frame_of. auto.
        -- intros [Hu (o & Ho & Hs)]. apply track_frame_of in Hs. destruct Hs as [Hs|[-> Hs]]; auto.
           destruct (N.eq_dec u t) as [->|Nu]; auto. exfalso.
           assert (f = o) by (apply HF; simpl; auto; right; exists u; split; auto; left; auto). subst.
           destruct (HO u Nu Hu) as [_ H]. apply (H o); auto.
      * rewrite (i_refs _ _ I). split.
        -- intros [Hu (o & Ho & Hs)]. split; auto. exists o. split; auto. apply track_frame_of. auto.
        -- intros [Hu (o & Ho & Hs)]. split; auto. exists o. split; auto. apply track_frame_of in Hs.
           destruct Hs as [Hs|[-> Hs]]; auto.
           exfalso. assert (existsb (fun f => N.eqb r (addr f)) fr = true) by (apply existsb_addr; eauto). congruence.
    + apply (NoDup_keys_set _ N.eqb_spec), (i_tnd _ _ I).
    + apply G, (i_rnd _ _ I).
  - (* register *)
    simpl. unfold register. pose proof (reg_fold objs (s_tr s t)) as R. simpl in R. destruct R as (R1 & R2 & R3 & R4).
    assert (NE : forall u, ended (ops ++ [Register t objs]) u <-> ended ops u).
    { intros u. rewrite snoc_ended. intuition discriminate. }
    assert (SH : forall u k, shows (ops ++ [Register t objs]) u k <-> shows ops u k).
    { intros u k. rewrite snoc_shows. split; auto. intros [H|(?&?&H)]; auto; discriminate. }
    assert (FR : forall u k, frame_of (ops ++ [Register t objs]) u k <-> frame_of ops u k).
    { intros u k. rewrite snoc_frame. split; auto. intros [H|(?&?&?&H&_)]; auto; discriminate. }
    split; cbn [s_tr s_threads s_refs].
    + intros u. rewrite NE, <- (i_untr _ _ I). destruct (N.eqb_spec u t) as [->|N]; [rewrite upd_same, R4|rewrite upd_other by auto]; tauto.
    + intros u Hu. rewrite NE in Hu. destruct (N.eqb_spec u t) as [->|N].
      * rewrite upd_same. eapply exact_ext; [|apply (exact_fold _ _ (sent ops t))].
        -- intros x. rewrite snoc_sent. simpl. intuition.
        -- apply (i_vars _ _ I); auto.
        -- intros a b Ha Hb. apply HF; auto. simpl. destruct Hb; auto. right. eauto.
      * rewrite upd_other by auto. eapply exact_ext; [|apply (i_vars _ _ I); auto].
        intros x. rewrite snoc_sent. simpl. intuition congruence.
    + intros u Hu. rewrite NE in Hu. eapply exact_ext; [intros x; symmetry; apply FR|].
      destruct (N.eqb_spec u t) as [->|N]; [rewrite upd_same, R1|rewrite upd_other by auto]; apply (i_frames _ _ I); auto.
    + intros u. destruct (N.eqb_spec u t) as [->|N]; [rewrite upd_same, R1|rewrite upd_other by auto]; apply (i_fnd _ _ I).
    + intros u Hu k. rewrite NE in Hu. rewrite SH.
      destruct (N.eqb_spec u t) as [->|N]; [rewrite upd_same, R2|rewrite upd_other by auto]; apply (i_keys _ _ I); auto.
    + intros k u. rewrite SH, NE. apply (i_threads _ _ I).
    + intros r u. rewrite NE, (i_refs _ _ I). split; intros [Hu (o & Ho & Hs)]; (split; [auto|exists o; split; [auto|now apply FR]]).
    + apply (i_tnd _ _ I).
    + apply (i_rnd _ _ I).
  - (* untrack *)
    assert (SH : forall u k, shows (ops ++ [Untrack t]) u k <-> shows ops u k).
    { intros u k. rewrite snoc_shows. split; auto. intros [H|(?&?&H)]; auto; discriminate. }
    assert (FR : forall u k, frame_of (ops ++ [Untrack t]) u k <-> frame_of ops u k).
    { intros u k. rewrite snoc_frame. split; auto. intros [H|(?&?&?&H&_)]; auto; discriminate. }
    assert (SE : forall u x, sent (ops ++ [Untrack t]) u x <-> sent ops u x).
    { intros u x. rewrite snoc_sent. simpl. tauto. }
    assert (EN : forall u, ended (ops ++ [Untrack t]) u <-> ended ops u \/ u = t).
    { intros u. rewrite snoc_ended. split; intros [H|H]; auto; [inversion H; auto|subst; auto]. }
    simpl. unfold untrack. destruct (t_untracked (s_tr s t)) eqn:EU.
    + apply (i_untr _ _ I) in EU.
      assert (EN' : forall u, ended (ops ++ [Untrack t]) u <-> ended ops u).
      { intros u. rewrite EN. split; auto. intros [H| ->]; auto. }
      split.
      * intros u. rewrite EN'. apply (i_untr _ _ I).
      * intros u Hu. rewrite EN' in Hu. eapply exact_ext; [intros x; symmetry; apply SE|]. apply (i_vars _ _ I); auto.
      * intros u Hu. rewrite EN' in Hu. eapply exact_ext; [intros x; symmetry; apply FR|]. apply (i_frames _ _ I); auto.
      * apply (i_fnd _ _ I).
      * intros u Hu k. rewrite EN' in Hu. rewrite SH. apply (i_keys _ _ I); auto.
      * intros k u. rewrite SH, EN'. apply (i_threads _ _ I).
      * intros r u. rewrite EN', (i_refs _ _ I). split; intros [Hu (o & Ho & Hs)]; (split; [auto|exists o; split; [auto|now apply FR]]).
      * apply (i_tnd _ _ I).
      * apply (i_rnd _ _ I).
    + assert (HL : ~ ended ops t) by (intros H; apply (i_untr _ _ I) in H; congruence).
      assert (HK : forall i, In i (keys (t_frames (s_tr s t))) <-> exists o, addr o = i /\ frame_of ops t o).
      { intros i. pose proof (i_frames _ _ I t HL) as X. split.
        - intros Hi. destruct (get N.eqb i (t_frames (s_tr s t))) as [o|] eqn:Eg.
          + apply X in Eg. exists o. tauto.
          + exfalso. apply (get_None _ N.eqb_spec) in Eg. auto.
        - intros (o & Ho). apply X in Ho. apply (get_In _ N.eqb_spec) in Ho. now apply (in_map fst) in Ho. }
      destruct (del_refs_ok (keys (t_frames (s_tr s t))) (s_refs s)) as (refs' & DR & ND & GR).
      { apply (i_fnd _ _ I). }
      { intros i Hi. apply HK in Hi. assert (X : get N.eqb i (s_refs s) = Some t) by (apply (i_refs _ _ I); auto). congruence. }
      { apply (i_rnd _ _ I). }
      rewrite DR. destruct (del_threads (keys (t_threads (s_tr s t))) (s_threads s) (i_tnd _ _ I)) as [NT GT].
      split; cbn [s_tr s_threads s_refs].
      * intros u. rewrite EN. destruct (N.eqb_spec u t) as [->|N]; [rewrite upd_same|rewrite upd_other by auto].
        -- simpl. tauto.
        -- rewrite (i_untr _ _ I). intuition.
      * intros u Hu. rewrite EN in Hu. rewrite upd_other by tauto. eapply exact_ext; [intros x; symmetry; apply SE|]. apply (i_vars _ _ I); auto.
      * intros u Hu. rewrite EN in Hu. rewrite upd_other by tauto. eapply exact_ext; [intros x; symmetry; apply FR|]. apply (i_frames _ _ I); auto.
      * intros u. destruct (N.eqb_spec u t) as [->|N]; [rewrite upd_same; constructor|rewrite upd_other by auto; apply (i_fnd _ _ I)].
      * intros u Hu k. rewrite EN in Hu. rewrite upd_other by tauto. rewrite SH. apply (i_keys _ _ I); auto.
      * intros k u. rewrite GT, SH, EN. destruct (existsb _ _) eqn:Ex.
        -- apply existsb_exists in Ex. destruct Ex as (k' & Hk & Ek). apply N.eqb_eq in Ek. subst k'.
           apply (i_keys _ _ I t HL) in Hk. split; [discriminate|]. intros [Hu Hs]. exfalso. apply Hu. right.
           assert (X : get N.eqb k (s_threads s) = Some t) by (apply (i_threads _ _ I); auto).
           assert (Y : get N.eqb k (s_threads s) = Some u) by (apply (i_threads _ _ I); auto). congruence.
        -- rewrite (i_threads _ _ I). split; [|tauto]. intros [Hu Hs]. split; auto. intros [H| ->]; auto.
           apply (i_keys _ _ I t HL) in Hs. assert (X : existsb (N.eqb k) (keys (t_threads (s_tr s t))) = true).
           { apply existsb_exists. exists k. split; auto. apply N.eqb_refl. } congruence.
      * intros r u. rewrite GR, EN. destruct (existsb _ _) eqn:Ex.
        -- apply existsb_exists in Ex. destruct Ex as (k' & Hk & Ek). apply N.eqb_eq in Ek. subst k'.
           apply HK in Hk. split; [discriminate|]. intros [Hu (o & Ho & Hs)]. exfalso. apply Hu. right. apply FR in Hs.
           assert (X : get N.eqb r (s_refs s) = Some t) by (apply (i_refs _ _ I); auto).
           assert (Y : get N.eqb r (s_refs s) = Some u) by (apply (i_refs _ _ I); split; auto; eauto). congruence.
        -- rewrite (i_refs _ _ I). split; intros [Hu (o & Ho & Hs)].
           ++ split; [|exists o; split; auto; now apply FR]. intros [H| ->]; auto.
              assert (X : existsb (N.eqb r) (keys (t_frames (s_tr s t))) = true).
              { apply existsb_exists. exists r. split; [apply HK; eauto|apply N.eqb_refl]. } congruence.
           ++ split; [tauto|]. exists o. split; auto. now apply FR.
      * auto.
      * auto.
Qed.

Lemma inv_run ops : valid addr ops -> inv ops (run ops).
Proof.
  induction ops as [|o ops IH] using rev_ind; intros V.
  - apply inv_init.
  - unfold Frames.run. rewrite fold_left_app. simpl. fold (run ops).
    destruct (V ops o []) as [A B]; auto. apply inv_step; auto. apply IH.
    intros pre x post E. apply (V pre x (post ++ [o])). rewrite E, <- app_assoc. reflexivity.
Qed.

(** * Theorems *)
Lemma values_In {V} k (v : V) d : get N.eqb k d = Some v -> In v (values d).
Proof. intros H. apply (get_In _ N.eqb_spec) in H. unfold values. now apply (in_map snd) in H. Qed.
Lemma In_values (v : N) d : NoDup (keys d) -> In v (values d) -> exists k, get N.eqb k d = Some v.
Proof.
  intros HN H. unfold values in H. apply in_map_iff in H. destruct H as ([k v'] & <- & H). exists k.
  now apply (In_get _ N.eqb_spec).
Qed.

Lemma tracker_for_spec ops r t : valid addr ops -> tracker_for (run ops) r = Some t ->
  suspended ops t /\ exists o, addr o = r /\ sent ops t o.
Proof.
  intros V. pose proof (inv_run _ V) as I. unfold tracker_for.
  destruct (get N.eqb r (s_refs (run ops))) as [u|] eqn:Er.
  - intros [= <-]. apply (i_refs _ _ I) in Er. destruct Er as [Hu (o & Ho & Hf)].
    split; [split; auto; destruct Hf as (th & k & fr & H & _); exists k, th, fr; auto|]. exists o. split; auto. left; auto.
  - intros H. apply find_some in H. destruct H as [Hi Hm]. apply (In_values _ _ (i_tnd _ _ I)) in Hi. destruct Hi as [k Hk].
    apply (i_threads _ _ I) in Hk. destruct Hk as [Hu Hk]. split; [split; eauto|].
    unfold mem in Hm. destruct (get N.eqb r (t_vars (s_tr (run ops) t))) as [o|] eqn:Eg; [|discriminate]. apply (i_vars _ _ I t Hu) in Eg. exists o. tauto.
Qed.

(** A reference resolves, to the object it was handed out for, exactly while a suspension in which it was handed
    out has not ended. *)
Theorem reference_resolves (ops : list op) (r : N) (o : obj) : valid addr ops ->
  (get_variable (run ops) r = Some o <-> addr o = r /\ exists t, suspended ops t /\ sent ops t o).
Proof.
  intros V. pose proof (inv_run _ V) as I. unfold get_variable. split.
  - destruct (tracker_for (run ops) r) as [t|] eqn:E; [|discriminate]. intros Hg.
    pose proof (tracker_for_spec _ _ _ V E) as [S _]. apply (i_vars _ _ I t (proj1 S)) in Hg. destruct Hg. eauto.
  - intros [Ho (t & S & Hs)].
    destruct (tracker_for (run ops) r) as [u|] eqn:E.
    + pose proof (tracker_for_spec _ _ _ V E) as [Su (o' & Ho' & Hs')].
      assert (Hg : get N.eqb r (t_vars (s_tr (run ops) u)) = Some o') by (apply (i_vars _ _ I u (proj1 Su)); auto).
      rewrite Hg. f_equal.
      (* two objects of one address, both held: the later one was the earlier one *)
      assert (U : forall l, valid addr l -> forall t u a b, ~ ended l t -> ~ ended l u -> sent l t a -> sent l u b -> addr a = addr b -> a = b).
      { clear. induction l as [|x l IH] using rev_ind.
        - intros _ t u a b _ _ [(?&?&?&[]&_)|(?&[]&_)].
        - intros V t u a b Nt Nu Sa Sb E. destruct (V l x []) as [F _]; auto.
          assert (V' : valid addr l) by (intros pre y post Eq; apply (V pre y (post ++ [x])); rewrite Eq, <- app_assoc; reflexivity).
          rewrite snoc_ended in Nt, Nu. apply snoc_sent in Sa. apply snoc_sent in Sb.
          destruct Sa as [Sa|[_ Sa]]; destruct Sb as [Sb|[_ Sb]].
          + eapply (IH V' t u); eauto.
          + symmetry. apply F; auto. right. exists t. auto.
          + apply F; auto. right. exists u. auto.
          + apply F; auto. }
      apply (U ops V u t); auto; [apply Su|apply S|congruence].
    + exfalso. unfold tracker_for in E. destruct (get N.eqb r (s_refs (run ops))); [discriminate|].
      destruct S as [Nt [k Hk]].
      assert (Hi : In t (values (s_threads (run ops)))) by (apply (values_In k); apply (i_threads _ _ I); auto).
      pose proof (find_none _ _ E t Hi) as X. simpl in X. unfold mem in X.
      assert (Hg : get N.eqb r (t_vars (s_tr (run ops) t)) = Some o) by (apply (i_vars _ _ I t Nt); auto).
      rewrite Hg in X. discriminate.
Qed.

(** In particular: once every suspension in which it was handed out ended, a reference does not resolve. *)
Corollary reference_dies (ops : list op) (r : N) : valid addr ops ->
  (forall t o, sent ops t o -> addr o = r -> In (Untrack t) ops) -> get_variable (run ops) r = None.
Proof.
  intros V H. destruct (get_variable (run ops) r) as [o|] eqn:E; auto. apply reference_resolves in E; auto.
  destruct E as [Ho (t & [Hn _] & Hs)]. exfalso. apply Hn. eapply H; eauto.
Qed.

(** A frame is found from its thread exactly while the suspension which shows the thread lasts. *)
Theorem frame_resolves (ops : list op) (thread r : N) (f : obj) : valid addr ops ->
  (find_frame (run ops) thread r = Some f <->
   addr f = r /\ exists t, ~ ended ops t /\ shows ops t thread /\ frame_of ops t f).
Proof.
  intros V. pose proof (inv_run _ V) as I. unfold find_frame. split.
  - destruct (get N.eqb thread _) as [t|] eqn:E; [|discriminate]. apply (i_threads _ _ I) in E. destruct E as [Hn Hs].
    intros Hg. apply (i_frames _ _ I t Hn) in Hg. destruct Hg. eauto 6.
  - intros [Ha (t & Hn & Hs & Hf)]. assert (E : get N.eqb thread (s_threads (run ops)) = Some t) by (apply (i_threads _ _ I); auto).
    rewrite E. apply (i_frames _ _ I t Hn). auto.
Qed.

(** The main thread of a suspension which shows one thread as main: used to run requests on the reference. *)
Lemma main_run ops : valid addr ops -> forall t, ~ ended ops t ->
  match t_main (s_tr (run ops) t) with
  | Some th => exists k fr, In (Track t th k fr) ops
  | None => forall k, ~ shows ops t k
  end.
Proof.
  induction ops as [|o ops IH] using rev_ind; intros V t Hn.
  - simpl. intros k (?&?&[]).
  - assert (V' : valid addr ops) by (intros pre x post E; apply (V pre x (post ++ [o])); rewrite E, <- app_assoc; reflexivity).
    specialize (IH V'). rewrite snoc_ended in Hn.
    assert (K : (exists th k fr, o = Track t th k fr) \/ (t_main (s_tr (run (ops ++ [o])) t) = t_main (s_tr (run ops) t) /\ forall th k fr, o <> Track t th k fr)).
    { unfold Frames.run. rewrite fold_left_app. simpl. fold (run ops). destruct o as [u th k fr|u objs|u]; simpl.
      - destruct (N.eq_dec u t) as [->|N]; [left; eauto|right]. split; [|congruence].
        unfold track. destruct (fold_left _ fr _). simpl. now rewrite upd_other by auto.
      - right. split; [|congruence]. destruct (N.eq_dec u t) as [->|N]; [rewrite upd_same|now rewrite upd_other by auto].
        apply reg_fold.
      - right. split; [|congruence]. unfold untrack. destruct (t_untracked _); auto.
        assert (t <> u) by (intros ->; tauto).
        destruct (del_refs _ _) as [? []]; simpl; now rewrite upd_other. }
    destruct K as [(th & k & fr & ->)|[E NT]].
    + unfold Frames.run. rewrite fold_left_app. simpl. fold (run ops). unfold track.
      match goal with |- context [fold_left (track_frame addr t) fr (?a, ?b)] => pose proof (track_fold t fr a b) as T; destruct (fold_left (track_frame addr t) fr (a, b)) as [tr' refs'] end.
      destruct (T _ _ eq_refl) as (_ & _ & _ & D & _). cbn [s_tr]. rewrite upd_same, D. simpl. exists k, fr. apply in_or_app. simpl. auto.
    + rewrite E. specialize (IH t ltac:(tauto)). destruct (t_main _).
      * destruct IH as (k & fr & H). exists k, fr. apply in_or_app; auto.
      * intros k H. apply snoc_shows in H. destruct H as [H|(?&?&H)]; [apply (IH k); auto|eapply NT; eauto].
Qed.

(** A request on a reference is sent to a thread which is suspended with this reference, or to none at all. *)
Theorem reference_thread (ops : list op) (r : N) : valid addr ops ->
  match thread_for (run ops) r with
  | Some th => exists t o k fr, suspended ops t /\ sent ops t o /\ addr o = r /\ In (Track t th k fr) ops
  | None => get_variable (run ops) r = None
  end.
Proof.
  intros V. unfold thread_for, get_variable. destruct (tracker_for (run ops) r) as [t|] eqn:E; auto.
  pose proof (tracker_for_spec _ _ _ V E) as [[Hn [k Hk]] (o & Ho & Hs)].
  pose proof (main_run _ V t Hn) as M. destruct (t_main _) as [th|].
  - destruct M as (k' & fr & M). exists t, o, k', fr. split; [split; eauto|auto].
  - exfalso. apply (M k). auto.
Qed.
End Proofs.

(** * Examples and refutations *)
(** Two suspended threads (1 and 2) share the value 50; thread 1 resumes, and the address of its own value 40 is
    reused by the value 41 of thread 2. *)
Definition ex_addr (o : obj) : N := if N.eqb o 41 then 400 else o * 10.
Definition ex_ops : list op :=
  [Track 0 1 1 [10; 11]; Track 5 2 2 [20]; Register 0 [40; 50]; Register 5 [50]; Untrack 0; Register 5 [41]]%N.
Example ex_resolves :
  map (fun n => get_variable (run ex_addr (firstn n ex_ops)) 400%N) [4; 5; 6]%nat = [Some 40; None; Some 41]%N /\
  map (get_variable (run ex_addr ex_ops)) [100; 110; 200; 500]%N = [None; None; Some 20; Some 50]%N.
Proof. vm_compute. auto. Qed.
Example ex_valid : valid ex_addr ex_ops.
Proof.
  intros pre o post E. unfold ex_ops in E.
  destruct pre as [|x0 pre]; [|destruct pre as [|x1 pre]; [|destruct pre as [|x2 pre]; [|destruct pre as [|x3 pre];
   [|destruct pre as [|x4 pre]; [|destruct pre as [|x5 pre]; [|destruct pre; discriminate E]]]]]]; injection E; intros; subst; clear E.
  all: split; simpl; try exact I.
  all: try (intros a b Ha Hb; simpl in Ha; unfold sent, frame_of, ended in Hb; simpl in Hb;
    repeat match goal with
    | H : _ \/ _ |- _ => destruct H
    | H : exists _, _ |- _ => destruct H
    | H : _ /\ _ |- _ => destruct H
    | H : False |- _ => destruct H
    | H : _ = _ :> op |- _ => first [discriminate H | injection H as ? ?; subst]
    end; subst; simpl in *; intros; intuition (try discriminate; try congruence; subst; try discriminate)).
  all: unfold ended, shows, frame_of; simpl.
  - split; [tauto|]. intros t' _ _. split; [intros (?&?&[])|intros f _ (?&?&?&[]&_)].
  - split; [intuition discriminate|]. intros t' Ht _. split.
    + intros (?&?&[H|[]]). discriminate H.
    + intros f [<-|[]] (?&?&?&[H|[]]&Hf). injection H as ? ? ? <-. simpl in Hf. intuition discriminate.
Qed.

(** Had two suspensions a frame in common, ending the first would make the references of the second fail, and
    ending the second would raise KeyError after which its values are kept for good. *)
Theorem shared_frame_refuted :
  exists ops, (forall t, In (Untrack t) ops -> t = 0%N) /\ suspended ops 5 /\ frame_of ops 5 10 /\
    get_variable (run ex_addr ops) 100 = None /\
    t_vars (s_tr (run ex_addr (ops ++ [Untrack 5])) 5) <> [].
Proof.
  exists [Track 0 1 1 [10]; Track 5 1 1 [20; 10]; Register 5 [50]; Untrack 0]%N.
  split; [intros t; simpl; intros H; repeat (destruct H as [H|H]; [try discriminate H; injection H; auto|]); destruct H|].
  split; [split; [unfold ended; simpl; intuition discriminate|exists 1%N, 1%N, [20; 10]%N; simpl; auto]|].
  split; [exists 1%N, 1%N, [20; 10]%N; simpl; auto|].
  split; [vm_compute; reflexivity|vm_compute; discriminate].
Qed.

Print Assumptions reference_resolves.
Print Assumptions reference_dies.
Print Assumptions frame_resolves.
Print Assumptions reference_thread.
Print Assumptions shared_frame_refuted.
