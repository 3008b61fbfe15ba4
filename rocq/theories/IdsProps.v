(** C14: ids sent to the client translate back to the same thing. *)
From Coq Require Import List NArith Bool String Lia.
From Verif Require Import Base Dict Ids.
Import ListNotations.
Open Scope N_scope.

Lemma ident_eqb_spec a b : reflect (a = b) (ident_eqb a b).
Proof.
  destruct a, b; simpl; try (constructor; congruence).
  - destruct (N.eqb_spec n n0); constructor; congruence.
  - destruct (str_eqb_spec s s0); constructor; congruence.
Qed.

Lemma get_seti k k' (v : ident) d : get ident_eqb k (set ident_eqb k' v d) = if ident_eqb k k' then Some v else get ident_eqb k d.
Proof. rewrite (get_set _ ident_eqb_spec). destruct (ident_eqb_spec k k'), (ident_eqb_spec k' k); subst; auto; congruence. Qed.

(** Numbers taken from the counter and not yet in the table: those of translations in progress. *)
Definition pending (p : pc) : option (ident * N) :=
  match p with Counted o d | Stored o d => Some (o, d) | _ => None end.
Definition pc_obj (p : pc) : option ident :=
  match p with Looked o | Counted o _ | Stored o _ => Some o | Idle => None end.

Record inv (s : state) : Prop := {
  i_next : 1 <= next s;
  (* entries of the reverse table are below the counter *)
  i_below : forall d o, get ident_eqb (INum d) (d2o s) = Some o -> d < next s;
  i_d0 : get ident_eqb (INum 0) (d2o s) = Some (INum 0);
  i_dn : get ident_eqb INone (d2o s) = Some INone;
  i_o0 : get ident_eqb (INum 0) (o2d s) = Some (INum 0);
  i_pend : forall t o d, pending (pcs s t) = Some (o, d) -> 1 <= d < next s /\ get ident_eqb (INum d) (d2o s) = None;
  i_pend_inj : forall t u o o' d, pending (pcs s t) = Some (o, d) -> pending (pcs s u) = Some (o', d) -> t = u;
  i_obj : forall t o, pc_obj (pcs s t) = Some o -> o <> IStar /\ o <> INum 0;
  (* what the table says of an id is known to the reverse table or about to be *)
  i_o2d : forall o x, get ident_eqb o (o2d s) = Some x -> o <> IStar /\
     ((o = INone /\ x = INone) \/ exists d, x = INum d /\
        (get ident_eqb (INum d) (d2o s) = Some o \/ exists t, pcs s t = Stored o d));
  i_out : forall o x, In (o, x) (out s) -> (o = IStar /\ x = IStar) \/
     (o <> IStar /\ exists d, x = INum d /\ (get ident_eqb (INum d) (d2o s) = Some o \/ exists t, pcs s t = Stored o d))
}.

Lemma setpc_same f t p : setpc f t p t = p. Proof. unfold setpc. now rewrite N.eqb_refl. Qed.
Lemma setpc_other f t p u : u <> t -> setpc f t p u = f u.
Proof. unfold setpc. destruct (N.eqb_spec u t); congruence. Qed.

Lemma inv_init : inv init.
Proof.
  split; simpl; try (intros; discriminate); auto; try lia.
  - intros d o. destruct d; [intros; lia|discriminate].
  - intros o x. destruct o; simpl; try discriminate.
    + intros [= <-]. split; [discriminate|]. left; auto.
    + destruct (N.eqb_spec n 0); [|discriminate]. intros [= <-]. subst. split; [discriminate|]. right. exists 0. auto.
Qed.

Lemma inv_step s x : inv s -> inv (step s x).
Proof.
  intros I. destruct x as [t o|t]; simpl.
  - destruct (pcs s t) eqn:Ept; auto.
    assert (LK : o <> IStar -> get ident_eqb o (o2d s) = None \/ get ident_eqb o (o2d s) = Some INone ->
       inv (State (o2d s) (d2o s) (next s) (setpc (pcs s) t (Looked o)) (out s))).
    { intros Ho Hg.
      assert (ST : forall u o' d, pcs s u = Stored o' d -> setpc (pcs s) t (Looked o) u = Stored o' d).
      { intros u o' d H. rewrite setpc_other; auto. intros ->. congruence. }
      split; simpl.
      - apply (i_next _ I).
      - apply (i_below _ I).
      - apply (i_d0 _ I).
      - apply (i_dn _ I).
      - apply (i_o0 _ I).
      - intros u o' d. destruct (N.eq_dec u t) as [->|N]; [rewrite setpc_same; discriminate|rewrite setpc_other by auto; apply (i_pend _ I)].
      - intros u w o1 o2 d. destruct (N.eq_dec u t) as [->|N]; [rewrite setpc_same; discriminate|rewrite setpc_other by auto].
        destruct (N.eq_dec w t) as [->|N']; [rewrite setpc_same; discriminate|rewrite setpc_other by auto]. apply (i_pend_inj _ I).
      - intros u o'. destruct (N.eq_dec u t) as [->|N]; [rewrite setpc_same|rewrite setpc_other by auto; apply (i_obj _ I)].
        simpl. intros [= <-]. split; auto. intros ->. rewrite (i_o0 _ I) in Hg. destruct Hg; discriminate.
      - intros o' x H. destruct (i_o2d _ I _ _ H) as [A [B|(d & B & [C|(u & C)])]]; split; auto; right; exists d; split; auto. right. eauto.
      - intros o' x H. destruct (i_out _ I _ _ H) as [A|(A & d & B & [C|(u & C)])]; auto; right; split; auto; exists d; split; auto. right. eauto. }
    assert (FD : forall d, o <> IStar -> get ident_eqb o (o2d s) = Some d -> d <> INone ->
       inv (State (o2d s) (d2o s) (next s) (pcs s) ((o, d) :: out s))).
    { intros d Ho Hg Hd. destruct I; split; simpl; auto. intros o' x [[= <- <-]|H]; [|auto].
      right. split; auto. destruct (i_o2d0 _ _ Hg) as [_ [[_ ->]|H]]; [congruence|auto]. }
    destruct o.
    + destruct (get ident_eqb INone (o2d s)) as [[| | |]|] eqn:E; try (apply LK; auto; discriminate); apply FD; auto; discriminate.
    + destruct I; split; simpl; auto. intros o' x [[= <- <-]|H]; auto.
    + destruct (get ident_eqb (INum n) (o2d s)) as [[| | |]|] eqn:E; try (apply LK; auto; discriminate); apply FD; auto; discriminate.
    + destruct (get ident_eqb (IStr s0) (o2d s)) as [[| | |]|] eqn:E; try (apply LK; auto; discriminate); apply FD; auto; discriminate.
  - destruct (pcs s t) as [|o|o d|o d] eqn:Ept; auto.
    + (* counter *)
      assert (ST : forall u o' d, pcs s u = Stored o' d -> setpc (pcs s) t (Counted o (next s)) u = Stored o' d).
      { intros u o' d H. rewrite setpc_other; auto. intros ->. congruence. }
      split; simpl.
      * pose proof (i_next _ I). lia.
      * intros d o' H. apply (i_below _ I) in H. lia.
      * apply (i_d0 _ I).
      * apply (i_dn _ I).
      * apply (i_o0 _ I).
      * intros u o' d. destruct (N.eq_dec u t) as [->|N]; [rewrite setpc_same|rewrite setpc_other by auto].
        -- simpl. intros [= <- <-]. pose proof (i_next _ I). split; [lia|]. destruct (get ident_eqb (INum (next s)) (d2o s)) eqn:E; auto.
           apply (i_below _ I) in E. lia.
        -- intros H. apply (i_pend _ I) in H. destruct H. split; auto. lia.
      * intros u w o1 o2 d. destruct (N.eq_dec u t) as [->|N], (N.eq_dec w t) as [->|N']; auto; rewrite ?setpc_same, ?setpc_other by auto; simpl.
        -- intros [= <- <-] H. apply (i_pend _ I) in H. lia.
        -- intros H [= <- <-]. apply (i_pend _ I) in H. lia.
        -- apply (i_pend_inj _ I).
      * intros u o'. destruct (N.eq_dec u t) as [->|N]; [rewrite setpc_same|rewrite setpc_other by auto; apply (i_obj _ I)].
        simpl. intros [= <-]. apply (i_obj _ I t). now rewrite Ept.
      * intros o' x H. destruct (i_o2d _ I _ _ H) as [A [B|(d & B & [C|(u & C)])]]; split; auto; right; exists d; split; auto. right. eauto.
      * intros o' x H. destruct (i_out _ I _ _ H) as [A|(A & d & B & [C|(u & C)])]; auto; right; split; auto; exists d; split; auto. right. eauto.
    + (* first store *)
      assert (Hp : pending (pcs s t) = Some (o, d)) by (now rewrite Ept).
      assert (Ho : o <> IStar /\ o <> INum 0) by (apply (i_obj _ I t); now rewrite Ept).
      assert (ST : forall u o' d', pcs s u = Stored o' d' -> setpc (pcs s) t (Stored o d) u = Stored o' d').
      { intros u o' d' H. rewrite setpc_other; auto. intros ->. congruence. }
      split; simpl.
      * apply (i_next _ I).
      * apply (i_below _ I).
      * apply (i_d0 _ I).
      * apply (i_dn _ I).
      * rewrite get_seti. destruct (ident_eqb_spec (INum 0) o); [intuition congruence|apply (i_o0 _ I)].
      * intros u o' d'. destruct (N.eq_dec u t) as [->|N]; [rewrite setpc_same|rewrite setpc_other by auto; apply (i_pend _ I)].
        simpl. intros [= <- <-]. apply (i_pend _ I t o d Hp).
      * intros u w o1 o2 d'. destruct (N.eq_dec u t) as [->|N], (N.eq_dec w t) as [->|N']; auto; rewrite ?setpc_same, ?setpc_other by auto; simpl.
        -- intros [= <- <-] H. apply (i_pend_inj _ I t w o o2 d); auto.
        -- intros H [= <- <-]. apply (i_pend_inj _ I u t o1 o d); auto.
        -- apply (i_pend_inj _ I).
      * intros u o'. destruct (N.eq_dec u t) as [->|N]; [rewrite setpc_same|rewrite setpc_other by auto; apply (i_obj _ I)].
        simpl. intros [= <-]. auto.
      * intros o' x. rewrite get_seti. destruct (ident_eqb_spec o' o) as [->|N].
        -- intros [= <-]. split; [apply Ho|]. right. exists d. split; auto. right. exists t. apply setpc_same.
        -- intros H. destruct (i_o2d _ I _ _ H) as [A [B|(d' & B & [C|(u & C)])]]; split; auto; right; exists d'; split; auto. right. eauto.
      * intros o' x H. destruct (i_out _ I _ _ H) as [A|(A & d' & B & [C|(u & C)])]; auto; right; split; auto; exists d'; split; auto. right. eauto.
    + (* second store *)
      assert (Hp : pending (pcs s t) = Some (o, d)) by (now rewrite Ept).
      destruct (i_pend _ I _ _ _ Hp) as [Hd Hn].
      assert (Ho : o <> IStar /\ o <> INum 0) by (apply (i_obj _ I t); now rewrite Ept).
      assert (KEEP : forall o' d', (get ident_eqb (INum d') (d2o s) = Some o' \/ exists u, pcs s u = Stored o' d') ->
        get ident_eqb (INum d') (set ident_eqb (INum d) o (d2o s)) = Some o' \/ exists u, setpc (pcs s) t Idle u = Stored o' d').
      { intros o' d' H. rewrite get_seti. destruct (ident_eqb_spec (INum d') (INum d)) as [[= ->]|N].
        - destruct H as [H|[u H]]; [congruence|]. left. assert (u = t) by (apply (i_pend_inj _ I u t o' o d); auto; now rewrite H).
          subst. congruence.
        - destruct H as [H|[u H]]; auto. right. exists u. rewrite setpc_other; auto. intros ->. congruence. }
      split; simpl.
      * apply (i_next _ I).
      * intros d' o'. rewrite get_seti. destruct (ident_eqb_spec (INum d') (INum d)) as [[= ->]|N]; [lia|apply (i_below _ I)].
      * rewrite get_seti. destruct (ident_eqb_spec (INum 0) (INum d)) as [[= E]|N]; [lia|apply (i_d0 _ I)].
      * rewrite get_seti. simpl. apply (i_dn _ I).
      * apply (i_o0 _ I).
      * intros u o' d'. destruct (N.eq_dec u t) as [->|N]; [rewrite setpc_same; discriminate|rewrite setpc_other by auto].
        intros H. destruct (i_pend _ I _ _ _ H) as [A B]. split; auto. rewrite get_seti.
        destruct (ident_eqb_spec (INum d') (INum d)) as [[= ->]|]; auto. exfalso. apply N. apply (i_pend_inj _ I u t o' o d); auto.
      * intros u w o1 o2 d'. destruct (N.eq_dec u t) as [->|N], (N.eq_dec w t) as [->|N']; auto; rewrite ?setpc_same, ?setpc_other by auto; simpl; try discriminate.
        apply (i_pend_inj _ I).
      * intros u o'. destruct (N.eq_dec u t) as [->|N]; [rewrite setpc_same; discriminate|rewrite setpc_other by auto; apply (i_obj _ I)].
      * intros o' x H. destruct (i_o2d _ I _ _ H) as [A [B|(d' & B & C)]]; split; auto. right. exists d'. split; auto.
      * intros o' x [[= <- <-]|H].
        -- right. split; [apply Ho|]. exists d. split; auto. left. rewrite get_seti.
           destruct (ident_eqb_spec (INum d) (INum d)); congruence.
        -- destruct (i_out _ I _ _ H) as [A|(A & d' & B & C)]; auto. right. split; auto. exists d'. split; auto.
Qed.

Lemma inv_run ops : inv (run ops).
Proof.
  unfold run. rewrite <- fold_left_rev_right. induction (rev ops); simpl; [apply inv_init|apply inv_step; auto].
Qed.

(** * Theorems *)
(** For every interleaving of translations by any number of threads: two different ids are never given the same
    translation. *)
Theorem ids_injective (ops : list op) (o o' d : ident) :
  In (o, d) (out (run ops)) -> In (o', d) (out (run ops)) -> o = o'.
Proof.
  pose proof (inv_run ops) as I. intros H H'.
  destruct (i_out _ I _ _ H) as [[-> ->]|(A & n & -> & B)]; destruct (i_out _ I _ _ H') as [[-> E]|(A' & n' & E & B')]; auto; try discriminate.
  injection E as <-.
  destruct B as [B|[t B]], B' as [B'|[u B']]; try congruence.
  - destruct (i_pend _ I u o' n) as [_ C]; [now rewrite B'|]. congruence.
  - destruct (i_pend _ I t o n) as [_ C]; [now rewrite B|]. congruence.
  - assert (t = u) by (apply (i_pend_inj _ I t u o o' n); [now rewrite B|now rewrite B']). subst. congruence.
Qed.

(** Whenever no translation is in progress, every translation handed out translates back. *)
Theorem ids_round_trip (ops : list op) (o d : ident) :
  (forall t, pcs (run ops) t = Idle) -> In (o, d) (out (run ops)) -> from_dap (run ops) d = Some o.
Proof.
  intros Q H. pose proof (inv_run ops) as I.
  destruct (i_out _ I _ _ H) as [[-> ->]|(A & n & -> & [B|[t B]])]; auto. rewrite Q in B. discriminate.
Qed.

(** The thread's own view: whole translations one after the other. *)
Fixpoint translate_all (s : state) (l : list ident) : state :=
  match l with [] => s | o :: r => translate_all (to_dap s o) r end.

(** A translation handed out stays valid, and unchanged, whatever is translated afterwards. *)
Lemma to_dap_spec s o : inv s -> (forall t, pcs s t = Idle) ->
  exists d, out (to_dap s o) = (o, d) :: out s /\ (forall t, pcs (to_dap s o) t = Idle) /\ inv (to_dap s o) /\
  (o <> IStar -> get ident_eqb o (o2d (to_dap s o)) = Some d /\ d <> INone) /\
  (forall x y, get ident_eqb x (o2d s) = Some y -> y <> INone -> get ident_eqb x (o2d (to_dap s o)) = Some y).
Proof.
  intros I Q. assert (I' : inv (to_dap s o)) by (unfold to_dap; repeat apply inv_step; auto).
  assert (L : o <> IStar -> get ident_eqb o (o2d s) = None \/ get ident_eqb o (o2d s) = Some INone ->
    step s (Begin 0 o) = State (o2d s) (d2o s) (next s) (setpc (pcs s) 0 (Looked o)) (out s)).
  { intros Ho H. simpl. rewrite Q. destruct o; try congruence; destruct H as [-> | ->]; auto. }
  assert (LK : o <> IStar -> get ident_eqb o (o2d s) = None \/ get ident_eqb o (o2d s) = Some INone ->
    to_dap s o = State (set ident_eqb o (INum (next s)) (o2d s)) (set ident_eqb (INum (next s)) o (d2o s)) (N.succ (next s))
      (setpc (setpc (setpc (setpc (pcs s) 0 (Looked o)) 0 (Counted o (next s))) 0 (Stored o (next s))) 0 Idle) ((o, INum (next s)) :: out s)).
  { intros Ho H. unfold to_dap. rewrite L by auto.
    unfold step at 3. cbn [pcs]. rewrite setpc_same. cbn [o2d d2o next out].
    unfold step at 2. cbn [pcs]. rewrite setpc_same. cbn [o2d d2o next out].
    unfold step at 1. cbn [pcs]. rewrite setpc_same. reflexivity. }
  assert (FD : forall d, o <> IStar -> get ident_eqb o (o2d s) = Some d -> d <> INone ->
    to_dap s o = State (o2d s) (d2o s) (next s) (pcs s) ((o, d) :: out s)).
  { intros d Ho H Hd.
    assert (E : step s (Begin 0 o) = State (o2d s) (d2o s) (next s) (pcs s) ((o, d) :: out s)).
    { simpl. rewrite Q. destruct o; try congruence; rewrite H; destruct d; congruence. }
    unfold to_dap. rewrite E. unfold step at 3. cbn [pcs]. rewrite Q. unfold step at 2. cbn [pcs]. rewrite Q. unfold step at 1. cbn [pcs]. rewrite Q. reflexivity. }
  destruct (ident_eqb_spec o IStar) as [->|Ho].
  - exists IStar. assert (E : to_dap s IStar = State (o2d s) (d2o s) (next s) (pcs s) ((IStar, IStar) :: out s)).
    { assert (E : step s (Begin 0 IStar) = State (o2d s) (d2o s) (next s) (pcs s) ((IStar, IStar) :: out s)) by (simpl; now rewrite Q).
      unfold to_dap. rewrite E. unfold step at 3. cbn [pcs]. rewrite Q. unfold step at 2. cbn [pcs]. rewrite Q. unfold step at 1. cbn [pcs]. rewrite Q. reflexivity. }
    rewrite E in I' |- *. simpl. split; auto. split; auto. split; auto. split; [congruence|auto].
  - destruct (get ident_eqb o (o2d s)) as [d|] eqn:Eg.
    + destruct (ident_eqb_spec d INone) as [->|Nd].
      * rewrite LK in I' |- * by auto. exists (INum (next s)). simpl. split; auto. split.
        { intros t. destruct (N.eq_dec t 0) as [->|N]; [apply setpc_same|]. rewrite !setpc_other by auto. auto. }
        split; auto. split.
        { intros _. rewrite get_seti. destruct (ident_eqb_spec o o); [|congruence]. split; congruence. }
        { intros x y Hx Hy. rewrite get_seti. destruct (ident_eqb_spec x o); subst; congruence. }
      * rewrite (FD d) in I' |- * by auto. exists d. simpl. auto 6.
    + rewrite LK in I' |- * by auto. exists (INum (next s)). simpl. split; auto. split.
        { intros t. destruct (N.eq_dec t 0) as [->|N]; [apply setpc_same|]. rewrite !setpc_other by auto. auto. }
        split; auto. split.
        { intros _. rewrite get_seti. destruct (ident_eqb_spec o o); [|congruence]. split; congruence. }
        { intros x y Hx Hy. rewrite get_seti. destruct (ident_eqb_spec x o); subst; congruence. }
Qed.

Lemma seq_inv l : forall s, inv s -> (forall t, pcs s t = Idle) ->
  (forall o d, In (o, d) (out s) -> o <> IStar -> get ident_eqb o (o2d s) = Some d /\ d <> INone) ->
  inv (translate_all s l) /\ (forall t, pcs (translate_all s l) t = Idle) /\
  (forall o d, In (o, d) (out (translate_all s l)) -> o <> IStar -> get ident_eqb o (o2d (translate_all s l)) = Some d /\ d <> INone) /\
  (forall p, In p (out s) -> In p (out (translate_all s l))) /\
  map fst (out (translate_all s l)) = rev l ++ map fst (out s).
Proof.
  induction l as [|o l IH]; simpl; intros s I Q S; auto.
  destruct (to_dap_spec s o I Q) as (d & Ho & Hq & Hi & Hg & Hk).
  destruct (IH (to_dap s o)) as (A & B & C & D & E); auto.
  - intros o' d'. rewrite Ho. intros [[= <- <-]|H] N; auto. destruct (S _ _ H N). auto.
  - split; auto. split; auto. split; auto. split.
    + intros p Hp. apply D. rewrite Ho. right. auto.
    + rewrite E, Ho. simpl. rewrite <- app_assoc. reflexivity.
Qed.

Theorem ids_stable (l : list ident) (o d d' : ident) :
  In (o, d) (out (translate_all init l)) -> In (o, d') (out (translate_all init l)) -> d = d'.
Proof.
  destruct (seq_inv l init inv_init) as (A & B & C & D & E); [auto|simpl; tauto|].
  destruct (ident_eqb_spec o IStar) as [->|N].
  - intros H H'. destruct (i_out _ A _ _ H) as [[_ ->]|[X _]]; [|congruence]. destruct (i_out _ A _ _ H') as [[_ ->]|[X _]]; congruence.
  - intros H H'. apply C in H; auto. apply C in H'; auto. destruct H, H'. congruence.
Qed.

(** ... and, for one thread, each id asked for is answered and translates back at any later time. *)
Theorem ids_sequential (l : list ident) :
  map fst (out (translate_all init l)) = rev l /\
  forall o d, In (o, d) (out (translate_all init l)) -> from_dap (translate_all init l) d = Some o.
Proof.
  destruct (seq_inv l init inv_init) as (A & B & C & D & E); [auto|simpl; tauto|].
  split; [rewrite E; simpl; apply app_nil_r|].
  intros o d H. destruct (i_out _ A _ _ H) as [[-> ->]|(X & n & -> & [Y|[t Y]])]; auto. rewrite B in Y. discriminate.
Qed.

Definition op_thread (x : op) : N := match x with Begin t _ | Step t => t end.
Lemma pcs_other ops t : (forall x, In x ops -> op_thread x <> t) -> pcs (run ops) t = Idle.
Proof.
  induction ops as [|x ops IH] using rev_ind; intros H; [reflexivity|].
  unfold run. rewrite fold_left_app. simpl. fold (run ops).
  assert (N : op_thread x <> t) by (apply H, in_or_app; simpl; auto).
  assert (E : pcs (step (run ops) x) t = pcs (run ops) t).
  { destruct x as [u o|u]; simpl in *.
    - destruct (pcs (run ops) u); auto. destruct o; auto; destruct (get _ _ _) as [[| | |]|]; simpl; auto; now rewrite setpc_other by auto.
    - destruct (pcs (run ops) u); simpl; auto; now rewrite setpc_other by auto. }
  rewrite E. apply IH. intros y Hy. apply H, in_or_app; auto.
Qed.

(** With two threads translating one id at the same time its translation changes. *)
Theorem ids_stable_race_refuted :
  exists ops o d d', (forall t, pcs (run ops) t = Idle) /\ In (o, d) (out (run ops)) /\ In (o, d') (out (run ops)) /\ d <> d'.
Proof.
  exists [Begin 1 (INum 70); Begin 2 (INum 70); Step 1; Step 1; Step 1; Step 2; Step 2; Step 2], (INum 70), (INum 1), (INum 2).
  split; [|vm_compute; intuition discriminate].
  intros t. destruct (N.eq_dec t 1) as [->|N1]; [reflexivity|]. destruct (N.eq_dec t 2) as [->|N2]; [reflexivity|].
  apply pcs_other. simpl. intros x H. repeat (destruct H as [<-|H]; [simpl; congruence|]). destruct H.
Qed.

(** And a translation can reach the client before it can be translated back. *)
Theorem ids_round_trip_race_refuted :
  exists ops o d, In (o, d) (out (run ops)) /\ from_dap (run ops) d = None.
Proof.
  exists [Begin 1 (INum 70); Step 1; Step 1; Begin 2 (INum 70)], (INum 70), (INum 1). vm_compute. auto.
Qed.

Example ids_case :
  out (translate_all init [INum 70; IStr (lit "pid_1_id_2"); INum 70; INum 0; INone; IStar]) =
  [(IStar, IStar); (INone, INum 3); (INum 0, INum 0); (INum 70, INum 1); (IStr (lit "pid_1_id_2"), INum 2); (INum 70, INum 1)].
Proof. reflexivity. Qed.

(** * IDMap *)
Record minv (m : idmap) : Prop := {
  m_vk : forall v k, get N.eqb v (v2k m) = Some k <-> get N.eqb k (k2v m) = Some v;
  m_below : forall k v, get N.eqb k (k2v m) = Some v -> k < nextk m
}.
Lemma get_setN k k' (v : N) d : get N.eqb k (set N.eqb k' v d) = if N.eqb k k' then Some v else get N.eqb k d.
Proof. rewrite (get_set _ N.eqb_spec). destruct (N.eqb_spec k k'), (N.eqb_spec k' k); subst; auto; congruence. Qed.

Lemma minv_init : minv idmap_init.
Proof. split; simpl; [intuition discriminate|discriminate]. Qed.
Lemma minv_key m v : minv m ->
  let '(m', k) := obtain_key m v in
  minv m' /\ get N.eqb v (v2k m') = Some k /\ forall v' k', get N.eqb v' (v2k m) = Some k' -> get N.eqb v' (v2k m') = Some k'.
Proof.
  intros I. unfold obtain_key. destruct (get N.eqb v (v2k m)) as [k|] eqn:E; auto.
  split; [|split].
  - split; simpl.
    + intros v' k'. rewrite !get_setN. destruct (N.eqb_spec v' v) as [->|Nv], (N.eqb_spec k' (nextk m)) as [->|Nk].
      * split; congruence.
      * split; [congruence|]. intros H. apply (m_vk _ I) in H. congruence.
      * split; [|congruence]. intros H. apply (m_vk _ I) in H. apply (m_below _ I) in H. lia.
      * apply (m_vk _ I).
    + intros k' v'. rewrite get_setN. destruct (N.eqb_spec k' (nextk m)); [lia|]. intros H. apply (m_below _ I) in H. lia.
  - simpl. now rewrite get_setN, N.eqb_refl.
  - intros v' k' H. simpl. rewrite get_setN. destruct (N.eqb_spec v' v); congruence.
Qed.

Lemma obtain_keys_spec vs : forall m, minv m ->
  let '(m', ks) := obtain_keys m vs in
  minv m' /\ Forall2 (fun v k => get N.eqb v (v2k m') = Some k) vs ks /\
  forall v' k', get N.eqb v' (v2k m) = Some k' -> get N.eqb v' (v2k m') = Some k'.
Proof.
  induction vs as [|v vs IH]; simpl; intros m I; [auto|].
  pose proof (minv_key m v I) as K. destruct (obtain_key m v) as [m1 k]. destruct K as (A & B & C).
  specialize (IH m1 A). destruct (obtain_keys m1 vs) as [m2 ks]. destruct IH as (D & E & F). auto.
Qed.

(** Requests for keys in any order: the same key for the same value, different keys for different values, and
    every key gives back its value. *)
Theorem idmap_bijective (vs : list N) :
  let '(m, ks) := obtain_keys idmap_init vs in
  List.length ks = List.length vs /\
  (forall i j v v' k k', nth_error vs i = Some v -> nth_error ks i = Some k -> nth_error vs j = Some v' -> nth_error ks j = Some k' ->
     (v = v' <-> k = k')) /\
  (forall i v k, nth_error vs i = Some v -> nth_error ks i = Some k -> obtain_value m k = Some v).
Proof.
  pose proof (obtain_keys_spec vs _ minv_init) as H. destruct (obtain_keys idmap_init vs) as [m ks]. destruct H as (I & F & _).
  assert (NT : forall i v k, nth_error vs i = Some v -> nth_error ks i = Some k -> get N.eqb v (v2k m) = Some k).
  { induction F; intros [|i] v k; simpl; try discriminate; [intros [= <-] [= <-]; auto|eauto]. }
  split; [clear NT; induction F; simpl; congruence|]. split.
  - intros i j v v' k k' A B C D. pose proof (NT _ _ _ A B) as X. pose proof (NT _ _ _ C D) as Y. split; [congruence|].
    intros <-. apply (m_vk _ I) in X, Y. congruence.
  - intros i v k A B. apply (m_vk _ I). eauto.
Qed.
Example idmap_case : snd (obtain_keys idmap_init [7; 9; 7; 3]) = [0; 1; 0; 2]. Proof. reflexivity. Qed.

Print Assumptions ids_injective.
Print Assumptions ids_round_trip.
Print Assumptions ids_stable.
Print Assumptions ids_sequential.
Print Assumptions ids_stable_race_refuted.
Print Assumptions ids_round_trip_race_refuted.
Print Assumptions idmap_bijective.
