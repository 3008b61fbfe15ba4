From Coq Require Import List NArith ZArith Bool Lia Sorted.
From Verif Require Import Base Dict Breakpoints BreakpointsSpec.
Import ListNotations.

Lemma Zeqb_reflect a b : reflect (a = b) (Z.eqb a b).
Proof. apply Z.eqb_spec. Qed.

Lemma key_eqb_spec a b : reflect (a = b) (key_eqb a b).
Proof.
  destruct a as [a x], b as [b y]. unfold key_eqb; simpl.
  destruct (str_eqb_spec a b); simpl; [destruct (Z.eqb_spec x y); constructor; congruence|].
  constructor; congruence.
Qed.

Notation sget := (get str_eqb).
Notation zget := (get Z.eqb).

(** ** consolidate: the last breakpoint of the dictionary on the line wins. *)
Fixpoint last_on (l : Z) (d : dict Z bp) : option bp :=
  match d with
  | [] => None
  | (_, b) :: r => match last_on l r with
                   | Some x => Some x
                   | None => if Z.eqb l (bp_line b) then Some b else None
                   end
  end.

Lemma consolidate_fold l d acc :
  zget l (fold_left (fun d (e : Z * bp) => set Z.eqb (bp_line (snd e)) (snd e) d) d acc) =
  match last_on l d with Some b => Some b | None => zget l acc end.
Proof.
  revert acc; induction d as [|[i b] d IH]; intros acc; cbn [fold_left last_on]; auto.
  rewrite IH. destruct (last_on l d); auto. cbn [snd].
  rewrite (get_set _ Zeqb_reflect). destruct (Z.eqb l (bp_line b)); auto.
Qed.

Lemma get_consolidate l d : zget l (consolidate d) = last_on l d.
Proof. unfold consolidate. rewrite consolidate_fold. destruct (last_on l d); auto. Qed.

Lemma last_on_Some l d b : last_on l d = Some b ->
  exists d1 i d2, d = d1 ++ (i, b) :: d2 /\ bp_line b = l /\ last_on l d2 = None.
Proof.
  induction d as [|[i x] d IH]; cbn [last_on]; [discriminate|].
  destruct (last_on l d) eqn:E.
  - intros H. inversion H; subst. destruct (IH eq_refl) as (d1 & i' & d2 & -> & Hb & Hn).
    exists ((i, x) :: d1), i', d2. auto.
  - destruct (Z.eqb_spec l (bp_line x)); [|discriminate]. intros H. inversion H; subst.
    exists [], i, d. auto.
Qed.

Lemma last_on_None l d : last_on l d = None <-> forall i b, In (i, b) d -> bp_line b <> l.
Proof.
  induction d as [|[i x] d IH]; cbn [last_on]; [simpl; split; tauto|].
  destruct (last_on l d) eqn:E.
  - split; [discriminate|]. intros H. exfalso.
    assert (Some b = None) by (apply IH; intros; eapply H; right; eauto). discriminate.
  - destruct (Z.eqb_spec l (bp_line x)).
    + split; [discriminate|]. intros H. exfalso. eapply (H i x); [now left|congruence].
    + split; auto. intros _ i' b [H|H]; [inversion H; subst; congruence|]. now apply IH in H.
Qed.

(** ** The invariant *)
Definition ids_of (s : store) (c : str) : dict Z bp :=
  match sget c (py_ids s) with Some d => d | None => [] end.

Definition birth (P : paths) (c : str) (i : Z) (h : list op) : nat :=
  match current P c i h with Some (_, n) => n | None => 0 end.

Definition before (P : paths) (c : str) (h : list op) (i j : Z) : Prop :=
  (birth P c i h < birth P c j h)%nat.

Record inv (P : paths) (kd : Z -> kind) (s : store) (h : list op) : Prop := {
  i_map : forall f l, srcmap s f l = None;
  i_nd_rec : NoDup (keys (received s));
  i_nd_ids : NoDup (keys (py_ids s));
  i_nd_lines : NoDup (keys (py_lines s));
  i_lines : forall c, sget c (py_lines s) = option_map consolidate (sget c (py_ids s));
  i_nd : forall c, NoDup (keys (ids_of s c));
  i_cur : forall c i, zget i (ids_of s c) = option_map fst (current P c i h);
  i_len : forall c i, current P c i h <> None -> (birth P c i h < length h)%nat;
  i_sort : forall c, StronglySorted (before P c h) (keys (ids_of s c));
  i_rec : forall c i, current P c i h <> None ->
     kd i = PyLine /\ exists q, get key_eqb (norm P (p_name q), i) (received s) = Some (c, q) ;
  i_recw : forall n i c q, get key_eqb (n, i) (received s) = Some (c, q) ->
     n = norm P (p_name q) /\ c = file_of P (p_name q)
}.

Lemma inv_init P kd : inv P kd init [].
Proof.
  constructor; cbn; auto; try constructor; try congruence; try discriminate.
Qed.

Lemma StronglySorted_impl {A} (R R' : A -> A -> Prop) l :
  (forall x y, In x l -> In y l -> R x y -> R' x y) -> StronglySorted R l -> StronglySorted R' l.
Proof.
  intros H Hs. induction Hs; constructor.
  - apply IHHs. intros; apply H; simpl; auto.
  - rewrite Forall_forall in *. intros x Hx. apply H; simpl; auto.
Qed.

Lemma StronglySorted_snoc {A} (R : A -> A -> Prop) l x :
  StronglySorted R l -> (forall y, In y l -> R y x) -> StronglySorted R (l ++ [x]).
Proof.
  intros Hs Hx. induction Hs; simpl.
  - constructor; constructor.
  - constructor.
    + apply IHHs. intros; apply Hx; simpl; auto.
    + apply Forall_app; split; auto. constructor; [apply Hx; simpl; auto|constructor].
Qed.

Lemma StronglySorted_del (R : Z -> Z -> Prop) k (d : dict Z bp) :
  StronglySorted R (keys d) -> StronglySorted R (keys (del Z.eqb k d)).
Proof.
  induction d as [|[i b] d IH]; simpl; auto.
  intros H. inversion H; subst. destruct (Z.eqb k i); auto.
  simpl. constructor; auto. rewrite Forall_forall in *. intros x Hx. apply H3.
  eapply keys_del_incl; eauto.
Qed.

Lemma in_keys_current P kd s h c i : inv P kd s h -> In i (keys (ids_of s c)) -> current P c i h <> None.
Proof.
  intros I H E. pose proof (i_cur _ _ _ _ I c i) as G. rewrite E in G. simpl in G.
  apply (get_None _ Zeqb_reflect) in G. contradiction.
Qed.

(** The received record changes, the Python dictionaries and the current breakpoints do not. *)
Lemma inv_ext P kd s h o rec' tids tlines :
  inv P kd s h ->
  (forall c i, current P c i (o :: h) = current P c i h) ->
  NoDup (keys rec') ->
  (forall c i, current P c i h <> None ->
     exists q, get key_eqb (norm P (p_name q), i) rec' = Some (c, q)) ->
  (forall n i c q, get key_eqb (n, i) rec' = Some (c, q) ->
     n = norm P (p_name q) /\ c = file_of P (p_name q)) ->
  inv P kd (Store rec' (py_ids s) tids (py_lines s) tlines (srcmap s)) (o :: h).
Proof.
  intros I Hc Hn Hr Hw. constructor; cbn [srcmap received py_ids py_lines]; try apply I; auto.
  - intros c i. rewrite Hc. apply (i_cur _ _ _ _ I c i).
  - intros c i. unfold birth. rewrite Hc. intros H. pose proof (i_len _ _ _ _ I c i H) as L.
    unfold birth in L. cbn [length]. lia.
  - intros c. eapply StronglySorted_impl; [|apply (i_sort _ _ _ _ I c)].
    intros x y _ _. unfold before, birth. now rewrite !Hc.
  - intros c i H. rewrite Hc in H. split; [now apply (i_rec _ _ _ _ I c i)|]. auto.
Qed.

Section WithPaths.
Variable P : paths.
Variable kd : Z -> kind.
Hypothesis HP : coherent P.

Lemma rec_set_keeps s h q :
  inv P kd s h ->
  let c0 := file_of P (p_name q) in
  let rec' := set key_eqb (norm P (p_name q), p_id q) (c0, q) (received s) in
  NoDup (keys rec') /\
  (forall c i, current P c i h <> None ->
     exists q', get key_eqb (norm P (p_name q'), i) rec' = Some (c, q')) /\
  (forall n i c q', get key_eqb (n, i) rec' = Some (c, q') ->
     n = norm P (p_name q') /\ c = file_of P (p_name q')).
Proof.
  intros I c0 rec'. split; [|split].
  - apply (NoDup_keys_set _ key_eqb_spec). apply I.
  - intros c i H. destruct (i_rec _ _ _ _ I c i H) as (_ & q' & G).
    unfold rec'. destruct (key_eqb_spec (norm P (p_name q'), i) (norm P (p_name q), p_id q)) as [E|E].
    + injection E as E1 E2. subst i. exists q.
      rewrite (get_set_same _ key_eqb_spec).
      apply HP in E1. destruct (i_recw _ _ _ _ I _ _ _ _ G) as [_ ->]. unfold c0. now rewrite E1.
    + exists q'. rewrite (get_set_other _ key_eqb_spec); congruence.
  - intros n i c q'. unfold rec'. rewrite (get_set _ key_eqb_spec).
    destruct (key_eqb_spec (n, i) (norm P (p_name q), p_id q)) as [E|E].
    + intros H. inversion H; subst. inversion E; subst. auto.
    + apply (i_recw _ _ _ _ I).
Qed.

Lemma step_add s h q valid found sup :
  inv P kd s h -> p_kind q = kd (p_id q) ->
  inv P kd (fst (add P s q valid found sup)) (Add q valid found sup :: h).
Proof.
  intros I Hk. unfold add. rewrite (i_map _ _ _ _ I).
  set (abs := absolute P (server P (p_name q))).
  fold (file_of P (p_name q)). set (c0 := file_of P (p_name q)).
  destruct (rec_set_keeps s h q I) as (R1 & R2 & R3). fold c0 in R1, R2, R3.
  set (rec' := set key_eqb (norm P (p_name q), p_id q) (c0, q) (received s)) in *.
  destruct (negb (starts_with lt_sign abs) && negb found) eqn:Enf.
  - (* not found *)
    apply inv_ext; auto. intros c i. cbn [current]. unfold accepted. fold abs.
    replace (starts_with lt_sign abs || found) with false.
    + now rewrite andb_false_r.
    + apply andb_true_iff in Enf. destruct (starts_with lt_sign abs), found; simpl in *; intuition.
  - assert (Hacc : accepted P q found = true).
    { unfold accepted. fold abs. destruct (starts_with lt_sign abs), found; simpl in *; congruence. }
    destruct (p_kind q) eqn:Ek.
    + (* python *)
      cbn [put fst].
      set (line := if starts_with lt_sign abs then p_line q else adjust_line valid (p_line q)).
      assert (Hline : effective_line P q valid = line) by reflexivity.
      fold (ids_of s c0).
      set (b := Bp (p_id q) line (p_info q)).
      set (d' := set Z.eqb (bp_id b) b (ids_of s c0)).
      assert (Hcur : forall c i, current P c i (Add q valid found sup :: h) =
         if str_eqb c0 c && Z.eqb (p_id q) i
         then Some (b, match current P c i h with Some (_, n) => n | None => length h end)
         else current P c i h).
      { intros c i. cbn [current]. rewrite Ek, Hacc. cbn [is_py andb]. fold c0. rewrite Hline.
        destruct (str_eqb c0 c); cbn [andb]; auto.
        destruct (Z.eqb_spec (p_id q) i); auto. subst i. reflexivity. }
      assert (Hids : forall c, ids_of (Store rec' (set str_eqb c0 d' (py_ids s)) (tpl_ids s)
                (set str_eqb c0 (consolidate d') (py_lines s)) (tpl_lines s) (srcmap s)) c =
                if str_eqb c c0 then d' else ids_of s c).
      { intros c. unfold ids_of. cbn [py_ids]. rewrite (get_set _ str_eqb_spec).
        destruct (str_eqb c c0); auto. }
      constructor; cbn [srcmap received py_ids py_lines]; try apply I; auto.
      * apply (NoDup_keys_set _ str_eqb_spec). apply I.
      * apply (NoDup_keys_set _ str_eqb_spec). apply I.
      * intros c. rewrite !(get_set _ str_eqb_spec). destruct (str_eqb c c0); auto. apply I.
      * intros c. rewrite Hids. destruct (str_eqb_spec c c0); [|apply I].
        apply (NoDup_keys_set _ Zeqb_reflect). apply I.
      * intros c i. rewrite Hids, Hcur. destruct (str_eqb_spec c c0) as [->|n].
        -- unfold d'. rewrite (get_set _ Zeqb_reflect). cbn [bp_id b].
           destruct (str_eqb_spec c0 c0); [|congruence]. cbn [andb]. rewrite Z.eqb_sym.
           destruct (Z.eqb (p_id q) i); auto. apply I.
        -- destruct (str_eqb_spec c0 c); [congruence|]. cbn [andb]. apply I.
      * intros c i. unfold birth. rewrite Hcur. cbn [length].
        pose proof (i_len _ _ _ _ I c i) as L. unfold birth in L.
        destruct (str_eqb c0 c && Z.eqb (p_id q) i).
        -- intros _. destruct (current P c i h) as [[]|]; [|lia].
           enough (n < length h)%nat by lia. apply L. discriminate.
        -- intros H. enough (match current P c i h with Some (_, n) => n | None => 0 end < length h)%nat by lia. auto.
      * intros c. rewrite Hids. destruct (str_eqb_spec c c0) as [->|n].
        -- unfold d'. rewrite (keys_set _ Zeqb_reflect). cbn [bp_id b]. unfold mem.
           pose proof (i_cur _ _ _ _ I c0 (p_id q)) as G.
           assert (Hb : forall i, In i (keys (ids_of s c0)) ->
              birth P c0 i (Add q valid found sup :: h) = birth P c0 i h).
           { intros i Hi. apply (in_keys_current _ _ _ _ _ _ I) in Hi. unfold birth. rewrite Hcur.
             destruct (str_eqb c0 c0 && Z.eqb (p_id q) i); auto.
             destruct (current P c0 i h) as [[]|]; congruence. }
           destruct (zget (p_id q) (ids_of s c0)) eqn:E.
           ++ eapply StronglySorted_impl; [|apply (i_sort _ _ _ _ I c0)].
              intros x y Hx Hy. unfold before. now rewrite !Hb.
           ++ apply StronglySorted_snoc.
              ** eapply StronglySorted_impl; [|apply (i_sort _ _ _ _ I c0)].
                 intros x y Hx Hy. unfold before. now rewrite !Hb.
              ** intros y Hy. unfold before. rewrite Hb by auto.
                 apply (in_keys_current _ _ _ _ _ _ I) in Hy.
                 pose proof (i_len _ _ _ _ I c0 y Hy) as L.
                 unfold birth at 2. rewrite Hcur.
                 destruct (str_eqb_spec c0 c0); [|congruence]. rewrite Z.eqb_refl. cbn [andb].
                 destruct (current P c0 (p_id q) h) as [[]|]; [discriminate|]. exact L.
        -- eapply StronglySorted_impl; [|apply (i_sort _ _ _ _ I c)].
           intros x y _ _. unfold before, birth. rewrite !Hcur.
           destruct (str_eqb_spec c0 c); [congruence|]. auto.
      * intros c i. rewrite Hcur. destruct (str_eqb_spec c0 c) as [<-|n]; cbn [andb].
        -- destruct (Z.eqb_spec (p_id q) i) as [<-|n].
           ++ intros _. split; [congruence|]. exists q. unfold rec'.
              now rewrite (get_set_same _ key_eqb_spec).
           ++ intros H. split; [apply (i_rec _ _ _ _ I c0 i H)|]. auto.
        -- intros H. split; [apply (i_rec _ _ _ _ I c i H)|]. auto.
    + (* template *)
      assert (Hcur : forall c i, current P c i (Add q valid found sup :: h) = current P c i h).
      { intros c i. cbn [current]. rewrite Ek. reflexivity. }
      destruct sup; cbn [put fst]; apply inv_ext; auto.
Qed.

Lemma rec_del_get s h n i n' i' : inv P kd s h ->
  get key_eqb (n', i') (del key_eqb (n, i) (received s)) =
  if key_eqb (n', i') (n, i) then None else get key_eqb (n', i') (received s).
Proof. intros I. apply (get_del _ key_eqb_spec). apply I. Qed.

Lemma step_remove s h name k i sup :
  inv P kd s h -> k = kd i ->
  inv P kd (remove_one P s name k i sup) (Remove name k i sup :: h).
Proof.
  intros I Hk. unfold remove_one. fold (file_of P name). set (c0 := file_of P name).
  set (rec' := del key_eqb (norm P name, i) (received s)).
  assert (R1 : NoDup (keys rec')) by (apply (NoDup_keys_del); apply I).
  assert (R3 : forall n i' c q', get key_eqb (n, i') rec' = Some (c, q') ->
     n = norm P (p_name q') /\ c = file_of P (p_name q')).
  { intros n i' c q'. unfold rec'. rewrite (rec_del_get s h) by auto.
    destruct (key_eqb (n, i') (norm P name, i)); [discriminate|]. apply (i_recw _ _ _ _ I). }
  assert (R2 : forall c i', current P c i' h <> None -> (c <> c0 \/ i' <> i) ->
     exists q', get key_eqb (norm P (p_name q'), i') rec' = Some (c, q')).
  { intros c i' H Hd. destruct (i_rec _ _ _ _ I c i' H) as (_ & q' & G). exists q'.
    unfold rec'. rewrite (rec_del_get s h) by auto.
    destruct (key_eqb_spec (norm P (p_name q'), i') (norm P name, i)) as [E|E]; auto.
    injection E as E1 E2. exfalso. apply HP in E1. destruct (i_recw _ _ _ _ I _ _ _ _ G) as [_ ->].
    fold c0 in E1. destruct Hd; congruence. }
  destruct k as [|t].
  - (* python *)
    assert (Hcur : forall c i', current P c i' (Remove name PyLine i sup :: h) =
       if str_eqb c0 c && Z.eqb i i' then None else current P c i' h) by reflexivity.
    unfold take.
    assert (Habs : zget i (ids_of s c0) = None ->
       inv P kd (Store rec' (py_ids s) (tpl_ids s) (py_lines s) (tpl_lines s) (srcmap s))
         (Remove name PyLine i sup :: h)).
    { intros E.
      assert (En : current P c0 i h = None).
      { rewrite (i_cur _ _ _ _ I) in E. destruct (current P c0 i h); [discriminate|auto]. }
      apply inv_ext; auto.
      - intros c i'. rewrite Hcur. destruct (str_eqb_spec c0 c); cbn [andb]; auto. subst c.
        destruct (Z.eqb_spec i i'); auto. subst. auto.
      - intros c i' H. apply R2; auto. destruct (str_eqb_spec c c0); auto. subst c. right. congruence. }
    destruct (sget c0 (py_ids s)) as [d|] eqn:Ed.
    2:{ apply Habs. unfold ids_of. rewrite Ed. reflexivity. }
    assert (Eids : ids_of s c0 = d) by (unfold ids_of; now rewrite Ed).
    destruct (zget i d) as [b0|] eqn:Eb.
    2:{ apply Habs. now rewrite Eids. }
    clear Habs. set (d' := del Z.eqb i d).
    assert (Hids : forall c, ids_of (Store rec' (set str_eqb c0 d' (py_ids s)) (tpl_ids s)
                (set str_eqb c0 (consolidate d') (py_lines s)) (tpl_lines s) (srcmap s)) c =
                if str_eqb c c0 then d' else ids_of s c).
    { intros c. unfold ids_of. cbn [py_ids]. rewrite (get_set _ str_eqb_spec).
      destruct (str_eqb c c0); auto. }
    pose proof (i_nd _ _ _ _ I c0) as Hnd. rewrite Eids in Hnd.
    constructor; cbn [srcmap received py_ids py_lines]; try apply I; auto.
    + apply (NoDup_keys_set _ str_eqb_spec). apply I.
    + apply (NoDup_keys_set _ str_eqb_spec). apply I.
    + intros c. rewrite !(get_set _ str_eqb_spec). destruct (str_eqb c c0); auto. apply I.
    + intros c. rewrite Hids. destruct (str_eqb c c0); [|apply I]. now apply NoDup_keys_del.
    + intros c i'. rewrite Hids, Hcur. destruct (str_eqb_spec c c0) as [->|n].
      * unfold d'. rewrite (get_del _ Zeqb_reflect) by auto.
        destruct (str_eqb_spec c0 c0); [|congruence]. cbn [andb]. rewrite (Z.eqb_sym i i').
        destruct (Z.eqb i' i); auto. rewrite <- Eids. apply I.
      * destruct (str_eqb_spec c0 c); [congruence|]. cbn [andb]. apply I.
    + intros c i'. unfold birth. rewrite Hcur. cbn [length].
      destruct (str_eqb c0 c && Z.eqb i i'); [congruence|]. intros H.
      pose proof (i_len _ _ _ _ I c i' H) as L. unfold birth in L. lia.
    + intros c. rewrite Hids. destruct (str_eqb_spec c c0) as [->|n].
      * eapply StronglySorted_impl; [|apply StronglySorted_del; rewrite <- Eids; apply (i_sort _ _ _ _ I c0)].
        intros x y Hx Hy. unfold before, birth. rewrite !Hcur.
        assert (G : forall z, In z (keys d') -> Z.eqb i z = false).
        { intros z Hz. destruct (Z.eqb_spec i z); auto. subst z. exfalso.
          apply (get_None _ Zeqb_reflect) in Hz; auto. unfold d'. now apply (get_del_same _ Zeqb_reflect). }
        rewrite (G x) by auto. rewrite (G y) by auto. rewrite !andb_false_r. auto.
      * eapply StronglySorted_impl; [|apply (i_sort _ _ _ _ I c)].
        intros x y _ _. unfold before, birth. rewrite !Hcur.
        destruct (str_eqb_spec c0 c); [congruence|]. auto.
    + intros c i'. rewrite Hcur. destruct (str_eqb c0 c && Z.eqb i i') eqn:E; [congruence|].
      intros H. split; [apply (i_rec _ _ _ _ I c i' H)|]. apply R2; auto.
      destruct (str_eqb_spec c c0); auto. subst c. right. intros ->.
      rewrite Z.eqb_refl in E. destruct (str_eqb_spec c0 c0); [discriminate|congruence].
  - (* template *)
    assert (Hcur : forall c i', current P c i' (Remove name (Template t) i sup :: h) = current P c i' h)
      by reflexivity.
    assert (R2' : forall c i', current P c i' h <> None ->
       exists q', get key_eqb (norm P (p_name q'), i') rec' = Some (c, q')).
    { intros c i' H. apply R2; auto. right. intros ->.
      destruct (i_rec _ _ _ _ I c i H) as [K _]. congruence. }
    destruct sup; [destruct (take (tpl_ids s) (tpl_lines s t) c0 i)|]; apply inv_ext; auto.
Qed.

Lemma del_all_get cs d c : NoDup (keys d) ->
  sget c (del_all cs d) = if existsb (str_eqb c) cs then None else sget c d.
Proof.
  unfold del_all. revert d. induction cs as [|x cs IH]; intros d Hn; cbn [fold_left existsb]; auto.
  rewrite IH by (now apply NoDup_keys_del). rewrite (get_del _ str_eqb_spec) by auto.
  destruct (str_eqb c x); cbn [orb]; auto. destruct (existsb (str_eqb c) cs); auto.
Qed.

Lemma NoDup_del_all cs d : NoDup (keys d) -> NoDup (keys (del_all cs d)).
Proof.
  unfold del_all. revert d. induction cs; intros d H; cbn [fold_left]; auto. apply IHcs. now apply NoDup_keys_del.
Qed.

Lemma filter_get {V} (f : (str * Z) -> bool) (d : dict (str * Z) V) k :
  get key_eqb k (filter (fun e => f (fst e)) d) = if f k then get key_eqb k d else None.
Proof.
  induction d as [|[k' v] d IH]; cbn [filter get fst].
  - now destruct (f k).
  - destruct (f k') eqn:E; cbn [get].
    + destruct (key_eqb_spec k k'); [subst; now rewrite E|exact IH].
    + rewrite IH. destruct (key_eqb_spec k k'); [subst; rewrite E; auto|auto].
Qed.

Lemma NoDup_filter_keys {V} (f : (str * Z) * V -> bool) (d : dict (str * Z) V) :
  NoDup (keys d) -> NoDup (keys (filter f d)).
Proof.
  induction d as [|e d IH]; cbn; auto. intros H. inversion H; subst. destruct (f e); auto.
  cbn. constructor; auto. intros Hi. apply H2. unfold keys in *. apply in_map_iff in Hi.
  destruct Hi as (x & Ex & Hx). apply filter_In in Hx. apply in_map_iff. exists x. tauto.
Qed.

Lemma step_remove_file s h name :
  inv P kd s h -> inv P kd (remove_file P s name) (RemoveFile name :: h).
Proof.
  intros I. unfold remove_file. set (n := norm P name). set (c0 := file_of P name).
  set (cs := map _ _).
  assert (Hcs : forall c, existsb (str_eqb c) cs = true ->  c = c0).
  { intros c H. apply existsb_exists in H. destruct H as (x & Hx & E).
    destruct (str_eqb_spec c x); [|discriminate]. subst x. unfold cs in Hx.
    apply in_map_iff in Hx. destruct Hx as ([[n' i] [c' q]] & <- & Hf).
    apply filter_In in Hf. destruct Hf as [Hf En]. cbn in En |- *.
    destruct (str_eqb_spec n' n); [|discriminate]. subst n'.
    apply (In_get _ key_eqb_spec) in Hf; [|apply I].
    destruct (i_recw _ _ _ _ I _ _ _ _ Hf) as [E1 ->]. unfold c0.
    symmetry. apply HP. exact E1. }
  assert (Hcs2 : forall i, current P c0 i h <> None -> existsb (str_eqb c0) cs = true).
  { intros i H. destruct (i_rec _ _ _ _ I c0 i H) as (_ & q & G).
    apply existsb_exists. exists c0. split; [|destruct (str_eqb_spec c0 c0); congruence].
    unfold cs. apply in_map_iff. exists ((norm P (p_name q), i), (c0, q)). split; auto.
    apply filter_In. split; [now apply (get_In _ key_eqb_spec)|]. cbn.
    destruct (i_recw _ _ _ _ I _ _ _ _ G) as [_ E]. unfold c0 in E. apply HP in E.
    unfold n. rewrite <- E. destruct (str_eqb_spec (norm P name) (norm P name)); congruence. }
  set (s' := Store _ _ _ _ _ _).
  assert (Hids : forall c, ids_of s' c = if existsb (str_eqb c) cs then [] else ids_of s c).
  { intros c. unfold ids_of. cbn [py_ids s']. rewrite del_all_get by apply I.
    destruct (existsb (str_eqb c) cs); auto. }
  assert (Hcur : forall c i, current P c i (RemoveFile name :: h) =
     if existsb (str_eqb c) cs then None else current P c i h).
  { intros c i. cbn [current]. fold c0.
    destruct (existsb (str_eqb c) cs) eqn:E.
    - apply Hcs in E. subst. destruct (str_eqb_spec c0 c0); congruence.
    - destruct (str_eqb_spec c0 c); auto. subst c.
      destruct (current P c0 i h) eqn:Ec; auto. rewrite (Hcs2 i) in E by congruence. discriminate. }
  constructor; cbn [srcmap received py_ids py_lines s']; try apply I.
  - apply NoDup_filter_keys. apply I.
  - apply NoDup_del_all. apply I.
  - apply NoDup_del_all. apply I.
  - intros c. rewrite !del_all_get by apply I. destruct (existsb (str_eqb c) cs); auto. apply I.
  - intros c. rewrite Hids. destruct (existsb (str_eqb c) cs); [constructor|apply I].
  - intros c i. rewrite Hids, Hcur. destruct (existsb (str_eqb c) cs); auto. apply I.
  - intros c i. unfold birth. rewrite Hcur. cbn [length]. destruct (existsb (str_eqb c) cs); [congruence|].
    intros H. pose proof (i_len _ _ _ _ I c i H) as L. unfold birth in L. lia.
  - intros c. rewrite Hids. destruct (existsb (str_eqb c) cs) eqn:E; [constructor|].
    eapply StronglySorted_impl; [|apply (i_sort _ _ _ _ I c)].
    intros x y _ _. unfold before, birth. rewrite !Hcur, E. auto.
  - intros c i. rewrite Hcur. destruct (existsb (str_eqb c) cs) eqn:E; [congruence|].
    intros H. destruct (i_rec _ _ _ _ I c i H) as (K & q & G). split; auto. exists q.
    rewrite (filter_get (fun k => negb (str_eqb (fst k) n))). cbn [fst].
    destruct (str_eqb_spec (norm P (p_name q)) n) as [En|En]; auto. exfalso.
    unfold n in En. apply HP in En. fold c0 in En. destruct (i_recw _ _ _ _ I _ _ _ _ G) as [_ Ec].
    rewrite En in Ec. subst c. rewrite (Hcs2 i) in E by auto. discriminate.
  - intros n' i c q. rewrite (filter_get (fun k => negb (str_eqb (fst k) n))). cbn [fst].
    destruct (negb (str_eqb n' n)); [|discriminate]. apply (i_recw _ _ _ _ I).
Qed.

Lemma step_remove_all s h : inv P kd s h -> inv P kd (remove_all s) (RemoveAll :: h).
Proof.
  intros I. constructor; cbn; try apply I; try constructor; auto; try congruence; try discriminate.
Qed.

Lemma inv_run : forall ops s h, one_kind_per_id kd ops -> inv P kd s h ->
  inv P kd (fold_left (step P) ops s) (rev ops ++ h).
Proof.
  induction ops as [|o ops IH]; intros s h Hk I; auto.
  inversion Hk; subst. cbn [fold_left rev]. rewrite <- app_assoc. apply IH; auto.
  destruct o; cbn [step app].
  - now apply step_add.
  - now apply step_remove.
  - now apply step_remove_file.
  - now apply step_remove_all.
Qed.

End WithPaths.

Lemma inv_of P kd ops : coherent P -> one_kind_per_id kd ops -> inv P kd (run P ops) (rev ops).
Proof.
  intros HP Hk. pose proof (inv_run P kd HP ops init [] Hk (inv_init P kd)). now rewrite app_nil_r in H.
Qed.

Lemma StronglySorted_app_lt {A} (R : A -> A -> Prop) l1 x l2 y :
  StronglySorted R (l1 ++ x :: l2) -> In y l1 -> R y x.
Proof.
  induction l1 as [|z l1 IH]; simpl; [tauto|]. intros H [->|Hi]; inversion H; subst.
  - rewrite Forall_forall in H3. apply H3. apply in_app_iff. simpl. auto.
  - auto.
Qed.

(** What the tracer finds on a line. *)
Lemma stop_at_spec P kd ops c l b : coherent P -> one_kind_per_id kd ops ->
  (stop_at (run P ops) c l = Some b <->
   exists i n, current P c i (rev ops) = Some (b, n) /\ bp_line b = l /\
     forall i' b' n', current P c i' (rev ops) = Some (b', n') -> bp_line b' = l -> (n' <= n)%nat).
Proof.
  intros HP Hk. pose proof (inv_of P kd ops HP Hk) as I.
  set (s := run P ops) in *. set (h := rev ops) in *.
  assert (E : stop_at s c l = last_on l (ids_of s c)).
  { unfold stop_at, ids_of. rewrite (i_lines _ _ _ _ I). destruct (sget c (py_ids s)); simpl; auto.
    apply get_consolidate. }
  rewrite E. clear E. pose proof (i_nd _ _ _ _ I c) as Hnd. pose proof (i_sort _ _ _ _ I c) as Hs.
  assert (Hin : forall i b, In (i, b) (ids_of s c) <-> exists n, current P c i h = Some (b, n)).
  { intros i b0. pose proof (i_cur _ _ _ _ I c i) as G. split.
    - intros Hi. apply (In_get _ Zeqb_reflect) in Hi; auto. rewrite G in Hi.
      destruct (current P c i h) as [[b1 n1]|]; [|discriminate]. simpl in Hi. inversion Hi; subst. eauto.
    - intros [n Hn]. rewrite Hn in G. simpl in G. now apply (get_In _ Zeqb_reflect). }
  split.
  - intros H. apply last_on_Some in H. destruct H as (d1 & i & d2 & Ed & Hl & Hn).
    destruct (proj1 (Hin i b)) as [n Hc]; [rewrite Ed; apply in_app_iff; simpl; auto|].
    exists i, n. split; [|split]; auto. intros i' b' n' Hc' Hl'.
    assert (Hi' : In (i', b') (ids_of s c)) by (apply Hin; eauto).
    rewrite Ed in Hi'. apply in_app_iff in Hi'. destruct Hi' as [Hi'|[Hi'|Hi']].
    + unfold keys in Hs. rewrite Ed, map_app in Hs. simpl in Hs.
      assert (B : before P c h i' i).
      { eapply StronglySorted_app_lt; eauto. apply in_map_iff. exists (i', b'). auto. }
      unfold before, birth in B. rewrite Hc, Hc' in B. lia.
    + inversion Hi'; subst. rewrite Hc in Hc'. inversion Hc'. lia.
    + exfalso. eapply (proj1 (last_on_None l d2)); eauto.
  - intros (i & n & Hc & Hl & Hmax).
    destruct (last_on l (ids_of s c)) as [b1|] eqn:E1.
    + apply last_on_Some in E1. destruct E1 as (d1 & i1 & d2 & Ed & Hl1 & Hn).
      assert (Hi : In (i, b) (ids_of s c)) by (apply Hin; eauto).
      rewrite Ed in Hi. apply in_app_iff in Hi. destruct Hi as [Hi|[Hi|Hi]].
      * exfalso. unfold keys in Hs. rewrite Ed, map_app in Hs. simpl in Hs.
        assert (B : before P c h i i1).
        { eapply StronglySorted_app_lt; eauto. apply in_map_iff. exists (i, b). auto. }
        destruct (proj1 (Hin i1 b1)) as [n1 Hc1]; [rewrite Ed; apply in_app_iff; simpl; auto|].
        unfold before, birth in B. rewrite Hc, Hc1 in B. specialize (Hmax _ _ _ Hc1 Hl1). lia.
      * congruence.
      * exfalso. eapply (proj1 (last_on_None l d2)); eauto.
    + exfalso. eapply (proj1 (last_on_None l (ids_of s c))); eauto. apply Hin. eauto.
Qed.
