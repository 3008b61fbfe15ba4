From Coq Require Import List NArith ZArith Bool Lia Sorted.
From Verif Require Import Base Dict Breakpoints BreakpointsSpec BreakpointsProofs.
Import ListNotations.

Record jnv (P : paths) (s : store) (next : Z) : Prop := {
  j_nd_rec : NoDup (keys (received s));
  j_nd_ids : NoDup (keys (py_ids s));
  j_nd_lines : NoDup (keys (py_lines s));
  j_lines : forall c, sget c (py_lines s) = option_map consolidate (sget c (py_ids s));
  j_nd : forall c, NoDup (keys (ids_of s c));
  j_rec : forall c i, In i (keys (ids_of s c)) ->
     exists n q, get key_eqb (n, i) (received s) = Some (c, q);
  j_recw : forall n i c q, get key_eqb (n, i) (received s) = Some (c, q) ->
     p_id q = i /\ (i < next)%Z;
  j_ids : NoDup (map snd (keys (received s)))
}.

Lemma jnv_empty P s next : received s = [] -> py_ids s = [] -> py_lines s = [] -> jnv P s next.
Proof.
  intros A B C. constructor; unfold ids_of; rewrite ?A, ?B, ?C; cbn; auto; try constructor;
    try tauto; discriminate.
Qed.

Lemma jnv_next P s next next' : (next <= next')%Z -> jnv P s next -> jnv P s next'.
Proof.
  intros L J. constructor; try apply J. intros n i c q H. destruct (j_recw _ _ _ J n i c q H). split; auto. lia.
Qed.

Definition fresh (s : store) (i : Z) : Prop := ~ In i (map snd (keys (received s))).

Lemma fresh_not_in P s next i c : jnv P s next -> fresh s i -> ~ In i (keys (ids_of s c)).
Proof.
  intros J F H. destruct (j_rec _ _ _ J c i H) as (n & q & G). apply F.
  apply (get_In _ key_eqb_spec) in G. apply in_map_iff. exists (n, i). split; auto.
  apply in_map_iff. exists ((n, i), (c, q)). auto.
Qed.

Lemma fresh_next P s next i : jnv P s next -> (next <= i)%Z -> fresh s i.
Proof.
  intros J L H. apply in_map_iff in H. destruct H as ([n i'] & E & H). simpl in E. subst i'.
  apply in_map_iff in H. destruct H as ([[n' i'] [c q]] & E & H). simpl in E. inversion E; subst.
  apply (In_get _ key_eqb_spec) in H; [|apply J]. destruct (j_recw _ _ _ J _ _ _ _ H). lia.
Qed.

Lemma NoDup_snoc {A} (l : list A) x : NoDup l -> ~ In x l -> NoDup (l ++ [x]).
Proof.
  intros H Hx. induction H; simpl.
  - constructor; auto. constructor.
  - simpl in Hx. constructor.
    + rewrite in_app_iff. simpl. intuition congruence.
    + apply IHNoDup. tauto.
Qed.

(** Effect of recording a fresh request. *)
Lemma jnv_record P s next n c q tids tlines m :
  jnv P s next -> fresh s (p_id q) -> (p_id q < next)%Z ->
  jnv P (Store (set key_eqb (n, p_id q) (c, q) (received s)) (py_ids s) tids (py_lines s) tlines m) next.
Proof.
  intros J F L. 
  assert (Hn : get key_eqb (n, p_id q) (received s) = None).
  { apply (get_None _ key_eqb_spec). intros H. apply F. apply in_map_iff. exists (n, p_id q). auto. }
  constructor; cbn [received py_ids py_lines]; try apply J.
  - apply (NoDup_keys_set _ key_eqb_spec). apply J.
  - intros c' i H. destruct (j_rec _ _ _ J c' i H) as (n' & q' & G). exists n', q'.
    rewrite (get_set_other _ key_eqb_spec); auto. intros E. congruence.
  - intros n' i c' q'. rewrite (get_set _ key_eqb_spec).
    destruct (key_eqb_spec (n', i) (n, p_id q)); [|apply J].
    intros H. inversion H; subst. inversion e; subst. auto.
  - rewrite (keys_set _ key_eqb_spec). unfold mem. rewrite Hn, map_app. simpl.
    apply NoDup_snoc; auto. apply J.
Qed.

Lemma jnv_put P s next n c q line tids tlines m :
  jnv P s next -> fresh s (p_id q) -> (p_id q < next)%Z ->
  let b := Bp (p_id q) line (p_info q) in
  let il := put (py_ids s) (py_lines s) c b in
  let s' := Store (set key_eqb (n, p_id q) (c, q) (received s)) (fst il) tids (snd il) tlines m in
  jnv P s' next /\
  forall c' l, stop_at s' c' l = if str_eqb c c' && Z.eqb line l then Some b else stop_at s c' l.
Proof.
  intros J F L b il s'.
  pose proof (jnv_record P s next n c q tids tlines m J F L) as J0.
  set (rec' := set key_eqb (n, p_id q) (c, q) (received s)) in *.
  set (d' := set Z.eqb (p_id q) b (ids_of s c)).
  assert (Hnone : zget (p_id q) (ids_of s c) = None).
  { apply (get_None _ Zeqb_reflect). eapply fresh_not_in; eauto. }
  assert (Hd' : d' = ids_of s c ++ [(p_id q, b)]).
  { unfold d'. now apply (set_absent _). }
  assert (Eil : il = (set str_eqb c d' (py_ids s), set str_eqb c (consolidate d') (py_lines s))).
  { reflexivity. }
  assert (Hids : forall c', ids_of s' c' = if str_eqb c' c then d' else ids_of s c').
  { intros c'. unfold ids_of, s'. cbn [py_ids]. rewrite Eil. cbn [fst].
    rewrite (get_set _ str_eqb_spec). destruct (str_eqb c' c); auto. }
  split.
  - constructor; unfold s'; rewrite Eil; cbn [received py_ids py_lines fst snd]; try apply J0.
    + apply (NoDup_keys_set _ str_eqb_spec). apply J.
    + apply (NoDup_keys_set _ str_eqb_spec). apply J.
    + intros c'. rewrite !(get_set _ str_eqb_spec). destruct (str_eqb c' c); auto. apply J.
    + intros c'. specialize (Hids c'). unfold s' in Hids. rewrite Eil in Hids. cbn [fst snd] in Hids.
      rewrite Hids. destruct (str_eqb c' c); [|apply J]. apply (NoDup_keys_set _ Zeqb_reflect). apply J.
    + intros c' i. specialize (Hids c'). unfold s' in Hids. rewrite Eil in Hids. cbn [fst snd] in Hids.
      rewrite Hids. clear Hids. destruct (str_eqb_spec c' c) as [Ec|ne].
      * subst c'. rewrite Hd'. unfold keys. rewrite map_app, in_app_iff. intros [Hi|[<-|[]]].
        -- destruct (j_rec _ _ _ J0 c i) as (n' & q' & G); [exact Hi|]. exists n', q'. exact G.
        -- exists n, q. unfold rec'. now rewrite (get_set_same _ key_eqb_spec).
      * intros Hi. destruct (j_rec _ _ _ J0 c' i) as (n' & q' & G); [exact Hi|]. exists n', q'. exact G.
  - intros c' l. unfold stop_at, s'. cbn [py_lines]. rewrite Eil. cbn [snd].
    rewrite (get_set _ str_eqb_spec). destruct (str_eqb_spec c' c) as [->|ne].
    + destruct (str_eqb_spec c c); [|congruence]. cbn [andb]. rewrite get_consolidate, Hd'.
      assert (G : forall d, last_on l (d ++ [(p_id q, b)]) = if Z.eqb l line then Some b else last_on l d).
      { induction d as [|[i x] d IH]; cbn [app last_on].
        - cbn [bp_line b]. destruct (Z.eqb l line); auto.
        - rewrite IH. destruct (Z.eqb l line); auto. }
      rewrite G, (Z.eqb_sym line l). destruct (Z.eqb l line); auto.
      unfold ids_of. rewrite (j_lines _ _ _ J). destruct (sget c (py_ids s)); cbn; auto.
      now rewrite get_consolidate.
    + destruct (str_eqb_spec c c'); [congruence|]. reflexivity.
Qed.

(** One breakpoint of a request, or one re-applied. *)
Definition place_of (P : paths) (m : str -> Z -> option (str * Z)) (q : params) valid (found : bool)
  : option (str * Z) :=
  placed P m (p_name q) (SourceBp (p_line q) (p_info q) valid found true).

Lemma jnv_add P s next q valid found sup s' o :
  jnv P s next -> fresh s (p_id q) -> (p_id q < next)%Z ->
  add P s q valid found sup = (s', o) ->
  jnv P s' next /\ srcmap s' = srcmap s /\
  (forall i, fresh s i -> i <> p_id q -> fresh s' i) /\
  (p_kind q = PyLine -> o <> UnsupportedType /\ forall c l,
     stop_at s' c l = match place_of P (srcmap s) q valid found with
                      | Some (f, l') => if str_eqb f c && Z.eqb l' l
                                        then Some (Bp (p_id q) l (p_info q)) else stop_at s c l
                      | None => stop_at s c l
                      end) /\
  (p_kind q <> PyLine -> forall c l, stop_at s' c l = stop_at s c l).
Proof.
  intros J F L. unfold add.
  set (tr := match srcmap s (server P (p_name q)) (p_line q) with Some (f, l) => _ | None => _ end).
  destruct tr as [[abs c0] line] eqn:Etr.
  assert (Hplace : place_of P (srcmap s) q valid found =
     if starts_with lt_sign abs || found then Some (c0, line) else None).
  { unfold place_of, placed. cbn [sb_line sb_found sb_valid]. unfold tr in Etr.
    destruct (srcmap s (server P (p_name q)) (p_line q)) as [[f l]|].
    - inversion Etr; subst. reflexivity.
    - assert (E1 := f_equal (fun x => fst (fst x)) Etr). assert (E2 := f_equal (fun x => snd (fst x)) Etr).
      assert (E3 := f_equal snd Etr). cbv beta iota delta [fst snd] in E1, E2, E3. clear Etr.
      rewrite <- E1, <- E2, <- E3. unfold file_of.
      destruct (starts_with lt_sign (absolute P (server P (p_name q)))); cbn [orb]; auto. }
  assert (Hfresh : forall m a b c d i, fresh s i -> i <> p_id q ->
     fresh (Store (set key_eqb (norm P (p_name q), p_id q) (c0, q) (received s)) a b c d m) i).
  { intros m a b c d i Hf Hne H. apply Hf. cbn [received] in H.
    rewrite (keys_set _ key_eqb_spec) in H. destruct (mem key_eqb _ _); auto.
    rewrite map_app, in_app_iff in H. destruct H as [|[H|[]]]; auto. simpl in H. congruence. }
  clear Etr. clearbody tr. clear tr.
  destruct (negb (starts_with lt_sign abs) && negb found) eqn:Enf.
  - intros E. inversion E; subst. clear E.
    assert (Hn : starts_with lt_sign abs || found = false).
    { destruct (starts_with lt_sign abs), found; simpl in *; congruence. }
    rewrite Hplace, Hn. split; [apply jnv_record; auto|]. split; [reflexivity|].
    split; [auto|]. split; [intros _; split; [discriminate|reflexivity]|reflexivity].
  - assert (Hy : starts_with lt_sign abs || found = true).
    { destruct (starts_with lt_sign abs), found; simpl in *; congruence. }
    rewrite Hplace, Hy. destruct (p_kind q) eqn:Ek.
    + destruct (put (py_ids s) (py_lines s) c0 (Bp (p_id q) line (p_info q))) as [ids lines] eqn:Ep.
      intros E. inversion E; subst. clear E.
      destruct (jnv_put P s next (norm P (p_name q)) c0 q line (tpl_ids s) (tpl_lines s) (srcmap s) J F L) as [J1 S1].
      cbv zeta in J1, S1. rewrite Ep in J1, S1. cbn [fst snd] in J1, S1.
      split; [exact J1|]. split; [reflexivity|]. split; [auto|]. split; [|congruence].
      intros _. split; [discriminate|]. intros c l. rewrite S1.
      destruct (str_eqb c0 c); cbn [andb]; auto. destruct (Z.eqb_spec line l); subst; auto.
    + destruct sup.
      * destruct (put (tpl_ids s) (tpl_lines s k) c0 (Bp (p_id q) line (p_info q))) as [ids lines].
        intros E. inversion E; subst. split; [apply jnv_record; auto|]. split; [reflexivity|].
        split; [auto|]. split; [discriminate|reflexivity].
      * intros E. inversion E; subst. split; [apply jnv_record; auto|]. split; [reflexivity|].
        split; [auto|]. split; [discriminate|reflexivity].
Qed.

Lemma jnv_remove_file P s next name : jnv P s next -> jnv P (remove_file P s name) next /\
  srcmap (remove_file P s name) = srcmap s /\
  (forall c l, owned_by P s c name -> stop_at (remove_file P s name) c l = None) /\
  (forall c l, (forall i q, ~ In ((norm P name, i), (c, q)) (received s)) ->
     stop_at (remove_file P s name) c l = stop_at s c l) /\
  (forall x, In x (received (remove_file P s name)) -> In x (received s)).
Proof.
  intros J. unfold remove_file. set (n := norm P name). set (cs := map _ _).
  set (s' := Store _ _ _ _ _ _).
  assert (Hcs : forall c, existsb (str_eqb c) cs = true <->
            exists i q, In ((n, i), (c, q)) (received s)).
  { intros c. rewrite existsb_exists. split.
    - intros (x & Hx & E). destruct (str_eqb_spec c x); [|discriminate]. subst x.
      unfold cs in Hx. apply in_map_iff in Hx. destruct Hx as ([[n' i] [c' q]] & Ec & Hf).
      apply filter_In in Hf. destruct Hf as [Hf En]. cbn in Ec, En. subst c'.
      destruct (str_eqb_spec n' n); [|discriminate]. subst n'. eauto.
    - intros (i & q & H). exists c. split; [|destruct (str_eqb_spec c c); congruence].
      unfold cs. apply in_map_iff. exists ((n, i), (c, q)). split; auto.
      apply filter_In. split; auto. cbn. destruct (str_eqb_spec n n); congruence. }
  assert (Hids : forall c, ids_of s' c = if existsb (str_eqb c) cs then [] else ids_of s c).
  { intros c. unfold ids_of. cbn [py_ids s']. rewrite del_all_get by apply J.
    destruct (existsb (str_eqb c) cs); auto. }
  assert (Hstop : forall c l, stop_at s' c l = if existsb (str_eqb c) cs then None else stop_at s c l).
  { intros c l. unfold stop_at. cbn [py_lines s']. rewrite del_all_get by apply J.
    destruct (existsb (str_eqb c) cs); auto. }
  split; [|split; [reflexivity|split; [|split]]].
  - constructor; cbn [received py_ids py_lines s'].
    + apply NoDup_filter_keys. apply J.
    + apply NoDup_del_all. apply J.
    + apply NoDup_del_all. apply J.
    + intros c. rewrite !del_all_get by apply J. destruct (existsb (str_eqb c) cs); auto. apply J.
    + intros c. rewrite Hids. destruct (existsb (str_eqb c) cs); [constructor|apply J].
    + intros c i. rewrite Hids. destruct (existsb (str_eqb c) cs) eqn:E; [simpl; tauto|].
      intros Hi. destruct (j_rec _ _ _ J c i Hi) as (n' & q & G). exists n', q.
      rewrite (filter_get (fun k => negb (str_eqb (fst k) n))). cbn [fst].
      destruct (str_eqb_spec n' n) as [->|ne]; auto. exfalso.
      assert (existsb (str_eqb c) cs = true); [|congruence].
      apply Hcs. exists i, q. now apply (get_In _ key_eqb_spec).
    + intros n' i c q. rewrite (filter_get (fun k => negb (str_eqb (fst k) n))). cbn [fst].
      destruct (negb (str_eqb n' n)); [|discriminate]. apply J.
    + pose proof (j_ids _ _ _ J) as N. clear -N. unfold keys in *.
      induction (received s) as [|[[n' i] v] d IH]; cbn in *; auto.
      inversion N; subst. destruct (negb (str_eqb n' n)); cbn; auto. constructor; auto.
      intros Hi. apply H1. rewrite map_map in *. apply in_map_iff in Hi. destruct Hi as (x & Ex & Hx).
      apply in_map_iff. exists x. split; auto. apply filter_In in Hx. tauto.
  - intros c l Ho. rewrite Hstop. destruct (existsb (str_eqb c) cs) eqn:E; auto.
    assert (En : ids_of s c = []).
    { destruct (ids_of s c) as [|[i b] d] eqn:Ei; auto. exfalso.
      destruct (j_rec _ _ _ J c i) as (n' & q & G); [rewrite Ei; simpl; auto|].
      apply (get_In _ key_eqb_spec) in G. pose proof (Ho _ _ _ G). subst n'.
      assert (existsb (str_eqb c) cs = true); [|congruence]. apply Hcs. eauto. }
    unfold stop_at. rewrite (j_lines _ _ _ J). unfold ids_of in En.
    destruct (sget c (py_ids s)); cbn; auto. now subst.
  - intros c l Ho. rewrite Hstop. destruct (existsb (str_eqb c) cs) eqn:E; auto.
    apply Hcs in E. destruct E as (i & q & Hi). exfalso. eapply Ho; eauto.
  - intros x Hx. cbn [received s'] in Hx. apply filter_In in Hx. tauto.
Qed.

Lemma jnv_remove_all_breakpoints P s next name : jnv P s next ->
  jnv P (remove_all_breakpoints P s name) next /\
  srcmap (remove_all_breakpoints P s name) = srcmap s /\
  (forall c l, owned_by P s c name -> stop_at (remove_all_breakpoints P s name) c l = None).
Proof.
  intros J. unfold remove_all_breakpoints. destruct (str_eqb name star).
  - split; [apply jnv_empty; reflexivity|]. split; reflexivity.
  - destruct (jnv_remove_file P s next name J) as (A & B & C & _). auto.
Qed.

Lemma add_source_bps_spec P name k bs : forall s next s' next' os,
  jnv P s next -> add_source_bps P s next name k bs = (s', next', os) ->
  jnv P s' next' /\ srcmap s' = srcmap s /\
  (k = PyLine -> forall c l, stop_at s' c l =
     match decides P (srcmap s) name next bs c l with Some x => Some x | None => stop_at s c l end) /\
  (k <> PyLine -> forall c l, stop_at s' c l = stop_at s c l).
Proof.
  induction bs as [|b bs IH]; intros s next s' next' os J E.
  - cbn in E. inversion E; subst. split; [exact J|]. split; [reflexivity|]. split; intros; auto.
  - cbn [add_source_bps] in E.
    set (q := Params name k next (sb_line b) (sb_info b)) in *.
    destruct (add P s q (sb_valid b) (sb_found b) (sb_supported b)) as [s1 o] eqn:Ea.
    assert (J' : jnv P s (next + 1)) by (apply (jnv_next P s next); [lia|exact J]).
    assert (Fq : fresh s (p_id q)) by (apply (fresh_next _ _ _ _ J); apply Z.le_refl).
    assert (Lq : (p_id q < next + 1)%Z) by (change (p_id q) with next; lia).
    destruct (jnv_add P s (next + 1) q _ _ _ s1 o J' Fq Lq Ea)
      as (J1 & M1 & _ & S1 & T1).
    assert (Hp : place_of P (srcmap s) q (sb_valid b) (sb_found b) = placed P (srcmap s) name b) by reflexivity.
    assert (Hcase : (o = UnsupportedType /\ s' = s1 /\ next' = (next + 1)%Z) \/
        (exists os', add_source_bps P s1 (next + 1) name k bs = (s', next', os'))).
    { destruct o; [| |injection E as <- <- _; auto];
        (destruct (add_source_bps P s1 (next + 1) name k bs) as [[s2 n2] os2];
        injection E as <- <- _; right; eauto). }
    destruct Hcase as [(-> & -> & ->)|[os' E']].
    + split; [exact J1|]. split; [exact M1|]. split.
      * intros ->. destruct (S1 eq_refl) as [K _]. congruence.
      * exact T1.
    + destruct (IH _ _ _ _ _ J1 E') as (J2 & M2 & S2 & T2).
      split; [exact J2|]. split; [congruence|]. split.
      * intros Hk c l. rewrite (S2 Hk). rewrite M1. cbn [decides].
        destruct (decides P (srcmap s) name (next + 1) bs c l); auto.
        destruct (S1 Hk) as [_ S1']. rewrite S1', Hp. destruct (placed P (srcmap s) name b) as [[f l']|]; auto.
        destruct (str_eqb f c && Z.eqb l' l); auto.
      * intros Hk c l. rewrite (T2 Hk). apply (T1 Hk).
Qed.

Lemma jnv_readd P next found sup : forall qs s,
  jnv P s next -> NoDup (map p_id qs) -> (forall q, In q qs -> fresh s (p_id q) /\ (p_id q < next)%Z) ->
  jnv P (readd P s qs found sup) next.
Proof.
  induction qs as [|q qs IH]; intros s J N F; cbn [readd]; auto.
  destruct (add P s q None (found (p_name q)) _) as [s1 o] eqn:Ea.
  destruct (F q ltac:(simpl; auto)) as [Fq Lq]. inversion N; subst.
  destruct (jnv_add P s next q _ _ _ s1 o J Fq Lq Ea) as (J1 & _ & F1 & _).
  assert (G : jnv P (readd P s1 qs found sup) next).
  { apply IH; auto. intros q' Hq'. destruct (F q' ltac:(simpl; auto)) as [A B]. split; auto.
    apply F1; auto. intros E. apply H1. rewrite <- E. now apply in_map. }
  destruct o; auto.
Qed.

Lemma jnv_change_mapping P s next m found sup : jnv P s next -> jnv P (change_mapping P s m found sup) next.
Proof.
  intros J. unfold change_mapping, reapply. apply jnv_readd.
  - apply jnv_empty; reflexivity.
  - cbn [received]. pose proof (j_ids _ _ _ J) as N.
    assert (E : map p_id (map (fun e => snd (snd e)) (received s)) = map snd (keys (received s))).
    { unfold keys. rewrite !map_map. apply map_ext_in. intros [[n i] [c q]] H. cbn.
      apply (In_get _ key_eqb_spec) in H; [|apply J]. now destruct (j_recw _ _ _ J _ _ _ _ H). }
    now rewrite E.
  - cbn [received]. intros q H. apply in_map_iff in H. destruct H as ([[n i] [c q']] & E & H). cbn in E. subst q'.
    apply (In_get _ key_eqb_spec) in H; [|apply J]. destruct (j_recw _ _ _ J _ _ _ _ H) as [-> L].
    split; auto. unfold fresh. cbn. tauto.
Qed.

Lemma jnv_dap P : forall h s next, jnv P s next ->
  let st := fold_left (dap_step P) h (s, next) in jnv P (fst st) (snd st).
Proof.
  induction h as [|o h IH]; intros s next J; cbn [fold_left]; auto.
  destruct (dap_step P (s, next) o) as [s1 n1] eqn:E. apply IH.
  destruct o; cbn [dap_step] in E.
  - unfold set_breakpoints in E.
    destruct (add_source_bps P (remove_all_breakpoints P s name) next name k bs) as [[s2 n2] os] eqn:Ea.
    cbn in E. inversion E; subst.
    destruct (jnv_remove_all_breakpoints P s next name J) as (J1 & _).
    now destruct (add_source_bps_spec _ _ _ _ _ _ _ _ _ J1 Ea).
  - inversion E; subst. now apply jnv_change_mapping.
  - inversion E; subst. apply jnv_empty; reflexivity.
Qed.

Lemma jnv_dap_run P h : jnv P (fst (dap_run P h)) (snd (dap_run P h)).
Proof. apply (jnv_dap P h init 0%Z). apply jnv_empty; reflexivity. Qed.

Lemma set_breakpoints_replaces_lemma P h name bs c l :
  let s := fst (dap_run P h) in
  let next := snd (dap_run P h) in
  owned_by P s c name ->
  stop_at (fst (dap_run P (h ++ [SetBreakpoints name PyLine bs]))) c l =
  decides P (srcmap s) name next bs c l.
Proof.
  intros s next Ho. unfold dap_run at 1. rewrite fold_left_app. fold (dap_run P h). cbn [fold_left].
  pose proof (jnv_dap_run P h) as J. fold s in J. fold next in J.
  destruct (dap_run P h) as [s0 n0]. cbn in s, next. subst s next. rename s0 into s, n0 into next.
  cbn [dap_step]. unfold set_breakpoints.
  destruct (jnv_remove_all_breakpoints P s next name J) as (J1 & M1 & S1).
  destruct (add_source_bps P (remove_all_breakpoints P s name) next name PyLine bs) as [[s2 n2] os] eqn:Ea.
  destruct (add_source_bps_spec _ _ _ _ _ _ _ _ _ J1 Ea) as (_ & _ & S2 & _). cbn [fst].
  rewrite (S2 eq_refl), M1, (S1 c l Ho). now destruct (decides P (srcmap s) name next bs c l).
Qed.

Lemma set_breakpoints_others_lemma P h name k bs c l :
  let s := fst (dap_run P h) in
  name <> star ->
  (forall i q, ~ In ((norm P name, i), (c, q)) (received s)) ->
  (forall b, In b bs -> forall l', placed P (srcmap s) name b <> Some (c, l')) ->
  stop_at (fst (dap_run P (h ++ [SetBreakpoints name k bs]))) c l = stop_at s c l.
Proof.
  intros s Hstar Ho Hp. unfold dap_run at 1. rewrite fold_left_app. fold (dap_run P h). cbn [fold_left].
  pose proof (jnv_dap_run P h) as J. fold s in J.
  destruct (dap_run P h) as [s0 next]. cbn in s. subst s. cbn [fst snd] in *.
  cbn [dap_step]. unfold set_breakpoints, remove_all_breakpoints.
  destruct (str_eqb_spec name star); [contradiction|].
  destruct (jnv_remove_file P s0 next name J) as (J1 & M1 & _ & S1 & _).
  destruct (add_source_bps P (remove_file P s0 name) next name k bs) as [[s2 n2] os] eqn:Ea.
  destruct (add_source_bps_spec _ _ _ _ _ _ _ _ _ J1 Ea) as (_ & _ & S2 & T2). cbn [fst].
  destruct k as [|k].
  - rewrite (S2 eq_refl), M1, S1 by auto.
    assert (D : forall nx, decides P (srcmap s0) name nx bs c l = None).
    { clear -Hp. induction bs as [|b bs IH]; intros nx; cbn [decides]; auto.
      rewrite IH by (intros; apply Hp; simpl; auto).
      destruct (placed P (srcmap s0) name b) as [[f l']|] eqn:E; auto.
      destruct (str_eqb_spec f c); cbn [andb]; auto. subst f. exfalso. apply (Hp b ltac:(simpl; auto) l' E). }
    now rewrite D.
  - rewrite T2 by discriminate. auto.
Qed.
