(** Property C11: the cached filter answers are those of the current settings. *)
From Coq Require Import List NArith ZArith Bool String Lia.
From Verif Require Import Base Dict Glob Roots FilterCache.
Import ListNotations.

(** ** Specification: the settings after a history, and the answers without any cache *)
Definition change (E : env) (c : cfg) (o : op) : cfg :=
  match o with
  | SetRoots l => Cfg (fix_roots (e_absn E) (e_sl E) l) (g_libs c) (g_rules c) (g_uselib c) (g_mapped c) (g_dont c) (g_needs c)
  | SetRules l => Cfg (g_proj c) (g_libs c) l (g_uselib c) (g_mapped c) (g_dont c) (g_needs c)
  | SetUseLib b => Cfg (g_proj c) (g_libs c) (g_rules c) b (g_mapped c) (g_dont c) (g_needs c)
  | SetMapped m => Cfg (g_proj c) (g_libs c) (g_rules c) (g_uselib c) m (g_dont c) (g_needs c)
  | SetDont st en => Cfg (g_proj c) (g_libs c) (g_rules c) (g_uselib c) (g_mapped c) (st, en) (g_needs c)
  | SetNeeds n => Cfg (g_proj c) (g_libs c) (g_rules c) (g_uselib c) (g_mapped c) (g_dont c) n
  | DropNeeds n => Cfg (g_proj c) (g_libs c) (g_rules c) (g_uselib c) (g_mapped c) (g_dont c) (fun k => g_needs c k && n k)
  | _ => c
  end.
Definition settings (E : env) (c : cfg) (ops : list op) : cfg := fold_left (change E) ops c.

(** Debugger files: those shipped with it, and those the client asked not to trace. *)
Definition internal_file (E : env) (c : cfg) (a : str) : bool :=
  negb (str_eqb a (lit "<string>")) &&
  (is_pydev (e_base E a) || (match e_base E a with Regular => true | _ => false end && dont_trace E c a)).

Definition in_scope (E : env) (c : cfg) (f : frame) : bool :=
  let a := e_abs E (fr_file f) in
  if str_eqb a (lit "<string>") then fr_top f
  else negb (internal_file E c a) && (g_mapped c a || in_project_roots (e_absn E) (e_sl E) (g_proj c) (g_libs c) a).

Definition excluded (E : env) (c : cfg) (f : frame) : option bool :=
  let a := e_abs E (fr_file f) in
  if internal_file E c a then Some true else exclude_by_filter (e_plat E) (g_rules c) a (fr_module f).

Definition filtered (E : env) (c : cfg) (f : frame) (original : str) (force : bool) : bool :=
  negb (g_needs c (fr_first f, original, fr_code f)) &&
  match (match g_rules c with [] => None | _ => excluded E c f end) with
  | Some e => e
  | None => (g_uselib c || force) && negb (in_scope E c f)
  end.

Definition exception_filtered (E : env) (c : cfg) (ignore_libraries : bool) (trace : option frame) : bool :=
  match trace with
  | None => ignore_libraries || (match g_rules c with [] => false | _ => true end)
  | Some f => (ignore_libraries && negb (in_scope E c f)) ||
              ((match g_rules c with [] => false | _ => true end) && (match excluded E c f with Some true => true | _ => false end))
  end.

(** The frames asked about: a file name, function name and first line determine the module, equal code
    objects of one file have the same name and are executed in the same kind of place. *)
Definition coherent (E : env) (D : frame -> Prop) : Prop :=
  forall f g, D f -> D g -> e_abs E (fr_file f) = e_abs E (fr_file g) -> fr_first f = fr_first g ->
    (fr_name f = fr_name g -> fr_module f = fr_module g) /\
    (fr_code f = fr_code g -> fr_name f = fr_name g /\ fr_top f = fr_top g).

Definition op_ok (E : env) (D : frame -> Prop) (o : op) : Prop :=
  match o with
  | Apply f o _ => D f /\ e_abs E o = e_abs E (fr_file f)
  | Scope f => D f
  | Exc _ (Some f) => D f
  | _ => True
  end.
Definition no_drop (o : op) : Prop := match o with DropNeeds _ => False | _ => True end.

(** ** Proof *)
Lemma key1_eqb_spec a b : reflect (a = b) (key1_eqb a b).
Proof.
  destruct a as [[x y] z], b as [[x' y'] z']. unfold key1_eqb.
  destruct (Z.eqb_spec x x'), (str_eqb_spec y y'), (N.eqb_spec z z'); cbn; constructor; congruence.
Qed.
Lemma key2_eqb_spec a b : reflect (a = b) (key2_eqb a b).
Proof.
  destruct a as [[x y] z], b as [[x' y'] z']. unfold key2_eqb.
  destruct (str_eqb_spec x x'), (str_eqb_spec y y'), (Z.eqb_spec z z'); cbn; constructor; congruence.
Qed.
Lemma key3_eqb_spec a b : reflect (a = b) (key3_eqb a b).
Proof.
  destruct a as [[[x y] w] z], b as [[[x' y'] w'] z']. unfold key3_eqb.
  destruct (Z.eqb_spec x x'), (str_eqb_spec y y'), (Bool.eqb_spec w w'), (N.eqb_spec z z'); cbn; constructor; congruence.
Qed.

Lemma set_nonnil {K V} (eqb : K -> K -> bool) k (v : V) d : set eqb k v d <> [].
Proof. destruct d as [|[k' v'] d]; cbn; [discriminate|]. destruct (eqb k k'); discriminate. Qed.

Lemma exclude_module P rules f m m' : require_module rules = false -> exclude_by_filter P rules f m = exclude_by_filter P rules f m'.
Proof.
  unfold require_module. induction rules as [|r rules IH]; cbn [existsb exclude_by_filter]; auto.
  intros H. apply orb_false_iff in H. destruct H as [H1 H2]. apply negb_false_iff in H1.
  unfold rule_matches. rewrite H1, IH by auto. reflexivity.
Qed.

Section Proof.
Context (E : env) (D : frame -> Prop) (Hcoh : coherent E D) (strict : bool).

Definition ft_ok c m := forall f t, D f -> get key1_eqb (k1 E f) m = Some t -> t = file_type_uncached E c f.
Definition sc_ok c m := forall f b, D f -> get key1_eqb (k1 E f) m = Some b -> b = in_scope E c f.
Definition ex_ok c m := forall f r, D f -> get key2_eqb (e_abs E (fr_file f), fr_name f, fr_first f) m = Some r -> r = excluded E c f.
Definition ap_ok c m := forall f o force b, D f -> e_abs E o = e_abs E (fr_file f) ->
  get key3_eqb (fr_first f, o, force, fr_code f) m = Some b -> b = filtered E c f o force \/ (strict = false /\ b = false).

Definition with_dont c d := Cfg (g_proj c) (g_libs c) (g_rules c) (g_uselib c) (g_mapped c) d (g_needs c).

Definition rules_on c := match g_rules c with [] => false | _ => true end.

Record Inv (s : state) : Prop := mkInv {
  i_ft : ft_ok (s_cfg s) (s_ft s);
  i_sc : sc_ok (s_cfg s) (s_sc s);
  i_ex : ex_ok (s_cfg s) (s_ex s);
  i_ap : ap_ok (s_cfg s) (s_ap s);
  i_en : s_exen s = rules_on (s_cfg s);
  i_lib : s_liben s = g_uselib (s_cfg s);
  i_empty : s_ft s = [] -> s_sc s = [] /\ s_ex s = [] /\ forall d, ap_ok (with_dont (s_cfg s) d) (s_ap s);
  i_dont : s_dontset s = false -> g_dont (s_cfg s) = ([], [])
}.

Lemma ft_coh c f g : D f -> D g -> k1 E f = k1 E g -> file_type_uncached E c f = file_type_uncached E c g.
Proof.
  intros Df Dg H. unfold k1 in H. inversion H as [[H1 H2 H3]].
  destruct (Hcoh f g Df Dg H2 H1) as [_ C]. destruct (C H3) as [_ Ct].
  unfold file_type_uncached. rewrite H2, Ct. reflexivity.
Qed.

Lemma scope_coh c f g : D f -> D g -> k1 E f = k1 E g -> in_scope E c f = in_scope E c g.
Proof.
  intros Df Dg H. unfold k1 in H. inversion H as [[H1 H2 H3]].
  destruct (Hcoh f g Df Dg H2 H1) as [_ C]. destruct (C H3) as [_ Ct].
  unfold in_scope. rewrite H2, Ct. reflexivity.
Qed.

Lemma pydev_internal c f : is_pydev (file_type_uncached E c f) = internal_file E c (e_abs E (fr_file f)).
Proof.
  unfold file_type_uncached, internal_file, string_file. destruct (str_eqb _ _); cbn [negb andb].
  - destruct (fr_top f); reflexivity.
  - destruct (e_base E _); cbn; auto. destruct (dont_trace E c _); reflexivity.
Qed.

Lemma get_file_type_ok s f : Inv s -> D f ->
  exists m, fst (get_file_type E s f) = with_ft s m /\ Inv (with_ft s m) /\ m <> [] /\
    snd (get_file_type E s f) = file_type_uncached E (s_cfg s) f.
Proof.
  intros I Df. unfold get_file_type. destruct (get key1_eqb (k1 E f) (s_ft s)) as [t|] eqn:G; cbn [fst snd].
  - exists (s_ft s). split; [destruct s; reflexivity|]. split; [destruct s; exact I|]. split.
    + intros K. rewrite K in G. discriminate.
    + now apply (i_ft s I).
  - eexists. split; [reflexivity|]. split; [|split; [apply set_nonnil|reflexivity]].
    destruct I. constructor; cbn; auto.
    + intros g t Dg. rewrite (get_set _ key1_eqb_spec). destruct (key1_eqb_spec (k1 E g) (k1 E f)) as [K|K]; [|now apply i_ft0].
      intros H. inversion H. symmetry. now apply ft_coh.
    + intros K. now apply set_nonnil in K.
Qed.

Lemma scope_ok s f : Inv s -> D f ->
  let r := in_project_scope E s f in
  Inv (fst r) /\ s_cfg (fst r) = s_cfg s /\ s_ap (fst r) = s_ap s /\ s_ft (fst r) <> [] /\ snd r = in_scope E (s_cfg s) f.
Proof.
  intros I Df. unfold in_project_scope. destruct (get key1_eqb (k1 E f) (s_sc s)) as [b|] eqn:G; cbn [fst snd].
  - split; auto. split; auto. split; auto. split; [|now apply (i_sc s I)].
    intros K. destruct (i_empty s I K) as (K1 & _). rewrite K1 in G. discriminate.
  - destruct (get_file_type_ok s f I Df) as (m & E1 & I1 & Hm & E2).
    destruct (get_file_type E s f) as [s1 t]. cbn [fst snd] in *. subst s1 t. cbn [s_cfg with_ft with_sc fst snd s_ap s_ft].
    set (b := if is_pydev _ then _ else _).
    assert (Hb : b = in_scope E (s_cfg s) f).
    { unfold b, in_scope. rewrite pydev_internal. unfold internal_file, file_type_uncached, string_file.
      destruct (str_eqb (e_abs E (fr_file f)) (lit "<string>")); cbn [negb andb].
      - destruct (fr_top f); reflexivity.
      - destruct (is_pydev _ || _); cbn [negb andb]; auto. }
    split; [|split; [auto|split; [auto|split; [auto|exact Hb]]]].
    destruct I1. constructor; cbn in *; auto.
    + intros g b' Dg. rewrite (get_set _ key1_eqb_spec). destruct (key1_eqb_spec (k1 E g) (k1 E f)) as [K|K]; [|now apply i_sc0].
      intros H. inversion H. subst b'. rewrite Hb. symmetry. now apply scope_coh.
    + intros K. contradiction.
Qed.

Lemma ex_cached_ok s f a : Inv s -> D f -> a = e_abs E (fr_file f) ->
  let r := exclude_by_filter_cached E s f a in
  Inv (fst r) /\ s_cfg (fst r) = s_cfg s /\ s_ap (fst r) = s_ap s /\ s_ft (fst r) <> [] /\ snd r = excluded E (s_cfg s) f.
Proof.
  intros I Df ->. unfold exclude_by_filter_cached.
  destruct (get key2_eqb _ (s_ex s)) as [r|] eqn:G; cbn [fst snd].
  - split; auto. split; auto. split; auto. split; [|now apply (i_ex s I)].
    intros K. destruct (i_empty s I K) as (_ & K1 & _). rewrite K1 in G. discriminate.
  - destruct (get_file_type_ok s f I Df) as (m & E1 & I1 & Hm & E2).
    destruct (get_file_type E s f) as [s1 t]. cbn [fst snd] in *. subst s1 t. cbn [s_cfg with_ft with_ex fst snd s_ap s_ft].
    set (r := if is_pydev _ then _ else _).
    assert (Hr : r = excluded E (s_cfg s) f).
    { unfold r, excluded. rewrite pydev_internal. destruct (internal_file _ _ _); auto.
      destruct (require_module _) eqn:Er; auto. now apply exclude_module. }
    split; [|split; [auto|split; [auto|split; [auto|exact Hr]]]].
    destruct I1. constructor; cbn in *; auto.
    + intros g r' Dg. rewrite (get_set _ key2_eqb_spec).
      destruct (key2_eqb_spec (e_abs E (fr_file g), fr_name g, fr_first g) (e_abs E (fr_file f), fr_name f, fr_first f)) as [K|K]; [|now apply i_ex0].
      intros H. inversion H. subst r'. rewrite Hr. inversion K as [[K1 K2 K3]].
      destruct (Hcoh g f Dg Df K1 K3) as [C _]. unfold excluded. rewrite K1, (C K2). reflexivity.
    + intros K. contradiction.
Qed.

Lemma filtered_coh c f g o force : D f -> D g -> e_abs E (fr_file f) = e_abs E (fr_file g) -> fr_first f = fr_first g ->
  fr_code f = fr_code g -> filtered E c f o force = filtered E c g o force.
Proof.
  intros Df Dg H1 H2 H3. destruct (Hcoh f g Df Dg H1 H2) as [C1 C2]. destruct (C2 H3) as [Cn Ct].
  unfold filtered, excluded, in_scope. rewrite H1, H2, H3, (C1 Cn), Ct. reflexivity.
Qed.

Lemma compute_ok s f o force : Inv s -> D f -> e_abs E o = e_abs E (fr_file f) ->
  let r := apply_compute E s f o force in
  Inv (fst r) /\ s_cfg (fst r) = s_cfg s /\ s_ap (fst r) = s_ap s /\ snd r = filtered E (s_cfg s) f o force /\
  (s_ft (fst r) = [] -> forall d, snd r = filtered E (with_dont (s_cfg s) d) f o force).
Proof.
  intros I Df Ho. unfold apply_compute, filtered. cbn [with_dont g_needs g_rules g_uselib].
  destruct (g_needs (s_cfg s) _); cbn [fst snd negb andb].
  { split; auto. }
  rewrite (i_en s I). unfold rules_on. destruct (g_rules (s_cfg s)) as [|r0 rs] eqn:Er.
  - rewrite (i_lib s I). destruct (g_uselib (s_cfg s) || force); cbn [andb].
    + destruct (scope_ok s f I Df) as (I1 & E1 & E2 & E3 & E4).
      destruct (in_project_scope E s f) as [s1 b]. cbn [fst snd] in *.
      split; auto. split; auto. split; auto. split; [now rewrite E4|]. intros K. contradiction.
    + cbn [fst snd]. split; auto.
  - rewrite Ho. destruct (ex_cached_ok s f _ I Df eq_refl) as (I1 & E1 & E2 & E3 & E4).
    destruct (exclude_by_filter_cached E s f _) as [s1 r]. cbn [fst snd] in *. subst r.
    destruct (excluded E (s_cfg s) f) as [e|] eqn:Ee; cbn [fst snd].
    + split; auto. split; auto. split; auto. split; auto. intros K. contradiction.
    + rewrite (i_lib s1 I1), E1. destruct (g_uselib (s_cfg s) || force); cbn [andb].
      * destruct (scope_ok s1 f I1 Df) as (I2 & F1 & F2 & F3 & F4).
        destruct (in_project_scope E s1 f) as [s2 b]. cbn [fst snd] in *.
        split; auto. split; [congruence|]. split; [congruence|]. split; [rewrite F4, E1; auto|]. intros K. contradiction.
      * cbn [fst snd]. split; auto. split; auto. split; auto. split; auto. intros K. contradiction.
Qed.

Lemma apply_ok s f o force : Inv s -> D f -> e_abs E o = e_abs E (fr_file f) ->
  let r := apply_files_filter E s f o force in
  Inv (fst r) /\ s_cfg (fst r) = s_cfg s /\
  (snd r = filtered E (s_cfg s) f o force \/ (strict = false /\ snd r = false)).
Proof.
  intros I Df Ho. unfold apply_files_filter. destruct (get key3_eqb _ (s_ap s)) as [b|] eqn:G; cbn [fst snd].
  - split; auto. split; auto. now apply (i_ap s I).
  - destruct (compute_ok s f o force I Df Ho) as (I1 & E1 & E2 & E3 & E4).
    destruct (apply_compute E s f o force) as [s1 b]. cbn [fst snd] in *. split; [|split; auto].
    unfold apply_store. destruct I1. constructor; cbn; auto.
    + intros g o' force' b' Dg Hg. rewrite (get_set _ key3_eqb_spec).
      destruct (key3_eqb_spec (fr_first g, o', force', fr_code g) (fr_first f, o, force, fr_code f)) as [K|K]; [|now apply i_ap0].
      intros H. inversion H. subst b'. inversion K as [[K1 K2 K3 K4]]. subst o' force'. left. rewrite E3, E1.
      apply filtered_coh; auto. congruence.
    + intros K. destruct (i_empty0 K) as (A & B & C). split; auto. split; auto.
      intros d g o' force' b' Dg Hg. rewrite (get_set _ key3_eqb_spec).
      destruct (key3_eqb_spec (fr_first g, o', force', fr_code g) (fr_first f, o, force, fr_code f)) as [K'|K']; [|now apply C].
      intros H. inversion H. subst b'. inversion K' as [[K1 K2 K3 K4]]. subst o' force'. left. rewrite (E4 K d), E1.
      apply filtered_coh; auto. congruence.
Qed.

Lemma exc_ok s i t : Inv s -> (forall f, t = Some f -> D f) ->
  let r := exclude_exception_by_filter E s i t in
  Inv (fst r) /\ s_cfg (fst r) = s_cfg s /\ snd r = exception_filtered E (s_cfg s) i t.
Proof.
  intros I Ht. unfold exclude_exception_by_filter, exception_filtered. fold (rules_on (s_cfg s)). rewrite (i_en s I).
  destruct (negb i && negb (rules_on (s_cfg s))) eqn:E0.
  { apply andb_true_iff in E0. destruct E0 as [A B]. apply negb_true_iff in A, B. rewrite A, B. cbn. destruct t; auto. }
  destruct t as [f|].
  - specialize (Ht f eq_refl).
    assert (G : forall s1, Inv s1 -> s_cfg s1 = s_cfg s ->
       let r := if s_exen s1 then let '(s, r) := exclude_by_filter_cached E s1 f (e_abs E (fr_file f)) in (s, match r with Some true => true | _ => false end) else (s1, false) in
       Inv (fst r) /\ s_cfg (fst r) = s_cfg s /\ snd r = rules_on (s_cfg s) && match excluded E (s_cfg s) f with Some true => true | _ => false end).
    { intros s1 I1 Es. cbv zeta. rewrite (i_en s1 I1), Es. destruct (rules_on (s_cfg s)); cbn [fst snd andb]; auto.
      destruct (ex_cached_ok s1 f _ I1 Ht eq_refl) as (I2 & E1 & E2 & E3 & E4).
      destruct (exclude_by_filter_cached E s1 f _) as [s2 r]. cbn [fst snd] in *. split; auto. split; [congruence|].
      rewrite E4, Es. reflexivity. }
    destruct i.
    + destruct (scope_ok s f I Ht) as (I1 & E1 & E2 & E3 & E4).
      destruct (in_project_scope E s f) as [s1 b]. cbn [fst snd] in *. subst b.
      destruct (in_scope E (s_cfg s) f); cbn [negb andb orb fst snd]; [exact (G s1 I1 E1)|auto].
    + cbn [andb orb]. exact (G s I eq_refl).
  - cbn [fst snd]. split; auto. split; auto. destruct i; auto. cbn in *. destruct (rules_on (s_cfg s)); auto.
Qed.

Lemma clear_inv s : ft_ok (s_cfg s) (s_ft s) -> (s_dontset s = false -> g_dont (s_cfg s) = ([], [])) -> Inv (clear_caches s).
Proof.
  intros H Hd. unfold clear_caches. constructor; cbn; auto; try (intros ?; intros; discriminate).
  intros _. split; auto. split; auto. intros d f o force b _ _ K. discriminate.
Qed.

Lemma ft_same c c' m : g_dont c = g_dont c' -> ft_ok c m -> ft_ok c' m.
Proof. intros H K f t Df G. rewrite (K f t Df G). unfold file_type_uncached, dont_trace. now rewrite H. Qed.

Lemma strs_eqb_eq a b : strs_eqb a b = true -> a = b.
Proof. unfold strs_eqb. destruct (list_eq_dec (list_eq_dec N.eq_dec) a b); [auto|discriminate]. Qed.

Lemma dont_empty_inv s d : Inv s -> s_ft s = [] ->
  Inv (State (with_dont (s_cfg s) d) (s_ft s) (s_sc s) (s_ex s) (s_ap s) (s_exen s) (s_liben s) true).
Proof.
  intros I Ef. destruct (i_empty s I Ef) as (A & B & C). destruct I. constructor; cbn [s_cfg s_ft s_sc s_ex s_ap s_exen s_liben s_dontset].
  - rewrite Ef. intros f t Df G. discriminate.
  - rewrite A. intros f b Df G. discriminate.
  - rewrite B. intros f b Df G. discriminate.
  - apply C.
  - exact i_en0.
  - exact i_lib0.
  - intros _. split; [auto|]. split; [auto|]. intros d'. exact (C d').
  - discriminate.
Qed.

Lemma dont_reset_inv s d : Inv (clear_caches (with_ft (State (with_dont (s_cfg s) d) (s_ft s) (s_sc s) (s_ex s) (s_ap s) (s_exen s) (s_liben s) true) [])).
Proof. apply clear_inv; cbn; [intros f t Df G; discriminate|discriminate]. Qed.

Lemma set_dont_inv s st en : Inv s -> Inv (set_dont s st en) /\ s_cfg (set_dont s st en) = with_dont (s_cfg s) (st, en).
Proof.
  intros I. unfold set_dont. fold (with_dont (s_cfg s) (st, en)).
  destruct (negb (s_dontset s) && _ && _) eqn:E0.
  { apply andb_true_iff in E0. destruct E0 as [E0 E2]. apply andb_true_iff in E0. destruct E0 as [E0 E1].
    apply negb_true_iff in E0. destruct st; [|discriminate]. destruct en; [|discriminate]. split; [exact I|].
    unfold with_dont. rewrite <- (i_dont s I E0). destruct (s_cfg s); reflexivity. }
  clear E0. destruct (match s_ft s with [] => false | _ => _ end) eqn:Er.
  { split; [apply dont_reset_inv|reflexivity]. }
  split; [|reflexivity]. destruct (s_ft s) as [|p ft] eqn:Ef.
  - rewrite <- Ef. now apply dont_empty_inv.
  - destruct (s_dontset s) eqn:Es; [|discriminate]. apply orb_false_iff in Er. destruct Er as [R1 R2].
    apply negb_false_iff, strs_eqb_eq in R1. apply negb_false_iff, strs_eqb_eq in R2. subst st en.
    replace (with_dont (s_cfg s) (fst (g_dont (s_cfg s)), snd (g_dont (s_cfg s)))) with (s_cfg s)
        by (destruct (s_cfg s) as [? ? ? ? ? [? ?] ?]; reflexivity).
    rewrite <- Ef, <- Es. destruct s; exact I.
Qed.

Lemma step_inv s o : Inv s -> op_ok E D o -> (strict = true -> no_drop o) ->
  Inv (fst (step E s o)) /\ s_cfg (fst (step E s o)) = change E (s_cfg s) o.
Proof.
  intros I Ho Hd. destruct o; cbn [step fst change].
  - split; [|reflexivity]. apply clear_inv; cbn; [eapply ft_same; [|apply (i_ft s I)]; reflexivity|apply (i_dont s I)].
  - split; [|reflexivity]. apply clear_inv; cbn; [eapply ft_same; [|apply (i_ft s I)]; reflexivity|apply (i_dont s I)].
  - split; [|reflexivity]. apply clear_inv; cbn; [eapply ft_same; [|apply (i_ft s I)]; reflexivity|apply (i_dont s I)].
  - split; [|reflexivity]. apply clear_inv; cbn; [eapply ft_same; [|apply (i_ft s I)]; reflexivity|apply (i_dont s I)].
  - apply (set_dont_inv s st en I).
  - split; [|reflexivity]. apply clear_inv; cbn; [eapply ft_same; [|apply (i_ft s I)]; reflexivity|apply (i_dont s I)].
  - split; [|reflexivity]. destruct strict eqn:Es; [now destruct (Hd eq_refl)|].
    assert (M : forall c m, ap_ok c m -> ap_ok (Cfg (g_proj c) (g_libs c) (g_rules c) (g_uselib c) (g_mapped c) (g_dont c) (fun k => g_needs c k && n k)) m).
    { intros c m K f o force b Df Hf G. destruct (K f o force b Df Hf G) as [Kb|Kb]; [|auto].
      unfold filtered in *. cbn [g_needs g_rules g_uselib] in *.
      destruct (g_needs c (fr_first f, o, fr_code f)); cbn [negb andb] in *; [auto|]. left. exact Kb. }
    destruct I. constructor; cbn; auto.
    + intros K. destruct (i_empty0 K) as (A & B & C). split; auto. split; auto. intros d. exact (M _ _ (C d)).
  - destruct Ho as [Df Hf]. destruct (apply_ok s f original force I Df Hf) as (A & B & _).
    destruct (apply_files_filter E s f original force). auto.
  - destruct (scope_ok s f I Ho) as (A & B & _). destruct (in_project_scope E s f). auto.
  - assert (Ht : forall f, trace = Some f -> D f) by (intros f ->; exact Ho).
    destruct (exc_ok s ignore_libraries trace I Ht) as (A & B & _).
    destruct (exclude_exception_by_filter E s ignore_libraries trace). auto.
Qed.

Lemma run_inv s ops : Inv s -> Forall (op_ok E D) ops -> (strict = true -> Forall no_drop ops) ->
  Inv (run E s ops) /\ s_cfg (run E s ops) = settings E (s_cfg s) ops.
Proof.
  revert s. induction ops as [|o ops IH]; intros s I Ho Hd; cbn; auto.
  inversion Ho; subst. assert (Hd1 : strict = true -> no_drop o) by (intros K; specialize (Hd K); now inversion Hd).
  assert (Hd2 : strict = true -> Forall no_drop ops) by (intros K; specialize (Hd K); now inversion Hd).
  destruct (step_inv s o I H1 Hd1) as [I1 E1]. destruct (IH _ I1 H2 Hd2) as [I2 E2]. split; auto.
  unfold run in E2. rewrite E2, E1. reflexivity.
Qed.

Lemma init_inv proj libs rules uselib : Inv (init proj libs rules uselib).
Proof.
  constructor; cbn; auto; try (intros ?; intros; discriminate).
  intros _. split; auto. split; auto. intros d f o force b _ _ K. discriminate.
Qed.
End Proof.

(** C11.  Whatever was asked and changed before, each answer is the one of the current settings. *)
Theorem filter_current :
  forall E D proj libs rules uselib ops, coherent E D ->
    Forall (op_ok E D) ops -> Forall no_drop ops ->
    let s := run E (init proj libs rules uselib) ops in
    let c := settings E (s_cfg (init proj libs rules uselib)) ops in
    (forall f original force, D f -> e_abs E original = e_abs E (fr_file f) ->
       snd (apply_files_filter E s f original force) = filtered E c f original force) /\
    (forall f, D f -> snd (in_project_scope E s f) = in_scope E c f) /\
    (forall i t, (forall f, t = Some f -> D f) -> snd (exclude_exception_by_filter E s i t) = exception_filtered E c i t).
Proof.
  intros E D proj libs rules uselib ops Hc Ho Hn. cbv zeta.
  destruct (run_inv E D Hc true (init proj libs rules uselib) ops (init_inv E D true _ _ _ _) Ho (fun _ => Hn)) as [I Es].
  rewrite <- Es. split; [|split].
  - intros f o force Df Hf. destruct (apply_ok E D Hc true _ f o force I Df Hf) as (_ & _ & [K|[K _]]); [auto|discriminate].
  - intros f Df. apply (scope_ok E D Hc true _ f I Df).
  - intros i t Ht. apply (exc_ok E D Hc true _ i t I Ht).
Qed.
Print Assumptions filter_current.

(** C11.  With removals of template breakpoints as well, a file can at most stay included. *)
Theorem filter_never_hides :
  forall E D proj libs rules uselib ops f original force, coherent E D -> Forall (op_ok E D) ops ->
    D f -> e_abs E original = e_abs E (fr_file f) ->
    snd (apply_files_filter E (run E (init proj libs rules uselib) ops) f original force) = true ->
    filtered E (settings E (s_cfg (init proj libs rules uselib)) ops) f original force = true.
Proof.
  intros E D proj libs rules uselib ops f o force Hc Ho Df Hf H.
  destruct (run_inv E D Hc false (init proj libs rules uselib) ops (init_inv E D false _ _ _ _) Ho) as [I Es]; [discriminate|].
  rewrite <- Es. destruct (apply_ok E D Hc false _ f o force I Df Hf) as (_ & _ & [K|[_ K]]); congruence.
Qed.
Print Assumptions filter_never_hides.

Definition posix : plat := Plat (fun x => x) (fun c => c) 47 None (fun _ _ => false).
Definition E0 : env := Env (fun x => x) (fun x => x) 47 posix
  (fun a => if starts_with (lit "/pydevd/") a then Pydev else Regular).
Definition f0 : frame := Frame (lit "/prj/a.py") (lit "main") 3 1 (lit "pkg.a") true.
Definition f1 : frame := Frame (lit "/prj/a.py") (lit "main") 3 1 (lit "__main__") true.
Definition f2 : frame := Frame (lit "/lib/x.py") (lit "g") 5 2 (lit "x") true.
Definition D0 (f : frame) : Prop := f = f0 \/ f = f2.

Example filter_case :
  coherent E0 D0 /\
  Forall (op_ok E0 D0) [Apply f0 (lit "/prj/a.py") true; SetRoots [lit "/prj"]; SetRules [Rule (lit "pkg") true false]] /\
  snd (apply_files_filter E0 (run E0 (init [] [] [] false) [Apply f0 (lit "/prj/a.py") true]) f0 (lit "/prj/a.py") true) = false /\
  snd (apply_files_filter E0 (run E0 (init [] [] [] false)
     [Apply f0 (lit "/prj/a.py") true; SetRoots [lit "/prj"]; SetRules [Rule (lit "pkg") true false]]) f0 (lit "/prj/a.py") true) = true /\
  snd (apply_files_filter E0 (run E0 (init [] [] [] false)
     [Apply f2 (lit "/lib/x.py") false; SetRoots [lit "/prj"]; SetUseLib true]) f2 (lit "/lib/x.py") false) = true.
Proof.
  split; [|split; [|vm_compute; auto]].
  - intros f g [->| ->] [->| ->]; cbn; intros; try discriminate; auto.
  - repeat constructor; cbn; auto.
Qed.

(** Finding: the module name is not part of the cache keys; a file executed under two module names gets the
    first one's answer. *)
Theorem filter_module_refuted :
  exists E rules f g file, e_abs E file = e_abs E (fr_file g) /\
    snd (apply_files_filter E (run E (init [] [] rules false) [Apply f file false]) g file false) <>
    filtered E (s_cfg (init [] [] rules false)) g file false.
Proof.
  exists E0, [Rule (lit "pkg") true false], f0, f1, (lit "/prj/a.py"). split; [reflexivity|]. vm_compute. discriminate.
Qed.
Print Assumptions filter_module_refuted.

(** Finding: removing the last template breakpoint leaves the included answers in the cache. *)
Theorem filter_removal_refuted :
  exists E ops f file, Forall (op_ok E (fun x => x = f)) ops /\ e_abs E file = e_abs E (fr_file f) /\
    snd (apply_files_filter E (run E (init [lit "/prj/"] [] [] true) ops) f file false) <>
    filtered E (settings E (s_cfg (init [lit "/prj/"] [] [] true)) ops) f file false.
Proof.
  exists E0, [SetNeeds (fun _ => true); Apply f2 (lit "/lib/x.py") false; DropNeeds (fun _ => false)], f2, (lit "/lib/x.py").
  split; [repeat constructor|]. split; [reflexivity|]. vm_compute. discriminate.
Qed.
Print Assumptions filter_removal_refuted.

(** Finding: a thread that computes an answer while the settings change stores it after the caches were
    cleared; the old answer then stays. *)
Theorem filter_race_refuted :
  exists E s o f file force,
    let '(s1, b) := apply_compute E s f file force in            (* the thread has missed the cache *)
    let s2 := fst (step E s1 o) in                               (* the client changes a setting *)
    let s3 := apply_store s2 (fr_first f, file, force, fr_code f) b in
    snd (apply_files_filter E s3 f file force) <> filtered E (s_cfg s3) f file force.
Proof.
  exists E0, (init [lit "/lib/"] [] [] true), (SetRoots [lit "/prj"]), f2, (lit "/lib/x.py"), false. vm_compute. discriminate.
Qed.
Print Assumptions filter_race_refuted.
