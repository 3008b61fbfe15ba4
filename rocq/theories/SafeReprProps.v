(** Property C12: the text shown for a value is bounded, and complete for values within the limits. *)
From Coq Require Import List NArith ZArith Bool String Lia.
From Verif Require Import Base SafeRepr.
Import ListNotations.
Open Scope N_scope.

(** ** Specification *)

(** Texts outside the debugger's control: type names of at most [tn] characters, lengths of collections of
    at most twenty digits (a Python length fits a machine word). *)
Fixpoint names_le (tn : N) (v : value) : Prop :=
  match v with
  | VColl _ items => (fix all l := match l with [] => True | x :: r => names_le tn x /\ all r end) items
  | VDict _ items => (fix all l := match l with [] => True | (k, x) :: r => names_le tn k /\ names_le tn x /\ all r end) items
  | VSub name items _ => len name <= tn /\ len (dec (len items)) <= 20
  | _ => True
  end.

(** The bound: per character at most ten (an escape like \U0010ffff), each level multiplied by its limit. *)
Definition leaf_bound (L : limits) (top : bool) (tn : N) : N := 10 * limit_of L top + tn + 40.
Fixpoint bound (L : limits) (top : bool) (tn : N) (colls : list N) : N :=
  match colls with
  | [] => leaf_bound L top tn
  | n :: r => leaf_bound L top tn + (n + 1) * (2 * bound L false tn r + 45)
  end.

(** Python's own repr() of the modelled values. *)
Fixpoint sepc (l : list str) : str :=
  match l with [] => [] | [x] => x | x :: r => x ++ lit ", " ++ sepc r end.

Fixpoint py_repr (printable : N -> bool) (v : value) : str :=
  match v with
  | VColl Tuple [x] => lit "(" ++ py_repr printable x ++ lit ",)"
  | VColl Set_ [] => lit "set()"
  | VColl Frozenset [] => lit "frozenset()"
  | VColl Tuple items => lit "(" ++ sepc (map (py_repr printable) items) ++ lit ")"
  | VColl List_ items => lit "[" ++ sepc (map (py_repr printable) items) ++ lit "]"
  | VColl Set_ items => lit "{" ++ sepc (map (py_repr printable) items) ++ lit "}"
  | VColl Frozenset items => lit "frozenset({" ++ sepc (map (py_repr printable) items) ++ lit "})"
  | VColl Deque items => lit "deque([" ++ sepc (map (py_repr printable) items) ++ lit "])"
  | VDict true [] => lit "OrderedDict()"
  | VDict true items => lit "OrderedDict([" ++ sepc (map (fun p => match p with (k, x) => lit "(" ++ py_repr printable k ++ lit ", " ++ py_repr printable x ++ lit ")" end) items) ++ lit "])"
  | VDict false items => lit "{" ++ sepc (map (fun p => match p with (k, x) => py_repr printable k ++ lit ": " ++ py_repr printable x end) items) ++ lit "}"
  | VStr b s => str_repr printable b s
  | VSub _ _ r => r
  | VOther r => r
  | VSelf => []
  end.

(** Within the limits: fewer items than the limit of the level, texts not longer than theirs, and no empty set,
    frozenset or ordered dictionary. *)
Fixpoint fits (L : limits) (top : bool) (colls : list N) (v : value) : Prop :=
  match v with
  | VColl k items =>
      match colls with
      | [] => False
      | n :: r => len items < n /\ (items = [] -> k <> Set_ /\ k <> Frozenset) /\ Forall (fits L false r) items
      end
  | VDict o items =>
      match colls with
      | [] => items = [] /\ o = false
      | n :: r => len items < n /\ (items = [] -> o = false) /\
                  Forall (fun p => fits L false r (fst p) /\ fits L false r (snd p)) items
      end
  | VStr _ s => len s <= limit_of L top
  | VSub _ _ r => is_long L (l_coll L) v = false /\ len r <= limit_of L top
  | VOther r => len r <= limit_of L top
  | VSelf => False
  end.

(** ** Lengths *)
Lemma len_app {A} (a b : list A) : len (a ++ b) = len a + len b.
Proof. unfold len. rewrite app_length. lia. Qed.
Lemma len_cons {A} (x : A) l : len (x :: l) = 1 + len l.
Proof. unfold len. cbn [List.length]. lia. Qed.
Lemma len_nil {A} : len (@nil A) = 0.
Proof. reflexivity. Qed.

Lemma hex_len d c : len (hex d c) = N.of_nat d.
Proof. revert c. induction d as [|d IH]; intros c; cbn [hex]; [reflexivity|]. rewrite len_app, IH, len_cons, len_nil. lia. Qed.

Lemma esc_len printable b q c : len (esc printable b q c) <= 10.
Proof.
  unfold esc.
  repeat match goal with |- context [if ?x then _ else _] => destruct x end;
    rewrite ?len_app, ?hex_len, ?len_cons, ?len_nil; try (change (len (lit "\x")) with 2); try (change (len (lit "\u")) with 2);
    try (change (len (lit "\U")) with 2); try (vm_compute; discriminate); lia.
Qed.

Lemma flat_map_len {A} (f : A -> str) k l : (forall x, len (f x) <= k) -> len (flat_map f l) <= k * len l.
Proof.
  intros H. induction l as [|x l IH]; cbn [flat_map]; rewrite ?len_app, ?len_cons, ?len_nil; [lia|]. specialize (H x). nia.
Qed.

Lemma str_repr_len printable b s : len (str_repr printable b s) <= 10 * len s + 3.
Proof.
  unfold str_repr. rewrite len_app, len_cons, len_app, len_cons, len_nil.
  pose proof (flat_map_len (esc printable b (quote_of s)) 10 s (esc_len printable b (quote_of s))).
  destruct b; [change (len (lit "b")) with 1|rewrite len_nil]; lia.
Qed.

Lemma before_last_len c s p : before_last c s = Some p -> len p <= len s.
Proof.
  revert p. induction s as [|x s IH]; intros p; cbn [before_last]; [discriminate|].
  destruct (before_last c s) as [q|].
  - intros H. inversion H. rewrite !len_cons. specialize (IH q eq_refl). lia.
  - destruct (N.eqb x c); [|discriminate]. intros H. inversion H. rewrite len_nil. lia.
Qed.
Lemma after_first_len c s p : after_first c s = Some p -> len p <= len s.
Proof.
  revert p. induction s as [|x s IH]; intros p; cbn [after_first]; [discriminate|].
  destruct (N.eqb x c); [intros H; inversion H; subst; rewrite len_cons; lia|]. intros H. apply IH in H. rewrite len_cons. lia.
Qed.
Lemma first_n_len n s : len (first_n n s) <= n.
Proof. unfold first_n, len. pose proof (firstn_le_length (N.to_nat n) s). lia. Qed.
Lemma last_n_len n s : len (last_n n s) <= n.
Proof. unfold last_n, len. rewrite skipn_length. lia. Qed.

Lemma counts limit : left_count limit + right_count limit <= limit + 2.
Proof.
  unfold left_count, right_count.
  pose proof (N.mul_div_le (2 * limit) 3 ltac:(lia)). pose proof (N.mul_div_le limit 3 ltac:(lia)).
  assert (2 * limit / 3 + limit / 3 <= limit) by lia. lia.
Qed.

Lemma repr_obj_len L top r : len (repr_obj L top r) <= limit_of L top + 5.
Proof.
  unfold repr_obj. destruct (N.leb_spec (len r) (limit_of L top)); [lia|].
  rewrite !len_app. change (len (lit "...")) with 3.
  pose proof (first_n_len (left_count (limit_of L top)) r). pose proof (last_n_len (right_count (limit_of L top)) r).
  pose proof (counts (limit_of L top)). lia.
Qed.

Lemma repr_str_len printable L top b s : len (repr_str printable L top b s) <= 10 * limit_of L top + 30.
Proof.
  unfold repr_str. destruct (N.leb_spec (len s) (limit_of L top)).
  - pose proof (str_repr_len printable b s). lia.
  - destruct (before_last _ _) as [p1|] eqn:E1; [destruct (after_first _ _) as [p2|] eqn:E2|].
    + apply before_last_len in E1. apply after_first_len in E2. rewrite !len_app. change (len (lit "...")) with 3.
      pose proof (str_repr_len printable b (first_n (left_count (limit_of L top)) s)).
      pose proof (str_repr_len printable b (last_n (right_count (limit_of L top)) s)).
      pose proof (first_n_len (left_count (limit_of L top)) s). pose proof (last_n_len (right_count (limit_of L top)) s).
      pose proof (counts (limit_of L top)). lia.
    + pose proof (repr_obj_len L top (str_repr printable b s)). lia.
    + pose proof (repr_obj_len L top (str_repr printable b s)). lia.
Qed.

Lemma names_coll tn k items : names_le tn (VColl k items) -> Forall (names_le tn) items.
Proof. cbn. induction items as [|x r IH]; intros H; constructor; [apply H|apply IH, H]. Qed.
Lemma names_dict tn o items : names_le tn (VDict o items) -> Forall (fun p => names_le tn (fst p) /\ names_le tn (snd p)) items.
Proof. cbn. induction items as [|[k x] r IH]; intros H; constructor; [cbn; tauto|apply IH, H]. Qed.

Lemma iter_loop_len rep self comma n B items : Forall (fun x => len (rep x) <= B) items -> len self <= 30 ->
  forall count first, len (iter_loop rep self comma n count first items) <= (count + 1) * (B + 33).
Proof.
  intros H Hs. induction H as [|x r Hx Hr IH]; intros count first; cbn [iter_loop].
  - destruct (comma && _); [change (len (lit ",")) with 1|rewrite len_nil]; lia.
  - rewrite len_app. assert (len (if first then [] else lit ", ") <= 2) by (destruct first; vm_compute; discriminate).
    destruct (N.leb_spec count 1).
    + change (len (lit "...")) with 3. nia.
    + rewrite len_app. specialize (IH (N.pred count) false).
      assert (len (shown rep self x) <= B + 30) by (destruct x; cbn [shown]; lia).
      replace (N.pred count + 1) with count in IH by lia. nia.
Qed.

Lemma dict_loop_len rep self o B items : Forall (fun p => len (rep (fst p)) <= B /\ len (rep (snd p)) <= B) items -> len self <= 30 ->
  forall count first, len (dict_loop rep self o count first items) <= (count + 1) * (2 * B + 45).
Proof.
  intros H Hs. induction H as [|[k x] r [Hk Hx] Hr IH]; intros count first; cbn [dict_loop].
  - rewrite len_nil. lia.
  - cbn [fst snd] in *. rewrite len_app. assert (len (if first then [] else lit ", ") <= 2) by (destruct first; vm_compute; discriminate).
    destruct (N.leb_spec count 1).
    + change (len (lit "...")) with 3. nia.
    + rewrite !len_app. specialize (IH (N.pred count) false).
      assert (len (shown rep self x) <= B + 30) by (destruct x; cbn [shown]; lia).
      assert (len (item_prefix o) <= 1) by (destruct o; vm_compute; discriminate).
      assert (len (item_sep o) <= 2) by (destruct o; vm_compute; discriminate).
      assert (len (item_suffix o) <= 1) by (destruct o; vm_compute; discriminate).
      replace (N.pred count + 1) with count in IH by lia. nia.
Qed.

Lemma prefix_len k : len (prefix_of k) <= 11 /\ len (suffix_of k) <= 2.
Proof. destruct k; split; vm_compute; discriminate. Qed.
Lemma dict_prefix_len o : len (dict_prefix o) <= 13 /\ len (dict_suffix o) <= 2.
Proof. destruct o; split; vm_compute; discriminate. Qed.
Lemma dots : len (lit "...") = 3. Proof. reflexivity. Qed.

Lemma repr_bound printable L tn : forall colls top v, names_le tn v -> len (repr printable L top colls v) <= bound L top tn colls.
Proof.
  intros colls. assert (LB : forall top c, leaf_bound L top tn <= bound L top tn c) by (intros top [|n r]; cbn [bound]; lia).
  induction colls as [|n colls IH]; intros top v Hv; pose proof (LB top) as LBt; unfold leaf_bound in *.
  - cbn [bound]. unfold leaf_bound. destruct v as [k items|o items|b s|name items r|r|]; cbn [repr].
    + destruct (prefix_len k). rewrite !len_app, dots. lia.
    + destruct (dict_prefix_len o). destruct items; rewrite !len_app, ?dots; lia.
    + pose proof (repr_str_len printable L top b s). lia.
    + destruct Hv as [H1 H2]. destruct (is_long L (l_coll L) _).
      * unfold long_text. rewrite !len_app. change (len (lit "<")) with 1. change (len (lit ", len() = ")) with 10. change (len (lit ">")) with 1. lia.
      * pose proof (repr_obj_len L top r). lia.
    + pose proof (repr_obj_len L top r). lia.
    + rewrite len_nil. lia.
  - specialize (LBt (n :: colls)). cbn [bound] in *. unfold leaf_bound. set (B := bound L false tn colls) in *.
    destruct v as [k items|o items|b s|name items r|r|]; cbn [repr].
    + destruct (prefix_len k). rewrite !len_app. apply names_coll in Hv.
      assert (F : Forall (fun x => len (repr printable L false colls x) <= B) items) by (eapply Forall_impl; [|exact Hv]; intros; now apply IH).
      pose proof (iter_loop_len (repr printable L false colls) (prefix_of k ++ lit "..." ++ suffix_of k) (comma_of k) n B items F) as G.
      rewrite !len_app, dots in G. specialize (G ltac:(lia) n true). nia.
    + destruct (dict_prefix_len o). destruct items as [|p items]; [rewrite !len_app; nia|]. set (l := p :: items) in *. clearbody l.
      apply names_dict in Hv.
      assert (F : Forall (fun p => len (repr printable L false colls (fst p)) <= B /\ len (repr printable L false colls (snd p)) <= B) l).
      { eapply Forall_impl; [|exact Hv]. intros q [A C]. split; now apply IH. }
      pose proof (dict_loop_len (repr printable L false colls) (dict_prefix o ++ lit "..." ++ dict_suffix o) o B l F) as G.
      rewrite !len_app, dots in *. specialize (G ltac:(lia) n true). nia.
    + pose proof (repr_str_len printable L top b s). nia.
    + destruct Hv as [H1 H2]. destruct (is_long L (l_coll L) _).
      * unfold long_text. rewrite !len_app. change (len (lit "<")) with 1. change (len (lit ", len() = ")) with 10. change (len (lit ">")) with 1. nia.
      * pose proof (repr_obj_len L top r). nia.
    + pose proof (repr_obj_len L top r). nia.
    + rewrite len_nil. nia.
Qed.

(** C12.  The text is bounded by a constant given by the limits, whatever the value. *)
Theorem repr_bounded :
  forall printable L tn v, names_le tn v -> len (safe_repr printable L v) <= bound L true tn (l_coll L).
Proof. intros printable L tn v H. now apply repr_bound. Qed.
Print Assumptions repr_bounded.

(** With the default limits and type names of at most 1000 characters. *)
Example repr_bounded_case :
  bound default_limits true 1000 (l_coll default_limits) = 12945155 /\
  names_le 1000 (VColl List_ [VOther (lit "1"); VDict false [(VStr false (lit "k"), VSub (lit "MyList") [VOther (lit "2")] (lit "<mine>"))]]).
Proof. split; [vm_compute; reflexivity|]. cbn. repeat split; vm_compute; discriminate. Qed.

(** ** Complete text within the limits *)
Lemma iter_loop_full rep self comma n items : forall count first,
  len items < count -> (forall x, In x items -> x <> VSelf) ->
  iter_loop rep self comma n count first items =
  (if first then [] else match items with [] => [] | _ => lit ", " end) ++ sepc (map rep items) ++
  (if comma && N.eqb (N.succ (count - len items)) n then lit "," else []).
Proof.
  induction items as [|x r IH]; intros count first Hc Hs; cbn [iter_loop map].
  - rewrite len_nil, N.sub_0_r. destruct first; reflexivity.
  - rewrite len_cons in *. destruct (N.leb_spec count 1); [lia|].
    assert (Ex : (shown rep self x) = rep x) by (specialize (Hs x (or_introl eq_refl)); destruct x; cbn [shown]; congruence).
    rewrite Ex, IH by (try lia; intros y Hy; apply Hs; now right).
    replace (count - (1 + len r)) with (N.pred count - len r) by lia. f_equal. cbn [sepc]. destruct r as [|y r]; cbn [map].
    + reflexivity.
    + rewrite <- !app_assoc. reflexivity.
Qed.

Definition item_text rep (o : bool) (p : value * value) : str :=
  item_prefix o ++ rep (fst p) ++ item_sep o ++ rep (snd p) ++ item_suffix o.

Lemma dict_loop_full rep self o items : forall count first,
  len items < count -> (forall p, In p items -> snd p <> VSelf) ->
  dict_loop rep self o count first items =
  (if first then [] else match items with [] => [] | _ => lit ", " end) ++ sepc (map (item_text rep o) items).
Proof.
  induction items as [|[k x] r IH]; intros count first Hc Hs; cbn [dict_loop map].
  - destruct first; reflexivity.
  - rewrite len_cons in *. destruct (N.leb_spec count 1); [lia|].
    assert (Ex : (shown rep self x) = rep x) by (specialize (Hs (k, x) (or_introl eq_refl)); cbn in Hs; destruct x; cbn [shown]; congruence).
    rewrite Ex, IH by (try lia; intros y Hy; apply Hs; now right). unfold item_text at 2. cbn [fst snd sepc]. f_equal.
    destruct r as [|y r]; cbn [map]; rewrite <- ?app_assoc; cbn [app]; rewrite ?app_nil_r; reflexivity.
Qed.

Lemma fits_not_self L top colls v : fits L top colls v -> v <> VSelf.
Proof. intros H ->. destruct colls; exact H. Qed.

Lemma repr_fits printable L : forall colls top v, fits L top colls v -> repr printable L top colls v = py_repr printable v.
Proof.
  assert (LO : forall top r, len r <= limit_of L top -> repr_obj L top r = r).
  { intros top r H. unfold repr_obj. destruct (N.leb_spec (len r) (limit_of L top)); [auto|lia]. }
  assert (LS : forall top b s, len s <= limit_of L top -> repr_str printable L top b s = str_repr printable b s).
  { intros top b s H. unfold repr_str. destruct (N.leb_spec (len s) (limit_of L top)); [auto|lia]. }
  induction colls as [|n colls IH]; intros top v Hv; destruct v as [k items|o items|b s|name items r|r|]; cbn [repr fits] in *;
    try (exfalso; exact Hv); try (now apply LS); try (now apply LO);
    try (destruct Hv as [Hv1 Hv2]; rewrite Hv1; now apply LO).
  - destruct Hv as [-> ->]. reflexivity.
  - destruct Hv as (Hn & He & Hf). rewrite Forall_forall in Hf.
    rewrite iter_loop_full; [|auto|intros x Hx; eapply fits_not_self; eauto]. cbn [app].
    assert (Em : map (repr printable L false colls) items = map (py_repr printable) items).
    { apply map_ext_in. intros x Hx. apply IH. auto. }
    rewrite Em.
    assert (Ec : N.eqb (N.succ (n - len items)) n = match items with [x] => true | _ => false end).
    { destruct items as [|x [|y r]]; rewrite ?len_cons, ?len_nil in *.
      - apply N.eqb_neq. lia.
      - apply N.eqb_eq. lia.
      - apply N.eqb_neq. lia. }
    rewrite Ec. destruct k; cbn [comma_of andb prefix_of suffix_of].
    + destruct items as [|x [|y r]].
      * reflexivity.
      * cbn [map sepc py_repr]. rewrite <- app_assoc. reflexivity.
      * rewrite app_nil_r. reflexivity.
    + rewrite app_nil_r. reflexivity.
    + destruct items as [|x r]; [destruct (He eq_refl); congruence|]. rewrite app_nil_r. reflexivity.
    + destruct items as [|x r]; [destruct (He eq_refl); congruence|]. rewrite app_nil_r. reflexivity.
    + rewrite app_nil_r. reflexivity.
  - destruct Hv as (Hn & He & Hf). rewrite Forall_forall in Hf. destruct items as [|p items].
    + rewrite (He eq_refl). reflexivity.
    + set (l := p :: items) in *.
      rewrite dict_loop_full; [|auto|intros q Hq; eapply fits_not_self; apply Hf; eauto]. cbn [app].
      assert (Em : map (item_text (repr printable L false colls) o) l = map (item_text (py_repr printable) o) l).
      { apply map_ext_in. intros q Hq. unfold item_text. rewrite !IH by apply Hf, Hq. reflexivity. }
      rewrite Em. destruct o; cbn [dict_prefix dict_suffix].
      * unfold l at 2. cbn [py_repr]. fold l. f_equal. f_equal. f_equal. apply map_ext. intros [k x]. reflexivity.
      * cbn [py_repr]. f_equal. f_equal. f_equal. apply map_ext. intros [k x]. unfold item_text. cbn [item_prefix item_sep item_suffix fst snd app].
        now rewrite app_nil_r.
Qed.

(** C12.  A value within the limits is shown exactly as Python shows it. *)
Theorem repr_complete :
  forall printable L v, fits L true (l_coll L) v -> safe_repr printable L v = py_repr printable v.
Proof. intros printable L v H. now apply repr_fits. Qed.
Print Assumptions repr_complete.

Definition ex_value : value :=
  VDict false [(VStr false (lit "a"), VColl Tuple [VOther (lit "1")]); (VOther (lit "2"), VStr true [0; 39])].

Example repr_complete_case :
  fits default_limits true (l_coll default_limits) ex_value /\
  safe_repr (fun _ => true) default_limits ex_value = lit "{'a': (1,), 2: b" ++ [34] ++ lit "\x00'" ++ [34] ++ lit "}".
Proof.
  split; [|vm_compute; reflexivity]. cbn. repeat (split || constructor || intros); try discriminate; try (vm_compute; congruence).
Qed.

(** C12.  The text depends on the value only down to the depth of the limits; so the theorems also cover
    cyclic values, through any tree that unfolds them that far. *)
Inductive agree : list N -> value -> value -> Prop :=
| ag_coll_end k a b : agree [] (VColl k a) (VColl k b)
| ag_dict_end o a b : (a = [] <-> b = []) -> agree [] (VDict o a) (VDict o b)
| ag_coll n r k a b : Forall2 (agree r) a b -> agree (n :: r) (VColl k a) (VColl k b)
| ag_dict n r o a b : Forall2 (fun p q => agree r (fst p) (fst q) /\ agree r (snd p) (snd q)) a b -> agree (n :: r) (VDict o a) (VDict o b)
| ag_leaf l v : (match v with VColl _ _ | VDict _ _ => False | _ => True end) -> agree l v v.

Lemma agree_self l a b : agree l a b -> (a = VSelf <-> b = VSelf).
Proof. intros H. destruct H; split; intros K; try discriminate; auto. Qed.

Lemma shown_agree rep self l x y : agree l x y -> rep x = rep y -> shown rep self x = shown rep self y.
Proof. intros H E. destruct H; cbn [shown]; auto. Qed.

Lemma iter_agree rep self comma n l a b : Forall2 (agree l) a b -> (forall x y, agree l x y -> rep x = rep y) ->
  forall count first, iter_loop rep self comma n count first a = iter_loop rep self comma n count first b.
Proof.
  intros H Hr. induction H as [|x y a b Hxy Hab IH]; intros count first; cbn [iter_loop]; auto.
  rewrite IH, (shown_agree rep self l x y) by auto. reflexivity.
Qed.

Lemma dict_agree rep self o l a b : Forall2 (fun p q => agree l (fst p) (fst q) /\ agree l (snd p) (snd q)) a b ->
  (forall x y, agree l x y -> rep x = rep y) ->
  forall count first, dict_loop rep self o count first a = dict_loop rep self o count first b.
Proof.
  intros H Hr. induction H as [|[k x] [k' y] a b [Hk Hxy] Hab IH]; intros count first; cbn [dict_loop]; auto. cbn [fst snd] in *.
  rewrite IH, (shown_agree rep self l x y), (Hr k k') by auto. reflexivity.
Qed.

Theorem repr_depth :
  forall printable L top colls a b, agree colls a b -> repr printable L top colls a = repr printable L top colls b.
Proof.
  intros printable L top colls. revert top. induction colls as [|n colls IH]; intros top a b H; inversion H; subst; auto.
  - cbn [repr]. destruct a0, b0; auto; exfalso; destruct H0 as [H0 H1]; [discriminate (H0 eq_refl)|discriminate (H1 eq_refl)].
  - cbn [repr]. f_equal. f_equal. eapply iter_agree; eauto.
  - cbn [repr]. pose proof (dict_agree (repr printable L false colls) (dict_prefix o ++ lit "..." ++ dict_suffix o) o colls a0 b0 H4 (IH false)) as G.
    destruct H4 as [|p q a b Hpq Hab]; auto. f_equal. f_equal. apply G.
Qed.
Print Assumptions repr_depth.

Example repr_depth_case :
  agree [60; 20] (VColl List_ [VColl List_ [VColl List_ [VOther (lit "1")]]]) (VColl List_ [VColl List_ [VColl List_ []]]).
Proof. repeat constructor. Qed.

(** Findings: sixty items, exactly the limit, are not shown in full; empty sets look like empty dictionaries; an
    empty list two levels deep looks longer than it is. *)
Theorem repr_exact_limit_refuted :
  exists v, (exists items, v = VColl List_ items /\ len items = 60) /\ safe_repr (fun _ => true) default_limits v <> py_repr (fun _ => true) v.
Proof.
  exists (VColl List_ (repeat (VOther (lit "1")) 60)). split; [eexists; split; [reflexivity|reflexivity]|]. vm_compute. discriminate.
Qed.
Print Assumptions repr_exact_limit_refuted.

Theorem repr_empty_refuted :
  safe_repr (fun _ => true) default_limits (VColl Set_ []) = py_repr (fun _ => true) (VDict false []) /\
  safe_repr (fun _ => true) default_limits (VColl List_ [VColl List_ [VColl List_ []]]) <>
  py_repr (fun _ => true) (VColl List_ [VColl List_ [VColl List_ []]]).
Proof. vm_compute. split; [reflexivity|discriminate]. Qed.
Print Assumptions repr_empty_refuted.

(** A cut text shows the beginning of the string. *)
Theorem repr_cut_prefix :
  forall printable L b s, ~ In 39 s -> l_outer L < len s ->
    exists rest, safe_repr printable L (VStr b s) =
      (if b then lit "b" else []) ++ [39] ++ flat_map (esc printable b 39) (first_n (left_count (l_outer L)) s) ++ lit "..." ++ rest.
Proof.
  intros printable L b s Hq Hl. unfold safe_repr. destruct (l_coll L); cbn [repr]; unfold repr_str; cbn [limit_of];
  (destruct (N.leb_spec (len s) (l_outer L)); [lia|]).
  all: assert (Q : forall t, (forall x, In x t -> In x s) -> quote_of t = 39)
      by (intros t Ht; unfold quote_of; destruct (has 39 t) eqn:E; [|reflexivity];
          apply existsb_exists in E; destruct E as (x & Hx & E); apply N.eqb_eq in E; subst x; exfalso; auto).
  all: assert (B1 : forall p, before_last 39 (p ++ [39]) = Some p)
      by (induction p as [|x p IHp]; cbn [app before_last]; [reflexivity|rewrite IHp; reflexivity]).
  all: set (t1 := first_n (left_count (l_outer L)) s); set (t2 := last_n (right_count (l_outer L)) s).
  all: assert (Q1 : quote_of t1 = 39) by (apply Q; intros x Hx; unfold t1, first_n in Hx; rewrite <- (firstn_skipn (N.to_nat (left_count (l_outer L))) s); apply in_app_iff; auto).
  all: assert (Q2 : quote_of t2 = 39) by (apply Q; intros x Hx; unfold t2, last_n in Hx;
       rewrite <- (firstn_skipn (List.length s - N.to_nat (right_count (l_outer L))) s); apply in_app_iff; auto).
  all: assert (A : str_repr printable b t1 = ((if b then lit "b" else []) ++ 39 :: flat_map (esc printable b 39) t1) ++ [39])
      by (unfold str_repr; rewrite Q1, <- app_assoc; reflexivity).
  all: rewrite A, B1.
  all: assert (A2 : after_first 39 (str_repr printable b t2) = Some (flat_map (esc printable b 39) t2 ++ [39]))
      by (unfold str_repr; rewrite Q2; destruct b; reflexivity).
  all: rewrite A2; exists (flat_map (esc printable b 39) t2 ++ [39]); rewrite <- app_assoc; reflexivity.
Qed.
Print Assumptions repr_cut_prefix.

Example repr_cut_prefix_case :
  safe_repr (fun _ => true) (Limits [] 6 6 6) (VStr false (lit "abcdefghij")) = lit "'abcd...ij'".
Proof. reflexivity. Qed.

(** Finding: with an apostrophe and no double quote in the shown part, everything after the last apostrophe of
    the left part and before the first one of the right part disappears. *)
Theorem repr_cut_quote_refuted :
  exists L s, l_outer L < len s /\ safe_repr (fun _ => true) L (VStr false s) = [34] ++ lit "a..." ++ lit "t" ++ [34] /\
    first_n (left_count (l_outer L)) s = lit "a'bcdefg".
Proof. exists (Limits [] 12 12 12), (lit "a'bcdefghijklmr't"). vm_compute. auto. Qed.
Print Assumptions repr_cut_quote_refuted.

Lemma skipn_skipn' {A} a : forall b (l : list A), skipn a (skipn b l) = skipn (b + a) l.
Proof. induction b; intros l; cbn [Nat.add]; auto. destruct l; [now rewrite !skipn_nil|]. cbn [skipn]. apply IHb. Qed.

(** A cut text of an opaque object shows its beginning and its end. *)
Theorem repr_other_cut :
  forall printable L r, 3 <= l_outer L -> l_outer L < len r ->
    exists a m b, r = a ++ m ++ b /\ len a = N.max 1 (2 * l_outer L / 3) /\
      len b = N.max 1 (l_outer L / 3) /\ safe_repr printable L (VOther r) = a ++ lit "..." ++ b.
Proof.
  intros printable L r H3 H. unfold safe_repr.
  assert (S : left_count (l_outer L) + right_count (l_outer L) <= l_outer L).
  { unfold left_count, right_count. pose proof (N.div_mod' (2 * l_outer L) 3). pose proof (N.div_mod' (l_outer L) 3). 
    assert (1 <= l_outer L / 3) by (apply N.div_le_lower_bound; lia).
    remember (2 * l_outer L / 3) as x eqn:Ex. remember (l_outer L / 3) as y eqn:Ey. clear Ex Ey. 
    remember ((2 * l_outer L) mod 3) as u eqn:Eu. remember (l_outer L mod 3) as w eqn:Ew. clear Eu Ew. lia. }
  unfold len in *. set (l := left_count (l_outer L)) in *. set (rc := right_count (l_outer L)) in *.
  exists (first_n l r), (firstn (List.length r - N.to_nat l - N.to_nat rc) (skipn (N.to_nat l) r)), (last_n rc r).
  unfold first_n, last_n. split; [|split; [|split]].
  - rewrite <- (firstn_skipn (N.to_nat l) r) at 1. f_equal.
    rewrite <- (firstn_skipn (List.length r - N.to_nat l - N.to_nat rc) (skipn (N.to_nat l) r)) at 1. f_equal.
    rewrite skipn_skipn'. f_equal. unfold str. lia.
  - rewrite firstn_length. fold (left_count (l_outer L)). fold l. lia.
  - rewrite skipn_length. fold (right_count (l_outer L)). fold rc. lia.
  - destruct (l_coll L); cbn [repr]; unfold repr_obj; cbn [limit_of]; destruct (N.leb_spec (len r) (l_outer L)); unfold len in *; try lia; reflexivity.
Qed.
Print Assumptions repr_other_cut.

(** ** The text of a string reads back as the string *)
(** Python's lexical rules for the escapes used by repr(). *)
Definition unhex (c : N) : option N :=
  if (48 <=? c) && (c <=? 57) then Some (c - 48) else if (97 <=? c) && (c <=? 102) then Some (c - 87) else None.
Fixpoint unhexs (acc : N) (s : str) : option N :=
  match s with [] => Some acc | c :: r => match unhex c with Some d => unhexs (acc * 16 + d) r | None => None end end.
Definition cons_opt (c : option N) (r : option str) : option str :=
  match c, r with Some c, Some r => Some (c :: r) | _, _ => None end.
Fixpoint read_body (q : N) (s : str) : option str :=
  match s with
  | [] => None
  | c :: r =>
      if N.eqb c q then match r with [] => Some [] | _ => None end
      else if N.eqb c 92 then
        match r with
        | [] => None
        | k :: r1 =>
            if N.eqb k 116 then cons_opt (Some 9) (read_body q r1)
            else if N.eqb k 110 then cons_opt (Some 10) (read_body q r1)
            else if N.eqb k 114 then cons_opt (Some 13) (read_body q r1)
            else if N.eqb k 120 then
              match r1 with a :: b :: r2 => cons_opt (unhexs 0 [a; b]) (read_body q r2) | _ => None end
            else if N.eqb k 117 then
              match r1 with a :: b :: c1 :: d :: r2 => cons_opt (unhexs 0 [a; b; c1; d]) (read_body q r2) | _ => None end
            else if N.eqb k 85 then
              match r1 with
              | a :: b :: c1 :: d :: e :: f :: g :: h :: r2 => cons_opt (unhexs 0 [a; b; c1; d; e; f; g; h]) (read_body q r2)
              | _ => None
              end
            else if N.eqb k 39 || N.eqb k 34 || N.eqb k 92 then cons_opt (Some k) (read_body q r1)
            else None
        end
      else cons_opt (Some c) (read_body q r)
  end.
Definition read_literal (bytes : bool) (s : str) : option str :=
  let s := if bytes then match s with 98 :: r => r | _ => [] end else s in
  match s with
  | q :: r => if N.eqb q 39 || N.eqb q 34 then read_body q r else None
  | [] => None
  end.

Lemma unhex_digit d : d < 16 -> unhex (hex_digit d) = Some d.
Proof.
  intros H. unfold hex_digit, unhex. destruct (N.ltb_spec d 10).
  - destruct (N.leb_spec 48 (48 + d)), (N.leb_spec (48 + d) 57); cbn [andb]; try lia. f_equal. lia.
  - destruct (N.leb_spec 48 (87 + d)), (N.leb_spec (87 + d) 57), (N.leb_spec 97 (87 + d)), (N.leb_spec (87 + d) 102); cbn [andb]; try lia; f_equal; lia.
Qed.
Lemma unhexs_app a b acc : unhexs acc (a ++ b) = match unhexs acc a with Some x => unhexs x b | None => None end.
Proof. revert acc. induction a; intros acc; cbn [app unhexs]; auto. destruct (unhex a); auto. Qed.
Lemma unhexs_hex n : forall c, c < 16 ^ N.of_nat n -> unhexs 0 (hex n c) = Some c.
Proof.
  induction n as [|n IH]; intros c H.
  - cbn in *. f_equal. lia.
  - cbn [hex]. rewrite unhexs_app, IH.
    + cbn [unhexs]. rewrite unhex_digit by (apply N.mod_lt; lia). f_equal. pose proof (N.div_mod' c 16). lia.
    + rewrite Nat2N.inj_succ, N.pow_succ_r' in H. apply N.div_lt_upper_bound; lia.
Qed.

Definition char_ok (bytes : bool) (c : N) : Prop := c < (if bytes then 256 else 1114112).

Lemma hex2 c : exists a b, hex 2 c = [a; b]. Proof. cbn [hex app]. eauto. Qed.

Lemma read_esc printable b q c r : q = 39 \/ q = 34 -> char_ok b c ->
  read_body q (esc printable b q c ++ r) = cons_opt (Some c) (read_body q r).
Proof.
  intros Hq Hc. unfold esc.
  assert (H2 : forall c, c < 256 -> forall r, read_body q ((lit "\x" ++ hex 2 c) ++ r) = cons_opt (Some c) (read_body q r)).
  { intros x Hx t. pose proof (unhexs_hex 2 x) as U. cbn [hex app] in *. rewrite <- U by exact Hx.
    destruct Hq; subst q; reflexivity. }
  assert (H4 : forall c, c < 65536 -> forall r, read_body q ((lit "\u" ++ hex 4 c) ++ r) = cons_opt (Some c) (read_body q r)).
  { intros x Hx t. pose proof (unhexs_hex 4 x) as U. cbn [hex app] in *. rewrite <- U by exact Hx.
    destruct Hq; subst q; reflexivity. }
  assert (H8 : forall c, c < 4294967296 -> forall r, read_body q ((lit "\U" ++ hex 8 c) ++ r) = cons_opt (Some c) (read_body q r)).
  { intros x Hx t. pose proof (unhexs_hex 8 x) as U. cbn [hex app] in *. rewrite <- U by exact Hx.
    destruct Hq; subst q; reflexivity. }
  destruct (N.eqb_spec c q) as [E|N1]; cbn [orb].
  { subst c. destruct Hq; subst q; reflexivity. }
  destruct (N.eqb_spec c 92) as [E|N2]; cbn [orb].
  { subst c. destruct Hq; subst q; reflexivity. }
  destruct (N.eqb_spec c 9) as [E|N3]; [subst c; destruct Hq; subst q; reflexivity|].
  destruct (N.eqb_spec c 10) as [E|N4]; [subst c; destruct Hq; subst q; reflexivity|].
  destruct (N.eqb_spec c 13) as [E|N5]; [subst c; destruct Hq; subst q; reflexivity|].
  assert (HP : read_body q ([c] ++ r) = cons_opt (Some c) (read_body q r)).
  { cbn [app read_body]. apply N.eqb_neq in N1, N2. rewrite N1, N2. reflexivity. }
  destruct (N.ltb_spec c 32); cbn [orb]; [apply H2; lia|].
  destruct (N.eqb_spec c 127); cbn [orb]; [apply H2; lia|].
  destruct (N.ltb_spec c 127); [exact HP|].
  unfold char_ok in Hc. destruct b; [apply H2; lia|]. destruct (printable c); [exact HP|].
  destruct (N.ltb_spec c 256); [apply H2; lia|]. destruct (N.ltb_spec c 65536); [apply H4; lia|apply H8; lia].
Qed.

Theorem repr_str_readable :
  forall printable L b s, Forall (char_ok b) s -> len s <= l_outer L -> read_literal b (safe_repr printable L (VStr b s)) = Some s.
Proof.
  intros printable L b s Hs Hl.
  assert (E : safe_repr printable L (VStr b s) = str_repr printable b s).
  { unfold safe_repr. destruct (l_coll L); cbn [repr]; unfold repr_str; cbn [limit_of]; destruct (N.leb_spec (len s) (l_outer L)); auto; lia. }
  rewrite E. unfold str_repr. set (q := quote_of s).
  assert (Hq : q = 39 \/ q = 34) by (unfold q, quote_of; destruct (_ && _); auto).
  assert (R : read_literal b ((if b then lit "b" else []) ++ q :: flat_map (esc printable b q) s ++ [q]) = read_body q (flat_map (esc printable b q) s ++ [q])).
  { destruct Hq as [Eq|Eq]; rewrite Eq; destruct b; reflexivity. }
  rewrite R. clear E R Hl. clearbody q. induction Hs as [|c s Hc Hs IH].
  - cbn [flat_map app read_body]. now rewrite N.eqb_refl.
  - cbn [flat_map]. rewrite <- app_assoc, read_esc by auto. rewrite IH. reflexivity.
Qed.
Print Assumptions repr_str_readable.

Example repr_str_readable_case :
  Forall (char_ok false) (lit "it's ""x"" \n" ++ [0; 10; 8364; 65534; 1114111]) /\
  safe_repr (fun c => N.eqb c 8364) default_limits (VStr false (lit "it's ""x"" \n" ++ [0; 10; 8364; 65534; 1114111]))
  = lit "'it\'s ""x"" \\n\x00\n" ++ [8364] ++ lit "\ufffe\U0010ffff'".
Proof. split; [repeat constructor|vm_compute; reflexivity]. Qed.
