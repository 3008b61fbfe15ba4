(** C42: expanding a dictionary or a set shows its entries once and in order up to the limit, says so when there
    may be more, and the names shown are distinct and lead back to the entry. *)
From Coq Require Import String List NArith ZArith Bool Arith Lia FinFun.
From Verif Require Import Base DictView.
Import ListNotations.
Local Open Scope list_scope.

(** ** Specification *)
Section Spec.
Context {K V : Type}.
(** The names and values of the entries, and whether the note that there are too many is at the end *)
Fixpoint shown (l : list (dentry V)) : list (str * V) :=
  match l with [] => [] | DEntry n v _ :: r => (n, v) :: shown r | TooLarge :: r => shown r end.
Definition noted (l : list (dentry V)) : Prop := exists l', l = l' ++ [TooLarge].
(** No key's representation looks like another one's with its identity appended *)
Definition unambiguous (ident : K -> N) (repr : K -> str) (d : list (K * V)) : Prop :=
  forall a b, In a (map fst d) -> In b (map fst d) -> repr a <> repr b ++ lit " (id: " ++ dec (ident b) ++ lit ")".
End Spec.

(** ** Texts *)
Lemma dec_inj a b : dec a = dec b -> a = b.
Proof. intro H. rewrite <- (digits_val_dec a), <- (digits_val_dec b), H. reflexivity. Qed.
Lemma digits_no c n : ~ digit_ok c -> ~ In c (dec n).
Proof. intros Hc Hi. pose proof (dec_digits n) as H. rewrite Forall_forall in H. auto. Qed.

Lemma after_last_none c s : ~ In c s -> after_last c s = None.
Proof.
  induction s as [|x s IH]; intro H; [reflexivity|]. cbn [after_last]. rewrite IH by (intro X; apply H; right; exact X).
  destruct (N.eqb_spec x c) as [->|_]; [destruct H; left; reflexivity | reflexivity].
Qed.
Lemma after_last_app c a b : ~ In c b -> after_last c (a ++ c :: b) = Some b.
Proof.
  intro H. induction a as [|x a IH]; cbn [app after_last].
  - rewrite after_last_none by exact H. rewrite N.eqb_refl. reflexivity.
  - rewrite IH. reflexivity.
Qed.
(** The number after the last character [c] *)
Lemma tail_number a b c x y : ~ digit_ok c -> c <> 41%N -> a ++ c :: dec x ++ lit ")" = b ++ c :: dec y ++ lit ")" -> x = y.
Proof.
  intros Hc H41 E.
  assert (N : forall n, ~ In c (dec n ++ lit ")")).
  { intros n H. apply in_app_or in H. destruct H as [H|[H|[]]]; [exact (digits_no c n Hc H) | apply H41; symmetry; exact H]. }
  pose proof (after_last_app c a _ (N x)) as A. rewrite E, (after_last_app c b _ (N y)) in A. injection A as A.
  apply app_inj_tail in A. destruct A as [A _]. symmetry. exact (dec_inj _ _ A).
Qed.

Section Facts.
Context {K V : Type}.
Context (ident : K -> N) (repr plain_repr : K -> str) (literal : K -> bool) (max_items : nat).
Notation contents := (@contents K V ident repr plain_repr literal max_items).
Notation with_id := (with_id ident repr).

Lemma with_id_inj k k' : with_id k = with_id k' -> ident k = ident k'.
Proof.
  unfold DictView.with_id. intro E.
  apply (tail_number (repr k ++ lit " (id:") (repr k' ++ lit " (id:") 32%N); [discriminate | discriminate |].
  rewrite <- !app_assoc. exact E.
Qed.
Lemma contents_values d : forall i found, i < max_items ->
  map snd (shown (contents i found d)) = map snd (firstn (max_items - i) d)
  /\ (noted (contents i found d) <-> max_items <= i + List.length d).
Proof.
  induction d as [|[k v] d IH]; intros i found Hi; cbn [DictView.contents].
  - rewrite firstn_nil. split; [reflexivity|]. cbn [List.length]. split; [|lia].
    intros [l E]. destruct l; discriminate.
  - cbv zeta. destruct (Nat.leb_spec max_items (i + 1)) as [H|H].
    + replace (max_items - i) with 1 by lia. cbn [firstn]. split; [reflexivity|]. cbn [List.length].
      split; [intros _; lia|]. intros _. eexists [_]. reflexivity.
    + match goal with |- context [contents (i + 1) ?f d] => destruct (IH (i + 1) f H) as [A B] end.
      destruct (max_items - i) as [|m] eqn:E; [lia|]. replace (max_items - (i + 1)) with m in A by lia.
      split; [cbn [shown map firstn snd]; f_equal; exact A|].
      replace (i + List.length ((k, v) :: d)) with (i + 1 + List.length d) by (cbn [List.length]; lia).
      rewrite <- B. split; intros [l E']; [|exists (DEntry (if existsb (str_eqb (repr k)) found then with_id k else repr k) v
           (if literal k then Some (lit "[" ++ plain_repr k ++ lit "]") else None) :: l); cbn [app]; f_equal; exact E'].
      destruct l as [|x l]; [injection E' as E' _; discriminate|]. cbn [app] in E'. injection E' as _ E'. exists l. exact E'.
Qed.

Lemma contents_names d : unambiguous ident repr d -> NoDup (map ident (map fst d)) ->
  forall i found, (forall n, In n found -> forall k, In k (map fst d) -> n <> with_id k) ->
  NoDup (map fst (shown (contents i found d)))
  /\ forall n, In n (map fst (shown (contents i found d))) -> ~ In n found.
Proof.
  induction d as [|[k v] d IH]; intros U ND i found Hf; cbn [DictView.contents]; [split; [constructor | intros n []]|].
  cbn [map fst] in ND. inversion ND as [|? ? Hk ND']; subst.
  set (name := if existsb (str_eqb (repr k)) found then with_id k else repr k).
  assert (Hn : ~ In name found).
  { unfold name. destruct (existsb (str_eqb (repr k)) found) eqn:E.
    - intro X. apply (Hf _ X k); [left; reflexivity | reflexivity].
    - intro X. assert (existsb (str_eqb (repr k)) found = true); [|congruence].
      apply existsb_exists. exists (repr k). split; [exact X | apply str_eqb_refl]. }
  cbv zeta. fold name. destruct (Nat.leb max_items (i + 1)).
  - cbn [shown map fst]. split; [constructor; [intros [] | constructor]|]. intros n [<- | []]. exact Hn.
  - cbn [shown map fst].
    assert (U' : unambiguous ident repr d) by (intros a b Ha Hb; apply U; right; assumption).
    destruct (IH U' ND' (i + 1) (name :: found)) as [A B].
    + intros n [<- | X] k' Hk'; [|apply Hf; [exact X | right; exact Hk']].
      unfold name. destruct (existsb (str_eqb (repr k)) found).
      * intro E. apply Hk. rewrite (with_id_inj _ _ E). apply in_map, Hk'.
      * apply U; [left; reflexivity | right; exact Hk'].
    + split.
      * constructor; [|exact A]. intro X. apply (B _ X). left. reflexivity.
      * intros n [<- | X]; [exact Hn|]. intro Y. apply (B _ X). right. exact Y.
Qed.
End Facts.

(** ** Theorems *)

(** The first entries up to the limit are shown in order with their values, each under its own name; the note is
    there exactly when the limit is reached. *)
Theorem dict_view_complete : forall (K V : Type) (ident : K -> N) (repr plain_repr : K -> str) (literal : K -> bool) (m : nat)
    (d : list (K * V)), 1 <= m ->
  let l := dict_contents ident repr plain_repr literal m d in
  map snd (shown l) = map snd (firstn m d)
  /\ (noted l <-> m <= List.length d)
  /\ (NoDup (map ident (map fst d)) -> unambiguous ident repr d -> NoDup (map fst (shown l))).
Proof.
  intros K V ident repr plain_repr literal m d Hm. cbv zeta. unfold dict_contents.
  destruct (contents_values ident repr plain_repr literal m d 0 [] Hm) as [A B]. rewrite Nat.sub_0_r in A.
  split; [exact A|]. split; [exact B|]. intros ND U.
  apply (contents_names ident repr plain_repr literal m d U ND 0 []). intros n [].
Qed.

(** An entry's expression indexes the dictionary with the key, for keys whose representation is a literal. *)
Theorem dict_view_expressions : forall (K V : Type) (ident : K -> N) (repr plain_repr : K -> str) (literal : K -> bool) (m : nat)
    (d : list (K * V)) n v x, In (DEntry n v (Some x)) (dict_contents ident repr plain_repr literal m d) ->
  exists k, In (k, v) d /\ literal k = true /\ x = lit "[" ++ plain_repr k ++ lit "]"
    /\ (n = repr k \/ n = repr k ++ lit " (id: " ++ dec (ident k) ++ lit ")").
Proof.
  intros K V ident repr plain_repr literal m d n v x. unfold dict_contents. generalize 0 (@nil str).
  induction d as [|[k w] d IH]; intros i found H; cbn [contents] in H; [destruct H|]. cbv zeta in H.
  assert (E : DEntry (if existsb (str_eqb (repr k)) found then with_id ident repr k else repr k) w
        (if literal k then Some (lit "[" ++ plain_repr k ++ lit "]") else None) = DEntry n v (Some x) ->
      exists k0, In (k0, v) ((k, w) :: d) /\ literal k0 = true /\ x = lit "[" ++ plain_repr k0 ++ lit "]"
    /\ (n = repr k0 \/ n = repr k0 ++ lit " (id: " ++ dec (ident k0) ++ lit ")")).
  { intro E. injection E as En Ev Ex. subst v. exists k. split; [left; reflexivity|].
    destruct (literal k); [|discriminate]. injection Ex as <-. split; [reflexivity|]. split; [reflexivity|].
    destruct (existsb _ found); [right | left]; symmetry; exact En. }
  destruct (Nat.leb m (i + 1)).
  - destruct H as [H|[H|[]]]; [exact (E H) | discriminate].
  - destruct H as [H|H]; [exact (E H)|]. destruct (IH _ _ H) as (k0 & Hk & R). exists k0. split; [right; exact Hk | exact R].
Qed.

(** A name shown by the other protocol leads back to the value it stands for. *)
Theorem dict_names_resolve : forall (K V : Type) (ident : K -> N) (plain_repr : K -> str) (m : nat) (d : list (K * V)),
  1 <= m -> NoDup (map ident (map fst d)) ->
  map snd (shown (dictionary ident plain_repr m 0 d)) = map snd (firstn m d)
  /\ forall n v x, In (DEntry n v x) (dictionary ident plain_repr m 0 d) -> resolve ident d n = Some v.
Proof.
  intros K V ident plain_repr m d Hm ND. split.
  - assert (G : forall (d : list (K * V)) i, i < m -> map snd (shown (dictionary ident plain_repr m i d)) = map snd (firstn (m - i) d)).
    { clear. induction d as [|[k v] d IH]; intros i Hi; cbn [dictionary]; [now rewrite firstn_nil|]. cbv zeta.
      destruct (Nat.leb_spec m (i + 1)) as [H|H].
      - replace (m - i) with 1 by lia. reflexivity.
      - destruct (m - i) as [|p] eqn:E; [lia|]. cbn [shown map firstn snd]. f_equal. rewrite IH by exact H. do 2 f_equal. lia. }
    rewrite G by exact Hm. now rewrite Nat.sub_0_r.
  - intros n v x H.
    assert (G : forall (d' : list (K * V)) i, In (DEntry n v x) (dictionary ident plain_repr m i d') -> exists k, In (k, v) d' /\ n = ref_name ident plain_repr k).
    { clear. induction d' as [|[k w] d' IH]; intros i H; cbn [dictionary] in H; [destruct H|]. cbv zeta in H.
      destruct (Nat.leb m (i + 1)).
      - destruct H as [H|[H|[]]]; [|discriminate]. injection H as <- <- _. exists k. split; [left; reflexivity | reflexivity].
      - destruct H as [H|H]; [injection H as <- <- _; exists k; split; [left; reflexivity | reflexivity]|].
        destruct (IH _ H) as (k0 & Hk & E). exists k0. split; [right; exact Hk | exact E]. }
    destruct (G d 0 H) as (k & Hk & ->). unfold resolve, ref_name.
    assert (R : after_last 40 (plain_repr k ++ lit " (" ++ dec (ident k) ++ lit ")") = Some (dec (ident k) ++ lit ")")).
    { change (lit " (" ++ dec (ident k) ++ lit ")") with ([32%N] ++ 40%N :: dec (ident k) ++ lit ")"). rewrite app_assoc.
      apply after_last_app. intro X. apply in_app_or in X. destruct X as [X|[X|[]]]; [|discriminate].
      revert X. apply digits_no. discriminate. }
    rewrite R. change (lit ")") with [41%N]. rewrite removelast_last, py_int_dec0.
    clear - Hk ND. induction d as [|[k' v'] d IH]; [destruct Hk|]. cbn [find fst]. cbn [map fst] in ND.
    inversion ND as [|? ? Hn ND']; subst.
    destruct Hk as [E|Hk].
    + injection E as -> ->. rewrite Z.eqb_refl. reflexivity.
    + destruct (Z.eqb_spec (Z.of_N (ident k')) (Z.of_N (ident k))) as [E|_]; [|apply IH; assumption].
      exfalso. apply Hn. apply N2Z.inj in E. rewrite E. apply in_map. exact (in_map fst _ _ Hk).
Qed.

(** Sets: one item more than the limit is shown; names are distinct and lead back to the item. *)
Theorem set_view_complete : forall (K : Type) (ident : K -> N) (m : nat) (s : list K), NoDup (map ident s) ->
  exists items, (set_contents ident m 0 s = map Some items \/ set_contents ident m 0 s = map Some items ++ [None] /\ m < List.length s)
    /\ (m < List.length s -> exists l, set_contents ident m 0 s = l ++ [None])
    /\ map snd items = firstn (m + 1) s
    /\ NoDup (map fst items)
    /\ forall n x, In (n, x) items -> set_resolve ident s n = Some x.
Proof.
  intros K ident m s ND. exists (map (fun x => (dec (ident x), x)) (firstn (m + 1) s)).
  assert (G : forall s i, i <= m -> set_contents ident m i s =
            map Some (map (fun x => (dec (ident x), x)) (firstn (m + 1 - i) s)) ++ (if Nat.ltb m (i + List.length s) then [None] else [])).
  { clear. induction s as [|x s IH]; intros i Hi; cbn [set_contents List.length].
    - rewrite firstn_nil. destruct (Nat.ltb_spec m (i + 0)); [lia | reflexivity].
    - destruct (Nat.leb_spec m i) as [H|H].
      + replace (m + 1 - i) with 1 by lia. destruct (Nat.ltb_spec m (i + S (List.length s))); [reflexivity | lia].
      + destruct (m + 1 - i) as [|p] eqn:E; [lia|]. cbn [firstn map app]. f_equal. rewrite IH by lia.
        replace (m + 1 - (i + 1)) with p by lia. replace (i + 1 + List.length s) with (i + S (List.length s)) by lia. reflexivity. }
  rewrite G by lia. rewrite Nat.sub_0_r. cbn [Nat.add].
  split; [|split; [|split; [|split]]].
  - destruct (Nat.ltb_spec m (List.length s)); [right; auto | left; apply app_nil_r].
  - intro H. destruct (Nat.ltb_spec m (List.length s)); [|lia]. eexists. reflexivity.
  - rewrite map_map. apply map_id.
  - rewrite map_map. cbn [fst].
    assert (ND' : NoDup (map ident (firstn (m + 1) s))).
    { rewrite <- (firstn_skipn (m + 1) s), map_app in ND. revert ND. generalize (map ident (firstn (m + 1) s)) (map ident (skipn (m + 1) s)).
      induction l as [|a l IH]; intros q Hq; [constructor|]. inversion Hq; subst. constructor; [|eapply IH; eassumption].
      intro X. apply H1. apply in_or_app. left. exact X. }
    rewrite <- (map_map ident dec). apply Injective_map_NoDup; [exact dec_inj | exact ND'].
  - intros n x H. apply in_map_iff in H. destruct H as (y & E & H). injection E as <- <-. unfold set_resolve. rewrite py_int_dec0.
    assert (Hy : In y s) by (rewrite <- (firstn_skipn (m + 1) s); apply in_or_app; left; exact H).
    clear - Hy ND. induction s as [|z s IH]; [destruct Hy|]. cbn [find]. cbn [map] in ND. inversion ND as [|? ? Hn ND']; subst.
    destruct Hy as [-> | Hy]; [rewrite Z.eqb_refl; reflexivity|].
    destruct (Z.eqb_spec (Z.of_N (ident z)) (Z.of_N (ident y))) as [E|_]; [|apply IH; assumption].
    exfalso. apply Hn. apply N2Z.inj in E. rewrite E. apply in_map, Hy.
Qed.

(** Without the condition on representations two entries can have the same name; with exactly as many entries as the
    limit the note is there although nothing is missing. *)
Definition ex_repr (k : N) : str := if N.eqb k 2 then lit "x (id: 3)" else lit "x".
Theorem dict_view_names_refuted : exists (d : list (N * nat)), NoDup (map (fun k => k) (map fst d)) /\
  ~ NoDup (map fst (shown (dict_contents (fun k => k) ex_repr ex_repr (fun _ => false) 10 d))).
Proof.
  exists [(1%N, 10); (2%N, 20); (3%N, 30)]. split.
  - cbn. repeat constructor; cbn; intuition discriminate.
  - intro H. vm_compute in H. inversion H as [|? ? _ H1]; subst. inversion H1 as [|? ? H2 _]; subst. apply H2. left. reflexivity.
Qed.
Theorem dict_view_note_refuted : exists (d : list (N * nat)) m, noted (dict_contents (fun k => k) dec dec (fun _ => true) m d)
  /\ map snd (shown (dict_contents (fun k => k) dec dec (fun _ => true) m d)) = map snd d.
Proof. exists [(1%N, 10); (2%N, 20)], 2. split; [eexists [_; _]; vm_compute; reflexivity | reflexivity]. Qed.

(** ** Concrete cases *)
Definition same_repr (k : N) : str := lit "<obj>".
Example ex_dup : map fst (shown (dict_contents (fun k => k) same_repr same_repr (fun _ => false) 10 [(7%N, 1); (8%N, 2)])) = [lit "<obj>"; lit "<obj> (id: 8)"].
Proof. vm_compute. reflexivity. Qed.
Example ex_unambiguous : unambiguous (fun k : N => k) same_repr [(7%N, 1); (8%N, 2)] /\ NoDup (map (fun k : N => k) (map fst [(7%N, 1); (8%N, 2)])).
Proof.
  split.
  - intros a b Ha Hb E. apply (f_equal (@List.length N)) in E. rewrite !app_length in E. unfold same_repr in E. cbn in E. lia.
  - cbn. repeat constructor; cbn; intuition discriminate.
Qed.
Example ex_resolve : resolve (fun k => k) [(7%N, 1); (8%N, 2)] (lit "<(a)> (8)") = Some 2.
Proof. vm_compute. reflexivity. Qed.
Example ex_set : set_contents (fun k => k) 1 0 [4%N; 5%N; 6%N] = [Some (lit "4", 4%N); Some (lit "5", 5%N); None].
Proof. vm_compute. reflexivity. Qed.
Example ex_expr : In (DEntry (lit "1") 10 (Some (lit "[1]"))) (dict_contents (fun k => k) dec dec (fun _ => true) 5 [(1%N, 10)]).
Proof. left. reflexivity. Qed.

Print Assumptions dict_view_complete.
Print Assumptions dict_view_expressions.
Print Assumptions dict_names_resolve.
Print Assumptions set_view_complete.
Print Assumptions dict_view_names_refuted.
Print Assumptions dict_view_note_refuted.
