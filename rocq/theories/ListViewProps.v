(** C28: expanding a list in the variables view and following the entries that stand for more items shows every
    item exactly once, in order, with the expression that evaluates to it. *)
From Coq Require Import String List NArith ZArith Bool Arith Lia.
From Coq Require HexadecimalN.
From Verif Require Import Base ListView.
Import ListNotations.
Local Open Scope list_scope.

(** ** Specification *)

(** The number a name stands for: digits, or 0x and hexadecimal digits *)
Definition hex_digit_value (c : N) : N := if N.ltb c 58 then (c - 48)%N else (c - 87)%N.
Fixpoint hex_value (s : str) (acc : N) : N :=
  match s with [] => acc | c :: r => hex_value r (16 * acc + hex_digit_value c)%N end.
Definition names_number (hx : bool) (s : str) (k : nat) : Prop :=
  if hx then exists h, s = lit "0x" ++ h /\ hex_value h 0 = N.of_nat k
  else py_int s = Some (Z.of_nat k).

Section Spec.
Context {A : Type}.

(** A client opening every entry: items are shown; the others are expanded. At most [d] levels, and [n] iterations
    of the code's loop. *)
Fixpoint all_some {B} (l : list (option (list B))) : option (list B) :=
  match l with
  | [] => Some []
  | None :: _ => None
  | Some x :: r => match all_some r with Some y => Some (x ++ y) | None => None end
  end.
Fixpoint open (S : settings) (n d : nat) (xs : list A) (e : entry A) : option (list (entry A)) :=
  match d with
  | O => None
  | Datatypes.S d =>
      match eobj e with
      | Item _ => Some [e]
      | Range a b => all_some (map (open S n d xs) (range_contents xs a b))
      | More h => match more_contents S n xs h with
                  | Some l => all_some (map (open S n d xs) l)
                  | None => None
                  end
      end
  end.
Definition open_all (S : settings) (n d : nat) (hx : bool) (xs : list A) : option (list (entry A)) :=
  all_some (map (open S n d xs) (contents S hx xs)).
End Spec.

(** ** Numbers *)
Lemma hex_value_uint u : forall acc,
  hex_value (hex_uint u) acc = match acc with
                               | N0 => N.of_hex_uint u
                               | Npos p => Npos (Pos.of_hex_uint_acc u p)
                               end.
Proof.
  induction u; intros [|p]; cbn [hex_uint]; try reflexivity; cbn [hex_value]; rewrite IHu; try reflexivity.
  all: cbn [Pos.of_hex_uint_acc].
  all: repeat match goal with
    | |- context [match ?x with N0 => _ | Npos p => _ end] =>
        let E := fresh "E" in destruct x eqn:E; [exfalso; cbn in E; lia|]
    end.
  all: apply f_equal; apply f_equal; cbn in *; lia.
Qed.
Lemma hex_value_hex n : hex_value (hex n) 0 = n.
Proof. unfold hex. rewrite hex_value_uint. apply HexadecimalN.Unsigned.of_to. Qed.
Lemma hex_value_pad w s : hex_value (repeat 48%N w ++ s) 0 = hex_value s 0.
Proof. induction w as [|w IH]; [reflexivity | exact IH]. Qed.
Lemma digits_val_pad w s : digits_val (repeat 48%N w ++ s) 0 = digits_val s 0.
Proof. induction w as [|w IH]; [reflexivity | exact IH]. Qed.
Lemma py_int_digits s : s <> [] -> Forall digit_ok s -> py_int s = Some (Z.of_N (digits_val s 0)).
Proof.
  intros Hs Hd. unfold py_int.
  replace (strip s) with s.
  2:{ symmetry. replace s with ([] ++ s ++ []) at 1 by (cbn [app]; apply app_nil_r). apply strip_digits; auto.
      eapply Forall_impl; [|exact Hd]. intros; now apply digit_not_ws. }
  destruct s as [|c r]; [congruence|]. inversion Hd as [|? ? Hc Hr]; subst.
  destruct (N.eqb_spec c 45) as [->|_]; [discriminate Hc|].
  destruct (N.eqb_spec c 43) as [->|_]; [discriminate Hc|].
  rewrite py_digits_digits; [reflexivity | exact Hd | left; discriminate].
Qed.
Lemma pad_digits w i : Forall digit_ok (pad w (dec i)).
Proof.
  unfold pad. apply Forall_app. split; [|apply dec_digits].
  induction (w - List.length (dec i)) as [|k IH]; constructor; [reflexivity | exact IH].
Qed.
Lemma pad_nonempty w i : pad w (dec i) <> [].
Proof. unfold pad. intro H. apply app_eq_nil in H. destruct H as [_ H]. exact (dec_nonempty i H). Qed.
Lemma item_name_number hx l i : names_number hx (item_name hx l i) i.
Proof.
  destruct hx; unfold names_number, item_name.
  - eexists. split; [reflexivity|]. unfold pad. rewrite hex_value_pad. apply hex_value_hex.
  - rewrite py_int_digits; [|apply pad_nonempty | apply pad_digits].
    unfold pad. rewrite digits_val_pad, digits_val_dec. now rewrite nat_N_Z.
Qed.
(** The number is determined by the name, whichever of the two forms it has. *)
Lemma names_number_inj a b s i j : names_number a s i -> names_number b s j -> i = j.
Proof.
  assert (X : forall h, py_int (lit "0x" ++ h) = None \/ exists z, py_int (lit "0x" ++ h) = Some z /\ (z < 0)%Z) .
  { intro h. left. unfold py_int.
    assert (E : exists t, strip (lit "0x" ++ h) = lit "0x" ++ t).
    { unfold strip. rewrite lstrip_nows by (intros c r Hc; injection Hc as <- _; reflexivity).
      unfold rstrip. rewrite rev_app_distr.
      assert (G : forall r, exists t, rev (lstrip (r ++ rev (lit "0x"))) = lit "0x" ++ t).
      { induction r as [|c r [t IH]].
        - exists []. reflexivity.
        - cbn [app lstrip]. destruct (is_ws c); [exists t; exact IH|].
          exists (rev r ++ [c]). change (c :: r ++ rev (lit "0x")) with ((c :: r) ++ rev (lit "0x")).
          rewrite rev_app_distr, rev_involutive. reflexivity. }
      apply G. }
    destruct E as [t ->]. reflexivity. }
  destruct a, b; cbn [names_number]; intros H K.
  - destruct H as (h & -> & H), K as (h' & E & K). apply app_inv_head in E. subst h'. lia.
  - destruct H as (h & -> & H). destruct (X h) as [E|(z & E & Hz)]; rewrite E in K; [discriminate|]. injection K as ->. lia.
  - destruct K as (h & -> & K). destruct (X h) as [E|(z & E & Hz)]; rewrite E in H; [discriminate|]. injection H as ->. lia.
  - rewrite H in K. injection K as K. lia.
Qed.

Section Facts.
Context {A : Type}.
Implicit Types xs : list A.

(** Items numbered from [i] *)
Fixpoint numbered (hx : bool) (l i : nat) (xs : list A) : list (entry A) :=
  match xs with
  | [] => []
  | x :: r => Entry (item_name hx l i) (Item x) (Some (index_expr i)) :: numbered hx l (i + 1) r
  end.
Lemma number_items_eq l i xs : number_items l i xs = numbered false l i xs.
Proof. revert i. induction xs as [|x xs IH]; intro i; [reflexivity|]. cbn [number_items numbered]. now rewrite IH. Qed.
Lemma numbered_app hx l i xs ys : numbered hx l i (xs ++ ys) = numbered hx l i xs ++ numbered hx l (i + List.length xs) ys.
Proof.
  revert i. induction xs as [|x xs IH]; intro i; cbn [app numbered List.length].
  - rewrite Nat.add_0_r. reflexivity.
  - rewrite IH. f_equal. f_equal. f_equal. lia.
Qed.
Lemma numbered_length hx l i xs : List.length (numbered hx l i xs) = List.length xs.
Proof. revert i. induction xs as [|x xs IH]; intro i; [reflexivity|]. cbn [numbered List.length]. now rewrite IH. Qed.
Lemma numbered_nth hx l i xs k : nth_error (numbered hx l i xs) k =
  option_map (fun x => Entry (item_name hx l (i + k)) (Item x) (Some (index_expr (i + k)))) (nth_error xs k).
Proof.
  revert i k. induction xs as [|x xs IH]; intros i [|k]; try reflexivity; cbn [numbered nth_error option_map].
  - rewrite Nat.add_0_r. reflexivity.
  - rewrite IH. replace (i + 1 + k) with (i + S k) by lia. reflexivity.
Qed.

Lemma head_items_eq S hx l xs : forall i, i < initial S ->
  head_items S hx l i xs = (numbered hx l i (firstn (initial S - i) xs), Nat.leb (initial S) (i + List.length xs)).
Proof.
  induction xs as [|x xs IH]; intros i Hi; cbn [head_items List.length].
  - rewrite firstn_nil, Nat.add_0_r. cbn [numbered]. f_equal. symmetry. apply Nat.leb_gt. exact Hi.
  - destruct (Nat.leb_spec (initial S) (i + 1)) as [H|H].
    + replace (initial S - i) with 1 by lia. cbn [firstn numbered]. f_equal. symmetry. apply Nat.leb_le. lia.
    + rewrite IH by exact H. destruct (initial S - i) as [|m] eqn:E; [lia|]. cbn [firstn numbered].
      replace (initial S - (i + 1)) with m by lia. f_equal. f_equal. lia.
Qed.

Lemma all_some_app {B} (a b : list (option (list B))) :
  all_some (a ++ b) = match all_some a, all_some b with Some x, Some y => Some (x ++ y) | _, _ => None end.
Proof.
  induction a as [|[x|] a IH]; cbn [app all_some].
  - destruct (all_some b); reflexivity.
  - rewrite IH. destruct (all_some a), (all_some b); try reflexivity. now rewrite app_assoc.
  - reflexivity.
Qed.
Lemma open_numbered S n d xs hx l i ys : all_some (map (open S n (Datatypes.S d) xs) (numbered hx l i ys)) = Some (numbered hx l i ys).
Proof.
  revert i. induction ys as [|y ys IH]; intro i; [reflexivity|]. cbn [numbered map all_some].
  rewrite IH. reflexivity.
Qed.
Lemma open_range S n d xs a b nm ex : open S n (Datatypes.S (Datatypes.S d)) xs (Entry nm (Range a b) ex) = Some (numbered false (List.length xs) a (slice a b xs)).
Proof.
  cbn [open eobj]. unfold range_contents. rewrite number_items_eq. apply open_numbered.
Qed.

Lemma open_more S n d xs h nm ex : open S n (Datatypes.S d) xs (Entry nm (More h) ex) =
  match more_contents S n xs h with Some l => all_some (map (open S n d xs) l) | None => None end.
Proof. reflexivity. Qed.
Lemma slice_split xs a b c : a <= b -> b <= c -> slice a c xs = slice a b xs ++ slice b c xs.
Proof.
  intros H K. unfold slice. replace (skipn b xs) with (skipn (b - a) (skipn a xs)).
  2:{ clear K c. revert a b H. induction xs as [|x xs IH]; intros a b H; [now rewrite !skipn_nil|].
      destruct a as [|a].
      - rewrite Nat.sub_0_r. reflexivity.
      - destruct b as [|b]; [lia|]. cbn [skipn]. rewrite Nat.sub_succ. apply IH. lia. }
  generalize (skipn a xs). intro ys. replace (c - a) with ((b - a) + (c - b)) by lia.
  generalize (b - a) (c - b). clear. intros p q. revert p. induction ys as [|y ys IH]; intro p.
  - now rewrite !firstn_nil, !skipn_nil, firstn_nil.
  - destruct p as [|p]; [reflexivity|]. cbn [Nat.add firstn skipn app]. now rewrite IH.
Qed.
Lemma slice_length xs a b : b <= List.length xs -> List.length (slice a b xs) = b - a.
Proof. intro H. unfold slice. rewrite firstn_length, skipn_length. lia. Qed.

Lemma ranges_eq S n' d xs : 1 <= bucket S -> forall n from remaining, remaining <= n -> from + remaining = List.length xs ->
  exists l, ranges S n from (from + Nat.min (bucket S) remaining) remaining = Some l
    /\ all_some (map (open S n' (Datatypes.S (Datatypes.S d)) xs) l) = Some (numbered false (List.length xs) from (slice from (List.length xs) xs))
    /\ Forall (fun e => exists a b, eobj e = Range a b /\ ename e = range_name a b /\ a < b <= List.length xs /\ b - a <= bucket S) l.
Proof.
  intros Hb. induction n as [|n IH]; intros from rem Hn Hl.
  - assert (rem = 0) by lia. subst rem. exists []. split; [reflexivity|]. split; [|constructor].
    assert (from = List.length xs) by lia. subst from. unfold slice. rewrite Nat.sub_diag. reflexivity.
  - destruct rem as [|rem].
    { exists []. split; [reflexivity|]. split; [|constructor].
      assert (from = List.length xs) by lia. subst from. unfold slice. rewrite Nat.sub_diag. reflexivity. }
    cbn [ranges]. set (to := from + Nat.min (bucket S) (Datatypes.S rem)). set (rem' := Datatypes.S rem - bucket S).
    assert (Hto : rem' = 0 /\ to = List.length xs \/ to + rem' = List.length xs) by (unfold to, rem'; lia).
    assert (Ht : from < to <= List.length xs /\ to - from <= bucket S) by (unfold to; lia).
    destruct Hto as [[Hr Ht']|Ht'].
    + rewrite Hr. destruct n; cbn [ranges]; (eexists; split; [reflexivity|]; split;
        [cbn [map all_some]; rewrite open_range, Ht', app_nil_r; reflexivity
        | constructor; [exists from, to; auto | constructor]]).
    + destruct (IH to rem' ltac:(unfold rem'; lia) Ht') as (l & E & O & F). rewrite E.
      eexists. split; [reflexivity|]. split.
      * cbn [map all_some]. rewrite open_range, O. rewrite (slice_split xs from to (List.length xs)) by lia.
        rewrite numbered_app, slice_length by lia. replace (from + (to - from)) with to by lia. reflexivity.
      * constructor; [exists from, to; auto | exact F].
Qed.

Lemma open_all_eq S hx xs n : 1 <= initial S -> 1 <= bucket S -> List.length xs <= n ->
  open_all S n 3 hx xs = Some (numbered hx (List.length xs) 0 (firstn (initial S) xs)
                               ++ numbered false (List.length xs) (initial S) (skipn (initial S) xs)).
Proof.
  intros Hi Hb Hn. unfold open_all, contents. rewrite head_items_eq by lia. cbn [Nat.add]. rewrite Nat.sub_0_r.
  rewrite map_app, all_some_app, open_numbered.
  assert (Sk : slice (initial S) (List.length xs) xs = skipn (initial S) xs).
  { unfold slice. apply firstn_all2. rewrite skipn_length. lia. }
  destruct (Nat.leb_spec (initial S) (List.length xs)) as [H|H].
  - cbn [map all_some]. destruct (Nat.ltb_spec (List.length xs) (bucket S + initial S)).
    + rewrite open_range, Sk, app_nil_r. reflexivity.
    + replace (open S n 3 xs (Entry (lit "more") (More (initial S)) None))
        with (Some (numbered false (List.length xs) (initial S) (skipn (initial S) xs))); [now rewrite app_nil_r|].
      rewrite open_more. unfold more_contents.
      destruct (ranges_eq S n 0 xs Hb n (initial S) (List.length xs - initial S)) as (l & -> & O & _); [lia | lia |].
      rewrite <- Sk, <- O. reflexivity.
  - cbn [map all_some]. rewrite skipn_all2 by lia. reflexivity.
Qed.
End Facts.

(** ** Theorems *)

(** Every item is shown exactly once and in order. The expression of the k-th one is the k-th index of the list; its
    name is the number k (decimal after the first page, even when hexadecimal numbers are asked for), and no two
    names are equal. *)
Theorem list_view_complete : forall (A : Type) (S : settings) (hx : bool) (xs : list A), 1 <= initial S -> 1 <= bucket S ->
  exists n d r, open_all S n d hx xs = Some r
    /\ map eobj r = map Item xs
    /\ NoDup (map ename r)
    /\ forall k e, nth_error r k = Some e ->
         eexpr e = Some (lit "[" ++ dec (N.of_nat k) ++ lit "]")
         /\ names_number (hx && Nat.ltb k (initial S)) (ename e) k.
Proof.
  intros A S hx xs Hi Hb. exists (List.length xs), 3. eexists. split; [apply open_all_eq; auto|].
  set (r := _ ++ _).
  assert (Nth : forall k, nth_error r k = option_map (fun x =>
      Entry (item_name (hx && Nat.ltb k (initial S)) (List.length xs) k) (Item x) (Some (index_expr k))) (nth_error xs k)).
  { intro k. unfold r. destruct (Nat.lt_ge_cases k (List.length (firstn (initial S) xs))) as [H|H].
    - rewrite nth_error_app1 by (rewrite numbered_length; exact H). rewrite numbered_nth. cbn [Nat.add].
      rewrite firstn_length in H. replace (Nat.ltb k (initial S)) with true by (symmetry; apply Nat.ltb_lt; lia).
      rewrite andb_true_r. f_equal. clear - H. revert k xs H. induction (initial S) as [|m IH]; intros k xs H; [lia|].
      destruct xs as [|x xs]; [cbn in H; lia|]. destruct k as [|k]; [reflexivity|]. cbn [firstn nth_error].
      apply IH. cbn in H. lia.
    - rewrite nth_error_app2 by (rewrite numbered_length; exact H). rewrite numbered_length, numbered_nth.
      rewrite firstn_length in H |- *.
      destruct (Nat.le_gt_cases (initial S) (List.length xs)) as [L|L].
      + replace (Nat.ltb k (initial S)) with false by (symmetry; apply Nat.ltb_ge; lia). rewrite andb_false_r.
        rewrite Nat.min_l by lia. replace (initial S + (k - initial S)) with k by lia. f_equal.
        rewrite <- (firstn_skipn (initial S) xs) at 2. rewrite nth_error_app2; rewrite firstn_length, Nat.min_l; auto; lia.
      + rewrite skipn_all2 by lia. destruct (k - _); cbn [nth_error option_map];
          (replace (nth_error xs k) with (@None A); [reflexivity | symmetry; apply nth_error_None; lia]). }
  split; [|split].
  - unfold r. rewrite map_app.
    assert (M : forall h l i (ys : list A), map eobj (numbered h l i ys) = map Item ys).
    { intros h l i ys. revert i. induction ys as [|y ys IH]; intro i; [reflexivity|]. cbn [numbered map]. now rewrite IH. }
    rewrite !M, <- map_app, firstn_skipn. reflexivity.
  - apply NoDup_nth_error. intros i j Hlt E. rewrite !nth_error_map, !Nth in E.
    rewrite map_length in Hlt. assert (Hn : nth_error xs i <> None).
    { intro X. pose proof (Nth i) as Y. rewrite X in Y. cbn in Y. apply nth_error_None in Y. lia. }
    destruct (nth_error xs i); [|congruence]. destruct (nth_error xs j); [|discriminate].
    cbn [option_map ename] in E. injection E as E.
    eapply names_number_inj; [apply item_name_number|]. rewrite E. apply item_name_number.
  - intros k e He. rewrite Nth in He. destruct (nth_error xs k); [|discriminate]. cbn [option_map] in He.
    injection He as <-. split; [reflexivity | apply item_name_number].
Qed.

(** No page is longer than the settings allow: the first has at most the initial number of items and one entry for
    the others; a page of more items has at most the size of a bucket. *)
Theorem list_view_pages : forall (A : Type) (S : settings) (hx : bool) (xs : list A), 1 <= initial S -> 1 <= bucket S ->
  List.length (contents S hx xs) <= initial S + 1
  /\ (forall e a b, In e (contents S hx xs) -> eobj e = Range a b -> List.length (range_contents xs a b) <= bucket S)
  /\ (forall e h, In e (contents S hx xs) -> eobj e = More h ->
        exists n l, more_contents S n xs h = Some l
          /\ Forall (fun p => exists a b, eobj p = Range a b /\ range_contents xs a b <> [] /\ List.length (range_contents xs a b) <= bucket S) l).
Proof.
  intros A S hx xs Hi Hb. unfold contents. rewrite head_items_eq by lia. cbn [Nat.add]. rewrite Nat.sub_0_r.
  assert (Items : forall e, In e (numbered hx (List.length xs) 0 (firstn (initial S) xs)) -> exists v, eobj e = Item v).
  { intros e H. apply In_nth_error in H. destruct H as [k H]. rewrite numbered_nth in H.
    destruct (nth_error (firstn (initial S) xs) k); [|discriminate]. injection H as <-. eexists; reflexivity. }
  assert (RL : forall a b, b <= List.length xs -> List.length (range_contents xs a b) = b - a).
  { intros a b H. unfold range_contents. rewrite number_items_eq, numbered_length. apply slice_length, H. }
  split; [|split].
  - rewrite app_length, numbered_length, firstn_length.
    destruct (Nat.leb_spec (initial S) (List.length xs)); cbn [List.length]; lia.
  - intros e a b H E. apply in_app_or in H. destruct H as [H|H]; [destruct (Items e H); congruence|].
    destruct (Nat.leb_spec (initial S) (List.length xs)); [|destruct H].
    destruct H as [<- | []]. cbn [eobj] in E. destruct (Nat.ltb_spec (List.length xs) (bucket S + initial S)); [|discriminate].
    injection E as <- <-. rewrite RL by lia. lia.
  - intros e h H E. apply in_app_or in H. destruct H as [H|H]; [destruct (Items e H); congruence|].
    destruct (Nat.leb_spec (initial S) (List.length xs)); [|destruct H].
    destruct H as [<- | []]. cbn [eobj] in E. destruct (Nat.ltb_spec (List.length xs) (bucket S + initial S)); [discriminate|].
    injection E as <-. exists (List.length xs). unfold more_contents.
    destruct (ranges_eq S 0 0 xs Hb (List.length xs) (initial S) (List.length xs - initial S)) as (l & -> & _ & F); [lia | lia |].
    exists l. split; [reflexivity|]. eapply Forall_impl; [|exact F]. intros p (a & b & Ep & _ & Hab & Hs).
    exists a, b. split; [exact Ep|]. split; [|rewrite RL; lia].
    intro X. pose proof (RL a b ltac:(lia)) as Y. rewrite X in Y. cbn in Y. lia.
Qed.

(** The other way of looking at variables, by name: each name shown leads back to the object shown under it, in the
    list, in the pages and in a page. *)
Lemma item_at_nth {A} (xs : list A) k : item_at xs (Z.of_nat k) = nth_error xs k.
Proof. unfold item_at. destruct (Z.ltb_spec (Z.of_nat k) 0); [lia|]. now rewrite Nat2Z.id. Qed.
Lemma py_int_more : py_int (lit "more") = None.
Proof. vm_compute. reflexivity. Qed.
Lemma split1_dec c a b : ~ In c a -> split1 c (a ++ c :: b) = Some (a, b).
Proof.
  induction a as [|x a IH]; intro H; cbn [app split1].
  - rewrite N.eqb_refl. reflexivity.
  - destruct (N.eqb_spec x c) as [->|_]; [destruct H; left; reflexivity|]. rewrite IH; [reflexivity|].
    intro X. apply H. right. exact X.
Qed.
Theorem list_names_resolve : forall (A : Type) (S : settings) (xs : list A), 1 <= initial S -> 1 <= bucket S ->
  (forall e, In e (dictionary S xs) -> resolve S xs (ename e) = Some (eobj e))
  /\ (forall a b e, In e (range_contents xs a b) -> resolve_range xs (ename e) = Some (eobj e))
  /\ (forall n l h e, more_contents S n xs h = Some l -> h <= List.length xs -> In e l -> @resolve_more A (ename e) = Some (eobj e)).
Proof.
  intros A S xs Hi Hb. split; [|split].
  - intros e H. unfold dictionary in H. rewrite head_items_eq in H by lia. apply in_app_or in H. destruct H as [H|H].
    + apply In_nth_error in H. destruct H as [k H]. rewrite numbered_nth in H. cbn [Nat.add] in H.
      destruct (nth_error (firstn (initial S - 0) xs) k) as [x|] eqn:E; [|discriminate]. injection H as <-.
      cbn [ename eobj]. unfold resolve. pose proof (item_name_number false (List.length xs) k) as N. cbn [names_number item_name] in N.
      rewrite N, item_at_nth. assert (Ex : nth_error xs k = Some x).
      { rewrite <- (firstn_skipn (initial S - 0) xs). rewrite nth_error_app1; [exact E|].
        apply nth_error_Some. congruence. }
      rewrite Ex. reflexivity.
    + destruct (Nat.leb _ _); [|destruct H]. destruct H as [<- | []]. cbn [ename eobj]. unfold resolve.
      rewrite py_int_more, str_eqb_refl. reflexivity.
  - intros a b e H. unfold range_contents in H. rewrite number_items_eq in H. apply In_nth_error in H. destruct H as [k H].
    rewrite numbered_nth in H. destruct (nth_error (slice a b xs) k) as [x|] eqn:E; [|discriminate]. injection H as <-.
    cbn [ename eobj]. unfold resolve_range. pose proof (item_name_number false (List.length xs) (a + k)) as N. cbn [names_number item_name] in N.
    rewrite N, item_at_nth. assert (Ex : nth_error xs (a + k) = Some x).
    { unfold slice in E. assert (L : k < List.length (firstn (b - a) (skipn a xs))) by (apply nth_error_Some; congruence).
      rewrite <- (firstn_skipn (b - a) (skipn a xs)) in E at 1.
      assert (E' : nth_error (skipn a xs) k = Some x).
      { rewrite <- (firstn_skipn (b - a) (skipn a xs)). rewrite nth_error_app1 by exact L.
        rewrite firstn_skipn in E. exact E. }
      clear - E'. revert xs E'. induction a as [|a IH]; intros xs E; [exact E|]. destruct xs as [|y xs]; [destruct k; discriminate|].
      cbn [Nat.add nth_error]. apply IH. exact E. }
    rewrite Ex. reflexivity.
  - intros n l h e H Hh He. unfold more_contents in H.
    assert (G : forall n from to rem l, ranges S n from to rem = Some l -> In e l -> exists a b, ename e = range_name a b /\ eobj e = Range a b).
    { clear. induction n as [|n IH]; intros from to rem l H He.
      - destruct rem; [|discriminate]. injection H as <-. destruct He.
      - destruct rem; [injection H as <-; destruct He|]. cbn [ranges] in H.
        destruct (ranges S n _ _ _) as [r|] eqn:E; [|discriminate]. injection H as <-. destruct He as [<- | He].
        { eexists. eexists. split; reflexivity. }
        eapply IH; eassumption. }
    destruct (G _ _ _ _ _ H He) as (a & b & En & Eo). rewrite En, Eo. unfold resolve_more, range_name.
    change (lit "[") with [91%N]. change (lit ":") with [58%N]. change (lit "]") with [93%N]. cbn [app tl].
    rewrite app_comm_cons, app_assoc, removelast_last. rewrite split1_dec.
    + rewrite !py_int_dec0, !nat_N_Z, !Nat2Z.id. reflexivity.
    + intro X. pose proof (dec_digits (N.of_nat a)) as D. rewrite Forall_forall in D. specialize (D _ X). discriminate D.
Qed.

(** With the settings 0 the view is wrong: item 0 is shown twice, or the pages never end. *)
Theorem list_view_settings_refuted :
  (exists (S : settings) (xs : list nat) n d r, initial S = 0 /\ open_all S n d false xs = Some r /\ List.length r > List.length xs)
  /\ (exists (S : settings) (xs : list nat) h, bucket S = 0 /\ In (Entry (lit "more") (More h) None) (contents S false xs)
        /\ forall n, more_contents S n xs h = None).
Proof.
  split.
  - exists (Settings 0 10), [5], 5, 3. eexists. split; [reflexivity|]. split; [vm_compute; reflexivity|]. cbn. lia.
  - exists (Settings 1 0), [5; 6], 1. split; [reflexivity|]. split; [right; left; reflexivity|]. intro n.
    unfold more_contents. cbn [List.length Nat.sub bucket Nat.min Nat.add].
    induction n as [|n IH]; [reflexivity|]. cbn [ranges bucket]. cbn [Nat.sub Nat.min Nat.add]. rewrite IH. reflexivity.
Qed.
(** A list of exactly the initial number of items has an entry for more items with nothing in it. *)
Theorem list_view_empty_more_refuted : exists (S : settings) (xs : list nat) a b, 1 <= initial S /\ 1 <= bucket S
  /\ In (Entry (lit "more") (Range a b) None) (contents S false xs) /\ range_contents xs a b = [].
Proof.
  exists (Settings 2 3), [7; 8], 2, 2. split; [cbn; lia|]. split; [cbn; lia|]. split; [|reflexivity].
  right. right. left. reflexivity.
Qed.

(** ** Concrete cases *)
Definition ex_s : settings := Settings 2 2.
Example ex_contents : map ename (contents ex_s false [10; 11; 12; 13; 14; 15; 16]) = [lit "0"; lit "1"; lit "more"]
  /\ option_map (map ename) (more_contents ex_s 9 [10; 11; 12; 13; 14; 15; 16] 2) = Some [lit "[2:4]"; lit "[4:6]"; lit "[6:7]"].
Proof. split; vm_compute; reflexivity. Qed.
Example ex_open : option_map (map eexpr) (open_all ex_s 9 3 true [10; 11; 12; 13; 14]) =
  Some [Some (lit "[0]"); Some (lit "[1]"); Some (lit "[2]"); Some (lit "[3]"); Some (lit "[4]")].
Proof. vm_compute. reflexivity. Qed.
Example ex_hex : map ename (contents (Settings 17 2) true (repeat 0 17)) <> [] /\
  option_map ename (nth_error (contents (Settings 17 2) true (repeat 0 17)) 11) = Some (lit "0x0b").
Proof. split; vm_compute; [discriminate | reflexivity]. Qed.

Print Assumptions list_view_complete.
Print Assumptions list_view_pages.
Print Assumptions list_names_resolve.
Print Assumptions list_view_settings_refuted.
Print Assumptions list_view_empty_more_refuted.
