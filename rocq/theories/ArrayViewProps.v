(** Property C82: the table of an array or data frame shows the cells of the place asked for. *)
From Coq Require Import List ZArith Arith Bool Lia.
From Verif Require Import ArrayView.
Import ListNotations.

(** Specification: arrays of one and of two dimensions, given by their numbers. *)
Definition vec (l : list N) : nd := Nd (map Sc l).
Definition mat (rows : list (list N)) : nd := Nd (map vec rows).
Definition rect (c : nat) (rows : list (list N)) : Prop := Forall (fun r => length r = c) rows.

(** The part of r rows and c columns at a place. *)
Definition part {A} (rows : list (list A)) (ro co r c : nat) : list (list A) :=
  map (fun row => firstn c (skipn co row)) (firstn r (skipn ro rows)).

(** At most as many rows, or columns, as asked for, as the limit for one table, and as there are. *)
Definition upto (asked : Z) (left : nat) : nat := Nat.min (Z.to_nat (Z.min asked 100)) left.

(** Lists. *)
Lemma map_nth_seq {A} (l : list A) d n : n <= length l -> map (fun i => nth i l d) (seq 0 n) = firstn n l.
Proof.
  revert l. induction n as [|n IH]; intros l h; [reflexivity|]. destruct l as [|x l]; cbn [length] in h; [lia|].
  cbn [seq map firstn]. f_equal. rewrite <- seq_shift, map_map. cbn [nth]. apply IH. lia.
Qed.

Lemma sequence_map {A B} (f : A -> option B) (g : A -> B) l :
  (forall x, In x l -> f x = Some (g x)) -> sequence (map f l) = Some (map g l).
Proof.
  induction l as [|a l IH]; intros h; cbn [map sequence]; [reflexivity|]. rewrite h by now left.
  rewrite IH; [reflexivity|]. intros x i. apply h. now right.
Qed.

Lemma emit_data text a data r c :
  (forall i j, i < r -> j < c -> cell a (Z.of_nat r) (Z.of_nat c) i j = Some (Sc (nth j (nth i data []) 0%N))) ->
  length data = r -> rect c data ->
  emit text a (Z.of_nat r) (Z.of_nat c) = Some (Z.of_nat r, Z.of_nat c, map (map Sc) data).
Proof.
  intros h hr hc. unfold rect in hc. unfold emit. rewrite !Nat2Z.id.
  rewrite (sequence_map _ (fun i => map (fun j => Sc (nth j (nth i data []) 0%N)) (seq 0 c))).
  - cbn [option_map]. f_equal. f_equal. transitivity (map (map Sc) (firstn r data)); [|f_equal; apply firstn_all2; lia]. rewrite <- (map_nth_seq data []) by lia.
    rewrite map_map. apply map_ext_in. intros i hi. apply in_seq in hi. rewrite <- map_map. f_equal.
    rewrite (map_nth_seq (nth i data []) 0%N c).
    + apply firstn_all2. rewrite Forall_forall in hc. rewrite (hc (nth i data [])); [lia|]. apply nth_In. lia.
    + rewrite Forall_forall in hc. rewrite (hc (nth i data [])); [lia|]. apply nth_In. lia.
  - intros i hi. apply in_seq in hi. apply sequence_map. intros j hj. apply in_seq in hj. rewrite h by lia. reflexivity.
Qed.

Lemma nth_skipn {A} (l : list A) d k i : nth i (skipn k l) d = nth (k + i) l d.
Proof. revert l. induction k as [|k IH]; intros l; [reflexivity|]. destruct l as [|x l]; [now destruct i|]. apply IH. Qed.

Lemma nth_firstn' {A} (l : list A) d k i : i < k -> nth i (firstn k l) d = nth i l d.
Proof.
  revert l i. induction k as [|k IH]; intros l i h; [lia|]. destruct l as [|x l]; [reflexivity|]. destruct i as [|i]; [reflexivity|].
  cbn [firstn nth]. apply IH. lia.
Qed.

Lemma rect_skip c ro rows : rect c rows -> rect c (skipn ro rows).
Proof. intros h. unfold rect in *. rewrite <- (firstn_skipn ro rows) in h. now apply Forall_app in h. Qed.
Lemma rect_take c n rows : rect c rows -> rect c (firstn n rows).
Proof. intros h. unfold rect in *. rewrite <- (firstn_skipn n rows) in h. now apply Forall_app in h. Qed.

Lemma rect_nth c rows i : rect c rows -> i < length rows -> length (nth i rows []) = c.
Proof. intros h hi. unfold rect in h. rewrite Forall_forall in h. apply h, nth_In, hi. Qed.

Lemma part_length {A} (rows : list (list A)) ro co r c : r <= length rows - ro -> length (part rows ro co r c) = r.
Proof. intros h. unfold part. rewrite map_length, firstn_length, skipn_length. lia. Qed.

Lemma part_rect C rows ro co r c : rect C rows -> c <= C - co -> rect c (part rows ro co r c).
Proof.
  intros h hc. apply (rect_skip _ ro) in h. apply (rect_take _ r) in h. unfold rect, part in *. rewrite Forall_forall in *.
  intros x i. apply in_map_iff in i as (y & <- & i). rewrite firstn_length, skipn_length, (h _ i). lia.
Qed.

Lemma part_nth (rows : list (list N)) ro co r c i j : i < r -> j < c -> i < length rows - ro ->
  nth j (nth i (part rows ro co r c) []) 0%N = nth (co + j) (nth (ro + i) rows []) 0%N.
Proof.
  intros hi hj hl. unfold part.
  rewrite (nth_indep _ [] (firstn c (skipn co []))) by (rewrite map_length, firstn_length, skipn_length; lia).
  rewrite (map_nth (fun row => firstn c (skipn co row))). rewrite nth_firstn', nth_skipn by lia.
  rewrite nth_firstn', nth_skipn by lia. reflexivity.
Qed.

(** Arrays. *)
Lemma index_vec l i : i < length l -> index (vec l) i = Some (Sc (nth i l 0%N)).
Proof.
  intros h. cbn [index vec]. rewrite nth_error_map. rewrite (nth_error_nth' l 0%N h). reflexivity.
Qed.

Lemma index_mat rows i : i < length rows -> index (mat rows) i = Some (vec (nth i rows [])).
Proof. intros h. cbn [index mat]. rewrite nth_error_map. rewrite (nth_error_nth' rows [] h). reflexivity. Qed.

Lemma len_vec l : len (vec l) = Some (length l).
Proof. cbn [len vec]. now rewrite map_length. Qed.
Lemma len_mat rows : len (mat rows) = Some (length rows).
Proof. cbn [len mat]. now rewrite map_length. Qed.
Lemma drop_vec n l : drop_ n (vec l) = vec (skipn n l).
Proof. unfold drop_, vec. now rewrite skipn_map. Qed.
Lemma drop_mat n l : drop_ n (mat l) = mat (skipn n l).
Proof. unfold drop_, mat. now rewrite skipn_map. Qed.

Lemma drop2_mat ro co rows : drop2 ro co (mat rows) = mat (map (skipn co) (skipn ro rows)).
Proof. unfold drop2, mat. rewrite skipn_map, !map_map. f_equal. apply map_ext. intros l. unfold drop_, vec. now rewrite skipn_map. Qed.

Lemma size_vec l : size (vec l) = length l.
Proof. unfold vec. cbn [size]. rewrite map_map. induction l as [|x l IH]; [reflexivity|].
  change (1 + list_sum (map (fun v => size (Sc v)) l) = S (length l)). rewrite IH. reflexivity. Qed.

Lemma size_mat c rows : rect c rows -> size (mat rows) = length rows * c.
Proof.
  unfold mat. cbn [size]. rewrite map_map. unfold rect. induction rows as [|r rows IH]; intros h; [reflexivity|].
  inversion h as [|? ? h1 h2]; subst. change (size (vec r) + list_sum (map (fun x => size (vec x)) rows) = S (length rows) * length r).
  rewrite (IH h2), size_vec. lia.
Qed.

Lemma eqb1 n : Z.eqb (Z.of_nat n) 1 = Nat.eqb n 1.
Proof. destruct (Nat.eqb_spec n 1) as [->|h]; [reflexivity|]. apply Z.eqb_neq. lia. Qed.

(** Part of a vector as one row. *)
Lemma emit_row text l co c : co + c <= length l -> emit text (vec (skipn co l)) 1 (Z.of_nat c) = Some (1%Z, Z.of_nat c, map (map Sc) (part [l] 0 co 1 c)).
Proof.
  intros h. change 1%Z with (Z.of_nat 1). apply emit_data; [|reflexivity|constructor; [|constructor]].
  - intros i j hi hj. assert (i = 0) as -> by lia. unfold cell. rewrite !eqb1. cbn [Nat.eqb orb andb part map firstn skipn nth].
    rewrite nth_firstn', nth_skipn by lia. destruct (Nat.eqb_spec c 1) as [->|n].
    + rewrite index_vec by (rewrite skipn_length; lia). rewrite nth_skipn. now replace j with 0 by lia.
    + rewrite index_vec by (rewrite skipn_length; lia). cbn [is_nd]. now rewrite nth_skipn.
  - rewrite firstn_length, skipn_length. lia.
Qed.

(** Part of a vector as one column. *)
Lemma emit_col text l ro r : ro + r <= length l ->
  emit text (vec (skipn ro l)) (Z.of_nat r) 1 = Some (Z.of_nat r, 1%Z, map (map Sc) (part (map (fun x => [x]) l) ro 0 r 1)).
Proof.
  intros h. change 1%Z with (Z.of_nat 1).
  assert (hrect : rect 1 (map (fun x => [x]) l)). { unfold rect. apply Forall_forall. intros x i. apply in_map_iff in i as (y & <- & _). reflexivity. }
  apply emit_data; [|apply part_length; rewrite map_length; lia|apply (part_rect 1); auto].
  intros i j hi hj. assert (j = 0) as -> by lia. rewrite part_nth by (try rewrite map_length; lia).
  rewrite (nth_indep _ [] [0%N]) by (rewrite map_length; lia). rewrite (map_nth (fun x => [x])). cbn [nth Nat.add].
  unfold cell. rewrite !eqb1. cbn [Nat.eqb]. rewrite orb_true_r, andb_true_r. destruct (Nat.eqb_spec r 1) as [->|n].
  - rewrite index_vec by (rewrite skipn_length; lia). rewrite nth_skipn. now replace i with 0 by lia.
  - rewrite index_vec by (rewrite skipn_length; lia). cbn [is_nd]. now rewrite nth_skipn.
Qed.

(** Part of a table, of at least two rows. *)
Lemma emit_part text C rows ro co r c : rect C rows -> 2 <= r -> 1 <= c -> ro + r <= length rows -> co + c <= C ->
  emit text (mat (map (skipn co) (skipn ro rows))) (Z.of_nat r) (Z.of_nat c) =
  Some (Z.of_nat r, Z.of_nat c, map (map Sc) (part rows ro co r c)).
Proof.
  intros hC hr hc h1 h2. apply emit_data; [|apply part_length; lia|apply (part_rect C); auto; lia].
  intros i j hi hj. rewrite part_nth by lia.
  assert (hi' : index (mat (map (skipn co) (skipn ro rows))) i = Some (vec (skipn co (nth (ro + i) rows [])))).
  { rewrite index_mat by (rewrite map_length, skipn_length; lia). do 2 f_equal.
    rewrite (nth_indep _ [] (skipn co [])) by (rewrite map_length, skipn_length; lia). rewrite (map_nth (skipn co)). now rewrite nth_skipn. }
  assert (hl : length (nth (ro + i) rows []) = C) by (apply rect_nth; auto; lia).
  assert (hj' : forall j, j < c -> index (vec (skipn co (nth (ro + i) rows []))) j = Some (Sc (nth (co + j) (nth (ro + i) rows []) 0%N))).
  { intros k hk. rewrite index_vec by (rewrite skipn_length; lia). now rewrite nth_skipn. }
  unfold cell. rewrite !eqb1. destruct (Nat.eqb_spec r 1) as [e|_]; [lia|]. cbn [orb andb]. rewrite hi'.
  destruct (Nat.eqb_spec c 1) as [->|n].
  - cbn [is_nd vec]. rewrite (hj' 0) by lia. now replace j with 0 by lia.
  - now apply hj'.
Qed.

Lemma upto_nat asked left : (1 <= asked)%Z -> Z.min (Z.min asked max_array) (Z.of_nat left) = Z.of_nat (upto asked left).
Proof. intros h. unfold upto, max_array. lia. Qed.

(** A table of at least two rows and columns: any part which reaches to the last row or has two rows at least. *)
Lemma matrix_part text C rows ro co asked_r asked_c :
  rect C rows -> 2 <= C -> 2 <= length rows -> ro < length rows -> co < C -> (1 <= asked_c)%Z ->
  (2 <= asked_r \/ (1 <= asked_r /\ Z.of_nat ro + 1 = Z.of_nat (length rows)))%Z ->
  let r := upto asked_r (length rows - ro) in let c := upto asked_c (C - co) in
  array_to_xml text (mat rows) ro co asked_r asked_c = Some (Z.of_nat r, Z.of_nat c, map (map Sc) (part rows ro co r c)).
Proof.
  intros hC hc2 hr2 hro hco ha har r c. unfold array_to_xml. rewrite len_mat.
  destruct (Nat.eqb_spec (length rows) 1) as [e|_]; [lia|]. cbn [andb]. rewrite len_mat, (size_mat C) by assumption.
  destruct (Nat.ltb_spec (length rows) (length rows * C)) as [_|e]; [|nia]. rewrite drop2_mat, len_mat, map_length, skipn_length.
  rewrite index_mat by (rewrite map_length, skipn_length; lia).
  assert (h0 : nth 0 (map (skipn co) (skipn ro rows)) [] = skipn co (nth ro rows [])).
  { rewrite (nth_indep _ [] (skipn co [])) by (rewrite map_length, skipn_length; lia). rewrite (map_nth (skipn co)), nth_skipn. now rewrite Nat.add_0_r. }
  rewrite h0, len_vec, skipn_length, (rect_nth C) by (assumption || lia).
  rewrite !upto_nat by lia. fold r c. destruct (Nat.eqb_spec (length rows - ro) 1) as [e|n].
  - assert (hr : r = 1). { unfold r, upto. lia. } rewrite hr. rewrite emit_row.
    + assert (hs : skipn ro rows = [nth ro rows []]).
      { clear - e. revert rows e. induction ro as [|ro IH]; intros rows e; destruct rows as [|x rows]; cbn [length] in e; try lia.
        - destruct rows; [reflexivity|cbn [length] in e; lia].
        - cbn [skipn nth]. apply IH. lia. }
      unfold part. rewrite hs. reflexivity.
    + rewrite (rect_nth C) by assumption. unfold c, upto. lia.
  - apply (emit_part text C); auto; unfold r, c, upto; lia.
Qed.

(** One row. *)
Lemma one_row_part text row co asked_c : 2 <= length row -> co < length row -> (1 <= asked_c)%Z ->
  let c := upto asked_c (length row - co) in
  array_to_xml text (mat [row]) 0 co 1 asked_c = Some (1%Z, Z.of_nat c, map (map Sc) (part [row] 0 co 1 c)).
Proof.
  intros hl hco ha c. unfold array_to_xml. rewrite len_mat. change (Z.min 1 max_array) with 1%Z. change (Z.ltb 1 1) with false.
  cbn [length Nat.eqb andb orb]. destruct (Z.ltb_spec 1 (Z.min asked_c max_array)) as [h|h].
  - rewrite index_mat by (cbn [length]; lia). cbn [nth]. rewrite len_vec, size_vec.
    destruct (Nat.ltb_spec (length row) (length row)) as [e|_]; [lia|]. rewrite Nat.eqb_refl. cbn [Nat.eqb andb Z.eqb Pos.eqb].
    rewrite drop_vec, len_vec, skipn_length, upto_nat by lia. fold c. apply emit_row. unfold c, upto. lia.
  - rewrite len_mat, (size_mat (length row)) by (constructor; [reflexivity|constructor]). cbn [length].
    destruct (Nat.ltb_spec 1 (1 * length row)) as [_|e]; [|lia]. rewrite drop2_mat, len_mat. cbn [skipn map length].
    rewrite index_mat by (cbn [length]; lia). cbn [nth Nat.eqb]. rewrite len_vec, skipn_length.
    change (Z.min 1 (Z.of_nat 1)) with 1%Z. rewrite upto_nat by lia. fold c. apply emit_row. unfold c, upto. lia.
Qed.

(** One column of several rows. *)
Lemma one_column_part text l ro asked_r : 2 <= length l -> ro < length l -> (2 <= asked_r)%Z -> 2 <= length l - ro ->
  let r := upto asked_r (length l - ro) in
  array_to_xml text (mat (map (fun x => [x]) l)) ro 0 asked_r 1 = Some (Z.of_nat r, 1%Z, map (map Sc) (part (map (fun x => [x]) l) ro 0 r 1)).
Proof.
  intros hl hro ha h2 r. set (rows := map (fun x => [x]) l).
  assert (hR : rect 1 rows). { unfold rect, rows. apply Forall_forall. intros x i. apply in_map_iff in i as (y & <- & _). reflexivity. }
  assert (hlen : length rows = length l) by (unfold rows; apply map_length).
  unfold array_to_xml. rewrite len_mat, hlen. destruct (Nat.eqb_spec (length l) 1) as [e|_]; [lia|]. cbn [andb].
  rewrite len_mat, (size_mat 1), hlen, Nat.mul_1_r by assumption.
  destruct (Nat.ltb_spec (length l) (length l)) as [e|_]; [lia|]. rewrite Nat.eqb_refl. change (Z.min 1 max_array) with 1%Z.
  destruct (Z.eqb_spec (Z.min asked_r max_array) 1) as [e|_]; [unfold max_array in e; lia|]. rewrite andb_false_r. cbn [Nat.eqb Z.eqb Pos.eqb andb].
  rewrite drop_mat, len_mat, skipn_length, hlen, upto_nat by lia. fold r.
  replace (skipn ro rows) with (map (skipn 0) (skipn ro rows)) by (rewrite <- (map_id (skipn ro rows)) at 2; apply map_ext; reflexivity).
  change 1%Z with (Z.of_nat 1). apply (emit_part text 1); auto; unfold r, upto; lia.
Qed.

(** A vector as a row and as a column. *)
Lemma vector_row text l co asked_c : 1 <= length l -> (length l = 1 -> asked_c = 1%Z) -> co < length l -> (1 <= asked_c)%Z ->
  let c := upto asked_c (length l - co) in
  array_to_xml text (vec l) 0 co 1 asked_c = Some (1%Z, Z.of_nat c, map (map Sc) (part [l] 0 co 1 c)).
Proof.
  intros hl h1 hco ha c. unfold array_to_xml. rewrite len_vec. change (Z.min 1 max_array) with 1%Z. change (Z.ltb 1 1) with false. cbn [orb].
  assert (hif : (Nat.eqb (length l) 1 && Z.ltb 1 (Z.min asked_c max_array))%bool = false).
  { destruct (Nat.eqb_spec (length l) 1) as [e|_]; [|reflexivity]. now rewrite (h1 e). }
  rewrite hif, len_vec, size_vec. destruct (Nat.ltb_spec (length l) (length l)) as [e|_]; [lia|]. rewrite Nat.eqb_refl. cbn [Nat.eqb andb Z.eqb Pos.eqb].
  rewrite drop_vec, len_vec, skipn_length, upto_nat by lia. fold c. apply emit_row. unfold c, upto. lia.
Qed.

Lemma vector_column text l ro asked_r : 1 <= length l -> (length l = 1 -> asked_r = 1%Z) -> ro < length l ->
  (2 <= asked_r \/ (asked_r = 1 /\ 0 < Z.of_nat ro))%Z ->
  let r := upto asked_r (length l - ro) in
  array_to_xml text (vec l) ro 0 asked_r 1 = Some (Z.of_nat r, 1%Z, map (map Sc) (part (map (fun x => [x]) l) ro 0 r 1)).
Proof.
  intros hl h1 hro ha r. unfold array_to_xml. rewrite len_vec. change (Z.min 1 max_array) with 1%Z. change (Z.ltb 1 1) with false. rewrite orb_false_r.
  assert (hif : (Nat.eqb (length l) 1 && Z.ltb 1 (Z.min asked_r max_array))%bool = false).
  { destruct (Nat.eqb_spec (length l) 1) as [e|_]; [|reflexivity]. now rewrite (h1 e). }
  rewrite hif, len_vec, size_vec. destruct (Nat.ltb_spec (length l) (length l)) as [e|_]; [lia|]. rewrite Nat.eqb_refl.
  assert (hif2 : (Nat.eqb ro 0 && Z.eqb (Z.min asked_r max_array) 1)%bool = false).
  { destruct (Nat.eqb_spec ro 0) as [e|_]; [|reflexivity]. apply Z.eqb_neq. unfold max_array. lia. }
  rewrite hif2. cbn [Nat.eqb andb Z.eqb Pos.eqb].
  rewrite drop_vec, len_vec, skipn_length, upto_nat by lia. fold r. apply emit_col. unfold r, upto. lia.
Qed.

(** The part of an array which can be looked at: a thousand rows and columns. *)
Definition window {A} (rows : list (list A)) : list (list A) := map (firstn 1000) (firstn 1000 rows).

Lemma meta_matrix C rows contiguous initial numbers : rect C rows -> 1 <= length rows -> 1 <= C ->
  array_to_meta (mat rows) contiguous initial numbers =
  Some (mat (window rows), Z.of_nat (Nat.min (length rows) 1000), Z.of_nat (Nat.min C 1000)).
Proof.
  intros hC hr hc.
  assert (hn : ndim (mat rows) = 2).
  { destruct rows as [|row rows]; [cbn [length] in hr; lia|]. inversion hC as [|? ? e _]; subst. destruct row; [cbn [length] in hc; lia|]. reflexivity. }
  unfold array_to_meta. rewrite hn. change (Nat.ltb 2 2) with false. rewrite andb_false_r, hn.
  unfold mat at 1. cbv beta iota zeta. rewrite index_mat by lia. unfold vec at 1. rewrite !map_length, (rect_nth C) by (assumption || lia). unfold max_slice.
  change (10 * 100) with 1000.
  assert (ht : take2 (Nat.min (length rows) 1000) (Nat.min C 1000) (mat rows) = mat (window rows)).
  { unfold take2, mat, window. rewrite firstn_map, !map_map. f_equal.
    assert (hf : firstn (Nat.min (length rows) 1000) rows = firstn 1000 rows).
    { rewrite Nat.min_comm, <- firstn_firstn, firstn_all. reflexivity. }
    rewrite hf. apply map_ext_in. intros row i. unfold take_, vec. rewrite firstn_map. do 2 f_equal.
    apply (rect_take _ 1000) in hC. unfold rect in hC. rewrite Forall_forall in hC. rewrite <- (hC row i), Nat.min_comm, <- firstn_firstn, firstn_all. reflexivity. }
  rewrite ht.
  assert (hs : Nat.eqb (size (mat (window rows))) 0 = false).
  { rewrite (size_mat (Nat.min 1000 C)).
    - unfold window. rewrite map_length, firstn_length. apply Nat.eqb_neq. set (k := 1000). assert (1 <= k) by (unfold k; lia). clearbody k. nia.
    - unfold rect, window. apply (rect_take _ 1000) in hC. unfold rect in hC. rewrite Forall_forall in *. intros x i.
      apply in_map_iff in i as (y & <- & i). rewrite firstn_length, (hC y i). reflexivity. }
  rewrite hs, andb_false_r. reflexivity.
Qed.

Lemma meta_vector l contiguous initial numbers : 1 <= length l ->
  array_to_meta (vec l) contiguous initial numbers =
  Some (vec (firstn 1000 l),
        (if contiguous then 1 else Z.of_nat (Nat.min (length l) 1000))%Z, (if contiguous then Z.of_nat (Nat.min (length l) 1000) else 1)%Z).
Proof.
  intros hl. assert (hn : ndim (vec l) = 1) by (destruct l; [cbn [length] in hl; lia|reflexivity]).
  unfold array_to_meta. rewrite hn. change (Nat.ltb 2 1) with false. rewrite andb_false_r, hn. unfold vec at 1. rewrite map_length. unfold max_slice.
  change (10 * 100) with 1000.
  assert (ht : take_ (Nat.min (length l) 1000) (vec l) = vec (firstn 1000 l)).
  { unfold take_, vec. rewrite firstn_map. do 2 f_equal. rewrite Nat.min_comm, <- firstn_firstn, firstn_all. reflexivity. }
  rewrite ht. assert (hs : Nat.eqb (size (vec (firstn 1000 l))) 0 = false).
  { rewrite size_vec, firstn_length. apply Nat.eqb_neq. lia. }
  destruct contiguous; rewrite hs, andb_false_r; reflexivity.
Qed.

(** Specification: the data are the r rows of c values of the given rows, from row ro and column co on. *)
Definition shows (rows : list (list N)) (ro co r c : nat) (data : list (list N)) : Prop :=
  length data = r /\ Forall (fun row => length row = c) data /\
  forall i j, i < r -> j < c -> nth j (nth i data []) 0%N = nth (co + j) (nth (ro + i) rows []) 0%N.

(** What the client is told: the number of rows and columns of the array, those of the part sent, and its numbers. *)
Definition answer (all_r all_c : nat) (r c : nat) (data : list (list N)) : option (Z * Z * (Z * Z * list (list nd))) :=
  Some (Z.of_nat all_r, Z.of_nat all_c, (Z.of_nat r, Z.of_nat c, map (map Sc) data)).

Lemma window_rect C rows : rect C rows -> rect (Nat.min C 1000) (window rows).
Proof.
  intros hC. unfold rect, window. apply (rect_take _ 1000) in hC. unfold rect in hC. rewrite Forall_forall in *. intros x i.
  apply in_map_iff in i as (y & <- & i). rewrite firstn_length, (hC y i). apply Nat.min_comm.
Qed.
Lemma window_length {A} (rows : list (list A)) : length (window rows) = Nat.min (length rows) 1000.
Proof. unfold window. rewrite map_length, firstn_length. apply Nat.min_comm. Qed.

Lemma window_nth (rows : list (list N)) i j : i < 1000 -> j < 1000 -> nth j (nth i (window rows) []) 0%N = nth j (nth i rows []) 0%N.
Proof.
  intros hi hj. unfold window. change (@nil N) with (firstn 1000 (@nil N)) at 1. rewrite (map_nth (firstn 1000)). now rewrite !nth_firstn'.
Qed.

Lemma part_shows C rows ro co r c : rect C rows ->
  ro + r <= Nat.min (length rows) 1000 -> co + c <= Nat.min C 1000 -> shows rows ro co r c (part (window rows) ro co r c).
Proof.
  intros hC hr hc. split; [|split].
  - apply part_length. rewrite window_length. lia.
  - apply (part_rect (Nat.min C 1000)); [now apply window_rect|lia].
  - intros i j hi hj. rewrite part_nth by (try rewrite window_length; lia). apply window_nth; lia.
Qed.

Lemma not_all asked_r asked_c : (1 <= asked_c \/ 1 <= asked_r)%Z -> (Z.eqb asked_r (-1) && Z.eqb asked_c (-1))%bool = false.
Proof. intros h. destruct (Z.eqb_spec asked_r (-1)), (Z.eqb_spec asked_c (-1)); cbn [andb]; try reflexivity; lia. Qed.

(** A table of at least two rows and two columns: the answer gives the size of the table and the part asked for, if it has two rows
    or goes to the last row of the table. *)
Theorem matrix_shown text contiguous initial numbers C rows ro co asked_r asked_c :
  rect C rows -> 2 <= C -> 2 <= length rows ->
  let all_r := Nat.min (length rows) 1000 in let all_c := Nat.min C 1000 in
  ro < all_r -> co < all_c -> (1 <= asked_c)%Z -> (2 <= asked_r \/ (asked_r = 1 /\ S ro = all_r))%Z ->
  let r := upto asked_r (all_r - ro) in let c := upto asked_c (all_c - co) in
  exists data, table text (mat rows) contiguous initial numbers ro co asked_r asked_c = answer all_r all_c r c data /\ shows rows ro co r c data.
Proof.
  intros hC hc2 hr2 all_r all_c hro hco hac har r c. exists (part (window rows) ro co r c). split.
  - unfold table. rewrite (meta_matrix C) by (assumption || lia). rewrite not_all by lia.
    assert (hc' : 2 <= all_c) by (unfold all_c; lia). assert (hr' : 2 <= all_r) by (unfold all_r; lia).
    rewrite (matrix_part text all_c (window rows) ro co asked_r asked_c).
    + rewrite window_length. reflexivity.
    + now apply window_rect.
    + assumption.
    + rewrite window_length. assumption.
    + rewrite window_length. assumption.
    + assumption.
    + assumption.
    + rewrite window_length. fold all_r. lia.
  - apply (part_shows C); auto; fold all_r; fold all_c; unfold r, c, upto; lia.
Qed.

(** A table of one row. *)
Theorem row_shown text contiguous initial numbers row co asked_c :
  2 <= length row -> let all := Nat.min (length row) 1000 in co < all -> (1 <= asked_c)%Z ->
  let c := upto asked_c (all - co) in
  exists data, table text (mat [row]) contiguous initial numbers 0 co 1 asked_c = answer 1 all 1 c data /\ shows [row] 0 co 1 c data.
Proof.
  intros hl all hco ha c. exists (part (window [row]) 0 co 1 c).
  assert (hR : rect (length row) [row]) by (constructor; [reflexivity|constructor]). split.
  - unfold table. rewrite (meta_matrix (length row)) by (assumption || (cbn [length]; lia)). rewrite not_all by lia.
    change (window [row]) with [firstn 1000 row]. rewrite one_row_part by (try rewrite firstn_length; lia).
    rewrite firstn_length, (Nat.min_comm 1000). reflexivity.
  - apply (part_shows (length row)); auto; fold all; unfold c, upto; cbn [length]; lia.
Qed.

(** A table of one column. *)
Theorem column_shown text contiguous initial numbers l ro asked_r :
  let rows := map (fun x => [x]) l in let all := Nat.min (length l) 1000 in
  S ro < all -> (2 <= asked_r)%Z -> let r := upto asked_r (all - ro) in
  exists data, table text (mat rows) contiguous initial numbers ro 0 asked_r 1 = answer all 1 r 1 data /\ shows rows ro 0 r 1 data.
Proof.
  intros rows all hro ha r. exists (part (window rows) ro 0 r 1).
  assert (hR : rect 1 rows). { unfold rect, rows. apply Forall_forall. intros x i. apply in_map_iff in i as (y & <- & _). reflexivity. }
  assert (hlen : length rows = length l) by (unfold rows; apply map_length). split.
  - unfold table. rewrite (meta_matrix 1) by (assumption || lia). rewrite not_all by lia. rewrite hlen.
    assert (hw : window rows = map (fun x => [x]) (firstn 1000 l)).
    { unfold window, rows. rewrite firstn_map, map_map. reflexivity. }
    rewrite hw. rewrite one_column_part by (try rewrite firstn_length; lia). rewrite firstn_length, (Nat.min_comm 1000). reflexivity.
  - apply (part_shows 1); auto; rewrite ?hlen; fold all; unfold r, upto; cbn; lia.
Qed.

(** A vector: as a row, if it is stored so, else as a column. *)
Theorem vector_shown text initial numbers l k asked :
  1 <= length l -> let all := Nat.min (length l) 1000 in k < all -> (1 <= asked)%Z -> (length l = 1 -> asked = 1%Z) ->
  let n := upto asked (all - k) in
  (exists data, table text (vec l) true initial numbers 0 k 1 asked = answer 1 all 1 n data /\ shows [l] 0 k 1 n data) /\
  (asked <> 1%Z \/ 0 < k ->
   exists data, table text (vec l) false initial numbers k 0 asked 1 = answer all 1 n 1 data /\ shows (map (fun x => [x]) l) k 0 n 1 data).
Proof.
  intros hl all hk ha h1 n. unfold table. rewrite !meta_vector by assumption. split.
  - exists (part (window [l]) 0 k 1 n). split.
    + rewrite not_all by lia. change (window [l]) with [firstn 1000 l].
      rewrite vector_row by (try rewrite firstn_length; lia). rewrite firstn_length, (Nat.min_comm 1000). reflexivity.
    + apply (part_shows (length l)); [constructor; [reflexivity|constructor]| |]; fold all; unfold n, upto; cbn [length]; lia.
  - intros hor. exists (part (window (map (fun x => [x]) l)) k 0 n 1). split.
    + rewrite not_all by lia.
      assert (hw : window (map (fun x => [x]) l) = map (fun x => [x]) (firstn 1000 l)).
      { unfold window. rewrite firstn_map, map_map. reflexivity. }
      rewrite hw, vector_column by (try rewrite firstn_length; lia). rewrite firstn_length, (Nat.min_comm 1000). reflexivity.
    + apply (part_shows 1).
      * unfold rect. apply Forall_forall. intros x i. apply in_map_iff in i as (y & <- & _). reflexivity.
      * rewrite map_length. fold all. unfold n, upto. lia.
      * cbn. lia.
Qed.

(** When no size is asked for, the first hundred rows and columns are sent. *)
Theorem first_shown text contiguous initial numbers C rows :
  rect C rows -> 2 <= C -> 2 <= length rows ->
  exists data,
    table text (mat rows) contiguous initial numbers 0 0 (-1) (-1) =
      answer (Nat.min (length rows) 1000) (Nat.min C 1000) (Nat.min (length rows) 100) (Nat.min C 100) data /\
    shows rows 0 0 (Nat.min (length rows) 100) (Nat.min C 100) data.
Proof.
  intros hC hc hr.
  destruct (matrix_shown text contiguous initial numbers C rows 0 0 (Z.of_nat (Nat.min (length rows) 1000)) (Z.of_nat (Nat.min C 1000)) hC hc hr)
    as (data & e & s); try lia.
  assert (hu : forall n, upto (Z.of_nat (Nat.min n 1000)) (Nat.min n 1000 - 0) = Nat.min n 100) by (intros n; unfold upto; lia).
  rewrite !hu in e, s. exists data. split; [|exact s]. rewrite <- e. unfold table. rewrite (meta_matrix C) by (assumption || lia).
  rewrite (not_all (Z.of_nat _)) by lia. reflexivity.
Qed.

(** Of an array of more dimensions the first table is shown. *)
Inductive first_plane : nd -> list (list N) -> Prop :=
| Plane rows : first_plane (mat rows) rows
| Deeper x others rows : first_plane x rows -> first_plane (Nd (x :: others)) rows.

Lemma plane_ndim C rows : rect C rows -> 1 <= C -> 1 <= length rows -> ndim (mat rows) = 2.
Proof.
  intros hC hc hr. destruct rows as [|row rows]; [cbn [length] in hr; lia|]. inversion hC as [|? ? e _]; subst.
  destruct row; [cbn [length] in hc; lia|]. reflexivity.
Qed.

Theorem plane_shown text contiguous numbers C a rows ro co asked_r asked_c :
  first_plane a rows -> rect C rows -> 1 <= C -> 1 <= length rows ->
  table text a contiguous true numbers ro co asked_r asked_c = table text (mat rows) contiguous true numbers ro co asked_r asked_c.
Proof.
  intros h hC hc hr.
  assert (hd : exists k, ndim a = k + 2 /\ first_ k a = Some (mat rows)).
  { induction h as [rows|x others rows h IH].
    - exists 0. split; [now apply (plane_ndim C)|reflexivity].
    - destruct (IH hC hr) as (k & e1 & e2). exists (S k). split; [cbn [ndim]; lia|exact e2]. }
  destruct hd as (k & e1 & e2). destruct k as [|k].
  - cbn [first_] in e2. injection e2 as ->. reflexivity.
  - unfold table, array_to_meta. rewrite e1, (plane_ndim C rows) by assumption.
    replace (Nat.ltb 2 (S k + 2)) with true by (symmetry; apply Nat.ltb_lt; lia). cbn [andb].
    replace (S k + 2 - 2) with (S k) by lia. rewrite e2. change (Nat.ltb 2 2) with false. cbv iota. rewrite (plane_ndim C rows) by assumption. reflexivity.
Qed.

(** Data frames. *)
Definition regular (df : frame) : Prop :=
  length (index_ df) = length (body df) /\ rect (length (labels df)) (body df).

(** The values of a column, in the rows which can be looked at. *)
Definition column (df : frame) (k : nat) : list N := map (fun row => nth k row 0%N) (firstn 1000 (body df)).

Theorem frame_shown df ro co asked_r asked_c :
  regular df -> (1 <= asked_r)%Z -> (1 <= asked_c)%Z ->
  let all_r := Nat.min (length (body df)) 1000 in let all_c := Nat.min (length (labels df)) 1000 in
  let c := upto asked_c all_c in let r := upto asked_r (all_r - ro) in
  ro < all_r -> co + c <= all_c ->
  exists s, frame_table df ro co asked_r asked_c = Some (all_r, all_c, s) /\
    shows (body df) ro co r c (cells s) /\
    length (rheads s) = r /\ (forall i, i < r -> nth i (rheads s) 0%N = nth (ro + i) (index_ df) 0%N) /\
    length (heads s) = c /\ (forall j, j < c -> nth j (heads s) (0%N, []) = (nth (co + j) (labels df) 0%N, column df (co + j))).
Proof.
  intros [hi hb] har hac all_r all_c c r hro hco. unfold frame_table. unfold max_slice. change (10 * 100) with 1000.
  fold all_r all_c. rewrite not_all by lia. cbv zeta.
  change (Nat.min (Z.to_nat (Z.min asked_c max_array)) all_c) with c.
  assert (hif : (negb (Nat.eqb c 0) && Nat.leb all_c (co + c - 1))%bool = false).
  { destruct (Nat.eqb_spec c 0) as [e|n]; [reflexivity|]. cbn [negb andb]. apply Nat.leb_gt. lia. }
  rewrite hif. eexists. split; [reflexivity|]. cbn [cells rheads heads].
  set (r0 := Z.to_nat (Z.min asked_r max_array)).
  assert (hr : r = Nat.min r0 (all_r - ro)) by reflexivity.
  assert (hall_r : all_r <= 1000) by (unfold all_r; lia). assert (hall_c : all_c <= 1000) by (unfold all_c; lia).
  assert (hlr : all_r <= length (body df)) by (unfold all_r; lia). assert (hlc : all_c <= length (labels df)) by (unfold all_c; lia).
  set (dat := map (firstn all_c) (firstn all_r (body df))).
  assert (hdl : length dat = all_r) by (unfold dat; rewrite map_length, firstn_length; lia).
  assert (hcut : cut ro r0 dat = cut ro r dat).
  { unfold cut. rewrite hr. assert (hl : length (skipn ro dat) = all_r - ro) by (rewrite skipn_length; lia).
    rewrite <- hl, <- firstn_firstn, firstn_all. reflexivity. }
  assert (hdr : rect all_c dat).
  { unfold dat, rect. apply Forall_forall. intros x i. apply in_map_iff in i as (y & <- & i). rewrite firstn_length.
    apply (rect_take _ all_r) in hb. unfold rect in hb. rewrite Forall_forall in hb. rewrite (hb y i). lia. }
  assert (hdn : forall i j, i < all_r -> j < all_c -> nth j (nth i dat []) 0%N = nth j (nth i (body df) []) 0%N).
  { intros i j h1 h2. unfold dat. replace (@nil N) with (firstn all_c (@nil N)) at 1 by apply firstn_nil. rewrite (map_nth (firstn all_c)). now rewrite !nth_firstn'. }
  rewrite hcut. change (map (cut co c) (cut ro r dat)) with (part dat ro co r c). split; [|split; [|split; [|split]]].
  - split; [apply part_length; lia|]. split; [apply (part_rect all_c); [assumption|lia]|].
    intros i j h1 h2. rewrite part_nth by lia. apply hdn; lia.
  - unfold cut. rewrite firstn_length, skipn_length, firstn_length. lia.
  - intros i h. unfold cut. rewrite nth_firstn' by lia. rewrite nth_skipn, nth_firstn' by lia. reflexivity.
  - unfold cut. rewrite combine_length, firstn_length, skipn_length, firstn_length, map_length, seq_length. lia.
  - intros j h. rewrite combine_nth.
    + f_equal.
      * unfold cut. rewrite nth_firstn' by lia. rewrite nth_skipn, nth_firstn' by lia. reflexivity.
      * rewrite (nth_indep _ [] ((fun col => map (fun row => nth (co + col) row 0%N) dat) 0)) by (rewrite map_length, seq_length; assumption).
        rewrite (map_nth (fun col => map (fun row => nth (co + col) row 0%N) dat)). rewrite seq_nth by assumption.
        unfold column, dat. rewrite map_map. cbn [Nat.add].
        assert (hf : firstn all_r (body df) = firstn 1000 (body df)).
        { unfold all_r. rewrite Nat.min_comm, <- firstn_firstn, firstn_all. reflexivity. }
        rewrite hf. apply map_ext. intros row. apply nth_firstn'. lia.
    + unfold cut. rewrite firstn_length, skipn_length, firstn_length, map_length, seq_length. lia.
Qed.

(** Findings. *)
(** One row asked for of a table with more rows below: a column is sent instead. *)
Theorem one_row_refuted :
  exists rows r c data, table false (mat rows) true false true 0 0 r c = answer 2 2 1 2 data /\ ~ shows rows 0 0 1 2 data.
Proof.
  exists [[1;2];[3;4]]%N, 1%Z, 2%Z, [[1;3]]%N. split; [reflexivity|]. intros (_ & _ & h). specialize (h 0 1 ltac:(lia) ltac:(lia)). discriminate h.
Qed.

(** One number asked for of such a table: the request fails. *)
Theorem one_cell_refuted : exists rows, rect 2 rows /\ length rows = 2 /\ table false (mat rows) true false true 0 0 1 1 = None.
Proof. exists [[1;2];[3;4]]%N. split; [repeat constructor|]. split; reflexivity. Qed.

(** A vector of one number cannot be looked at with room for more than one, nor can an array of none. *)
Theorem small_refuted :
  table false (vec [7%N]) true true true 0 0 1 10 = None /\ table false (vec []) true true true 0 0 (-1) (-1) = None.
Proof. split; reflexivity. Qed.

(** The part of a data frame which reaches beyond its last column fails, while that of an array is cut. *)
Theorem frame_edge_refuted :
  exists df, regular df /\ frame_table df 0 1 1 3 = None /\
    exists data, table false (mat (body df)) true false true 0 1 2 3 = answer 2 3 2 2 data.
Proof.
  exists (Frame [10;11;12] [20;21] [[1;2;3];[4;5;6]])%N. split; [split; [reflexivity|repeat constructor]|]. split; [reflexivity|].
  exists [[2;3];[5;6]]%N. reflexivity.
Qed.

(** Concrete cases. *)
Example matrix_case :
  table false (mat [[1;2;3];[4;5;6];[7;8;9]]%N) true false true 1 1 2 5 = answer 3 3 2 2 [[5;6];[8;9]]%N /\
  table false (mat [[1;2;3];[4;5;6];[7;8;9]]%N) true false true 2 1 1 5 = answer 3 3 1 2 [[8;9]]%N /\
  rect 3 [[1;2;3];[4;5;6];[7;8;9]]%N.
Proof. split; [reflexivity|]. split; [reflexivity|repeat constructor]. Qed.
Example row_case : table false (mat [[1;2;3]]%N) true true true 0 1 1 5 = answer 1 3 1 2 [[2;3]]%N.
Proof. reflexivity. Qed.
Example column_case : table false (mat [[1];[2];[3]]%N) true true true 1 0 5 1 = answer 3 1 2 1 [[2];[3]]%N.
Proof. reflexivity. Qed.
Example vector_case :
  table false (vec [1;2;3]%N) true true true 0 1 1 5 = answer 1 3 1 2 [[2;3]]%N /\
  table false (vec [1;2;3]%N) false true true 1 0 5 1 = answer 3 1 2 1 [[2];[3]]%N.
Proof. split; reflexivity. Qed.
Example first_case : table true (mat [[1;2];[3;4]]%N) true true false 0 0 (-1) (-1) = answer 2 2 2 2 [[1;2];[3;4]]%N.
Proof. reflexivity. Qed.
Example plane_case :
  first_plane (Nd [mat [[1;2];[3;4]]; mat [[5;6];[7;8]]])%N [[1;2];[3;4]]%N /\
  table true (Nd [mat [[1;2];[3;4]]; mat [[5;6];[7;8]]])%N true true true 0 0 (-1) (-1) = answer 2 2 2 2 [[1;2];[3;4]]%N.
Proof. split; [apply Deeper, Plane|reflexivity]. Qed.
Example frame_case :
  let df := Frame [10;11;12]%N [20;21]%N [[1;2;3];[4;5;6]]%N in
  regular df /\ frame_table df 1 1 5 2 = Some (2, 3, Shown [(11, [2;5]); (12, [3;6])]%N [21]%N [[5;6]]%N).
Proof. split; [split; [reflexivity|repeat constructor]|reflexivity]. Qed.

Print Assumptions matrix_shown.
Print Assumptions row_shown.
Print Assumptions column_shown.
Print Assumptions vector_shown.
Print Assumptions first_shown.
Print Assumptions plane_shown.
Print Assumptions frame_shown.
Print Assumptions one_row_refuted.
Print Assumptions one_cell_refuted.
Print Assumptions small_refuted.
Print Assumptions frame_edge_refuted.
