(** Completions: which names are offered at a place of a text, and what choosing one does to the text. *)
From Coq Require Import String.
From Coq Require Import List Bool Arith Lia NArith.
From Verif Require Import Base Dict Glob GlobSpec GlobProps EvalText EvalTextProps Completion.
Import ListNotations.
Open Scope nat_scope.
Open Scope list_scope.

(** ** Specification *)

(** The characters of names: letters, digits and underscores, and beyond ASCII what is a name by itself. *)
Definition in_name (u : chars) (c : N) : Prop :=
  In c (lit "abcdefghijklmnopqrstuvwxyzABCDEFGHIJKLMNOPQRSTUVWXYZ_0123456789") \/ ((128 <= c)%N /\ id_start u c = true).

Definition name_text (u : chars) (s : str) : Prop := Forall (in_name u) s.

(** [r] does not end with a character such as [P]. *)
Definition not_after (P : N -> Prop) (r : str) : Prop := forall r' c, r = r' ++ [c] -> ~ P c.

(** The line [n] (counting from 0) of a text, without its end. *)
Definition line_at (text : str) (n : nat) (l : str) : Prop :=
  exists ls e, cut Text text ls /\ nth_error ls n = Some (l ++ e) /\
  existsb (brk Text) l = false /\ Forall (fun c => brk Text c = true) e.

(** The line asked for, counting from 1; the first one when none is given. *)
Definition asks (line : option nat) (n : nat) : Prop := line = Some (S n) \/ (line = None /\ n = 0).

(** What a client does with a chosen item, counting the characters of the line from 0. *)
Definition choose (l : str) (i : item) : str := firstn (start i) l ++ label i ++ skipn (start i + len i) l.

Definition begins (u : chars) (q n : str) : Prop := exists t, lower u n = lower u q ++ t.

(** The names which can be used in the frame. *)
Definition usable (f : frame) (n : str) : Prop := In n (builtins f) \/ In n (globals f) \/ In n (locals f).

(** ** Proofs *)

Lemma word_char_spec u c : word_char u c = true <-> in_name u c.
Proof.
  unfold word_char, in_name. split.
  - intros H. rewrite !orb_true_iff, !andb_true_iff, !N.leb_le, N.eqb_eq in H.
    destruct H as [H | H]; [left | right; exact H].
    assert (D : exists k, k < 128 /\ c = N.of_nat k) by (exists (N.to_nat c); lia).
    destruct D as [k [K ->]].
    assert (B : forallb (fun k => negb ((97 <=? N.of_nat k)%N && (N.of_nat k <=? 122)%N || (65 <=? N.of_nat k)%N && (N.of_nat k <=? 90)%N || (N.of_nat k =? 95)%N || (48 <=? N.of_nat k)%N && (N.of_nat k <=? 57)%N) || existsb (N.eqb (N.of_nat k)) (lit "abcdefghijklmnopqrstuvwxyzABCDEFGHIJKLMNOPQRSTUVWXYZ_0123456789")) (seq 0 128) = true) by (vm_compute; reflexivity).
    rewrite forallb_forall in B. specialize (B k (proj2 (in_seq _ _ _) (conj (Nat.le_0_l _) K))).
    apply orb_true_iff in B. destruct B as [B | B].
    + exfalso. rewrite negb_true_iff in B.
      assert (T : ((97 <=? N.of_nat k)%N && (N.of_nat k <=? 122)%N || (65 <=? N.of_nat k)%N && (N.of_nat k <=? 90)%N || (N.of_nat k =? 95)%N || (48 <=? N.of_nat k)%N && (N.of_nat k <=? 57)%N) = true)
        by (rewrite !orb_true_iff, !andb_true_iff, !N.leb_le, N.eqb_eq; exact H).
      rewrite T in B. discriminate.
    + apply existsb_exists in B. destruct B as [x [X E]]. apply N.eqb_eq in E. subst x. exact X.
  - intros [H | [H1 H2]].
    + assert (B : forallb (word_char u) (lit "abcdefghijklmnopqrstuvwxyzABCDEFGHIJKLMNOPQRSTUVWXYZ_0123456789") = true).
      { apply forallb_forall. intros x X. unfold word_char.
        assert (B : forallb (fun k => ((97 <=? k)%N && (k <=? 122)%N || (65 <=? k)%N && (k <=? 90)%N || (k =? 95)%N || (48 <=? k)%N && (k <=? 57)%N)) (lit "abcdefghijklmnopqrstuvwxyzABCDEFGHIJKLMNOPQRSTUVWXYZ_0123456789") = true) by (vm_compute; reflexivity).
        rewrite forallb_forall in B. rewrite (B x X). reflexivity. }
      rewrite forallb_forall in B. exact (B c H).
    + rewrite H2, (proj2 (N.leb_le 128 c) H1). rewrite !orb_true_r. reflexivity.
Qed.

Lemma dot_not_name u : ~ in_name u 46%N.
Proof. rewrite <- word_char_spec. unfold word_char. replace (128 <=? 46)%N with false by reflexivity. discriminate. Qed.

Lemma name_no_dot u s : name_text u s -> ~ In 46%N s.
Proof. intros F H. unfold name_text in F. rewrite Forall_forall in F. exact (dot_not_name u (F _ H)). Qed.

Definition back_char (u : chars) (c : N) : bool := word_char u c || (c =? 46)%N.

Lemma back_char_spec u c : back_char u c = true <-> (in_name u c \/ c = 46%N).
Proof. unfold back_char. rewrite orb_true_iff, word_char_spec, N.eqb_eq. reflexivity. Qed.

Lemma back_app u w r : forallb (back_char u) w = true -> back u (w ++ r) = w ++ back u r.
Proof.
  induction w as [|c w IH]; intros F; [reflexivity|]. cbn [forallb] in F. apply andb_true_iff in F. destruct F as [F1 F2].
  cbn [app back]. fold (back_char u c). rewrite F1, (IH F2). reflexivity.
Qed.

Lemma back_stop u r : not_after (fun c => in_name u c \/ c = 46%N) r -> back u (rev r) = [].
Proof.
  intros H. destruct (rev r) as [|c r'] eqn:E; [reflexivity|]. cbn [back]. fold (back_char u c).
  destruct (back_char u c) eqn:B; [exfalso | reflexivity].
  apply (H (rev r') c); [|apply back_char_spec; exact B].
  rewrite <- (rev_involutive r), E. reflexivity.
Qed.

Lemma back_run u r w : Forall (fun c => in_name u c \/ c = 46%N) w ->
  not_after (fun c => in_name u c \/ c = 46%N) r -> rev (back u (rev (r ++ w))) = w.
Proof.
  intros F H. rewrite rev_app_distr, back_app, (back_stop u r H), app_nil_r; [apply rev_involutive|].
  apply forallb_forall. intros c C. apply back_char_spec. apply in_rev in C. rewrite Forall_forall in F. exact (F c C).
Qed.

Lemma line_at_nth text n l : line_at text n l -> nth_error (plain_lines text) n = Some l.
Proof.
  intros (ls & e & C & E & B & F). unfold plain_lines. rewrite (cut_lines _ _ _ C). unfold str in *. rewrite nth_error_map, E. cbn [option_map].
  f_equal. rewrite filter_app.
  replace (filter (fun c => negb (brk Text c)) e) with (@nil N).
  2:{ clear - F. induction F as [|c e H F IH]; [reflexivity|]. cbn [filter]. rewrite H. exact IH. }
  rewrite app_nil_r. clear - B. induction l as [|c l IH]; [reflexivity|]. cbn [existsb] in B. apply orb_false_iff in B.
  destruct B as [B1 B2]. cbn [filter]. rewrite B1. cbn [negb]. rewrite (IH B2). reflexivity.
Qed.

Lemma firstn_here (a b : str) : firstn (if length (a ++ b) <=? length a then length (a ++ b) else length a) (a ++ b) = a.
Proof.
  destruct (Nat.leb_spec (length (a ++ b)) (length a)) as [H | H].
  - rewrite firstn_all. rewrite app_length in H. assert (length b = 0) by lia. destruct b; [apply app_nil_r | discriminate].
  - rewrite firstn_app, Nat.sub_diag, firstn_all. apply app_nil_r.
Qed.

(** The part of the line before the cursor, as names joined by dots. *)
Lemma extract_run u text n r segs q rest :
  line_at text n (r ++ join 46%N (segs ++ [q]) ++ rest) ->
  Forall (name_text u) segs -> name_text u q ->
  not_after (fun c => in_name u c \/ c = 46%N) r ->
  extract u text n (length (r ++ join 46%N (segs ++ [q]))) = (join 46%N segs, q).
Proof.
  intros L S Q R. unfold extract. rewrite (line_at_nth _ _ _ L), app_assoc, firstn_here.
  assert (F : Forall (name_text u) (segs ++ [q])) by (apply Forall_app; auto).
  rewrite back_run; [| |exact R].
  2:{ apply Forall_forall. intros c C. apply In_join in C. destruct C as [-> | [x [X C]]]; [right; reflexivity|].
      left. rewrite Forall_forall in F. specialize (F x X). unfold name_text in F. rewrite Forall_forall in F. exact (F c C). }
  assert (D : Forall (fun x => ~ In 46%N x) (segs ++ [q])) by (eapply Forall_impl; [|exact F]; apply name_no_dot).
  destruct segs as [|s segs].
  - cbn [app join]. destruct (existsb (N.eqb 46) q) eqn:E; [exfalso | reflexivity].
    apply existsb_exists in E. destruct E as [x [X E]]. apply N.eqb_eq in E. subst x. exact (name_no_dot u q Q X).
  - replace (existsb (N.eqb 46) (join 46 ((s :: segs) ++ [q]))) with true.
    2:{ symmetry. apply existsb_exists. exists 46%N. split; [|reflexivity].
        rewrite join_app by discriminate. apply in_or_app. right. left. reflexivity. }
    rewrite split_on_join; [|destruct segs; discriminate|exact D].
    rewrite removelast_last, last_last. reflexivity.
Qed.

Lemma in_offered u names q st i : In i (offered u names q st) <->
  In (label i) names /\ begins u q (label i) /\ start i = st /\ len i = length (lower u q).
Proof.
  unfold offered. rewrite in_map_iff. split.
  - intros (n & <- & H). apply filter_In in H. destruct H as [H1 H2]. apply starts_with_spec in H2. cbn. auto.
  - intros (H1 & H2 & H3 & H4). exists (label i). split; [destruct i; cbn in *; subst; reflexivity|].
    apply filter_In. split; [exact H1|]. apply starts_with_spec. exact H2.
Qed.

Lemma update_In k b : forall a, In k (update a b) <-> In k a \/ In k b.
Proof.
  induction b as [|x b IH]; intros a; cbn [update In]; [tauto|]. rewrite IH.
  destruct (existsb (str_eqb x) a) eqn:E.
  - apply existsb_exists in E. destruct E as [y [Y E]]. apply str_eqb_eq in E. subst y. split; [tauto|].
    intros [H | [-> | H]]; auto.
  - rewrite in_app_iff. cbn [In]. tauto.
Qed.

Lemma NoDup_snoc {A} (x : A) a : NoDup a -> ~ In x a -> NoDup (a ++ [x]).
Proof.
  induction a as [|y a IH]; intros H N0; [repeat constructor; auto|]. cbn [app]. inversion H; subst. constructor.
  - rewrite in_app_iff. intros [I | [I | []]]; [auto|]. subst. apply N0. left. reflexivity.
  - apply IH; auto. intros I. apply N0. right. exact I.
Qed.

Lemma update_NoDup b : forall a, NoDup a -> NoDup (update a b).
Proof.
  induction b as [|x b IH]; intros a H; cbn [update]; [exact H|]. apply IH.
  destruct (existsb (str_eqb x) a) eqn:E; [exact H|]. apply NoDup_snoc; [exact H|]. intros I.
  assert (existsb (str_eqb x) a = true) by (apply existsb_exists; exists x; split; [exact I | apply str_eqb_refl]). congruence.
Qed.

Lemma global_In f n : In n (global_names f) <-> usable f n.
Proof. unfold global_names, namespace, usable. rewrite !update_In. cbn [In]. tauto. Qed.

Lemma segs_of u w : Forall (fun c => in_name u c \/ c = 46%N) w ->
  exists segs q, w = join 46%N (segs ++ [q]) /\ Forall (name_text u) segs /\ name_text u q.
Proof.
  intros F. pose proof (join_split_on 46%N w) as J. pose proof (split_dots w) as D.
  destruct (exists_last (split_on_nonempty 46%N w)) as [segs [q E]]. rewrite E in J, D. exists segs, q. split; [symmetry; exact J|].
  assert (G : Forall (name_text u) (segs ++ [q])).
  { apply Forall_forall. intros x X. apply Forall_forall. intros c C. rewrite Forall_forall in F.
    assert (I : In c w).
    { rewrite <- J. clear - X C. induction (segs ++ [q]) as [|y l IH]; [destruct X|]. destruct X as [-> | X].
      - destruct l; cbn [join]; [exact C | apply in_or_app; left; exact C].
      - destruct l; [destruct X|]. cbn [join]. apply in_or_app. right. right. apply IH. exact X. }
    destruct (F c I) as [K | ->]; [exact K|]. rewrite Forall_forall in D. destruct (D x X C). }
  apply Forall_app in G. destruct G as [G1 G2]. inversion G2; subst. auto.
Qed.

(** The longest end of a text with a property. *)
Lemma last_run (P : N -> Prop) (dec : forall c, P c \/ ~ P c) s : exists r w, s = r ++ w /\ Forall P w /\ not_after P r.
Proof.
  induction s as [|c s IH] using rev_ind.
  - exists [], []. repeat split; auto. intros r' c E. destruct r'; discriminate.
  - destruct (dec c) as [D | D].
    + destruct IH as (r & w & -> & F & R). exists r, (w ++ [c]). rewrite app_assoc. repeat split; auto.
      apply Forall_app. auto.
    + exists (s ++ [c]), []. rewrite app_nil_r. repeat split; auto. intros r' c' E. apply app_inj_tail in E.
      destruct E as [_ <-]. exact D.
Qed.

Lemma back_dec u c : (in_name u c \/ c = 46%N) \/ ~ (in_name u c \/ c = 46%N).
Proof. rewrite <- back_char_spec. destruct (back_char u c); auto. Qed.

Lemma run_unique (P : N -> Prop) a b c d : a ++ b = c ++ d -> Forall P b -> Forall P d -> not_after P a -> not_after P c -> b = d.
Proof.
  revert d. induction b as [|x b IH] using rev_ind; intros d E B D A C.
  - destruct d as [|y d _] using rev_ind; [reflexivity|]. rewrite app_nil_r, app_assoc in E. apply Forall_app in D.
    destruct D as [_ D]. inversion D; subst. destruct (A (c ++ d) y eq_refl). assumption.
  - destruct d as [|y d _] using rev_ind.
    + rewrite app_nil_r, app_assoc in E. apply Forall_app in B. destruct B as [_ B]. inversion B; subst.
      destruct (C (a ++ b) x eq_refl). assumption.
    + rewrite !app_assoc in E. apply app_inj_tail in E. destruct E as [E ->]. f_equal.
      apply Forall_app in B, D. apply IH; tauto.
Qed.

(** The name before the cursor is the one extracted, wherever the cursor is. *)
Lemma extract_name u text n r q rest :
  line_at text n (r ++ q ++ rest) -> name_text u q -> not_after (in_name u) r ->
  snd (extract u text n (length (r ++ q))) = q.
Proof.
  intros L Q R. destruct (last_run _ (back_dec u) (r ++ q)) as (r0 & w & E & F & R0).
  destruct (segs_of u w F) as (segs & q' & W & S & Q'). subst w.
  assert (L' : line_at text n (r0 ++ join 46%N (segs ++ [q']) ++ rest)) by (rewrite app_assoc, <- E, <- app_assoc; exact L).
  rewrite E, (extract_run u text n r0 segs q' rest L' S Q' R0). cbn [snd].
  destruct segs as [|s segs].
  - cbn [app join] in E. symmetry. apply (run_unique (in_name u) r q r0 q' E Q Q' R).
    intros r' c -> I. exact (R0 r' c eq_refl (or_introl I)).
  - rewrite join_app in E by discriminate. cbn [join] in E.
    symmetry. apply (run_unique (in_name u) r q (r0 ++ join 46%N (s :: segs) ++ [46%N]) q'); auto.
    + rewrite E, <- !app_assoc. reflexivity.
    + intros r' c E' I. rewrite app_assoc in E'. apply app_inj_tail in E'. destruct E' as [_ <-]. exact (dot_not_name u I).
Qed.

Lemma asks_line line n : asks line n -> match line with None => 0 | Some k => k - 1 end = n.
Proof. intros [-> | [-> ->]]; [lia | reflexivity]. Qed.

Lemma complete_dot f e : e <> [] ->
  complete f (match e with [] => [] | _ => e ++ lit "." end) = match object_names f e with Some l => l | None => [] end.
Proof.
  intros H. destruct e as [|c e]; [congruence|]. cbn [app complete].
  change (c :: e ++ lit ".") with ((c :: e) ++ [46%N]). rewrite removelast_last. reflexivity.
Qed.

(** ** Theorems *)

(** Choosing an item puts its name in the place of the name which ends at the cursor, and changes nothing else. *)
Theorem choice_replaces u f text line n r q rest i :
  asks line n -> line_at text n (r ++ q ++ rest) -> name_text u q -> not_after (in_name u) r -> length (lower u q) = length q ->
  In i (request u f text line (S (length (r ++ q)))) ->
  choose (r ++ q ++ rest) i = r ++ label i ++ rest.
Proof.
  intros A L Q R W I. unfold request, get_completions in I. rewrite (asks_line _ _ A) in I.
  replace (S (length (r ++ q)) - 1) with (length (r ++ q)) in I by lia.
  pose proof (extract_name u text n r q rest L Q R) as X. destruct (extract u text n (length (r ++ q))) as [tok q'].
  cbn [snd] in X. subst q'. apply in_offered in I. destruct I as (_ & _ & S & E). unfold choose. rewrite S, E, W, app_length.
  replace (length r + length q - length q) with (length r) by lia.
  rewrite firstn_app, Nat.sub_diag, firstn_all, app_nil_r. f_equal. f_equal.
  rewrite app_assoc, <- app_length, skipn_app, skipn_all, Nat.sub_diag. reflexivity.
Qed.

(** Where no dot stands before the name, the names of the frame which begin like it are offered, each once. *)
Theorem names_offered u f text line n r q rest :
  asks line n -> line_at text n (r ++ q ++ rest) -> name_text u q -> not_after (fun c => in_name u c \/ c = 46%N) r ->
  let items := request u f text line (S (length (r ++ q))) in
  (forall m, In m (map label items) <-> usable f m /\ begins u q m) /\ NoDup (map label items).
Proof.
  intros A L Q R. unfold request, get_completions. rewrite (asks_line _ _ A).
  replace (S (length (r ++ q)) - 1) with (length (r ++ q)) by lia.
  pose proof (extract_run u text n r [] q rest) as X. cbn [app join] in X. rewrite (X L (Forall_nil _) Q R).
  cbn [complete]. split.
  - intros m. rewrite in_map_iff. split.
    + intros (i & <- & I). apply in_offered in I. rewrite <- global_In. tauto.
    + intros [U B]. exists (Item m (length (r ++ q) - length q) (length (lower u q))). split; [reflexivity|].
      apply in_offered. cbn. rewrite global_In. auto.
  - unfold offered. rewrite map_map. cbn [label]. rewrite map_id. apply NoDup_filter. unfold global_names.
    apply update_NoDup, update_NoDup. constructor.
Qed.

(** After names joined by dots, the attributes of what they evaluate to are offered. *)
Theorem attributes_offered u f text line n r segs q rest m :
  asks line n -> line_at text n (r ++ join 46%N (segs ++ [q]) ++ rest) ->
  segs <> [] -> Forall (fun s => s <> [] /\ name_text u s) segs -> name_text u q ->
  not_after (fun c => in_name u c \/ c = 46%N) r ->
  (In m (map label (request u f text line (S (length (r ++ join 46%N (segs ++ [q])))))) <->
   begins u q m /\ exists d, dir_of f (join 46%N segs) = Some d /\
   (In m d \/ (m = lit "__dict__" /\ has_dict f (join 46%N segs) = true) \/ (m = lit "__class__" /\ has_class f (join 46%N segs) = true))).
Proof.
  intros A L NE S Q R. unfold request, get_completions. rewrite (asks_line _ _ A).
  replace (Datatypes.S (length (r ++ join 46%N (segs ++ [q]))) - 1) with (length (r ++ join 46%N (segs ++ [q]))) by lia.
  rewrite (extract_run u text n r segs q rest L); auto; [|eapply Forall_impl; [|exact S]; intros ? [_ Z]; exact Z].
  assert (J : join 46%N segs <> []).
  { destruct segs as [|s segs]; [congruence|]. inversion S as [|? ? [Z _] ?]; subst. destruct s; [congruence|].
    destruct segs; discriminate. }
  pose proof (complete_dot f (join 46%N segs) J) as CD. destruct (join 46%N segs) as [|c t]; [congruence|].
  lazy beta iota zeta in CD |- *. rewrite CD. unfold object_names.
  rewrite in_map_iff. split.
  - intros (i & <- & I). apply in_offered in I. destruct I as (I & B & _). split; [exact B|].
    destruct (dir_of f (c :: t)) as [d|]; [|destruct I]. exists d. split; [reflexivity|].
    rewrite !in_app_iff in I. destruct I as [I | [I | I]]; [auto| |].
    + destruct (has_dict f (c :: t)); [|destruct I]. destruct I as [I | []]. auto.
    + destruct (has_class f (c :: t)); [|destruct I]. destruct I as [I | []]. auto.
  - intros (B & d & D & I). rewrite D.
    eexists (Item m _ _). split; [reflexivity|]. apply in_offered. cbn [label start len]. split; [|auto].
    rewrite !in_app_iff. destruct I as [I | [[-> H] | [-> H]]]; [auto| |]; rewrite H; cbn [In]; auto.
Qed.

(** On a line after the last one (after the last line end, or in an empty text) every name is offered, at the
    column given. *)
Theorem no_line_offered u f text line n ls column :
  asks line n -> cut Text text ls -> length ls <= n -> lower u [] = [] ->
  (forall i, In i (request u f text line (S column)) -> start i = column /\ len i = 0) /\
  (forall m, In m (map label (request u f text line (S column))) <-> usable f m).
Proof.
  intros A C L W. unfold request, get_completions. rewrite (asks_line _ _ A).
  replace (S column - 1) with column by lia. unfold extract.
  replace (nth_error (plain_lines text) n) with (@None str).
  2:{ symmetry. apply nth_error_None. unfold plain_lines. rewrite (cut_lines _ _ _ C), map_length. exact L. }
  cbn [complete length]. rewrite Nat.sub_0_r. split.
  - intros i I. apply in_offered in I. rewrite W in I. cbn [length] in I. tauto.
  - intros m. rewrite in_map_iff, <- global_In. split.
    + intros (i & <- & I). apply in_offered in I. tauto.
    + intros I. exists (Item m column 0). split; [reflexivity|]. apply in_offered. rewrite W. cbn. repeat split; auto.
      exists (lower u m). rewrite W. reflexivity.
Qed.

(** *** With the lower case of ASCII *)

Definition ascii (s : str) : Prop := Forall (fun c => (c < 128)%N) s.
Definition low1 (c : N) : N := if ((65 <=? c) && (c <=? 90))%N then (c + 32)%N else c.
Definition python_lower (u : chars) : Prop := forall s, ascii s -> lower u s = map low1 s.

(** What has been typed of an ASCII name, in any case, makes it offered, and choosing it completes what has been
    typed. *)
Theorem typed_completed u f text line n r q rest m t :
  python_lower u -> asks line n -> line_at text n (r ++ q ++ rest) -> name_text u q ->
  not_after (fun c => in_name u c \/ c = 46%N) r -> ascii q -> ascii m -> usable f m -> map low1 m = map low1 q ++ t ->
  exists i, In i (request u f text line (S (length (r ++ q)))) /\ label i = m /\
  choose (r ++ q ++ rest) i = r ++ m ++ rest.
Proof.
  intros P A L Q R AQ AM U E. destruct (names_offered u f text line n r q rest A L Q R) as [H _].
  assert (I : In m (map label (request u f text line (S (length (r ++ q)))))).
  { apply H. split; [exact U|]. exists t. rewrite (P m AM), (P q AQ). exact E. }
  apply in_map_iff in I. destruct I as (i & <- & I). exists i. split; [exact I|]. split; [reflexivity|].
  apply (choice_replaces u f text line n r q rest i A L Q); auto.
  - intros r' c X Y. exact (R r' c X (or_introl Y)).
  - rewrite (P q AQ). apply map_length.
Qed.

(** ** Examples and what does not hold *)

Definition u0 : chars := Chars (map low1) (fun c => (c =? 233)%N).
Definition f0 : frame := Frame [lit "print"; lit "len"] [lit "value"; lit "len"] [lit "Valid"; lit "x"]
  (fun e => if str_eqb e (lit "x.y") then Some [lit "real"; lit "run"; lit "__class__"] else None) (fun _ => false) (fun _ => true).

Example names_case : request u0 f0 (lit "x = 1" ++ [10%N] ++ lit "print(va)") (Some 2) 9 =
  [Item (lit "value") 6 2; Item (lit "Valid") 6 2].
Proof. reflexivity. Qed.

Example choose_case : choose (lit "print(va)") (Item (lit "Valid") 6 2) = lit "print(Valid)".
Proof. reflexivity. Qed.

Example attributes_case : request u0 f0 (lit "1+x.y.R + 2") None 8 = [Item (lit "real") 6 1; Item (lit "run") 6 1].
Proof. reflexivity. Qed.

Example empty_case : map label (request u0 f0 [] None 1) = [lit "print"; lit "len"; lit "value"; lit "Valid"; lit "x"].
Proof. reflexivity. Qed.

Example line_case : line_at (lit "x = 1" ++ [10%N] ++ lit "print(va)") 1 (lit "print(" ++ lit "va" ++ lit ")").
Proof.
  exists [lit "x = 1" ++ [10%N]; lit "print(va)"], []. rewrite app_nil_r. split; [|split; [reflexivity|split; [reflexivity|constructor]]].
  change (cut Text (lit "x = 1" ++ [10%N] ++ lit "print(va)") (lines Text (lit "x = 1" ++ [10%N] ++ lit "print(va)"))). apply lines_cut.
Qed.

(** After a call, an index or a text the names of the frame are offered, although what follows the dot is an
    attribute. *)
Theorem after_call_refuted :
  map label (request u0 f0 (lit "f().va") None 7) = [lit "value"; lit "Valid"] /\
  map label (request u0 f0 (lit "x[0].va") None 8) = [lit "value"; lit "Valid"].
Proof. split; reflexivity. Qed.

(** Every object has a class and dir() lists it: __class__ is offered twice. *)
Theorem class_twice_refuted :
  map label (request u0 f0 (lit "x.y.__c") None 8) = [lit "__class__"; lit "__class__"].
Proof. reflexivity. Qed.

(** With the cursor after the end of the line, the items replace a part which is not the name. *)
Theorem past_end_refuted :
  map (choose (lit "va  ")) (request u0 f0 (lit "va") None 5) = [lit "vavalue"; lit "vaValid"].
Proof. reflexivity. Qed.

(** A client which counts the columns from 1, as they are counted in the request, replaces another part of the
    line. *)
Definition choose1 (l : str) (i : item) : str := firstn (start i - 1) l ++ label i ++ skipn (start i - 1 + len i) l.
Theorem start_from_one_refuted :
  map (choose1 (lit "print(va)")) (request u0 f0 (lit "print(va)") None 9) = [lit "printvaluea)"; lit "printValida)"].
Proof. reflexivity. Qed.

(** Columns are counted in characters: a client which counts UTF-16 code units, as the protocol says, gets the
    completions of another place when a character beyond U+FFFF stands before it. *)
Definition utf16 (s : str) : nat := list_sum (map (fun c => if (65536 <=? c)%N then 2 else 1) s).
Theorem utf16_refuted : exists r q rest, 
  map label (request u0 f0 (r ++ q ++ rest) None (S (length (r ++ q)))) = [lit "value"; lit "Valid"] /\
  map label (request u0 f0 (r ++ q ++ rest) None (S (utf16 (r ++ q)))) = [lit "print"; lit "len"; lit "value"; lit "Valid"; lit "x"].
Proof. exists ([39; 128512; 39]%N ++ lit "+"), (lit "va"), (lit "+1"). split; reflexivity. Qed.

(** A digit or a mark beyond ASCII can be in a name but is none by itself (here U+0663): the name is cut there. *)
Theorem mark_in_name_refuted : 
  map (choose (lit "va" ++ [1635%N])) (request u0 f0 (lit "va" ++ [1635%N]) None 4) =
  map (fun n => lit "va" ++ [1635%N] ++ n) [lit "print"; lit "len"; lit "value"; lit "Valid"; lit "x"].
Proof. reflexivity. Qed.

(** The length is that of the name in lower case: that of U+0130 has two characters. *)
Definition u1 : chars := Chars (flat_map (fun c => if (c =? 304)%N then [105; 775]%N else [low1 c])) (fun c => (c =? 304)%N).
Definition f1 : frame := Frame [] [[304%N] ++ lit "x"] [] (fun _ => None) (fun _ => false) (fun _ => true).
Theorem lower_length_refuted :
  map (choose ([304%N] ++ lit "+1")) (request u1 f1 ([304%N] ++ lit "+1") None 2) = [[304%N] ++ lit "x1"].
Proof. reflexivity. Qed.

(** The lower case of a sigma at the end of a word is another letter: what has been typed of a name may not make
    it offered. *)
Definition sigma_lower (s : str) : str :=
  match rev (map (fun c => if (c =? 931)%N then 963%N else low1 c) s) with
  | c :: r => rev ((if (c =? 963)%N && negb (match r with [] => true | _ => false end) then 962%N else c) :: r)
  | [] => []
  end.
Definition u2 : chars := Chars sigma_lower (fun c => (c =? 931)%N).
Definition f2 : frame := Frame [] [[65; 931; 65]%N] [] (fun _ => None) (fun _ => false) (fun _ => true).
Theorem sigma_refuted : request u2 f2 [65; 931]%N None 3 = [] /\ request u2 f2 [65; 931; 65]%N None 4 <> [].
Proof. split; [reflexivity | discriminate]. Qed.

Print Assumptions choice_replaces.
Print Assumptions names_offered.
Print Assumptions attributes_offered.
Print Assumptions no_line_offered.
Print Assumptions typed_completed.
Print Assumptions after_call_refuted.
Print Assumptions class_twice_refuted.
Print Assumptions past_end_refuted.
Print Assumptions start_from_one_refuted.
Print Assumptions utf16_refuted.
Print Assumptions mark_in_name_refuted.
Print Assumptions lower_length_refuted.
Print Assumptions sigma_refuted.
