(** What the user types is evaluated as meant: indented code and private attributes (C69). *)
From Coq Require Import String.
From Coq Require Import List Bool Arith Lia NArith.
From Verif Require Import Base Dict Glob GlobSpec GlobProps HitCond PatchArgs PatchArgsProps EvalText.
Import ListNotations.
Open Scope nat_scope.
Open Scope list_scope.

(** ** Specification: the lines of code in a text

    The text between the characters at which lines end; what is only blanks is no code. *)
Fixpoint parts (k : kind) (s : str) : list str :=
  match s with
  | [] => [[]]
  | c :: r => if brk k c then [] :: parts k r
              else match parts k r with h :: t => (c :: h) :: t | [] => [[c]] end
  end.

Definition is_blank (k : kind) (l : str) : bool := forallb (space k) l.

Definition code (k : kind) (s : str) : list str := filter (fun l => negb (is_blank k l)) (parts k s).

(** the line starts with exactly [n] blanks *)
Definition indent (k : kind) (l : str) (n : nat) : Prop :=
  exists p c r, l = p ++ c :: r /\ is_blank k p = true /\ space k c = false /\ length p = n.

(** The lines of a text with their ends. *)
Inductive cut (k : kind) : str -> list str -> Prop :=
| cut_nil : cut k [] []
| cut_last : forall b, b <> [] -> existsb (brk k) b = false -> cut k b [b]
| cut_pair : forall b t ls, existsb (brk k) b = false -> cut k t ls ->
    cut k (b ++ [13; 10]%N ++ t) ((b ++ [13; 10]%N) :: ls)
| cut_line : forall b c t ls, existsb (brk k) b = false -> brk k c = true ->
    (c = 13%N -> forall r, t <> 10%N :: r) -> cut k t ls -> cut k (b ++ [c] ++ t) ((b ++ [c]) :: ls).

(** ** Blanks and line ends *)

(** What Python documents as white space, of ASCII and of Unicode. *)
Definition white (k : kind) : list N :=
  [9; 10; 11; 12; 13; 32]%N ++
  match k with
  | Bytes => []
  | Text => [28; 29; 30; 31; 133; 160; 5760; 8192; 8193; 8194; 8195; 8196; 8197; 8198; 8199; 8200; 8201; 8202;
             8232; 8233; 8239; 8287; 12288]%N
  end.

Theorem blanks_exact k c : space k c = true <-> In c (white k).
Proof.
  unfold space. split.
  - rewrite !orb_true_iff, andb_true_iff, !N.leb_le, N.eqb_eq. intros [[[A B]|A]|A].
    + assert (H : c = 9%N \/ c = 10%N \/ c = 11%N \/ c = 12%N \/ c = 13%N) by lia. cbn. intuition congruence.
    + subst c. cbn. tauto.
    + destruct k; [|discriminate]. rewrite !orb_true_iff, !andb_true_iff, !N.leb_le in A. apply in_or_app. right.
      destruct A as [[[A B]|[A B]]|A].
      * assert (H : c = 28%N \/ c = 29%N \/ c = 30%N \/ c = 31%N) by lia. cbn. intuition congruence.
      * assert (H : c = 8192%N \/ c = 8193%N \/ c = 8194%N \/ c = 8195%N \/ c = 8196%N \/ c = 8197%N \/ c = 8198%N \/
                    c = 8199%N \/ c = 8200%N \/ c = 8201%N \/ c = 8202%N) by lia. cbn. intuition congruence.
      * apply existsb_exists in A as (x & I & E). apply N.eqb_eq in E. subst x. cbn in I |- *. tauto.
  - intros H. destruct k; cbn [white app] in H; repeat (destruct H as [<-|H]; [reflexivity|]); destruct H.
Qed.

Theorem line_ends_exact k c : brk k c = true <-> In c (match k with Bytes => [10; 13]%N | Text => [10; 11; 12; 13; 28; 29; 30; 133; 8232; 8233]%N end).
Proof.
  unfold brk. destruct k; (split; [intros H; apply existsb_exists in H as (x & I & E); apply N.eqb_eq in E; subst x; exact I|]);
    intros H; apply existsb_exists; exists c; rewrite N.eqb_refl; auto.
Qed.

(** ** Lines *)

Lemma brk_space k c : brk k c = true -> space k c = true.
Proof.
  unfold brk. destruct k; intros H; apply existsb_exists in H as (x & I & E); apply N.eqb_eq in E; subst x;
    repeat (destruct I as [<-|I]; [reflexivity|]); destruct I.
Qed.


Lemma existsb_rev {A} (P : A -> bool) l : existsb P (rev l) = existsb P l.
Proof.
  induction l as [|x l IH]; [reflexivity|]. cbn [rev existsb]. rewrite existsb_app, IH. cbn [existsb].
  rewrite orb_false_r. apply orb_comm.
Qed.

Lemma lines_cut_go k : forall n s cur, length s <= n -> existsb (brk k) cur = false ->
  cut k (rev cur ++ s) (lines_from k s cur).
Proof.
  induction n as [|n IH]; intros s cur L B.
  - destruct s; [|cbn in L; lia]. cbn [lines_from]. destruct cur as [|x cur]; [constructor|]. rewrite app_nil_r.
    apply cut_last; [|rewrite existsb_rev; exact B]. intros E. apply (f_equal (@length N)) in E. rewrite rev_length in E. discriminate E.
  - destruct s as [|c s]; [apply IH; [cbn; lia|exact B]|]. cbn in L. cbn [lines_from].
    destruct (brk k c) eqn:BC.
    + assert (B' : existsb (brk k) (rev cur) = false) by (rewrite existsb_rev; exact B).
      destruct s as [|d s].
      * cbn [rev]. apply (cut_line k (rev cur) c [] []); auto; [discriminate|constructor].
      * destruct ((c =? 13)%N && (d =? 10)%N) eqn:E.
        -- apply andb_true_iff in E as [E1 E2]. apply N.eqb_eq in E1, E2. subst c d.
           cbn [rev]. rewrite <- app_assoc. apply (cut_pair k (rev cur) s (lines_from k s []) B').
           apply (IH s []); [cbn in L; lia|reflexivity].
        -- cbn [rev]. apply (cut_line k (rev cur) c (d :: s) (lines_from k (d :: s) []) B' BC).
           ++ intros -> r Q. injection Q as -> _. discriminate E.
           ++ apply (IH (d :: s) []); [cbn in *; lia|reflexivity].
    + specialize (IH s (c :: cur)). cbn [rev] in IH. rewrite <- app_assoc in IH. apply IH; [lia|].
      cbn [existsb]. rewrite BC. exact B.
Qed.

Lemma lines_cut k s : cut k s (lines k s).
Proof. exact (lines_cut_go k (length s) s [] (le_n _) eq_refl). Qed.

Lemma lines_skip k b : forall s cur, existsb (brk k) b = false -> lines_from k (b ++ s) cur = lines_from k s (rev b ++ cur).
Proof.
  induction b as [|x b IH]; intros s cur B; [reflexivity|]. cbn [existsb] in B. apply orb_false_iff in B as [B1 B2].
  cbn [app lines_from rev]. rewrite B1, (IH s (x :: cur) B2), <- app_assoc. reflexivity.
Qed.

Lemma cut_lines k s ls : cut k s ls -> lines k s = ls.
Proof.
  intros C. induction C as [|b N B|b t ls B C IH|b c t ls B BC NC C IH]; unfold lines in *.
  - reflexivity.
  - rewrite <- (app_nil_r b) at 1. rewrite (lines_skip k b [] [] B), app_nil_r. cbn [lines_from].
    destruct (rev b) eqn:E; [exfalso; apply N; rewrite <- (rev_involutive b), E; reflexivity|].
    rewrite <- E, rev_involutive. reflexivity.
  - rewrite (lines_skip k b _ [] B), app_nil_r. cbn [app lines_from].
    assert (X : brk k 13%N = true) by (destruct k; reflexivity). rewrite X. cbn [N.eqb Pos.eqb andb rev].
    rewrite rev_involutive, <- app_assoc, IH. reflexivity.
  - rewrite (lines_skip k b _ [] B), app_nil_r. cbn [app lines_from]. rewrite BC.
    destruct t as [|d t].
    + cbn [lines_from] in IH. subst ls. cbn [rev]. rewrite rev_involutive. reflexivity.
    + destruct ((c =? 13)%N && (d =? 10)%N) eqn:E.
      * exfalso. apply andb_true_iff in E as [E1 E2]. apply N.eqb_eq in E1, E2. subst. exact (NC eq_refl t eq_refl).
      * cbn [rev]. rewrite rev_involutive, IH. reflexivity.
Qed.

(** ** Code *)

Definition keep (k : kind) (b : str) : list str := if is_blank k b then [] else [b].

Lemma parts_nonempty k s : parts k s <> [].
Proof. destruct s as [|c s]; cbn [parts]; [discriminate|]. destruct (brk k c); [discriminate|]. destruct (parts k s); discriminate. Qed.

Lemma parts_break k a : forall c t, brk k c = true -> parts k (a ++ c :: t) = parts k a ++ parts k t.
Proof.
  induction a as [|x a IH]; intros c t B; cbn [app parts]; [rewrite B; reflexivity|].
  destruct (brk k x); [rewrite IH by exact B; reflexivity|]. rewrite IH by exact B.
  destruct (parts k a) eqn:E; [exfalso; exact (parts_nonempty k a E)|]. reflexivity.
Qed.

Lemma parts_plain k b : existsb (brk k) b = false -> parts k b = [b].
Proof.
  induction b as [|c b IH]; intros B; [reflexivity|]. cbn [existsb] in B. apply orb_false_iff in B as [B1 B2].
  cbn [parts]. rewrite B1, (IH B2). reflexivity.
Qed.

Lemma code_break k a c t : brk k c = true -> code k (a ++ c :: t) = code k a ++ code k t.
Proof. intros B. unfold code. rewrite parts_break by exact B. apply filter_app. Qed.

Lemma code_plain k b : existsb (brk k) b = false -> code k b = keep k b.
Proof. intros B. unfold code, keep. rewrite parts_plain by exact B. cbn [filter]. destruct (is_blank k b); reflexivity. Qed.

Lemma code_blank k z : is_blank k z = true -> code k z = [].
Proof.
  unfold code, is_blank. intros H.
  assert (F : Forall (fun p => forallb (space k) p = true) (parts k z)).
  { induction z as [|c z IH]; cbn [parts]; [constructor; [reflexivity|constructor]|].
    cbn [forallb] in H. apply andb_true_iff in H as [H1 H2]. specialize (IH H2).
    destruct (brk k c); [constructor; [reflexivity|exact IH]|].
    destruct (parts k z); [constructor; [cbn; rewrite H1; reflexivity|constructor]|].
    inversion IH; subst. constructor; [cbn [forallb]; rewrite H1; assumption|assumption]. }
  induction F as [|p l P F IH]; [reflexivity|]. cbn [filter]. unfold is_blank. rewrite P. exact IH.
Qed.

Lemma code_blank_line k z c t : is_blank k z = true -> brk k c = true -> code k ((z ++ [c]) ++ t) = code k t.
Proof. intros B C. rewrite <- app_assoc. cbn [app]. rewrite code_break, code_blank by assumption. reflexivity. Qed.

(** ** Removing blanks *)

Lemma blank_app k a b : is_blank k (a ++ b) = is_blank k a && is_blank k b.
Proof. apply forallb_app. Qed.

Lemma blank_skipn k n l : is_blank k l = true -> is_blank k (skipn n l) = true.
Proof. intros H. rewrite <- (firstn_skipn n l), blank_app in H. apply andb_true_iff in H. tauto. Qed.

Lemma leading_indent k l : is_blank k l = false -> indent k l (leading k l).
Proof.
  induction l as [|c l IH]; intros B; [discriminate|]. cbn [leading]. cbn [is_blank forallb] in B.
  destruct (space k c) eqn:S.
  - destruct (IH B) as (p & d & r & -> & P & D & L). exists (c :: p), d, r. cbn [is_blank forallb length app]. rewrite S.
    repeat split; auto.
  - exists [], c, l. auto.
Qed.

Lemma indent_fun k l n m : indent k l n -> indent k l m -> n = m.
Proof.
  intros (p & c & r & -> & P & C & L) (p' & c' & r' & E & P' & C' & L').
  revert p' n m E P P' L L'. induction p as [|x p IH]; intros p' n m E P P' L L'; destruct p' as [|x' p']; cbn in E, L, L'.
  - congruence.
  - injection E as E1 E2. subst x'. cbn [is_blank forallb] in P'. rewrite C in P'. discriminate.
  - injection E as E1 E2. subst x. cbn [is_blank forallb] in P. rewrite C' in P. discriminate.
  - injection E as -> E. cbn [is_blank forallb] in P, P'. apply andb_true_iff in P as [_ P]. apply andb_true_iff in P' as [_ P'].
    destruct n, m; try discriminate. f_equal. injection L as L. injection L' as L'. exact (IH p' n m E P P' L L').
Qed.

Lemma indent_app k b e n : indent k b n -> indent k (b ++ e) n.
Proof. intros (p & c & r & -> & H). exists p, c, (r ++ e). rewrite <- app_assoc. auto. Qed.

Lemma firstn_blank k l n m : indent k l m -> is_blank k (firstn n l) = true <-> n <= m.
Proof.
  intros (p & c & r & -> & P & C & <-). rewrite firstn_app, blank_app. split.
  - intros H. apply andb_true_iff in H as [_ H]. destruct (n - length p) as [|j] eqn:E; [lia|].
    cbn [firstn is_blank forallb] in H. rewrite C in H. discriminate.
  - intros H. replace (n - length p) with 0 by lia. cbn [firstn]. rewrite andb_true_r.
    rewrite <- (firstn_skipn n p), blank_app in P. apply andb_true_iff in P. tauto.
Qed.

Lemma skipn_indent k l n m : indent k l m -> n <= m -> is_blank k (skipn n l) = false /\ n <= length l.
Proof.
  intros (p & c & r & -> & P & C & <-) H. rewrite skipn_app, blank_app. replace (n - length p) with 0 by lia.
  cbn [skipn is_blank forallb]. rewrite C, andb_false_r, app_length. split; [reflexivity|lia].
Qed.

Lemma skipn_brk k n b : existsb (brk k) b = false -> existsb (brk k) (skipn n b) = false.
Proof. intros H. rewrite <- (firstn_skipn n b), existsb_app in H. apply orb_false_iff in H. tauto. Qed.

Lemma skipn_line k n z c : skipn n (z ++ [c]) = [] \/ exists y, skipn n (z ++ [c]) = y ++ [c] /\ (is_blank k z = true -> is_blank k y = true).
Proof.
  rewrite skipn_app. destruct (n - length z) as [|j] eqn:E.
  - right. exists (skipn n z). split; [reflexivity|apply blank_skipn].
  - left. rewrite skipn_all2 by lia. cbn. destruct j; reflexivity.
Qed.

Lemma dedent_parts k n s ls : cut k s ls ->
  (forall l, In l ls -> is_blank k (firstn n l) = true) ->
  code k (List.concat (map (skipn n) ls)) = map (skipn n) (code k s).
Proof.
  intros C. induction C as [|b N B|b t ls B C IH|b c t ls B BC NC C IH]; intros F.
  - reflexivity.
  - cbn [map List.concat]. rewrite app_nil_r, !code_plain by (try apply skipn_brk; exact B). unfold keep.
    destruct (is_blank k b) eqn:Bl; [rewrite blank_skipn by exact Bl; reflexivity|].
    pose proof (leading_indent k b Bl) as I. specialize (F b (or_introl eq_refl)). apply (firstn_blank k b n _ I) in F.
    destruct (skipn_indent k b n _ I F) as [-> _]. reflexivity.
  - assert (IH' := IH (fun l H => F l (or_intror H))). clear IH. specialize (F _ (or_introl eq_refl)).
    cbn [map List.concat]. assert (B13 : brk k 13%N = true) by (destruct k; reflexivity). assert (B10 : brk k 10%N = true) by (destruct k; reflexivity).
    assert (R : code k (b ++ [13; 10]%N ++ t) = keep k b ++ code k t).
    { cbn [app]. rewrite code_break, (code_plain k b B) by exact B13. f_equal. apply (code_break k [] 10%N t B10). }
    rewrite R, map_app. unfold str in *. rewrite <- IH'. unfold keep. destruct (is_blank k b) eqn:Bl.
    + cbn [map app]. change [13; 10]%N with ([13%N] ++ [10%N]). rewrite app_assoc.
      destruct (skipn_line k n (b ++ [13%N]) 10%N) as [->|(y & -> & Y)]; [reflexivity|].
      apply code_blank_line; [|exact B10]. apply Y. rewrite blank_app, Bl. destruct k; reflexivity.
    + pose proof (leading_indent k b Bl) as I. apply (firstn_blank k _ n _ (indent_app k b _ _ I)) in F.
      destruct (skipn_indent k b n _ I F) as [Q L]. rewrite skipn_app. replace (n - length b) with 0 by lia. cbn [skipn].
      rewrite <- app_assoc. cbn [app]. rewrite code_break by exact B13. rewrite (code_break k [] 10%N _ B10 : code k (10%N :: _) = _).
      rewrite code_plain by (apply skipn_brk; exact B). unfold keep. rewrite Q. reflexivity.
  - assert (IH' := IH (fun l H => F l (or_intror H))). clear IH. specialize (F _ (or_introl eq_refl)).
    cbn [map List.concat].
    assert (R : code k (b ++ [c] ++ t) = keep k b ++ code k t).
    { cbn [app]. rewrite code_break, (code_plain k b B) by exact BC. reflexivity. }
    rewrite R, map_app. unfold str in *. rewrite <- IH'. unfold keep. destruct (is_blank k b) eqn:Bl.
    + cbn [map app]. destruct (skipn_line k n b c) as [->|(y & -> & Y)]; [reflexivity|].
      apply code_blank_line; [|exact BC]. apply Y. exact Bl.
    + pose proof (leading_indent k b Bl) as I. apply (firstn_blank k _ n _ (indent_app k b _ _ I)) in F.
      destruct (skipn_indent k b n _ I F) as [Q L]. rewrite skipn_app. replace (n - length b) with 0 by lia. cbn [skipn].
      rewrite <- app_assoc. cbn [app]. rewrite code_break by exact BC.
      rewrite code_plain by (apply skipn_brk; exact B). unfold keep. rewrite Q. reflexivity.
Qed.

(** the lines with code, with their ends *)
Lemma cut_code k s ls : cut k s ls ->
  exists es, code k s = map fst es /\ filter (fun l => negb (is_blank k l)) ls = map (fun p => fst p ++ snd p) es.
Proof.
  intros C. induction C as [|b N B|b t ls B C IH|b c t ls B BC NC C IH].
  - exists []. auto.
  - rewrite (code_plain k b B). unfold keep. cbn [filter]. destruct (is_blank k b); [exists []; auto|].
    exists [(b, [])]. cbn. rewrite app_nil_r. auto.
  - destruct IH as (es & E1 & E2).
    assert (R : code k (b ++ [13; 10]%N ++ t) = keep k b ++ code k t).
    { cbn [app]. rewrite code_break, (code_plain k b B) by (destruct k; reflexivity). f_equal. apply (code_break k [] 10%N t). destruct k; reflexivity. }
    rewrite R, E1. cbn [filter]. rewrite blank_app, E2. unfold keep.
    replace (is_blank k [13; 10]%N) with true by (destruct k; reflexivity). rewrite andb_true_r.
    destruct (is_blank k b); [exists es; auto|]. exists ((b, [13; 10]%N) :: es). auto.
  - destruct IH as (es & E1 & E2).
    assert (R : code k (b ++ [c] ++ t) = keep k b ++ code k t).
    { cbn [app]. rewrite code_break, (code_plain k b B) by exact BC. reflexivity. }
    rewrite R, E1. cbn [filter]. rewrite blank_app, E2. unfold keep. cbn [is_blank forallb]. rewrite (brk_space k c BC), !andb_true_r.
    fold (is_blank k b). destruct (is_blank k b); [exists es; auto|]. exists ((b, [c]) :: es). auto.
Qed.

Lemma strip_filter k ls : chars_to_strip k ls = match filter (fun l => negb (is_blank k l)) ls with [] => 0 | l :: _ => leading k l end.
Proof.
  induction ls as [|l ls IH]; [reflexivity|]. cbn [chars_to_strip filter]. fold (is_blank k l).
  destruct (is_blank k l); [exact IH|reflexivity].
Qed.

Lemma code_lines k s l : In l (code k s) -> is_blank k l = false.
Proof. intros H. apply filter_In in H as [_ H]. apply negb_true_iff in H. exact H. Qed.

(** What is typed is dedented by the blanks of its first line of code, exactly if no other line of code has
    fewer; otherwise it is left as it is. *)
Theorem dedent_exact k e first others n :
  code k e = first :: others -> indent k first n ->
  (n = 0 -> to_evaluate k e = e) /\
  ((forall l m, In l others -> indent k l m -> n <= m) ->
     code k (to_evaluate k e) = map (skipn n) (first :: others)) /\
  ((exists l m, In l others /\ indent k l m /\ m < n) -> to_evaluate k e = e).
Proof.
  intros E I. destruct (cut_code k e (lines k e) (lines_cut k e)) as (es & E1 & E2).
  rewrite E in E1. destruct es as [|[b en] es]; [discriminate|]. cbn [map fst] in E1. injection E1 as <- ->.
  cbn [map fst snd] in E2.
  assert (Hn : chars_to_strip k (lines k e) = n).
  { rewrite strip_filter, E2. apply (indent_fun k (first ++ en)); [|apply indent_app; exact I].
    apply leading_indent. destruct I as (p & c & r & -> & _ & C & _). rewrite !blank_app. cbn [is_blank forallb]. rewrite C.
    rewrite !andb_false_r. reflexivity. }
  assert (G : (forall l m, In l (map fst es) -> indent k l m -> n <= m) <->
              forallb (fun l => forallb (space k) (firstn n l)) (lines k e) = true).
  { rewrite forallb_forall. split.
    - intros H l L. fold (is_blank k (firstn n l)). destruct (is_blank k l) eqn:Bl.
      + rewrite <- (firstn_skipn n l), blank_app in Bl. apply andb_true_iff in Bl. tauto.
      + assert (X : In l (filter (fun l => negb (is_blank k l)) (lines k e))) by (apply filter_In; rewrite Bl; auto).
        rewrite E2 in X. destruct X as [<-|X].
        * apply (firstn_blank k _ n _ (indent_app k first en n I)). lia.
        * apply in_map_iff in X as ([b' en'] & <- & X). cbn [fst snd].
          assert (Y : In b' (map fst es)) by (apply in_map_iff; exists (b', en'); auto).
          assert (Bb : is_blank k b' = false).
          { apply (code_lines k e). rewrite E. right. exact Y. }
          pose proof (leading_indent k b' Bb) as Ib. apply (firstn_blank k _ n _ (indent_app k b' en' _ Ib)). exact (H _ _ Y Ib).
    - intros H l m L Il. apply in_map_iff in L as ([b' en'] & <- & X). cbn [fst] in Il.
      apply (firstn_blank k _ n _ (indent_app k b' en' m Il)). apply H.
      assert (Z : In (b' ++ en') (filter (fun l => negb (is_blank k l)) (lines k e))).
      { rewrite E2. right. apply in_map_iff. exists (b', en'). auto. }
      apply filter_In in Z. tauto. }
  unfold to_evaluate. rewrite Hn. split; [intros ->; reflexivity|]. split.
  - intros H. apply G in H. destruct n as [|n']; [rewrite E; symmetry; exact (map_id (first :: map fst es))|].
    rewrite H. rewrite <- E. apply dedent_parts; [apply lines_cut|]. rewrite forallb_forall in H. exact H.
  - intros (l & m & L & Il & M). destruct n as [|n']; [lia|].
    match goal with |- context[if ?b then _ else _] => destruct b eqn:Q end; [|reflexivity].
    exfalso. pose proof (proj2 G eq_refl l m L Il). lia.
Qed.

(** A text without code is left as it is. *)
Theorem dedent_nothing k e : code k e = [] -> to_evaluate k e = e.
Proof.
  intros E. destruct (cut_code k e (lines k e) (lines_cut k e)) as (es & E1 & E2). rewrite E in E1. destruct es; [|discriminate].
  unfold to_evaluate. rewrite strip_filter, E2. reflexivity.
Qed.

Theorem dedent_idem k e : to_evaluate k (to_evaluate k e) = to_evaluate k e.
Proof.
  destruct (code k e) as [|f r] eqn:E; [rewrite (dedent_nothing k e E); apply dedent_nothing, E|].
  assert (B : is_blank k f = false) by (apply (code_lines k e); rewrite E; left; reflexivity).
  pose proof (leading_indent k f B) as I. destruct (dedent_exact k e f r _ E I) as (_ & A & C).
  destruct (forallb (fun l => leading k f <=? leading k l) r) eqn:Q.
  - assert (H : forall l m, In l r -> indent k l m -> leading k f <= m).
    { intros l m L Il. rewrite forallb_forall in Q. specialize (Q l L). apply Nat.leb_le in Q.
      assert (Bl : is_blank k l = false) by (apply (code_lines k e); rewrite E; right; exact L).
      rewrite (indent_fun k l m _ Il (leading_indent k l Bl)). exact Q. }
    specialize (A H). cbn [map] in A.
    assert (I0 : indent k (skipn (leading k f) f) 0).
    { destruct I as (p & c & r0 & -> & P & Cc & L). exists [], c, r0. rewrite <- L at 1. rewrite skipn_app, skipn_all, Nat.sub_diag.
      repeat split; auto. }
    exact (proj1 (dedent_exact k _ _ _ 0 A I0) eq_refl).
  - rewrite !C; try reflexivity;
      (assert (X : exists l, In l r /\ (leading k f <=? leading k l) = false);
       [clear - Q; induction r as [|l r IH]; [discriminate|]; cbn [forallb] in Q; apply andb_false_iff in Q as [Q|Q];
          [exists l; split; [left; reflexivity|exact Q] | destruct (IH Q) as (l' & L & H); exists l'; split; [right; exact L|exact H]]|];
       destruct X as (l & L & H); apply Nat.leb_gt in H; exists l, (leading k l); split; [exact L|]; split; [|exact H];
       apply leading_indent, (code_lines k e); rewrite E; right; exact L).
Qed.

(** A text all of whose lines were indented by the same blanks gives back the text. *)
Theorem dedent_indented k e ls w first others :
  cut k e ls -> w <> [] -> is_blank k w = true -> existsb (brk k) w = false ->
  code k e = first :: others -> indent k first 0 ->
  to_evaluate k (List.concat (map (app w) ls)) = e.
Proof.
  intros C W B NB E I.
  assert (CW : cut k (List.concat (map (app w) ls)) (map (app w) ls)).
  { clear E I. induction C as [|b N Bb|b t ls Bb C IH|b c t ls Bb BC NC C IH]; cbn [map List.concat].
    - constructor.
    - rewrite app_nil_r. apply cut_last; [destruct w; [congruence|discriminate]|]. rewrite existsb_app, NB. exact Bb.
    - rewrite (app_assoc w b), <- (app_assoc (w ++ b)). apply cut_pair; [rewrite existsb_app, NB; exact Bb|exact IH].
    - rewrite (app_assoc w b), <- (app_assoc (w ++ b)). apply cut_line; [rewrite existsb_app, NB; exact Bb|exact BC| |exact IH].
      intros -> r Q. destruct ls as [|l ls]; [discriminate Q|]. cbn [map List.concat] in Q. destruct w as [|x w]; [congruence|].
      cbn in Q. injection Q as -> _. destruct k; discriminate NB. }
  assert (J : List.concat ls = e).
  { clear - C. induction C as [|b N Bb|b t ls Bb C IH|b c t ls Bb BC NC C IH]; cbn [List.concat]; rewrite ?IH, ?app_nil_r; try reflexivity;
      rewrite <- app_assoc; reflexivity. }
  unfold to_evaluate. rewrite (cut_lines _ _ _ CW).
  assert (N : chars_to_strip k (map (app w) ls) = length w).
  { destruct (cut_code k e ls C) as (es & E1 & E2). rewrite E in E1. destruct es as [|[b en] es]; [discriminate|].
    cbn [map fst] in E1. injection E1 as <- _. cbn [map fst snd] in E2.
    assert (FM : forall l, filter (fun l => negb (is_blank k l)) (map (app w) l) = map (app w) (filter (fun l => negb (is_blank k l)) l)).
    { induction l as [|x l IHl]; [reflexivity|]. cbn [map filter]. rewrite blank_app, B. cbn [andb]. destruct (is_blank k x); cbn [negb map]; rewrite IHl; reflexivity. }
    rewrite strip_filter, FM, E2. cbn [map].
    apply (indent_fun k (w ++ first ++ en)).
    - apply leading_indent. rewrite !blank_app. destruct I as (p & c & r & -> & _ & Cc & _). rewrite blank_app. cbn [is_blank forallb].
      rewrite Cc, !andb_false_r. reflexivity.
    - destruct I as (p & c & r & -> & _ & Cc & L). destruct p; [|discriminate L]. exists w, c, (r ++ en). auto. }
  rewrite N. destruct (length w) as [|n] eqn:L; [destruct w; [congruence|discriminate L]|]. rewrite <- L.
  replace (forallb _ (map (app w) ls)) with true.
  - rewrite map_map. rewrite <- J. f_equal. rewrite <- (map_id ls) at 2. apply map_ext. intros l.
    rewrite skipn_app, skipn_all, Nat.sub_diag. reflexivity.
  - symmetry. apply forallb_forall. intros l H. apply in_map_iff in H as (l' & <- & _).
    rewrite firstn_app, firstn_all, Nat.sub_diag. cbn [firstn]. rewrite app_nil_r. exact B.
Qed.

(** ** Marks for newlines *)

(** Text without @ is compiled as it was typed, up to indentation. *)
Theorem compiled_typed e : ~ In 64%N e -> compiled e = to_evaluate Text e.
Proof.
  intros H. unfold compiled. f_equal. unfold replace.
  induction e as [|c e IH]; [reflexivity|]. cbn [replace_from].
  replace (starts_with (lit "@LINE@") (c :: e)) with false.
  - f_equal. apply IH. intros I. apply H. right. exact I.
  - symmetry. change (starts_with (lit "@LINE@") (c :: e)) with ((64 =? c)%N && starts_with (lit "LINE@") e).
    destruct (N.eqb_spec 64 c) as [<-|]; [exfalso; apply H; left; reflexivity|reflexivity].
Qed.

(** ** Private names *)

Definition private (a : str) : Prop := exists r, a = lit "__" ++ r.

(** From [o] over the attributes [names] to [v]: each by its name or, if private and not there, with the name of
    the class of the object put before it. *)
Inductive reach (h : nat -> obj) : nat -> list str -> nat -> Prop :=
| reach_end : forall o, reach h o [] o
| reach_plain : forall o a names v w, getattr h o a = Some v -> reach h v names w -> reach h o (a :: names) w
| reach_private : forall o a names v w, getattr h o a = None -> private a ->
    getattr h o (lit "_" ++ o_class (h o) ++ a) = Some v -> reach h v names w -> reach h o (a :: names) w.

Lemma follow_reach h names : forall o v, follow h o names = Some v <-> reach h o names v.
Proof.
  induction names as [|a names IH]; intros o v; cbn [follow].
  - split; [intros [= ->]; constructor|]. intros H. inversion H; reflexivity.
  - destruct (getattr h o a) as [u|] eqn:G.
    + rewrite andb_false_r, G. rewrite IH. split; [intros H; eapply reach_plain; eauto|].
      intros H. inversion H; subst; congruence.
    + rewrite andb_true_r. destruct (starts_with (lit "__") a) eqn:S.
      * apply starts_with_spec in S. destruct (getattr h o (lit "_" ++ o_class (h o) ++ a)) as [u|] eqn:P.
        -- rewrite IH. split; [intros H; eapply reach_private; eauto|]. intros H. inversion H; subst; congruence.
        -- split; [discriminate|]. intros H. inversion H; subst; congruence.
      * rewrite G. split; [discriminate|]. intros H. inversion H as [|? ? ? ? ? G' R|? ? ? ? ? G' P Q R]; subst; [congruence|].
        apply starts_with_spec in P. congruence.
Qed.

Lemma private_in x names : Forall (fun a => ~ In 46%N a) (x :: names) ->
  contains (lit ".__") (join 46%N (x :: names)) = true <-> exists a, In a names /\ private a.
Proof.
  intros F. rewrite contains_spec. split.
  - intros (a & b & E). apply (f_equal (split_on 46%N)) in E. rewrite split_on_join in E by (try discriminate; exact F).
    change (a ++ lit ".__" ++ b) with (a ++ 46%N :: (lit "__" ++ b)) in E. rewrite split_on_app in E.
    assert (P : exists r l, split_on 46%N (lit "__" ++ b) = (lit "__" ++ r) :: l).
    { cbn. destruct (split_on 46%N b) as [|h t] eqn:Q; [apply split_on_nonempty in Q; destruct Q|]. exists h, t. reflexivity. }
    destruct P as (r & l & P). rewrite P in E. exists (lit "__" ++ r). split; [|exists r; reflexivity].
    pose proof (split_on_nonempty 46%N a) as N. destruct (split_on 46%N a) as [|y ys]; [congruence|]. injection E as _ ->.
    apply in_elt.
  - intros (a & I & r & ->). apply in_split in I as (l1 & l2 & ->).
    change (x :: l1 ++ (lit "__" ++ r) :: l2) with ((x :: l1) ++ (lit "__" ++ r) :: l2).
    rewrite join_app by discriminate. exists (join 46%N (x :: l1)).
    destruct l2 as [|y l2].
    + exists r. reflexivity.
    + exists (r ++ 46%N :: join 46%N (y :: l2)). reflexivity.
Qed.

(** Names with dots between them which Python could not evaluate: the value is the one reached so, if some name
    is private. *)
Theorem private_exact h locals x names v :
  Forall (fun a => ~ In 46%N a) (x :: names) ->
  eval_in_context h locals (join 46%N (x :: names)) Raised = Value v <->
  (exists a, In a names /\ private a) /\ exists o, get str_eqb x locals = Some o /\ reach h o names v.
Proof.
  intros F. unfold eval_in_context. rewrite <- (private_in x names F).
  destruct (contains (lit ".__") (join 46%N (x :: names))); [|split; [discriminate|intros [H _]; discriminate H]].
  rewrite split_on_join by (try discriminate; exact F).
  destruct (get str_eqb x locals) as [o|].
  - destruct (follow h o names) as [u|] eqn:Q.
    + apply follow_reach in Q. split.
      * intros [= ->]. eauto.
      * intros (_ & o' & [= ->] & R). apply follow_reach in R, Q. congruence.
    + split; [discriminate|]. intros (_ & o' & [= ->] & R). apply follow_reach in R. congruence.
  - split; [discriminate|]. intros (_ & o' & H & _). discriminate.
Qed.

Lemma split_dots s : Forall (fun p => ~ In 46%N p) (split_on 46%N s).
Proof.
  induction s as [|x s IH]; cbn [split_on]; [constructor; [intros []|constructor]|].
  destruct (N.eqb_spec x 46); [constructor; [intros []|exact IH]|].
  destruct (split_on 46%N s) as [|h t]; [constructor; [|constructor]|inversion IH; subst; constructor; [|assumption]].
  - intros [H|[]]. congruence.
  - intros [H|H]; [congruence|contradiction].
Qed.

(** What Python evaluates is not touched; a value otherwise found is the one of the names of the expression. *)
Theorem private_only h locals e py v :
  eval_in_context h locals e py = Value v <->
  py = Value v \/
  (py = Raised /\ exists x names o, e = join 46%N (x :: names) /\ Forall (fun a => ~ In 46%N a) (x :: names) /\
     (exists a, In a names /\ private a) /\ get str_eqb x locals = Some o /\ reach h o names v).
Proof.
  destruct py as [u|].
  - cbn. split; [intros H; left; exact H|]. intros [H|[H _]]; [exact H|discriminate H].
  - pose proof (split_dots e) as F. pose proof (split_on_nonempty 46%N e) as N. pose proof (join_split_on 46%N e) as J.
    destruct (split_on 46%N e) as [|x names]; [congruence|]. rewrite <- J, (private_exact h locals x names v F). split.
    + intros (P & o & G & R). right. split; [reflexivity|]. exists x, names, o. auto.
    + intros [H|(_ & y & ns & o & Q & F' & P & G & R)]; [discriminate H|].
      apply (f_equal (split_on 46%N)) in Q. rewrite !split_on_join in Q by (try discriminate; assumption). injection Q as -> ->.
      split; [exact P|]. exists o. auto.
Qed.

(** Python's own rule for a name in code of a class. *)
Fixpoint drop_underscores (c : str) : str :=
  match c with x :: r => if (x =? 95)%N then drop_underscores r else c | [] => [] end.

Definition mangle (cls a : str) : str :=
  if starts_with (lit "__") a && negb (ends_with (lit "__") a) then
    match drop_underscores cls with [] => a | c => lit "_" ++ c ++ a end
  else a.

(** The value the names have in code of the class of each object on the way. *)
Inductive inside (h : nat -> obj) : nat -> list str -> nat -> Prop :=
| inside_end : forall o, inside h o [] o
| inside_attr : forall o a names v w, getattr h o (mangle (o_class (h o)) a) = Some v -> inside h v names w ->
    inside h o (a :: names) w.

(** A private attribute is found as code of its class would find it, if the names of the classes do not start
    with an underscore. *)
Theorem private_inside h locals x names o v :
  Forall (fun a => ~ In 46%N a) (x :: names) ->
  (exists a, In a names /\ private a) ->
  (forall o, exists c r, o_class (h o) = c :: r /\ c <> 95%N) ->
  (forall o a, mangle (o_class (h o)) a <> a -> getattr h o a = None) ->
  get str_eqb x locals = Some o -> inside h o names v ->
  eval_in_context h locals (join 46%N (x :: names)) Raised = Value v.
Proof.
  intros F P C NP G I. apply (private_exact h locals x names v F). split; [exact P|]. exists o. split; [exact G|].
  clear F P G. induction I as [o|o a names u w A I IH]; [constructor|].
  assert (M : mangle (o_class (h o)) a = a \/ (private a /\ mangle (o_class (h o)) a = lit "_" ++ o_class (h o) ++ a)).
  { unfold mangle. destruct (starts_with (lit "__") a && negb (ends_with (lit "__") a)) eqn:S; [|left; reflexivity].
    apply andb_true_iff in S as [S _]. apply starts_with_spec in S. right. split; [exact S|].
    destruct (C o) as (c & r & -> & Nc). cbn [drop_underscores]. apply N.eqb_neq in Nc. rewrite Nc. reflexivity. }
  destruct M as [M|[Pa M]].
  - rewrite M in A. eapply reach_plain; eauto.
  - assert (D : mangle (o_class (h o)) a <> a).
    { rewrite M. intros E. apply (f_equal (@length N)) in E. rewrite !app_length in E. cbn in E. lia. }
    rewrite M in A. eapply reach_private; eauto.
Qed.

(** ** Where the claim fails *)

Definition nl : str := [10%N].
Definition q3 : str := [34; 34; 34]%N.

(** The text of a string over several lines is changed. *)
Theorem string_refuted : exists e,
  e = lit "  s = " ++ q3 ++ lit "a" ++ nl ++ lit "    b" ++ q3 /\
  to_evaluate Text e = lit "s = " ++ q3 ++ lit "a" ++ nl ++ lit "  b" ++ q3.
Proof. eexists. split; [reflexivity|]. vm_compute. reflexivity. Qed.

(** A second line within parentheses, or a comment, with fewer blanks: the code stays indented, which Python
    rejects. *)
Theorem continuation_refuted : exists e f,
  e = lit "  f(1," ++ nl ++ lit "2)" /\ hd_error (code Text (to_evaluate Text e)) = Some f /\ indent Text f 2.
Proof.
  eexists. exists (lit "  f(1,"). split; [reflexivity|]. split; [vm_compute; reflexivity|].
  exists (lit "  "), 102%N, (lit "(1,"). repeat split.
Qed.

Theorem comment_refuted : exists e f,
  e = lit "  a = 1" ++ nl ++ lit "# b" ++ nl ++ lit "  c = 2" /\ hd_error (code Text (to_evaluate Text e)) = Some f /\ indent Text f 2.
Proof.
  eexists. exists (lit "  a = 1"). split; [reflexivity|]. split; [vm_compute; reflexivity|].
  exists (lit "  "), 97%N, (lit " = 1"). repeat split.
Qed.

(** The mark for newlines of the older protocol is also replaced in a string of the user. *)
Theorem mark_refuted : compiled (lit "'@LINE@'") = lit "'" ++ nl ++ lit "'".
Proof. vm_compute. reflexivity. Qed.

Definition heap1 (cls stored : str) (o : nat) : obj :=
  match o with 0 => Obj cls [(stored, 1)] | _ => Obj (lit "int") [] end.
Definition self1 : list (str * nat) := [(lit "self", 0)].

(** the class is called _A: code of the class finds the attribute, the evaluation does not *)
Theorem underscore_class_refuted :
  let h := heap1 (lit "_A") (lit "_A__x") in
  inside h 0 [lit "__x"] 1 /\ eval_in_context h self1 (lit "self.__x") Raised = Raised.
Proof.
  cbv zeta. split; [|vm_compute; reflexivity]. eapply inside_attr; [vm_compute; reflexivity|constructor].
Qed.

(** an attribute of the base class A in an object of the class B: a method of A shows it, the evaluation there
    does not *)
Theorem inherited_refuted :
  let h := heap1 (lit "B") (lit "_A__x") in
  getattr h 0 (mangle (lit "A") (lit "__x")) = Some 1 /\ eval_in_context h self1 (lit "self.__x") Raised = Raised.
Proof. split; vm_compute; reflexivity. Qed.

(** a blank before the expression, which is removed otherwise *)
Theorem blank_private_refuted :
  let h := heap1 (lit "A") (lit "_A__x") in
  eval_in_context h self1 (lit "self.__x") Raised = Value 1 /\
  to_evaluate Text (lit " self.__x") = lit "self.__x" /\
  eval_in_context h self1 (lit " self.__x") Raised = Raised.
Proof. repeat split; vm_compute; reflexivity. Qed.

(** ** Examples *)

Definition two_lines : str := lit "if a:" ++ nl ++ lit "  b" ++ [13; 10]%N ++ nl ++ lit "c".

Example dedent_exact_case :
  let e := nl ++ lit "  if a:" ++ nl ++ lit "    b" ++ [13; 10]%N ++ nl ++ lit "  c" in
  code Text e = [lit "  if a:"; lit "    b"; lit "  c"] /\ indent Text (lit "  if a:") 2 /\
  to_evaluate Text e = lit "if a:" ++ nl ++ lit "  b" ++ [13; 10]%N ++ lit "c" /\
  to_evaluate Bytes (lit "  a" ++ nl ++ lit " b") = lit "  a" ++ nl ++ lit " b".
Proof.
  cbv zeta. split; [vm_compute; reflexivity|]. split; [exists (lit "  "), 105%N, (lit "f a:"); repeat split|].
  split; vm_compute; reflexivity.
Qed.

Example dedent_nothing_case : code Text ([32; 10; 8195]%N) = [] /\ to_evaluate Text ([32; 10; 8195]%N) = [32; 10; 8195]%N.
Proof. split; vm_compute; reflexivity. Qed.

Example dedent_indented_case :
  cut Text two_lines [lit "if a:" ++ nl; lit "  b" ++ [13; 10]%N; nl; lit "c"] /\
  List.concat (map (app [9%N]) [lit "if a:" ++ nl; lit "  b" ++ [13; 10]%N; nl; lit "c"]) =
    [9%N] ++ lit "if a:" ++ nl ++ [9%N] ++ lit "  b" ++ [13; 10]%N ++ [9%N] ++ nl ++ [9%N] ++ lit "c" /\
  to_evaluate Text ([9%N] ++ lit "if a:" ++ nl ++ [9%N] ++ lit "  b" ++ [13; 10]%N ++ [9%N] ++ nl ++ [9%N] ++ lit "c") = two_lines.
Proof.
  split; [|split; vm_compute; reflexivity].
  assert (H := lines_cut Text two_lines). vm_compute in H |- *. exact H.
Qed.

Example private_exact_case :
  let h o := match o with 0 => Obj (lit "A") [(lit "_A__x", 1); (lit "y", 2)] | 1 => Obj (lit "B") [(lit "_B__z", 3)] | _ => Obj (lit "int") [] end in
  eval_in_context h self1 (join 46%N [lit "self"; lit "__x"; lit "__z"]) Raised = Value 3 /\
  reach h 0 [lit "__x"; lit "__z"] 3 /\
  eval_in_context h self1 (lit "self.y.__q") Raised = Raised.
Proof.
  cbv zeta. split; [vm_compute; reflexivity|]. split; [|vm_compute; reflexivity].
  eapply reach_private; [vm_compute; reflexivity|exists (lit "x"); reflexivity|vm_compute; reflexivity|].
  eapply reach_private; [vm_compute; reflexivity|exists (lit "z"); reflexivity|vm_compute; reflexivity|].
  constructor.
Qed.

Example private_inside_case :
  let h := heap1 (lit "A") (lit "_A__x") in
  (forall o, exists c r, o_class (h o) = c :: r /\ c <> 95%N) /\
  (forall o a, mangle (o_class (h o)) a <> a -> getattr h o a = None) /\
  inside h 0 [lit "__x"] 1 /\ private (lit "__x").
Proof.
  cbv zeta. split; [|split; [|split]].
  - intros [|o]; cbn; eexists; eexists; (split; [reflexivity|discriminate]).
  - intros o a M. destruct (starts_with (lit "__") a) eqn:S; [|exfalso; apply M; unfold mangle; rewrite S; reflexivity].
    destruct o as [|o]; [|reflexivity]. unfold getattr. cbn [heap1 o_attrs get].
    destruct (str_eqb_spec a (lit "_A__x")) as [->|]; [discriminate S|reflexivity].
  - eapply inside_attr; [vm_compute; reflexivity|constructor].
  - exists (lit "x"). reflexivity.
Qed.

Example compiled_typed_case : compiled (lit "  a = 1@LINE@  b = 2") = lit "a = 1" ++ nl ++ lit "b = 2" /\ compiled (lit " a") = lit "a".
Proof. split; vm_compute; reflexivity. Qed.

Print Assumptions blanks_exact.
Print Assumptions line_ends_exact.
Print Assumptions dedent_exact.
Print Assumptions dedent_nothing.
Print Assumptions dedent_idem.
Print Assumptions dedent_indented.
Print Assumptions compiled_typed.
Print Assumptions private_exact.
Print Assumptions private_only.
Print Assumptions private_inside.
Print Assumptions string_refuted.
Print Assumptions continuation_refuted.
Print Assumptions comment_refuted.
Print Assumptions mark_refuted.
Print Assumptions underscore_class_refuted.
Print Assumptions inherited_refuted.
Print Assumptions blank_private_refuted.
