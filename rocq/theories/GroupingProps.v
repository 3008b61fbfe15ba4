(** C19: grouping loses and duplicates nothing. *)
From Coq Require Import List NArith Bool String Permutation Sorted Lia.
From Verif Require Import Base Grouping.
Import ListNotations.

(** * Specification *)
(** The group a plain (unquoted) name and kind prescribe. *)
Definition dunder_start (n : str) := exists m, n = lit "__" ++ m.
Definition dunder_end (n : str) := exists m, n = m ++ lit "__".
Definition under_start (n : str) := exists m, n = lit "_" ++ m.

Inductive prescribed (in_frame : bool) (n : str) (k : vkind) : option scope -> Prop :=
| P_ret : in_frame = true -> n = lit "__pydevd_ret_val_dict" -> prescribed in_frame n k None
| P_special : ~ (in_frame = true /\ n = lit "__pydevd_ret_val_dict") ->
    dunder_start n -> dunder_end n -> prescribed in_frame n k (Some Special)
| P_protected : ~ (in_frame = true /\ n = lit "__pydevd_ret_val_dict") ->
    under_start n \/ dunder_end n -> ~ (dunder_start n /\ dunder_end n) -> prescribed in_frame n k (Some Protected)
| P_function : ~ under_start n -> ~ dunder_end n -> n <> lit "len()" -> k = Routine -> prescribed in_frame n k (Some Function)
| P_class : ~ under_start n -> ~ dunder_end n -> n <> lit "len()" -> k = AClass -> prescribed in_frame n k (Some Class)
| P_regular : ~ under_start n -> ~ dunder_end n -> n = lit "len()" \/ k = Plain \/ k = Raises -> prescribed in_frame n k None.

(** Names of entries: texts used as keys are shown quoted, and quoted with an id when they are not plain. *)
Inductive prescribed_entry (in_frame : bool) (e : entry) : option scope -> Prop :=
| E_key : (exists m, e_name e = [39%N] ++ m) -> (exists m, e_name e = m ++ [39%N]) -> prescribed_entry in_frame e None
| E_key_id n rest o : e_name e = [39%N] ++ n ++ lit "__' (" ++ rest ->
    (forall a b, n ++ lit "__' (" ++ rest = a ++ lit "__' (" ++ b -> List.length n <= List.length a)%nat ->
    ~ (exists m, e_name e = m ++ [39%N]) ->
    prescribed in_frame (n ++ lit "__") (e_kind e) o -> prescribed_entry in_frame e o
| E_plain o : ~ ((exists m, e_name e = [39%N] ++ m) /\ ((exists m, e_name e = m ++ [39%N]) \/ exists a b, e_name e = a ++ lit "__' (" ++ b)) ->
    prescribed in_frame (e_name e) (e_kind e) o -> prescribed_entry in_frame e o.

(** * Scope *)
Lemma before_spec sub : sub <> [] -> forall s,
  match before sub s with
  | Some p => (exists r, s = p ++ sub ++ r) /\ forall a b, s = a ++ sub ++ b -> (List.length p <= List.length a)%nat
  | None => forall a b, s <> a ++ sub ++ b
  end.
Proof.
  intros Hne. induction s as [|c s IH]; simpl.
  - destruct sub; [congruence|]. simpl. intros [|] b; discriminate.
  - destruct (starts_with sub (c :: s)) eqn:E.
    + apply starts_with_spec in E. destruct E as [r E]. split; [exists r; auto|]. intros. simpl. lia.
    + assert (N0 : forall b, c :: s <> sub ++ b).
      { intros b H. assert (starts_with sub (c :: s) = true) by (apply starts_with_spec; exists b; auto). congruence. }
      destruct (before sub s) as [p|].
      * destruct IH as [[r ->] M]. split; [exists r; auto|]. intros [|x a] b H; simpl in *.
        -- exfalso. apply (N0 b). auto.
        -- injection H as <- H. apply M in H. lia.
      * intros [|x a] b H; simpl in *; [apply (N0 b); auto|]. injection H as <- H. apply (IH a b); auto.
Qed.

Lemma starts_iff p s : starts_with p s = true <-> exists m, s = p ++ m. Proof. apply starts_with_spec. Qed.

Lemma dunder_under n : dunder_start n -> under_start n.
Proof. intros [m ->]. exists (lit "_" ++ m). reflexivity. Qed.

Lemma len_not_under : ~ under_start (lit "len()").
Proof. intros [m H]. discriminate H. Qed.
Lemma len_not_dunder_end : ~ dunder_end (lit "len()").
Proof.
  intros H. apply ends_with_spec in H. vm_compute in H. discriminate.
Qed.

Lemma scope_of_name_prescribed n k hr : prescribed hr n k (scope_of_name n k hr).
Proof.
  unfold scope_of_name.
  destruct (hr && str_eqb n return_values) eqn:E0.
  { apply andb_true_iff in E0. destruct E0 as [A B]. apply str_eqb_eq in B. now apply P_ret. }
  assert (NR : ~ (hr = true /\ n = lit "__pydevd_ret_val_dict")).
  { intros [-> ->]. unfold return_values in E0. rewrite str_eqb_refl in E0. discriminate. }
  destruct (str_eqb_spec n len_name) as [->|NL].
  { apply P_regular; auto; [apply len_not_under|apply len_not_dunder_end]. }
  destruct (starts_with (lit "__") n) eqn:E1, (ends_with (lit "__") n) eqn:E2, (starts_with (lit "_") n) eqn:E3; cbn [andb orb];
  repeat match goal with
  | H : starts_with _ _ = true |- _ => apply starts_with_spec in H
  | H : ends_with _ _ = true |- _ => apply ends_with_spec in H
  | H : starts_with ?p n = false |- _ =>
      let X := fresh in assert (X : ~ exists m, n = p ++ m) by (intros Hx; apply starts_with_spec in Hx; congruence); clear H
  | H : ends_with ?p n = false |- _ =>
      let X := fresh in assert (X : ~ exists m, n = m ++ p) by (intros Hx; apply ends_with_spec in Hx; congruence); clear H
  end;
  try (apply P_special; auto; fail);
  try (apply P_protected; unfold dunder_start, dunder_end, under_start; tauto);
  destruct k; first [apply P_function | apply P_class | apply P_regular]; auto.
  all: intros Hu; apply dunder_under in Hu || idtac; unfold under_start in *; tauto.
Qed.

Lemma scope_prescribed e hr : prescribed_entry hr e (get_var_scope (e_name e) (e_kind e) hr).
Proof.
  unfold get_var_scope. destruct (starts_with [quote] (e_name e)) eqn:E1.
  - apply starts_with_spec in E1. destruct (ends_with [quote] (e_name e)) eqn:E2.
    + apply ends_with_spec in E2. now apply E_key.
    + assert (NE : ~ exists m, e_name e = m ++ [39%N]).
      { intros H. apply ends_with_spec in H. unfold quote in E2. congruence. }
      pose proof (before_spec (lit "__' (") ltac:(discriminate) (e_name e)) as B.
      destruct (before (lit "__' (") (e_name e)) as [p|].
      * destruct B as [[r B] M]. destruct E1 as [m E1].
        assert (P : exists n, p = [39%N] ++ n).
        { rewrite E1 in B. destruct p as [|x p]; [discriminate B|]. injection B as <- _. exists p. reflexivity. }
        destruct P as [n ->]. cbn [app tl].
        apply (E_key_id _ _ n r); auto.
        -- intros a b H. specialize (M ([39%N] ++ a) b). cbn [app List.length] in M. rewrite B in M. cbn [app] in M.
           specialize (M (f_equal (cons 39%N) H)). lia.
        -- apply scope_of_name_prescribed.
      * apply E_plain; [|apply scope_of_name_prescribed]. intros [_ [H|(a & b & H)]]; [auto|apply (B a b); auto].
  - apply E_plain; [|apply scope_of_name_prescribed]. intros [H _]. apply starts_with_spec in H. unfold quote in E1. congruence.
Qed.

(** The prescription is unambiguous. *)
Lemma prescribed_fun hr n k a b : prescribed hr n k a -> prescribed hr n k b -> a = b.
Proof.
  assert (R : n = lit "__pydevd_ret_val_dict" -> under_start n) by (intros ->; exists (lit "_pydevd_ret_val_dict"); reflexivity).
  pose proof (dunder_under n).
  intros A B. inversion A; inversion B; subst; auto; try congruence; try tauto;
  repeat match goal with H : _ \/ _ |- _ => destruct H end; subst; try congruence; try tauto; exfalso; tauto.
Qed.

Lemma prefix_eq (n n' a b : list N) : n ++ a = n' ++ b -> List.length n = List.length n' -> n = n'.
Proof. revert n'. induction n as [|x n IH]; intros [|y n'] E L; try discriminate L; auto. injection E as -> E. f_equal. eauto. Qed.

Theorem scope_exact (e : entry) (in_frame : bool) (o : option scope) :
  prescribed_entry in_frame e o <-> get_var_scope (e_name e) (e_kind e) in_frame = o.
Proof.
  split; [|intros <-; apply scope_prescribed].
  intros H. pose proof (scope_prescribed e in_frame) as G. revert G H. generalize (get_var_scope (e_name e) (e_kind e) in_frame).
  intros o' G H. inversion G as [G1 G2|n r o1 G1 G2 G3 G4|o1 G1 G2]; inversion H as [H1 H2|n' r' o2 H1 H2 H3 H4|o2 H1 H2]; subst; auto; try tauto.
  - assert (E : n ++ lit "__' (" ++ r = n' ++ lit "__' (" ++ r') by (rewrite G1 in H1; now injection H1).
    pose proof (G2 _ _ E). pose proof (H2 _ _ (eq_sym E)).
    assert (n = n') by (apply (prefix_eq n n' _ _ E); lia).
    subst n'. eapply prescribed_fun; eauto.
  - exfalso. apply H1. split; [eauto|]. right. exists ([39%N] ++ n), r. rewrite G1. now rewrite <- app_assoc.
  - exfalso. apply G1. split; [eauto|]. right. exists ([39%N] ++ n'), r'. rewrite H1. now rewrite <- app_assoc.
  - eapply prescribed_fun; eauto.
Qed.

(** * Grouping *)
Definition sc hr e := get_var_scope (e_name e) (e_kind e) hr.
Definition in_scope hr (s : scope) (e : entry) : bool := match sc hr e with Some s' => scope_eqb s' s | None => false end.
Definition is_inline (pres : scope -> presentation) hr (e : entry) : bool :=
  match sc hr e with Some s => match pres s with Inline => true | _ => false end | None => true end.
Definition is_grouped pres hr s e : bool := in_scope hr s e && match pres s with Group => true | _ => false end.

Lemma scope_eqb_eq a b : scope_eqb a b = true <-> a = b.
Proof. destruct a, b; simpl; intuition congruence. Qed.
Lemma scope_eqb_refl a : scope_eqb a a = true. Proof. now apply scope_eqb_eq. Qed.
Lemma scope_eqb_neq a b : a <> b -> scope_eqb a b = false.
Proof. destruct a, b; simpl; congruence. Qed.

Definition lookup (s : scope) (groups : list (scope * list entry)) : list entry :=
  match find (fun g => scope_eqb (fst g) s) groups with Some g => snd g | None => [] end.

Lemma find_map_neq s e groups x : x <> s ->
  find (fun g => scope_eqb (fst g) x) (map (fun g => if scope_eqb (fst g) s then (fst g, snd g ++ [e]) else g) groups)
  = find (fun g : scope * list entry => scope_eqb (fst g) x) groups.
Proof.
  intros N. induction groups as [|[a l] r IH]; simpl; auto. destruct (scope_eqb a s) eqn:E; simpl.
  - apply scope_eqb_eq in E. subst. rewrite (scope_eqb_neq s x) by congruence. auto.
  - destruct (scope_eqb a x); auto.
Qed.
Lemma find_map_eq s e groups :
  find (fun g => scope_eqb (fst g) s) (map (fun g => if scope_eqb (fst g) s then (fst g, snd g ++ [e]) else g) groups)
  = match find (fun g : scope * list entry => scope_eqb (fst g) s) groups with Some g => Some (fst g, snd g ++ [e]) | None => None end.
Proof.
  induction groups as [|[a l] r IH]; simpl; auto. destruct (scope_eqb a s) eqn:E; simpl; rewrite E; auto.
Qed.
Lemma find_app {A} (p : A -> bool) a b : find p (a ++ b) = match find p a with Some x => Some x | None => find p b end.
Proof. induction a; simpl; auto. destruct (p a); auto. Qed.

Definition grp (s : scope) (l : list entry) : list (scope * list entry) := match l with [] => [] | _ => [(s, l)] end.

(** state of the loop after a prefix *)
Lemma loop pres hr lst : 
  let '(new, groups) := fold_left (group_step pres hr) lst ([], []) in
  new = filter (is_inline pres hr) lst /\
  forall s, find (fun g => scope_eqb (fst g) s) groups =
    match filter (is_grouped pres hr s) lst with [] => None | l => Some (s, l) end.
Proof.
  induction lst as [|e lst IH] using rev_ind; [simpl; auto|].
  rewrite fold_left_app. destruct (fold_left _ lst _) as [new groups]. destruct IH as [-> IH]. cbn [fold_left].
  rewrite filter_app. unfold group_step. fold (sc hr e).
  assert (F : forall s, filter (is_grouped pres hr s) (lst ++ [e]) = filter (is_grouped pres hr s) lst ++ (if is_grouped pres hr s e then [e] else [])).
  { intros s. rewrite filter_app. reflexivity. }
  cbn [filter]. destruct (sc hr e) as [s0|] eqn:Es.
  - assert (G : forall s, is_grouped pres hr s e = scope_eqb s0 s && match pres s with Group => true | _ => false end).
    { intros s. unfold is_grouped, in_scope. rewrite Es. reflexivity. }
    assert (In0 : is_inline pres hr e = match pres s0 with Inline => true | _ => false end) by (unfold is_inline; now rewrite Es).
    rewrite In0. destruct (pres s0) eqn:Ep.
    + split; [now rewrite app_nil_r|]. intros s. rewrite F, G, IH. destruct (scope_eqb s0 s) eqn:E; cbn [andb]; [|now rewrite app_nil_r].
      apply scope_eqb_eq in E. subst. rewrite Ep. now rewrite app_nil_r.
    + split; auto. intros s. rewrite F, G, IH. destruct (scope_eqb s0 s) eqn:E; cbn [andb]; [|now rewrite app_nil_r].
      apply scope_eqb_eq in E. subst. rewrite Ep. now rewrite app_nil_r.
    + split; [now rewrite app_nil_r|]. intros s. rewrite F, G. unfold add_group.
      assert (EX : existsb (fun g => scope_eqb (fst g) s0) groups = match filter (is_grouped pres hr s0) lst with [] => false | _ => true end).
      { specialize (IH s0). destruct (existsb _ groups) eqn:Ex.
        - apply existsb_exists in Ex. destruct Ex as (g & Hi & Hg). destruct (filter _ lst); auto.
          pose proof (find_none _ _ IH g Hi). simpl in *. congruence.
        - destruct (filter _ lst); auto. apply find_some in IH. destruct IH as [Hi Hg].
          assert (existsb (fun g => scope_eqb (fst g) s0) groups = true) by (apply existsb_exists; eauto). congruence. }
      rewrite EX. destruct (scope_eqb s0 s) eqn:E.
      * apply scope_eqb_eq in E. subst s0. rewrite Ep. cbn [andb]. specialize (IH s).
        destruct (filter (is_grouped pres hr s) lst) as [|x l] eqn:Ef.
        -- rewrite find_app, IH. simpl. now rewrite scope_eqb_refl.
        -- rewrite find_map_eq, IH. reflexivity.
      * cbn [andb]. rewrite app_nil_r. assert (N : s <> s0) by (intros ->; rewrite scope_eqb_refl in E; discriminate).
        destruct (filter (is_grouped pres hr s0) lst).
        -- rewrite find_app. simpl. rewrite E. rewrite IH. destruct (filter _ lst); auto.
        -- rewrite find_map_neq by auto. apply IH.
  - assert (G : forall s, is_grouped pres hr s e = false) by (intros s; unfold is_grouped, in_scope; now rewrite Es).
    assert (In0 : is_inline pres hr e = true) by (unfold is_inline; now rewrite Es).
    rewrite In0. split; auto. intros s. rewrite F, G, app_nil_r. apply IH.
Qed.

(** Order is kept and nothing else is shown: the inline entries are those whose prescribed scope is none or inline,
    and each group consists of the entries of its scope, in the order of the list. *)
Lemma group_entries_eq pres hr lst :
  group_entries pres hr lst =
  (filter (is_inline pres hr) lst, flat_map (fun s => grp s (filter (is_grouped pres hr s) lst)) scopes_sorted).
Proof.
  unfold group_entries. pose proof (loop pres hr lst) as L. destruct (fold_left _ lst _) as [new groups]. destruct L as [-> L].
  f_equal. unfold scopes_sorted. cbn [flat_map]. rewrite !L.
  unfold grp. repeat match goal with |- context [match filter ?p lst with [] => None | _ => _ end] => destruct (filter p lst) end; reflexivity.
Qed.

(** Spec-level statement, in terms of [prescribed_entry] alone. *)
Inductive subseq {A} (P : A -> Prop) : list A -> list A -> Prop :=
| SS_nil : subseq P [] []
| SS_take x a b : P x -> subseq P a b -> subseq P (x :: a) (x :: b)
| SS_skip x a b : ~ P x -> subseq P a b -> subseq P a (x :: b).
(** [subseq P a b]: [a] consists of exactly the elements of [b] satisfying [P], in the same order and number. *)

Lemma subseq_filter {A} (p : A -> bool) (P : A -> Prop) l : (forall x, p x = true <-> P x) -> subseq P (filter p l) l.
Proof.
  intros H. induction l as [|x l IH]; simpl; [constructor|]. destruct (p x) eqn:E.
  - constructor; auto. now apply H.
  - constructor; auto. rewrite <- H. congruence.
Qed.

Definition inline_spec (pres : scope -> presentation) hr (e : entry) : Prop :=
  prescribed_entry hr e None \/ exists s, prescribed_entry hr e (Some s) /\ pres s = Inline.
Definition group_spec (pres : scope -> presentation) hr (s : scope) (e : entry) : Prop :=
  prescribed_entry hr e (Some s) /\ pres s = Group.

Lemma is_inline_spec pres hr e : is_inline pres hr e = true <-> inline_spec pres hr e.
Proof.
  unfold is_inline, inline_spec, sc. rewrite scope_exact. destruct (get_var_scope _ _ _) as [s|] eqn:E.
  - split.
    + intros H. right. exists s. rewrite scope_exact. split; auto. destruct (pres s); congruence.
    + intros [H|(s' & H & Hp)]; [congruence|]. apply scope_exact in H. rewrite E in H. injection H as <-. now rewrite Hp.
  - split; auto.
Qed.
Lemma is_grouped_spec pres hr s e : is_grouped pres hr s e = true <-> group_spec pres hr s e.
Proof.
  unfold is_grouped, group_spec, in_scope, sc. rewrite scope_exact. destruct (get_var_scope _ _ _) as [s'|].
  - rewrite andb_true_iff, scope_eqb_eq. split; intros [A B]; split; try congruence; destruct (pres s); congruence.
  - split; [discriminate|intros [H _]; discriminate].
Qed.

(** The groups shown: at most one per scope in the fixed order, each non-empty. *)
Theorem grouping_exact (pres : scope -> presentation) (hr : bool) (lst : list entry) :
  let '(inline, groups) := group_entries pres hr lst in
  subseq (inline_spec pres hr) inline lst /\
  (forall s c, In (s, c) groups -> c <> [] /\ subseq (group_spec pres hr s) c lst) /\
  (forall s, (exists e, In e lst /\ group_spec pres hr s e) -> exists c, In (s, c) groups) /\
  (exists sel : scope -> bool, map fst groups = filter sel [Special; Protected; Function; Class]).
Proof.
  rewrite group_entries_eq. split; [apply subseq_filter, is_inline_spec|]. split; [|split].
  - intros s c H. apply in_flat_map in H. destruct H as (s' & _ & H). unfold grp in H.
    destruct (filter (is_grouped pres hr s') lst) eqn:E; [destruct H|]. destruct H as [H|[]]. injection H as <- <-.
    split; [discriminate|]. rewrite <- E. apply subseq_filter, is_grouped_spec.
  - intros s (e & Hi & He). apply is_grouped_spec in He.
    assert (Hf : In e (filter (is_grouped pres hr s) lst)) by (apply filter_In; auto).
    exists (filter (is_grouped pres hr s) lst). apply in_flat_map. exists s. split; [destruct s; simpl; auto|].
    unfold grp. destruct (filter _ lst); [destruct Hf|left; auto].
  - exists (fun s => match filter (is_grouped pres hr s) lst with [] => false | _ => true end).
    unfold scopes_sorted. cbn [flat_map filter].
    destruct (filter (is_grouped pres hr Special) lst), (filter (is_grouped pres hr Protected) lst),
      (filter (is_grouped pres hr Function) lst), (filter (is_grouped pres hr Class) lst); reflexivity.
Qed.

(** Every entry which is not hidden is shown, once: the inline entries, the contents of the groups and the hidden
    entries are together the original list. *)
Definition hidden_spec (pres : scope -> presentation) hr (e : entry) : Prop :=
  exists s, prescribed_entry hr e (Some s) /\ pres s = Hide.

Lemma flat_grp f l : flat_map snd (flat_map (fun s => grp s (f s)) l) = flat_map f l.
Proof.
  induction l as [|s l IH]; simpl; auto. rewrite flat_map_app, IH. f_equal. unfold grp. destruct (f s); auto. cbn [flat_map snd]. now rewrite app_nil_r.
Qed.

Theorem grouping_complete (pres : scope -> presentation) (hr : bool) (lst : list entry) :
  exists hidden, subseq (hidden_spec pres hr) hidden lst /\
  let '(inline, groups) := group_entries pres hr lst in
  Permutation lst (inline ++ flat_map snd groups ++ hidden).
Proof.
  exists (filter (fun e => match sc hr e with Some s => match pres s with Hide => true | _ => false end | None => false end) lst).
  split.
  - apply subseq_filter. intros e. unfold hidden_spec, sc. split.
    + destruct (get_var_scope _ _ _) as [s|] eqn:E; [|discriminate]. intros H. exists s. rewrite scope_exact. split; auto. destruct (pres s); congruence.
    + intros (s & H & Hp). apply scope_exact in H. rewrite H, Hp. auto.
  - rewrite group_entries_eq, flat_grp. unfold scopes_sorted. cbn [flat_map]. rewrite app_nil_r.
    set (h := fun e => _).
    induction lst as [|e l IH]; [constructor|]. cbn [filter].
    assert (D : is_inline pres hr e = true /\ h e = false /\ (forall s, is_grouped pres hr s e = false) \/
                is_inline pres hr e = false /\ h e = true /\ (forall s, is_grouped pres hr s e = false) \/
                exists s0, is_inline pres hr e = false /\ h e = false /\ forall s, is_grouped pres hr s e = scope_eqb s0 s).
    { unfold is_inline, is_grouped, in_scope, h. destruct (sc hr e) as [s0|]; [|left; repeat split; auto].
      destruct (pres s0) eqn:Ep.
      - right. left. repeat split; auto. intros s. destruct (scope_eqb s0 s) eqn:E; auto. apply scope_eqb_eq in E. subst. now rewrite Ep.
      - left. repeat split; auto. intros s. destruct (scope_eqb s0 s) eqn:E; auto. apply scope_eqb_eq in E. subst. now rewrite Ep.
      - right. right. exists s0. repeat split; auto. intros s. destruct (scope_eqb s0 s) eqn:E; auto. apply scope_eqb_eq in E. subst. now rewrite Ep. }
    destruct D as [(A & B & C)|[(A & B & C)|(s0 & A & B & C)]]; rewrite A, B, !C.
    + cbn [app]. constructor. exact IH.
    + rewrite !app_assoc in *. apply Permutation_cons_app. exact IH.
    + destruct s0; cbn [scope_eqb]; rewrite <- ?app_assoc in *.
      * apply Permutation_cons_app. exact IH.
      * cbn [app]. rewrite (app_assoc (filter (is_inline pres hr) l)). apply Permutation_cons_app. rewrite <- app_assoc. exact IH.
      * cbn [app]. rewrite !(app_assoc (filter (is_inline pres hr) l)). rewrite (app_assoc _ (filter (is_grouped pres hr Protected) l)).
        apply Permutation_cons_app. rewrite <- !app_assoc. exact IH.
      * cbn [app]. rewrite !(app_assoc (filter (is_inline pres hr) l)). rewrite (app_assoc _ (filter (is_grouped pres hr Protected) l)).
        rewrite (app_assoc _ (filter (is_grouped pres hr Function) l)).
        apply Permutation_cons_app. rewrite <- !app_assoc. exact IH.
Qed.

(** * Order of a frame's variables *)
Lemma insert_perm {A} (key : A -> str) x l : Permutation (x :: l) (insert key x l).
Proof. induction l; simpl; auto. destruct (name_leb _ _); auto. rewrite perm_swap. auto. Qed.
Lemma sort_perm {A} (key : A -> str) l : Permutation l (sort key l).
Proof. induction l; simpl; auto. rewrite <- insert_perm. auto. Qed.

Lemma str_leb_total a : forall b, str_leb a b = true \/ str_leb b a = true.
Proof.
  induction a as [|x a IH]; intros [|y b]; simpl; auto.
  destruct (N.eqb_spec x y); subst; [rewrite N.eqb_refl; auto|].
  destruct (N.eqb_spec y x); [congruence|]. rewrite !N.ltb_lt. lia.
Qed.
Lemma name_leb_total a b : name_leb a b = true \/ name_leb b a = true.
Proof.
  unfold name_leb. destruct (N.eqb_spec (rank a) (rank b)) as [E|E].
  - rewrite E, N.eqb_refl. apply str_leb_total.
  - destruct (N.eqb_spec (rank b) (rank a)); [congruence|]. rewrite !N.ltb_lt. lia.
Qed.
Lemma insert_sorted {A} (key : A -> str) x l :
  Sorted (fun a b => name_leb (key a) (key b) = true) l -> Sorted (fun a b => name_leb (key a) (key b) = true) (insert key x l).
Proof.
  induction l as [|y l IH]; simpl; intros H; [auto|]. destruct (name_leb (key x) (key y)) eqn:E; [auto|].
  inversion H as [|? ? Hs Hd]; subst. constructor; auto.
  assert (T : name_leb (key y) (key x) = true) by (destruct (name_leb_total (key x) (key y)); congruence).
  destruct l as [|z l]; simpl; [auto|]. destruct (name_leb (key x) (key z)); constructor; auto. inversion Hd; auto.
Qed.
Lemma sort_sorted {A} (key : A -> str) l : Sorted (fun a b => name_leb (key a) (key b) = true) (sort key l).
Proof. induction l; simpl; auto using insert_sorted. Qed.
Lemma insert_stable {A} (key : A -> str) (p : A -> bool) x l :
  (forall a b, p a = true -> p b = true -> key a = key b) ->
  filter p (insert key x l) = if p x then x :: filter p l else filter p l.
Proof.
  intros Hp. induction l as [|y l IH]; simpl; auto.
  destruct (name_leb (key x) (key y)) eqn:E; simpl; auto. rewrite IH.
  destruct (p x) eqn:Px, (p y) eqn:Py; auto. exfalso.
  rewrite (Hp x y) in E by auto. destruct (name_leb_total (key y) (key y)); congruence.
Qed.
Lemma sort_stable {A} (key : A -> str) (p : A -> bool) l :
  (forall a b, p a = true -> p b = true -> key a = key b) -> filter p (sort key l) = filter p l.
Proof. intros Hp. induction l; simpl; auto. rewrite insert_stable by auto. destruct (p a); congruence. Qed.

(** Python's order on the pairs (rank, name). *)
Definition shown_before (a b : str) : Prop :=
  (rank a < rank b)%N \/ rank a = rank b /\ str_leb a b = true.
Lemma name_leb_spec a b : name_leb a b = true <-> shown_before a b.
Proof.
  unfold name_leb, shown_before. destruct (N.eqb_spec (rank a) (rank b)) as [E|E]; rewrite ?N.ltb_lt; intuition lia.
Qed.
Lemma Sorted_impl {A} (R S : A -> A -> Prop) l : (forall a b, R a b -> S a b) -> Sorted R l -> Sorted S l.
Proof. intros H. induction 1; constructor; auto. destruct H1; constructor; auto. Qed.

(** A frame shows every variable of the dictionary except the debugger's own marker: the inline ones sorted, with
    the recorded return values in place of their dictionary, and each group's contents sorted. *)
Theorem frame_complete (pres : scope -> presentation) (ret : entry -> list entry) (dct : list entry) :
  let lst := filter (fun e => negb (str_eqb (e_name e) (lit "_pydev_stop_at_break"))) dct in
  let '(groups, vars) := frame_children pres ret dct in
  exists inline contents,
    subseq (inline_spec pres true) inline lst /\
    Permutation vars (flat_map (fun e => if str_eqb (e_name e) (lit "__pydevd_ret_val_dict")
                                         then map (fun r => (r, true)) (ret e) else [(e, false)]) inline) /\
    Sorted (fun a b => shown_before (e_name (fst a)) (e_name (fst b))) vars /\
    Forall2 (fun g c => Permutation (snd g) c /\ c <> [] /\ subseq (group_spec pres true (fst g)) c lst /\
                        Sorted (fun a b => shown_before (e_name a) (e_name b)) (snd g)) groups contents /\
    (forall s, (exists e, In e lst /\ group_spec pres true s e) -> In s (map fst groups)) /\
    (exists sel : scope -> bool, map fst groups = filter sel [Special; Protected; Function; Class]).
Proof.
  cbv zeta. unfold frame_children. fold stop_name. set (lst := filter _ dct).
  pose proof (grouping_exact pres true lst) as G. destruct (group_entries pres true lst) as [inline groups].
  destruct G as (G1 & G2 & G3 & G4 & G5). exists inline, (map snd groups).
  split; auto. split; [symmetry; apply sort_perm|].
  split; [eapply Sorted_impl; [|apply sort_sorted]; intros a b H; now apply name_leb_spec in H|].
  split; [|split].
  - clear G3 G4 G5. induction groups as [|[s c] g IH]; simpl; constructor.
    + destruct (G2 s c) as [A B]; [left; auto|]. cbn [fst snd]. split; [symmetry; apply sort_perm|]. split; auto. split; auto.
      eapply Sorted_impl; [|apply sort_sorted]. intros a b H. now apply name_leb_spec in H.
    + apply IH. intros s' c' H. apply G2. right. auto.
  - intros s H. destruct (G3 s H) as [c Hc]. rewrite map_map. simpl. now apply (in_map fst) in Hc.
  - exists G4. now rewrite map_map.
Qed.

(** What the client can reach below an object by expanding the groups. *)
Definition reachable (pres : scope -> presentation) (x : shown) : list entry :=
  match x with
  | AnEntry e => [e]
  | AGroup _ c => flat_map (fun y => match y with AnEntry e => [e] | AGroup _ _ => [] end) (object_children pres true c)
  end.
Theorem object_complete (pres : scope -> presentation) (lst : list entry) :
  exists hidden, subseq (hidden_spec pres false) hidden lst /\
  Permutation lst (flat_map (reachable pres) (object_children pres false lst) ++ hidden).
Proof.
  destruct (grouping_complete pres false lst) as (h & H & P). exists h. split; auto.
  unfold object_children. destruct (group_entries pres false lst) as [i g].
  assert (E1 : forall l, flat_map (reachable pres) (map AnEntry l) = l) by (induction l; simpl; congruence).
  assert (E2 : forall l, flat_map (reachable pres) (map (fun g => AGroup (fst g) (snd g)) l) = flat_map snd l).
  { induction l as [|[s c] l IH]; cbn [map flat_map fst snd]; auto. rewrite IH. f_equal. unfold reachable, object_children.
    induction c; simpl; congruence. }
  rewrite flat_map_app, E1, E2. rewrite P, app_assoc. apply Permutation_app_tail. apply Permutation_app_comm.
Qed.

(** * Example *)
Definition ex_pres (s : scope) : presentation := match s with Special => Group | Protected => Inline | Function => Group | Class => Hide end.
Definition en (n : string) k v := Entry (lit n) k v.
Definition ex_lst := [en "b" Plain 1; en "__doc__" Plain 2; en "f" Routine 3; en "_p" Plain 4; en "C" AClass 5; en "__init__" Routine 6;
  en "'__name__' (17)" Plain 7; en "'__q__'" Plain 8; en "len()" Plain 9; en "__pydevd_ret_val_dict" Plain 10; en "a" Plain 11]%N.
Example ex_group :
  group_entries ex_pres true ex_lst =
  ([en "b" Plain 1; en "_p" Plain 4; en "'__q__'" Plain 8; en "len()" Plain 9; en "__pydevd_ret_val_dict" Plain 10; en "a" Plain 11]%N,
   [(Special, [en "__doc__" Plain 2; en "__init__" Routine 6; en "'__name__' (17)" Plain 7]%N); (Function, [en "f" Routine 3%N])]).
Proof. vm_compute. reflexivity. Qed.
Example ex_frame :
  frame_children ex_pres (fun _ => [en "zz" Plain 20; en "aa" Plain 21]%N) (en "_pydev_stop_at_break" Plain 0%N :: ex_lst) =
  ([(Special, [en "'__name__' (17)" Plain 7; en "__doc__" Plain 2; en "__init__" Routine 6]%N); (Function, [en "f" Routine 3%N])],
   [(en "'__q__'" Plain 8, false); (en "a" Plain 11, false); (en "aa" Plain 21, true); (en "b" Plain 1, false); (en "len()" Plain 9, false);
    (en "zz" Plain 20, true); (en "_p" Plain 4, false)]%N).
Proof. vm_compute. reflexivity. Qed.

Print Assumptions scope_exact.
Print Assumptions grouping_exact.
Print Assumptions grouping_complete.
Print Assumptions frame_complete.
Print Assumptions object_complete.
