(** Property C58: the test runner runs exactly the chosen tests, each once, and reports each. *)
From Coq Require Import String.
From Coq Require Import List NArith Bool Arith Lia Permutation.
From Verif Require Import Base Dict Glob GlobSpec GlobProps TestRun.
Import ListNotations.
Open Scope list_scope.

(** * Specification *)
(** Everything which can be called in the classes of a file. *)
Definition everything (f : str) (m : modul) : list test := flat_map (fun c => map (fun a => (f, cname c, a)) (callables c)) m.
(** Whether a test was asked for. *)
Definition named (c : config) (t : test) : bool :=
  let '(f, cls, m) := t in
  match files_to_tests c with
  | [] => match tests c with
          | [] => starts_with (lit "test") m
          | l => if mem cls l then starts_with (lit "test") m else mem (full cls m) l
          end
  | l => match get str_eqb f l with Some names => mem (full cls m) names | None => false end
  end.
Definition wanted (fm : str -> str -> bool) (c : config) (t : test) : bool :=
  named c t && negb (existsb (fm (snd t)) (exclude_tests c)) && (is_nil (include_tests c) || existsb (fm (snd t)) (include_tests c)).
(** Names of Python: no dots, and no bars. *)
Definition ident (s : str) : Prop := ~ In 46%N s /\ ~ In 124%N s.
Definition class_ok (c : class) : Prop := ident (cname c) /\ Forall (fun a => ident (fst a) /\ fst a <> lit "runTest") (attrs c).
Definition load_ok (load : str -> option modul) : Prop := forall f m, load f = Some m -> Forall class_ok m.

Lemma mem_In x l : mem x l = true <-> In x l.
Proof. unfold mem. rewrite existsb_exists. split; [intros (y & H & E); apply str_eqb_eq in E; subst; auto|intros H; exists x; split; auto; apply str_eqb_refl]. Qed.
Lemma mem_false x l : mem x l = false <-> ~ In x l.
Proof. rewrite <- mem_In. destruct (mem x l); intuition congruence. Qed.
Lemma flat_map_flat_map {A B C : Type} (f : A -> list B) (g : B -> list C) l : flat_map g (flat_map f l) = flat_map (fun x => flat_map g (f x)) l.
Proof. induction l as [|x l IH]; auto. cbn [flat_map]. rewrite flat_map_app, IH. auto. Qed.
Lemma flat_map_map {A B C : Type} (f : A -> B) (g : B -> list C) l : flat_map g (map f l) = flat_map (fun x => g (f x)) l.
Proof. induction l as [|x l IH]; auto. cbn [map flat_map]. rewrite IH. auto. Qed.
Lemma filter_flat_map {A B : Type} (f : A -> list B) p l : filter p (flat_map f l) = flat_map (fun x => filter p (f x)) l.
Proof. induction l as [|x l IH]; auto. cbn [flat_map]. rewrite filter_app, IH. auto. Qed.
Lemma filter_map {A B : Type} (f : A -> B) p l : filter p (map f l) = map f (filter (fun x => p (f x)) l).
Proof. induction l as [|x l IH]; auto. cbn [map filter]. destruct (p (f x)); cbn [map]; rewrite IH; auto. Qed.
Lemma filter_filter {A : Type} (p q : A -> bool) l : filter p (filter q l) = filter (fun x => q x && p x) l.
Proof. induction l as [|x l IH]; auto. cbn [filter]. destruct (q x); cbn [filter andb]; [destruct (p x)|]; rewrite IH; auto. Qed.

(** * The tests of one process *)
Section suites.
Variable k : test -> bool.
Fixpoint suite_ind' (P : suite -> Prop) (HC : forall t, P (Case t)) (HS : forall l, Forall P l -> P (Suite l)) (s : suite) : P s :=
  match s with Case t => HC t | Suite l => HS l ((fix go l : Forall P l := match l with [] => Forall_nil _ | x :: r => Forall_cons _ (suite_ind' P HC HS x) (go r) end) l) end.
Lemma filter_suite_flatten s : flat_map flatten (filter_suite k s) = filter k (flatten s).
Proof.
  induction s as [t|l H] using suite_ind'; cbn [filter_suite flatten].
  - cbn [filter]. destruct (k t); reflexivity.
  - assert (E : flat_map flatten (flat_map (filter_suite k) l) = filter k (flat_map flatten l)).
    { induction H as [|s l Hs H IH]; auto. cbn [flat_map]. rewrite flat_map_app, filter_app, Hs, IH. auto. }
    rewrite <- E. destruct (flat_map (filter_suite k) l); auto. cbn [flat_map flatten]. rewrite app_nil_r. auto.
Qed.
End suites.
Lemma no_tests s : has_tests s = false -> flatten s = [].
Proof.
  induction s as [t|l H] using suite_ind'; [discriminate|]. cbn [has_tests flatten]. intros E. induction H as [|s l Hs H IH]; auto. cbn [existsb] in E. apply orb_false_iff in E. destruct E as [E1 E2].
  cbn [flat_map]. rewrite Hs, IH by auto. auto.
Qed.
Lemma flatten_kept l : flat_map flatten (filter has_tests l) = flat_map flatten l.
Proof. induction l as [|s l IH]; auto. cbn [filter flat_map]. destruct (has_tests s) eqn:E; cbn [flat_map]; rewrite IH; auto. rewrite (no_tests s E). auto. Qed.
Lemma flatten_class names f c : class_ok c -> flatten (load_class names f c) = map (fun m => (f, cname c, m)) (names c).
Proof.
  intros [_ H]. unfold load_class. assert (E : existsb (fun a => str_eqb (fst a) (lit "runTest")) (attrs c) = false).
  { apply not_true_is_false. intros X. apply existsb_exists in X. destruct X as (a & Ha & E). apply str_eqb_eq in E. rewrite Forall_forall in H. destruct (H a Ha) as [_ X]. auto. }
  rewrite E, andb_false_r. cbn [flatten]. rewrite flat_map_map. cbn [flatten]. induction (names c) as [|m l IH]; auto.
Qed.
Lemma flatten_module names f m : Forall class_ok m -> flatten (load_module names f m) = flat_map (fun c => map (fun x => (f, cname c, x)) (names c)) m.
Proof. intros H. unfold load_module. cbn [flatten]. rewrite flat_map_map. induction H as [|c m Hc H IH]; auto. cbn [flat_map]. rewrite IH, flatten_class by auto. auto. Qed.


Lemma split_in c s : In c s -> 2 <= length (split_on c s).
Proof.
  induction s as [|x s IH]; [intros []|]. cbn [split_on]. intros H. destruct (N.eqb_spec x c).
  - cbn [length]. pose proof (split_on_nonempty c s). destruct (split_on c s); [congruence|cbn; lia].
  - destruct H as [H|H]; [congruence|]. specialize (IH H). destruct (split_on c s) as [|h t]; cbn [length] in *; lia.
Qed.
Lemma split_dot a b : ident a -> ident b -> split_on 46 (full a b) = [a; b].
Proof. intros [H1 _] [H2 _]. unfold full. change (lit "." ++ b) with (46%N :: b). rewrite split_on_plain by auto. rewrite split_on_one by auto. auto. Qed.
Lemma class_one a : ident a -> is_class a = true.
Proof. intros [H _]. unfold is_class. rewrite split_on_one by auto. auto. Qed.
Lemma method_two a b : ident a -> ident b -> is_method (full a b) = true.
Proof. intros H1 H2. unfold is_method. rewrite split_dot by auto. auto. Qed.
Lemma mem_filter x p l : p x = true -> mem x (filter p l) = mem x l.
Proof.
  intros H. destruct (mem x l) eqn:E; [apply mem_In in E; apply mem_In; apply filter_In; auto|]. apply mem_false in E. apply mem_false. intros X. apply filter_In in X. tauto.
Qed.
(** With names given, a test is kept when its class or its own name is given. *)
Lemma match_tests_eq l a b : ident a -> ident b -> l <> [] -> match_tests l a b = mem a l || mem (full a b) l.
Proof.
  intros H1 H2 Hl. unfold match_tests. destruct (is_nil l) eqn:E; [destruct l; [congruence|discriminate]|]. cbn [orb]. clear E Hl. unfold mem. induction l as [|t l IH]; auto. cbn [existsb]. rewrite IH.
  assert (E : match split_on 46 t with [x] => str_eqb x a | [x; y] => str_eqb x a && str_eqb y b | _ => false end = str_eqb a t || str_eqb (full a b) t).
  { pose proof (join_split_on 46 t) as J. destruct (str_eqb_spec a t) as [<- | N1]; cbn [orb]; [rewrite split_on_one by apply H1; apply str_eqb_refl|].
    destruct (str_eqb_spec (full a b) t) as [<- | N2]; [rewrite split_dot by auto; rewrite !str_eqb_refl; auto|].
    destruct (split_on 46 t) as [|x [|y [|z r]]]; auto; cbn [join] in J.
    - apply str_eqb_neq. intros ->. congruence.
    - apply not_true_is_false. intros X. apply andb_true_iff in X. destruct X as [X Y]. apply str_eqb_eq in X, Y. subst. auto. }
  rewrite E. destruct (str_eqb a t), (str_eqb (full a b) t), (existsb (str_eqb a) l); auto.
Qed.
Definition names_of (c : config) (f : str) : class -> list str :=
  if negb (is_nil (files_to_tests c)) then chosen_names [] (match get str_eqb f (files_to_tests c) with Some l => l | None => [] end)
  else if negb (is_nil (tests c)) then chosen_names (filter is_class (tests c)) (filter is_method (tests c)) else default_names.
Lemma callables_ident c m : class_ok c -> In m (callables c) -> ident m.
Proof. intros [_ H] Hm. unfold callables in Hm. apply in_map_iff in Hm. destruct Hm as (a & <- & Ha). apply filter_In in Ha. rewrite Forall_forall in H. apply H, Ha. Qed.
Lemma filter_ext_in' {A : Type} (p q : A -> bool) l : (forall x, In x l -> p x = q x) -> filter p l = filter q l.
Proof. intros H. induction l as [|x l IH]; auto. cbn [filter]. rewrite (H x) by (left; auto). rewrite IH by (intros; apply H; right; auto). auto. Qed.
Lemma names_named c f k : class_ok k -> map (fun m => (f, cname k, m)) (names_of c f k) = filter (named c) (map (fun a => (f, cname k, a)) (callables k)).
Proof.
  intros Hk. rewrite filter_map. unfold named, names_of. destruct (files_to_tests c) as [|p ps]; cbn [is_nil negb].
  - destruct (tests c) as [|t ts] eqn:Et; cbn [is_nil negb]; [reflexivity|]. rewrite <- Et. unfold chosen_names. rewrite mem_filter by (apply class_one, Hk). destruct (mem (cname k) (tests c)); f_equal.
    apply filter_ext_in'. intros m Hm. apply mem_filter, method_two; [apply Hk|eapply callables_ident; eauto].
  - unfold chosen_names. cbn [mem existsb]. f_equal. destruct (get str_eqb f (p :: ps)); auto.
Qed.
Lemma module_named c f m : Forall class_ok m -> flatten (load_module (names_of c f) f m) = filter (named c) (everything f m).
Proof.
  intros Hm. rewrite flatten_module by auto. unfold everything. rewrite filter_flat_map. induction Hm as [|k m' Hk Hm IH]; auto. cbn [flat_map]. rewrite IH, names_named by auto. auto.
Qed.
Lemma find_flatten c l : Forall (fun m => Forall class_ok (snd m)) l ->
  flat_map flatten (find_tests c l) = flat_map (fun m => filter (named c) (everything (fst m) (snd m))) l.
Proof.
  intros H. unfold find_tests. rewrite flatten_kept, flat_map_map. induction H as [|m l Hm H IH]; auto. cbn [flat_map]. rewrite IH. f_equal. apply module_named. auto.
Qed.
Lemma filter_all_flatten k l : flat_map flatten (flat_map (filter_suite k) l) = filter k (flat_map flatten l).
Proof. induction l as [|s l IH]; auto. cbn [flat_map]. rewrite flat_map_app, filter_app, filter_suite_flatten, IH. auto. Qed.
Lemma everything_in f m t : Forall class_ok m -> In t (everything f m) -> let '(f', cls, n) := t in f' = f /\ ident cls /\ ident n.
Proof.
  intros H Ht. unfold everything in Ht. apply in_flat_map in Ht. destruct Ht as (c & Hc & Ht). apply in_map_iff in Ht. destruct Ht as (a & <- & Ha). rewrite Forall_forall in H.
  split; auto. split; [apply H; auto|]. eapply callables_ident; eauto.
Qed.

(** One process runs, file by file and class by class, exactly the tests which are wanted. *)
Theorem runner_chosen fm load c : load_ok load ->
  run_single fm load c = flat_map (fun f => match load f with Some m => filter (wanted fm c) (everything f m) | None => [] end) (import_files fm c).
Proof.
  intros HL. unfold run_single, all_tests. set (l := import_files fm c).
  assert (HM : Forall (fun m => Forall class_ok (snd m)) (modules load l)).
  { apply Forall_forall. intros m Hm. unfold modules in Hm. apply in_flat_map in Hm. destruct Hm as (f & _ & Hm). destruct (load f) eqn:E; [|destruct Hm]. destruct Hm as [<- |[]]. eapply HL; eauto. }
  assert (E : flat_map flatten (filter_tests fm c (find_tests c (modules load l))) = filter (wanted fm c) (flat_map (fun m => everything (fst m) (snd m)) (modules load l))).
  { assert (K : forall t, In t (flat_map (fun m => everything (fst m) (snd m)) (modules load l)) ->
      wanted fm c t = named c t && (is_nil (include_tests c) && is_nil (effective_tests c) && is_nil (exclude_tests c) || keep fm c (effective_tests c) t)).
    { intros t Ht. apply in_flat_map in Ht. destruct Ht as (m & Hm & Ht). rewrite Forall_forall in HM. pose proof (everything_in _ _ _ (HM m Hm) Ht) as Hi. destruct t as [[f cls] n]. destruct Hi as (_ & I1 & I2). unfold wanted, keep. cbn [snd].
      destruct (named c (f, cls, n)) eqn:Nm; auto. cbn [andb].
      assert (Mt : match_tests (effective_tests c) cls n = true).
      { unfold effective_tests. destruct (files_to_tests c) eqn:Ef; cbn [is_nil]; [|reflexivity]. destruct (tests c) eqn:Et; [reflexivity|]. rewrite match_tests_eq by (auto; discriminate). rewrite <- Et in *. unfold named in Nm. rewrite Ef, Et, <- Et in Nm.
        destruct (mem cls (tests c)); auto. }
      rewrite Mt, andb_true_r. destruct (include_tests c), (exclude_tests c), (is_nil (effective_tests c)); cbn [is_nil existsb negb andb orb]; auto. }
    unfold filter_tests. destruct (is_nil (include_tests c) && is_nil (effective_tests c) && is_nil (exclude_tests c)) eqn:Ez.
    - rewrite find_flatten by auto. rewrite filter_flat_map. rewrite !flat_map_concat_map. f_equal. apply map_ext_in. intros m Hm. apply filter_ext_in'. intros t Ht. rewrite K by (apply in_flat_map; eauto). cbn [orb]. rewrite andb_true_r. auto.
    - rewrite filter_all_flatten, find_flatten by auto. rewrite !filter_flat_map. rewrite !flat_map_concat_map. f_equal. apply map_ext_in. intros m Hm. rewrite filter_filter. apply filter_ext_in'. intros t Ht. rewrite K by (apply in_flat_map; eauto). auto. }
  rewrite E. unfold modules. rewrite flat_map_flat_map, filter_flat_map. apply flat_map_ext. intros f. destruct (load f); [|reflexivity]. cbn [flat_map fst snd]. rewrite app_nil_r. auto.
Qed.

(** * The files *)
(** A Python source which is not the __init__ file of its package. *)
Definition source_name (n : str) : Prop := (exists s, n = s ++ lit ".py" \/ n = s ++ lit ".pyw") /\ ~ exists s, n = lit "__init__." ++ s.
(** A directory which is a package. *)
Definition package (l : list node) : Prop := exists i, In (File i) l /\ In i inits.
(** The files under a directory which are reached through packages. *)
Inductive reach : str -> list node -> str -> Prop :=
| reach_file path l n : In (File n) l -> source_name n -> reach path l (join_path path n)
| reach_in path l n l' f : In (Folder n l') l -> package l' -> reach (join_path path n) l' f -> reach path l f.
Definition given (c : config) (f : str) : Prop :=
  match files_to_tests c with
  | [] => exists path x, In (path, Some x) (files_or_dirs c) /\ match x with File _ => f = path | Folder _ l => reach path l f end
  | l => In f (map fst l)
  end.

Lemma valid_source n : valid_py_file n = true <-> source_name n.
Proof.
  unfold valid_py_file, source_name. rewrite andb_true_iff, negb_true_iff, orb_true_iff, !ends_with_spec, <- not_true_iff_false, starts_with_spec. split.
  - intros [H1 H2]. split; auto. destruct H2 as [[s H]|[s H]]; exists s; auto.
  - intros [(s & [H|H]) H2]; split; auto; [left|right]; exists s; auto.
Qed.
Lemma has_init_package l : has_init l = true <-> package l.
Proof.
  unfold has_init, package. rewrite existsb_exists. split.
  - intros ([n|n l'] & H & E); [|discriminate]. exists n. split; auto. apply mem_In, E.
  - intros (i & H & E). exists (File i). split; auto. apply mem_In, E.
Qed.
Fixpoint node_ind' (P : node -> Prop) (HF : forall n, P (File n)) (HD : forall n l, Forall P l -> P (Folder n l)) (x : node) : P x :=
  match x with File n => HF n | Folder n l => HD n l ((fix go l : Forall P l := match l with [] => Forall_nil _ | x :: r => Forall_cons _ (node_ind' P HF HD x) (go r) end) l) end.
Lemma files_of_spec path l f : In f (files_of path l) <-> exists n, In (File n) l /\ source_name n /\ f = join_path path n.
Proof.
  unfold files_of. rewrite in_flat_map. split.
  - intros ([n|n l'] & H & E); [|destruct E]. destruct (valid_py_file n) eqn:V; [|destruct E]. destruct E as [<- |[]]. exists n. split; auto. split; auto. apply valid_source, V.
  - intros (n & H & S & ->). exists (File n). split; auto. apply valid_source in S. rewrite S. left; auto.
Qed.
Lemma walk_reach x : forall path f, In f (walk path x) <-> match x with File _ => False | Folder _ l => reach path l f end.
Proof.
  induction x as [n|n l H] using node_ind'; intros path f; cbn [walk]; [tauto|]. rewrite in_app_iff, files_of_spec. split.
  - intros [(k & H1 & H2 & ->)|X]; [constructor; auto|]. apply in_flat_map in X. destruct X as ([k|k l'] & Hk & E); [destruct E|]. destruct (has_init l') eqn:I; [|destruct E]. rewrite Forall_forall in H. apply (H _ Hk) in E. eapply reach_in; eauto. apply has_init_package; auto.
  - intros R. inversion R as [p l0 k H1 H2|p l0 k l' f0 H1 H2 H3]; subst; [left; eauto|]. right. apply in_flat_map. exists (Folder k l'). split; auto. apply has_init_package in H2. rewrite H2. rewrite Forall_forall in H. apply (H _ H1). auto.
Qed.
(** The files which are looked at: those given and those reached through packages, as the patterns say. *)
Theorem runner_files fm c f : In f (import_files fm c) <->
  given c f /\ (include_files c = [] \/ exists p, In p (include_files c) /\ fm (basename f) p = true) /\ (forall p, In p (exclude_files c) -> fm (basename f) p = false).
Proof.
  unfold import_files. set (l := if is_nil (files_to_tests c) then _ else _).
  assert (G : In f l <-> given c f).
  { unfold l, given. destruct (files_to_tests c) as [|p ps]; cbn [is_nil]; [|reflexivity]. rewrite in_flat_map. split.
    - intros ([path [[n|n d]|]] & H & E); cbn [found] in E; [destruct E as [<- |[]]; exists path, (File n); auto|apply (walk_reach (Folder n d)) in E; exists path, (Folder n d); auto|destruct E].
    - intros (path & [n|n d] & H & E).
      + subst. exists (path, Some (File n)). split; auto. left; auto.
      + exists (path, Some (Folder n d)). split; auto. apply (walk_reach (Folder n d)). auto. }
  assert (X : negb (existsb (fm (basename f)) (exclude_files c)) = true <-> (forall p, In p (exclude_files c) -> fm (basename f) p = false)).
  { rewrite negb_true_iff, <- not_true_iff_false, existsb_exists. split.
    - intros H p Hp. apply not_true_is_false. intros E. apply H. eauto.
    - intros H (p & Hp & E). rewrite H in E; auto. discriminate. }
  assert (I : is_nil (include_files c) || existsb (fm (basename f)) (include_files c) = true <-> (include_files c = [] \/ exists p, In p (include_files c) /\ fm (basename f) p = true)).
  { rewrite orb_true_iff, existsb_exists. destruct (include_files c); cbn [is_nil]; intuition congruence. }
  rewrite <- G, <- X, <- I. destruct (is_nil (exclude_files c) && is_nil (include_files c)) eqn:E.
  - apply andb_true_iff in E. destruct E as [E1 E2]. rewrite E2. destruct (exclude_files c); [|discriminate]. cbn. tauto.
  - rewrite filter_In, andb_true_iff. tauto.
Qed.

(** A directory as a file system has it: the names in it are different and without slashes. *)
Definition name_of (x : node) : str := match x with File n => n | Folder n _ => n end.
Inductive tidy : list node -> Prop :=
| Tidy l : NoDup (map name_of l) -> (forall x, In x l -> ~ In 47%N (name_of x)) -> (forall n l', In (Folder n l') l -> tidy l') -> tidy l.
Lemma reach_prefix path l f : reach path l f -> exists r, f = path ++ 47%N :: r.
Proof. intros R. induction R as [path l n|path l n l' f _ _ _ (r & ->)]; unfold join_path; [exists n; auto|]. exists (n ++ 47%N :: r). cbn. rewrite <- !app_assoc. auto. Qed.
Lemma slash_split a b r s : ~ In 47%N a -> ~ In 47%N b -> a ++ 47%N :: r = b ++ 47%N :: s -> a = b.
Proof.
  revert b. induction a as [|x a IH]; intros [|y b] Ha Hb E; auto; injection E; intros.
  - subst. exfalso. apply Hb. left; auto.
  - subst. exfalso. apply Ha. left; auto.
  - subst. f_equal. eapply IH; eauto; intros X; [apply Ha|apply Hb]; right; auto.
Qed.
Lemma NoDup_app_intro {A : Type} (l l' : list A) : NoDup l -> NoDup l' -> (forall x, In x l -> ~ In x l') -> NoDup (l ++ l').
Proof.
  intros H H' D. induction H as [|x l Hx H IH]; auto. cbn [app]. constructor; [|apply IH; intros; apply D; right; auto]. rewrite in_app_iff. intros [X|X]; [auto|]. eapply D; [left; reflexivity|auto].
Qed.
Lemma NoDup_flat_map {A B : Type} (f : A -> list B) l : NoDup l -> (forall x, In x l -> NoDup (f x)) -> (forall x y b, In x l -> In y l -> In b (f x) -> In b (f y) -> x = y) -> NoDup (flat_map f l).
Proof.
  intros H Hf D. induction H as [|x l Hx H IH]; [constructor|]. cbn [flat_map]. apply NoDup_app_intro; [apply Hf; left; auto|apply IH; [intros; apply Hf; right; auto|intros; eapply D; eauto; right; auto]|].
  intros b Hb X. apply in_flat_map in X. destruct X as (y & Hy & Hb'). assert (x = y) by (eapply D; eauto; [left; auto|right; auto]). subst. auto.
Qed.
Lemma NoDup_map_eq {A B : Type} (f : A -> B) l x y : NoDup (map f l) -> In x l -> In y l -> f x = f y -> x = y.
Proof.
  induction l as [|a l IH]; [intros _ []|]. cbn [map]. intros N [<- |Hx] [<- |Hy] E; auto; inversion N as [|? ? Na N']; subst.
  - exfalso. apply Na. rewrite E. apply in_map; auto.
  - exfalso. apply Na. rewrite <- E. apply in_map; auto.
  - eapply IH; eauto.
Qed.
Lemma app_inv_path path a b : join_path path a = join_path path b -> a = b.
Proof. unfold join_path. intros H. apply app_inv_head in H. apply app_inv_head in H. auto. Qed.
Lemma walk_nodup x : forall path, match x with File _ => True | Folder _ l => tidy l end -> NoDup (walk path x).
Proof.
  induction x as [n|n l H] using node_ind'; intros path T; cbn [walk]; [constructor|]. inversion T as [l0 N S D]; subst.
  assert (ND : NoDup l) by (eapply NoDup_map_inv; eauto).
  apply NoDup_app_intro.
  - unfold files_of. apply NoDup_flat_map; auto.
    + intros [k|k l'] _; [destruct (valid_py_file k)|]; repeat constructor. intros [].
    + intros [k|k d] [k'|k' d'] b Hx Hy; try (intros []; fail); try (intros _ []; fail). destruct (valid_py_file k), (valid_py_file k'); try (intros []; fail); try (intros _ []; fail). intros [<- |[]] [E|[]]. apply app_inv_path in E. subst. auto.
  - apply NoDup_flat_map; auto.
    + intros [k|k d] Hx; [constructor|]. destruct (has_init d); [|constructor]. rewrite Forall_forall in H. apply (H _ Hx). eapply D; eauto.
    + intros [k|k d] [k'|k' d'] b Hx Hy; try (intros []; fail); try (intros _ []; fail). destruct (has_init d), (has_init d'); try (intros []; fail); try (intros _ []; fail). intros B1 B2.
      apply walk_reach in B1, B2. apply reach_prefix in B1, B2. destruct B1 as (r & ->), B2 as (s & E). unfold join_path in E. rewrite <- !app_assoc in E. apply app_inv_head in E. cbn [app] in E. change (lit "/") with [47%N] in E. cbn [app] in E. injection E as E. apply slash_split in E; [|apply (S _ Hx)|apply (S _ Hy)].
      eapply (NoDup_map_eq name_of); eauto.
  - intros f F1 F2. apply files_of_spec in F1. destruct F1 as (k & Hk & _ & ->). apply in_flat_map in F2. destruct F2 as ([k'|k' d] & Hk' & E); [destruct E|]. destruct (has_init d); [|destruct E]. apply walk_reach, reach_prefix in E. destruct E as (r & E).
    unfold join_path in E. rewrite <- !app_assoc in E. apply app_inv_head in E. change (lit "/") with [47%N] in E. cbn [app] in E. injection E as E. apply (S _ Hk). cbn [name_of]. rewrite E. apply in_or_app. right; left; auto.
Qed.
(** In a directory each file is looked at once. *)
Theorem runner_files_once fm c path n l : files_to_tests c = [] -> files_or_dirs c = [(path, Some (Folder n l))] -> tidy l -> NoDup (import_files fm c).
Proof.
  intros E1 E2 T. unfold import_files. rewrite E1, E2. cbn [is_nil flat_map found]. rewrite app_nil_r. assert (N : NoDup (walk path (Folder n l))) by (apply walk_nodup; auto).
  destruct (is_nil (exclude_files c) && is_nil (include_files c)); auto. apply NoDup_filter. auto.
Qed.

(** The classes of a file have different names, and their attributes too. *)
Definition distinct (m : modul) : Prop := NoDup (map cname m) /\ Forall (fun c => NoDup (map fst (attrs c))) m.
Lemma NoDup_map_filter {A B : Type} (f : A -> B) p l : NoDup (map f l) -> NoDup (map f (filter p l)).
Proof.
  induction l as [|x l IH]; auto. cbn [map filter]. intros N. inversion N as [|? ? Nx N']; subst. destruct (p x); [|auto]. cbn [map]. constructor; auto. intros X. apply Nx. apply in_map_iff in X. destruct X as (y & E & Hy). apply filter_In in Hy. apply in_map_iff. exists y. tauto.
Qed.
Lemma everything_once f m : distinct m -> NoDup (everything f m).
Proof.
  intros [N A]. unfold everything. rewrite Forall_forall in A. apply NoDup_flat_map.
  - eapply NoDup_map_inv; eauto.
  - intros c Hc. apply FinFun.Injective_map_NoDup; [intros x y E; injection E; auto|]. apply NoDup_map_filter. apply A, Hc.
  - intros c d t Hc Hd T1 T2. apply in_map_iff in T1, T2. destruct T1 as (a & <- & _), T2 as (b & E & _). injection E as E1 E2. symmetry in E1. eapply (NoDup_map_eq cname); eauto.
Qed.
(** Each test is run once. *)
Theorem runner_once fm load c : load_ok load -> NoDup (import_files fm c) -> (forall f m, load f = Some m -> distinct m) -> NoDup (run_single fm load c).
Proof.
  intros HL N D. rewrite runner_chosen by auto. apply NoDup_flat_map; auto.
  - intros f _. destruct (load f) eqn:E; [|constructor]. apply NoDup_filter, everything_once. eauto.
  - intros f g t _ _. destruct (load f) eqn:Ef, (load g) eqn:Eg; try (intros []; fail); try (intros _ []; fail). rewrite !filter_In. intros [T1 _] [T2 _]. apply everything_in in T1, T2; try (eapply HL; eauto; fail). destruct t as [[h a] b]. intuition congruence.
Qed.

(** * Several processes *)
Definition file_of (t : test) : str := fst (fst t).
Definition no_bar (f : str) : Prop := ~ In 124%N f.
Definition test_ok (t : test) : Prop := let '(f, c, m) := t in no_bar f /\ ident c /\ ident m.
Definition name2 (t : test) : str := let '(_, c, m) := t in full c m.
Lemma full_inj a b a' b' : ident a -> ident b -> ident a' -> ident b' -> full a b = full a' b' -> a = a' /\ b = b'.
Proof. intros H1 H2 H3 H4 E. pose proof (split_dot a b H1 H2) as S. rewrite E, split_dot in S by auto. injection S. auto. Qed.
Lemma split_text t : test_ok t -> split_on 124 (test_text t) = [file_of t; name2 t].
Proof.
  destruct t as [[f c] m]. intros (H1 & [_ H2] & [_ H3]). unfold test_text. change (lit "|" ++ full c m) with (124%N :: full c m). rewrite split_on_plain by auto. rewrite split_on_one; auto.
  unfold full. rewrite in_app_iff. intros [X|[X|X]]; [auto|discriminate|auto].
Qed.
Lemma to_files_more f l : Forall (fun t => test_ok t /\ file_of t = f) l -> forall pre, to_files (map test_text l) [(f, pre)] = [(f, pre ++ map name2 l)].
Proof.
  induction 1 as [|t l [H1 H2] H IH]; intros pre; [cbn; rewrite app_nil_r; auto|]. cbn [map to_files]. rewrite split_text, H2 by auto. cbn [get set]. rewrite str_eqb_refl, IH, <- app_assoc. auto.
Qed.
Lemma to_files_one f l : Forall (fun t => test_ok t /\ file_of t = f) l -> l <> [] -> to_files (map test_text l) [] = [(f, map name2 l)].
Proof.
  intros [|t r [H1 H2] H] N; [congruence|]. cbn [map to_files]. rewrite split_text, H2 by auto. cbn [get set]. rewrite to_files_more by auto. auto.
Qed.
Lemma mem_names f m l : Forall class_ok m -> incl l (everything f m) -> forall t, In t (everything f m) -> mem (name2 t) (map name2 l) = true <-> In t l.
Proof.
  intros Hm Hl t Ht. rewrite mem_In, in_map_iff. split; [|intros H; exists t; auto]. intros (u & E & Hu). assert (t = u); [|subst; auto].
  pose proof (everything_in _ _ _ Hm Ht) as T. pose proof (everything_in _ _ _ Hm (Hl _ Hu)) as U. destruct t as [[f1 c1] m1], u as [[f2 c2] m2]. cbn [name2] in E. destruct T as (-> & ? & ?), U as (-> & ? & ?). apply full_inj in E; auto. destruct E; subst; auto.
Qed.
(** A process which is given the tests of a file runs those. *)
Lemma run_batch_file fm load f m l : load_ok load -> load f = Some m -> no_bar f -> incl l (everything f m) -> l <> [] ->
  exists p, run_batch fm load (map test_text l) = filter p (everything f m) /\ forall t, In t (everything f m) -> p t = true <-> In t l.
Proof.
  intros HL E B Hl N. unfold run_batch. rewrite runner_chosen by auto. assert (Hm : Forall class_ok m) by eauto.
  assert (F : Forall (fun t => test_ok t /\ file_of t = f) l).
  { apply Forall_forall. intros t Ht. pose proof (everything_in _ _ _ Hm (Hl _ Ht)) as T. destruct t as [[f1 c1] m1]. destruct T as (-> & ? & ?). repeat split; auto; apply H || apply H0. }
  unfold batch_config. rewrite (to_files_one f) by auto. unfold import_files. cbn [files_to_tests is_nil keys map fst exclude_files include_files andb flat_map]. rewrite E, app_nil_r.
  eexists. split; [reflexivity|]. intros t Ht. pose proof (everything_in _ _ _ Hm Ht) as T. destruct t as [[f1 c1] m1]. destruct T as (-> & _).
  unfold wanted, named. cbn [files_to_tests get exclude_tests include_tests existsb negb is_nil snd]. rewrite str_eqb_refl, !andb_true_r. apply (mem_names f m l Hm Hl (f, c1, m1)). auto.
Qed.
Lemma filter_same {A : Type} (p q : A -> bool) l : (forall x, In x l -> p x = true <-> In x (filter q l)) -> filter p l = filter q l.
Proof.
  intros H. apply filter_ext_in'. intros x Hx. specialize (H x Hx). rewrite filter_In in H. destruct (p x), (q x); intuition congruence.
Qed.
Lemma filter_single {A : Type} (p : A -> bool) l t : NoDup l -> In t l -> (forall x, In x l -> p x = true <-> In x [t]) -> filter p l = [t].
Proof.
  intros N. induction N as [|x l Hx N IH]; [intros []|]. intros Ht H. cbn [filter]. destruct (p x) eqn:E.
  - apply H in E; [|left; auto]. destruct E as [<- |[]]. f_equal. assert (K : forall y, In y l -> p y = false). { intros y Hy. apply not_true_is_false. intros P. apply H in P; [|right; auto]. destruct P as [<- |[]]. auto. }
    clear -K. induction l as [|y l IH]; auto. cbn [filter]. rewrite (K y) by (left; auto). apply IH. intros; apply K; right; auto.
  - destruct Ht as [->|Ht]; [|apply IH; auto; intros; apply H; right; auto]. assert (p t = true) by (apply H; left; auto). congruence.
Qed.

(** The batches made of the modules. *)
Lemma set_last f (v w : list test) acc : get str_eqb f acc = None -> set str_eqb f w (acc ++ [(f, v)]) = acc ++ [(f, w)].
Proof.
  induction acc as [|[k x] acc IH]; cbn [app get set]; [rewrite str_eqb_refl; auto|]. destruct (str_eqb f k) eqn:E; [discriminate|]. intros H. rewrite IH; auto.
Qed.
Lemma get_last f (v : list test) acc : get str_eqb f acc = None -> get str_eqb f (acc ++ [(f, v)]) = Some v.
Proof. induction acc as [|[k x] acc IH]; cbn [app get]; [rewrite str_eqb_refl; auto|]. destruct (str_eqb f k); [discriminate|auto]. Qed.
Lemma group_more f b : Forall (fun t => file_of t = f) b -> forall r acc pre, get str_eqb f acc = None -> group (b ++ r) (acc ++ [(f, pre)]) = group r (acc ++ [(f, pre ++ b)]).
Proof.
  induction 1 as [|t b Ht H IH]; intros r acc pre N; [rewrite app_nil_r; auto|]. cbn [app group]. unfold file_of in Ht. rewrite Ht, get_last, set_last by auto. rewrite IH by auto. rewrite <- app_assoc. auto.
Qed.
Lemma group_block f b : Forall (fun t => file_of t = f) b -> b <> [] -> forall r acc, get str_eqb f acc = None -> group (b ++ r) acc = group r (acc ++ [(f, b)]).
Proof.
  intros [|t b' Ht H] N r acc G; [congruence|]. cbn [app group]. unfold file_of in Ht. rewrite Ht, G, set_absent by auto. cbn [app]. rewrite (group_more f) by auto. auto.
Qed.
Lemma group_blocks (B : str -> list test) files : NoDup files -> (forall f, Forall (fun t => file_of t = f) (B f)) -> forall acc, (forall f, In f files -> get str_eqb f acc = None) ->
  group (flat_map B files) acc = acc ++ flat_map (fun f => match B f with [] => [] | b => [(f, b)] end) files.
Proof.
  intros N HB. induction N as [|f files Hf N IH]; intros acc G; [cbn; rewrite app_nil_r; auto|]. cbn [flat_map]. destruct (B f) as [|t b] eqn:E; [cbn [app]; apply IH; intros; apply G; right; auto|].
  rewrite (group_block f); [|rewrite <- E; auto|discriminate|apply G; left; auto]. rewrite IH; [rewrite <- app_assoc; auto|].
  intros g Hg. apply (get_None _ str_eqb_spec). unfold keys. rewrite map_app, in_app_iff. intros [X|[X|[]]]; [revert X; apply (get_None _ str_eqb_spec), G; right; auto|]. cbn [fst] in X. subst. auto.
Qed.
Lemma concat_some (B : str -> list test) files : concat (map snd (flat_map (fun f => match B f with [] => [] | b => [(f, b)] end) files)) = flat_map B files.
Proof. induction files as [|f files IH]; auto. cbn [flat_map]. rewrite map_app, concat_app, IH. destruct (B f); auto. cbn [map snd concat]. rewrite app_nil_r. auto. Qed.

(** What the files and the classes must be for the batches to be run as they were made. *)
Definition tidy_run (fm : str -> str -> bool) (load : str -> option modul) (c : config) (by_module : bool) : Prop :=
  load_ok load /\ (forall f, In f (import_files fm c) -> no_bar f) /\ if by_module then NoDup (import_files fm c) else forall f m, load f = Some m -> distinct m.
Definition file_tests fm load c (f : str) : list test := match load f with Some m => filter (wanted fm c) (everything f m) | None => [] end.
Lemma file_tests_file fm load c f : load_ok load -> Forall (fun t => file_of t = f) (file_tests fm load c f).
Proof.
  intros HL. unfold file_tests. destruct (load f) eqn:E; auto. apply Forall_forall. intros t Ht. apply filter_In in Ht. destruct Ht as [Ht _]. apply everything_in in Ht; [|eauto]. destruct t as [[g a] b]. apply Ht.
Qed.
Lemma batches_ok fm load c by_module : tidy_run fm load c by_module ->
  let bs := batches by_module (run_single fm load c) in concat bs = run_single fm load c /\ Forall (fun b => run_batch fm load (map test_text b) = b) bs /\ Forall (fun b => b <> []) bs.
Proof.
  intros (HL & HB & HD) bs. unfold bs, batches. assert (ES : run_single fm load c = flat_map (file_tests fm load c) (import_files fm c)) by (apply runner_chosen; auto). rewrite ES. clear ES. destruct by_module.
  - rewrite group_blocks; auto; [|intros; apply file_tests_file; auto]. cbn [app]. rewrite concat_some. split; auto. split; apply Forall_forall; intros b Hb; apply in_map_iff in Hb; destruct Hb as ([g b'] & <- & Hb); apply in_flat_map in Hb; destruct Hb as (f & Hf & Hb); destruct (file_tests fm load c f) as [|t l] eqn:E; try (destruct Hb; fail); destruct Hb as [Hb|[]]; injection Hb as <- <-; cbn [snd]; [|discriminate].
    rewrite <- E. unfold file_tests in E |- *. destruct (load f) as [m|] eqn:Ef; [|discriminate].
    destruct (run_batch_file fm load f m (filter (wanted fm c) (everything f m)) HL Ef (HB _ Hf)) as (p & -> & Hp); [intros x Hx; apply filter_In in Hx; apply Hx|rewrite E; discriminate|]. apply filter_same. auto.
  - rewrite <- (flat_map_concat_map (fun t => [t])). split; [|split].
    + induction (flat_map (file_tests fm load c) (import_files fm c)) as [|t l IH]; auto. cbn. f_equal. auto.
    + apply Forall_forall. intros b Hb. apply in_map_iff in Hb. destruct Hb as (t & <- & Ht). apply in_flat_map in Ht. destruct Ht as (f & Hf & Ht). unfold file_tests in Ht. destruct (load f) as [m|] eqn:Ef; [|destruct Ht]. apply filter_In in Ht. destruct Ht as [Ht _].
      destruct (run_batch_file fm load f m [t] HL Ef (HB _ Hf)) as (p & -> & Hp); [intros x [<- |[]]; auto|discriminate|]. apply filter_single; auto. eapply everything_once; eauto.
    + apply Forall_forall. intros b Hb. apply in_map_iff in Hb. destruct Hb as (t & <- & _). discriminate.
Qed.

(** The processes. *)
Definition deaths (l : list ask) : nat := length (filter (fun a => match a with Dies _ _ => true | _ => false end) l).
Definition runs fm load (b : list test) : Prop := run_batch fm load (map test_text b) = b.
(** What was run, and the parts lost with the processes which died, are the tests which were taken; the queue holds the others. *)
Definition pool_inv fm load (bs : list (list test)) (n : nat) (p : pool) : Prop :=
  exists rest lost, queue p = map (map test_text) rest /\ Forall (runs fm load) rest /\ Permutation (ran p ++ concat lost ++ concat rest) (concat bs) /\ length lost <= n /\
    (lost = [] -> ran p ++ concat rest = concat bs) /\ Forall (fun l => exists b, In b bs /\ exists k, l = skipn k b) lost /\ incl rest bs /\ (rest <> [] -> length (over p) <= n).
Lemma pool_ok fm load bs asks : Forall (runs fm load) bs -> pool_inv fm load bs (deaths asks) (fold_left (serve fm load) asks (Pool (map (map test_text) bs) [] [])).
Proof.
  intros HB. assert (I0 : pool_inv fm load bs 0 (Pool (map (map test_text) bs) [] [])).
  { exists bs, []. cbn. repeat split; auto. apply incl_refl. }
  revert I0. generalize (Pool (map (map test_text) bs) [] []). change (deaths asks) with (0 + deaths asks). generalize 0 at 1 2.
  induction asks as [|a asks IH]; intros n p I; [cbn; rewrite Nat.add_0_r; auto|]. cbn [fold_left].
  replace (n + deaths (a :: asks)) with ((n + deaths [a]) + deaths asks) by (unfold deaths; cbn [filter]; destruct a; cbn [length]; lia).
  apply IH. clear IH asks. destruct I as (rest & lost & Q & R & P & L & O & S & U & V).
  assert (K : forall n', n <= n' -> pool_inv fm load bs n' p). { intros n' Hn. exists rest, lost. repeat split; auto; [lia|]. intros X. specialize (V X). lia. }
  unfold serve. destruct (existsb (Nat.eqb (who a)) (over p)); [apply K; lia|]. rewrite Q. destruct rest as [|b rest]; cbn [map].
  - exists [], lost. cbn [queue map ran over concat] in *. repeat split; auto; try lia; congruence.
  - inversion R as [|? ? Rb R']; subst. unfold runs in Rb. rewrite Rb. destruct a as [i|i k]; unfold deaths; cbn [filter length].
    + exists rest, lost. cbn [queue ran over]. cbn [concat] in P, O. repeat split; auto; try lia.
      * rewrite <- app_assoc. etransitivity; [|exact P]. apply Permutation_app_head. rewrite !app_assoc. apply Permutation_app_tail, Permutation_app_comm.
      * intros X. rewrite <- app_assoc. auto.
      * intros x Hx. apply U. right; auto.
      * intros X. rewrite Nat.add_0_r. apply V. discriminate.
    + exists rest, (skipn k b :: lost). cbn [queue ran over]. cbn [concat] in P |- *. repeat split; auto.
      * rewrite <- app_assoc. etransitivity; [|exact P]. apply Permutation_app_head. rewrite <- app_assoc. rewrite (app_assoc (firstn k b)), firstn_skipn. rewrite !app_assoc. apply Permutation_app_tail, Permutation_app_comm.
      * cbn [length]. lia.
      * discriminate.
      * constructor; auto. exists b. split; [apply U; left; auto|eauto].
      * intros x Hx. apply U. right; auto.
      * intros _. cbn [length]. assert (length (over p) <= n) by (apply V; discriminate). lia.
Qed.
Lemma finished_over jobs p : finished jobs p = true -> jobs <= length (over p).
Proof.
  unfold finished. rewrite forallb_forall. intros H. rewrite <- (seq_length jobs 0). apply NoDup_incl_length; [apply seq_NoDup|]. intros i Hi. apply H in Hi. apply existsb_exists in Hi. destruct Hi as (j & Hj & E). apply Nat.eqb_eq in E. subst. auto.
Qed.
(** Each test is run at most once, whatever happens to the processes; and when one of them lives to the end, nothing but the rest of the batches of the dead is lost. *)
Theorem runner_deaths fm load c by_module jobs asks : tidy_run fm load c by_module ->
  let l := run_single fm load c in let p := run_pool fm load by_module l asks in
  (exists rest, Permutation (ran p ++ rest) l) /\
  (finished jobs p = true -> deaths asks < jobs ->
   exists lost, Permutation (ran p ++ concat lost) l /\ length lost <= deaths asks /\ Forall (fun x => exists b k, In b (batches by_module l) /\ x = skipn k b) lost).
Proof.
  intros T l p. destruct (batches_ok fm load c by_module T) as (C & B & _). fold l in C, B.
  destruct (pool_ok fm load (batches by_module l) asks B) as (rest & lost & Q & R & P & L & O & S & U & V). unfold p, run_pool, queue_of in *. rewrite C in P. split; [eexists; exact P|].
  intros F D. apply finished_over in F. destruct rest as [|b rest]; [|assert (length (over (fold_left (serve fm load) asks (Pool (map (map test_text) (batches by_module l)) [] []))) <= deaths asks) by (apply V; discriminate); lia].
  exists lost. cbn [concat] in P. rewrite app_nil_r in P. split; auto. split; auto. eapply Forall_impl; [|exact S]. intros x (b & Hb & k & ->). eauto.
Qed.
(** When no process dies, exactly the tests one process would run are run, each as often. *)
Theorem runner_parallel fm load c jobs by_module debugged asks : tidy_run fm load c by_module -> deaths asks = 0 ->
  (let l := run_single fm load c in finished (jobs_used by_module jobs l) (run_pool fm load by_module l asks) = true) ->
  executed fm load c jobs by_module debugged asks = run_single fm load c /\ collected fm load c = length (executed fm load c jobs by_module debugged asks).
Proof.
  intros T D F. assert (G : executed fm load c jobs by_module debugged asks = run_single fm load c); [|rewrite G; auto]. unfold executed. set (l := run_single fm load c) in *. cbv zeta in F. destruct ((1 <? jobs) && negb debugged && (1 <? jobs_used by_module jobs l)) eqn:E; auto.
  apply andb_true_iff in E. destruct E as [_ E]. apply Nat.ltb_lt in E. destruct (batches_ok fm load c by_module T) as (C & B & _). fold l in C, B.
  destruct (pool_ok fm load (batches by_module l) asks B) as (rest & lost & Q & R & P & L & O & S & U & V). unfold run_pool, queue_of in *. rewrite D in *. destruct lost; [|cbn in L; lia]. specialize (O eq_refl).
  apply finished_over in F. destruct rest as [|b rest]; [|assert (length (over (fold_left (serve fm load) asks (Pool (map (map test_text) (batches by_module l)) [] []))) <= 0) by (apply V; discriminate); lia].
  cbn [concat] in O. rewrite app_nil_r in O. rewrite O. auto.
Qed.
(** The processes come to the end when each asks often enough. *)
Theorem runner_finishes fm load by_module l jobs asks :
  (forall i, i < jobs -> length (batches by_module l) < length (filter (fun a => who a =? i) asks)) -> finished jobs (run_pool fm load by_module l asks) = true.
Proof.
  intros H. unfold finished. apply forallb_forall. intros i Hi. apply in_seq in Hi. specialize (H i ltac:(lia)). unfold run_pool, queue_of.
  assert (K : length (queue (Pool (map (map test_text) (batches by_module l)) [] [])) < length (filter (fun a => who a =? i) asks)) by (cbn [queue]; rewrite map_length; auto).
  revert K. generalize (Pool (map (map test_text) (batches by_module l)) [] []). clear.
  assert (M : forall q p, existsb (Nat.eqb i) (over p) = true -> existsb (Nat.eqb i) (over (fold_left (serve fm load) q p)) = true).
  { clear asks. induction q as [|a q IH]; intros p H; auto. cbn [fold_left]. apply IH. unfold serve. destruct (existsb (Nat.eqb (who a)) (over p)); auto. destruct (queue p); cbn [over existsb]; [rewrite H; apply orb_true_r|]. destruct a; cbn [over existsb]; auto. rewrite H. apply orb_true_r. }
  induction asks as [|a asks IH0]; intros p K; [cbn in K; lia|]. cbn [fold_left]. cbn [filter] in K. destruct (Nat.eqb_spec (who a) i) as [Ei|Ei].
  - cbn [length] in K. destruct (existsb (Nat.eqb i) (over p)) eqn:E; [apply M; unfold serve; rewrite Ei, E; auto|]. unfold serve at 2. rewrite Ei, E. destruct (queue p) as [|b q] eqn:Q; [apply M; cbn [over existsb]; rewrite Nat.eqb_refl; auto|].
    destruct a; [apply IH0; cbn [queue length] in *; lia|]. apply M. cbn [over existsb]. cbn [who] in Ei. subst. rewrite Nat.eqb_refl. auto.
  - apply IH0. unfold serve. destruct (existsb _ (over p)); auto. destruct (queue p) as [|b q] eqn:Q; [cbn [queue length]; lia|]. destruct a; cbn [queue length] in *; lia.
Qed.

(** * Reports *)
Definition errors_of (l : list call) : list str := flat_map (fun c => match c with AddError false _ s => [s] | _ => [] end) l.
Definition failures_of (l : list call) : list str := flat_map (fun c => match c with AddFailure _ s => [s] | _ => [] end) l.
(** What is told at once: an error of a class or module, and a failing subtest. *)
Definition at_once (guess : str -> str) (t : test) (l : list call) : list note :=
  let '(f, cls, m) := t in
  flat_map (fun c => match c with AddError true n s => [Result Err [s] (guess s) n] | AddSubTest d (Some s) => [Result Err [s] f (full cls m ++ lit " " ++ d)] | _ => [] end) l.
Definition verdict (l : list call) (skipped : bool) : cond :=
  if skipped then Skip else match errors_of l, failures_of l with [], [] => Ok | [], _ => Fail | _, _ => Err end.
Lemma on_calls_eq guess t l : forall e f, on_calls guess t (Res (Some e) (Some f)) l = (Res (Some (e ++ errors_of l)) (Some (f ++ failures_of l)), at_once guess t l).
Proof.
  destruct t as [[file cls] m]. induction l as [|c l IH]; intros e f; [cbn; rewrite !app_nil_r; auto|]. cbn [on_calls]. unfold on_call.
  destruct c as [[|] n s|n s|d [s|]|]; cbn [TestRun.errors TestRun.failures add option_map]; rewrite IH; unfold errors_of, failures_of, at_once; cbn [flat_map]; rewrite <- ?app_assoc; auto.
  unfold report. cbn [app concat]. rewrite app_nil_r. auto.
Qed.
(** For each test there is a start and one final report, after those told at once; with the texts of all errors and failures. *)
Theorem runner_report guess r l :
  run_all guess r l = flat_map (fun x => let '(f, cls, m, calls, skipped) := x in
    Started f (full cls m) :: at_once guess (f, cls, m) calls ++ [Result (verdict calls skipped) (if skipped then [] else errors_of calls ++ failures_of calls) f (full cls m)]) l.
Proof.
  revert r. induction l as [|[[[[f cls] m] calls] k] l IH]; intros r; auto. cbn [run_all flat_map]. unfold run_test. rewrite on_calls_eq. rewrite IH. cbn [app]. f_equal. f_equal. f_equal. f_equal.
  unfold verdict, report. cbn [TestRun.errors TestRun.failures held_list]. destruct k; auto. destruct (errors_of calls), (failures_of calls); auto.
Qed.
(** The reports arrive as they were made, however they are put together. *)
Lemma payload_map {A : Type} (l : list A) : payload (map (@Notification A) l) = l.
Proof. induction l as [|x l IH]; auto. unfold payload in *. cbn [map flat_map app]. rewrite IH. auto. Qed.
Lemma no_kill {A : Type} (l : list A) : existsb (fun x => match x with @Kill _ => true | _ => false end) (map (@Notification A) l) = false.
Proof. induction l; auto. Qed.
Theorem runner_sent {A : Type} (l : list A) sizes : let sent := concat (send (map (@Notification A) l ++ [Kill]) sizes) in
  (exists rest, l = sent ++ rest) /\ (length l < list_sum (map S sizes) -> sent = l).
Proof.
  cbv zeta. revert l. induction sizes as [|n sizes IH]; intros l; [split; [exists l; auto|cbn; lia]|]. cbn [send]. change (list_sum (map S (n :: sizes))) with (S n + list_sum (map S sizes)).
  destruct (le_lt_dec (S n) (length l)) as [L|L].
  - rewrite firstn_app, skipn_app, map_length. replace (S n - length l) with 0 by lia. change (firstn 0 [Kill]) with (@nil (message A)). change (skipn 0 [Kill]) with [@Kill A]. rewrite app_nil_r, firstn_map, skipn_map.
    destruct (map (@Notification A) (firstn (S n) l)) as [|x r] eqn:E; [destruct l; [cbn in L; lia|discriminate]|]. rewrite <- E, no_kill, payload_map. cbn [concat]. destruct (IH (skipn (S n) l)) as ((rest & H1) & H2). split.
    + exists rest. rewrite <- app_assoc, <- H1, firstn_skipn. auto.
    + intros H. rewrite H2, firstn_skipn; auto. rewrite skipn_length. lia.
  - rewrite (firstn_all2 (n := S n)) by (rewrite app_length, map_length; cbn; lia).
    destruct (map (@Notification A) l ++ [Kill]) as [|x r] eqn:E; [destruct l; discriminate|]. rewrite <- E, existsb_app, no_kill. cbn [existsb orb concat]. unfold payload at 1 2. rewrite flat_map_app. fold (payload (map (@Notification A) l)). rewrite payload_map. cbn [flat_map]. rewrite !app_nil_r. split; auto. exists []. rewrite app_nil_r. auto.
Qed.

(** * What does not hold *)
Definition cl (n : str) (l : list str) : class := Class n (map (fun a => (a, true)) l).
Definition one_file (m : modul) (f : str) : option modul := if str_eqb f (lit "/w/a.py") || str_eqb f (lit "/w/a|b.py") || str_eqb f (lit "/w/b.py") then Some m else None.
Definition on_files (l : list str) : config := Config [] [] [] [] [] [] (map (fun f => (f, Some (File f))) l).
Definition never (_ _ : str) : bool := false.
Definition two_ask (n : nat) : list ask := flat_map (fun _ => [Asks 0; Asks 1]) (seq 0 n).
(** A class whose only test is runTest is run again with each batch of its file. *)
Definition m_runtest : modul := [cl (lit "C") [lit "test_a"; lit "test_b"]; cl (lit "D") [lit "runTest"]].
Theorem runner_runtest_refuted : exists load c asks, let l := run_single never load c in
  NoDup l /\ deaths asks = 0 /\ finished (jobs_used false 2 l) (run_pool never load false l asks) = true /\
  length (filter (fun t => str_eqb (name2 t) (lit "D.runTest")) (executed never load c 2 false false asks)) = 3.
Proof.
  exists (one_file m_runtest), (on_files [lit "/w/a.py"]), (two_ask 3). cbv zeta. split; [|repeat split; vm_compute; reflexivity].
  assert (E : run_single never (one_file m_runtest) (on_files [lit "/w/a.py"]) = [(lit "/w/a.py", lit "C", lit "test_a"); (lit "/w/a.py", lit "C", lit "test_b"); (lit "/w/a.py", lit "D", lit "runTest")]) by reflexivity.
  rewrite E. repeat constructor; cbn [In]; intuition discriminate.
Qed.
(** A class with a second name in its file is run twice by one process and four times by several when they are given single tests. *)
Definition m_alias : modul := [cl (lit "C") [lit "test_a"]; cl (lit "C") [lit "test_a"]].
Theorem runner_alias_refuted : exists load c asks, let l := run_single never load c in
  load_ok load /\ deaths asks = 0 /\ finished (jobs_used false 2 l) (run_pool never load false l asks) = true /\ length l = 2 /\ length (executed never load c 2 false false asks) = 4.
Proof.
  exists (one_file m_alias), (on_files [lit "/w/a.py"]), (two_ask 3). cbv zeta. split; [|repeat split; vm_compute; reflexivity].
  intros f m. unfold one_file. destruct (_ || _ || _); [|discriminate]. intros E. injection E as <-. unfold m_alias, cl. repeat constructor; cbn; intuition discriminate.
Qed.
(** The tests of a file with a bar in its path are not run in several processes. *)
Definition m_two : modul := [cl (lit "C") [lit "setUp"; lit "test_a"; lit "test_b"]].
Theorem runner_bar_refuted : exists load c asks, let l := run_single never load c in
  length l = 2 /\ deaths asks = 0 /\ finished (jobs_used false 2 l) (run_pool never load false l asks) = true /\ executed never load c 2 false false asks = [].
Proof. exists (one_file m_two), (on_files [lit "/w/a|b.py"]), (two_ask 3). vm_compute. auto. Qed.
(** A file given twice: its tests are run twice by one process, once by several which are given modules. *)
Theorem runner_twice_refuted : exists load c asks, let l := run_single never load c in
  length l = 6 /\ deaths asks = 0 /\ finished (jobs_used true 2 l) (run_pool never load true l asks) = true /\ length (executed never load c 2 true false asks) = 4.
Proof. exists (one_file m_two), (on_files [lit "/w/a.py"; lit "/w/b.py"; lit "/w/a.py"]), (two_ask 3). vm_compute. auto. Qed.
(** When all processes die the run ends, and the tests left are not run. *)
Theorem runner_lost_refuted : exists load c asks, let l := run_single never load c in
  tidy_run never load c true /\ finished (jobs_used true 2 l) (run_pool never load true l asks) = true /\ length l = 4 /\ executed never load c 2 true false asks = [].
Proof.
  exists (one_file m_two), (on_files [lit "/w/a.py"; lit "/w/b.py"]), [Dies 0 0; Dies 1 0]. cbv zeta. split; [|repeat split; vm_compute; reflexivity].
  split; [|split].
  - intros f m. unfold one_file. destruct (_ || _ || _); [|discriminate]. intros E. injection E as <-. unfold m_two, cl. repeat constructor; cbn; intuition discriminate.
  - intros f [<- |[<- |[]]]; unfold no_bar; cbn; intuition discriminate.
  - change (NoDup [lit "/w/a.py"; lit "/w/b.py"]). repeat constructor; cbn [In]; intuition discriminate.
Qed.
(** A method which is named, and whose class is named too, is not run when its name does not begin with test. *)
Theorem runner_prefix_refuted : exists load l t, load_ok load /\ mem (name2 t) l = true /\
  let run l := run_single never load (Config [] [] [] [] l [] [(lit "/w/a.py", Some (File (lit "a.py")))]) in In t (run [name2 t]) /\ ~ In t (run l).
Proof.
  exists (one_file [cl (lit "C") [lit "check"; lit "test_a"]]), [lit "C"; lit "C.check"], (lit "/w/a.py", lit "C", lit "check"). split; [|split; [reflexivity|]].
  - intros f m. unfold one_file. destruct (_ || _ || _); [|discriminate]. intros E. injection E as <-. unfold cl. repeat constructor; cbn; intuition discriminate.
  - split; [vm_compute; auto|]. vm_compute. intuition discriminate.
Qed.
(** A test with a failing subtest is reported as passed in the end. *)
Theorem runner_subtest_refuted : exists guess t d s,
  run_all guess (Res None None) [(t, [AddSubTest d (Some s)], false)] = [Started (file_of t) (name2 t); Result Err [s] (file_of t) (name2 t ++ lit " " ++ d); Result Ok [] (file_of t) (name2 t)].
Proof. exists (fun s => s), (lit "/w/a.py", lit "C", lit "test_a"), (lit "(i=1)"), (lit "AssertionError"). reflexivity. Qed.
(** The error of a test which was skipped is not reported, as when tearDown raises afterwards. *)
Theorem runner_skip_refuted : exists guess t n s, run_all guess (Res None None) [(t, [AddOther; AddError false n s], true)] = [Started (file_of t) (name2 t); Result Skip [] (file_of t) (name2 t)].
Proof. exists (fun s => s), (lit "/w/a.py", lit "C", lit "test_a"), (lit "C.test_a"), (lit "ValueError"). reflexivity. Qed.

(** * Concrete cases *)
Definition tree : list node := [File (lit "test_a.py"); File (lit "notes.txt"); File (lit "__init__.py");
  Folder (lit "pkg") [File (lit "__init__.py"); File (lit "test_b.pyw")]; Folder (lit "data") [File (lit "test_c.py")]].
Definition ex_config : config := Config [] [lit "test_b"] [] [lit "test_x.py"] [] [] [(lit "/w", Some (Folder (lit "w") tree)); (lit "/gone", None)].
Definition equal_names (a b : str) : bool := str_eqb a b.
Example ex_files : import_files equal_names ex_config = [lit "/w/test_a.py"; lit "/w/pkg/test_b.pyw"].
Proof. reflexivity. Qed.
Example ex_tidy : tidy tree.
Proof.
  unfold tree. constructor; [repeat constructor; cbn [In name_of map]; intuition discriminate|intros x [<- |[<- |[<- |[<- |[<- |[]]]]]]; cbn; intuition discriminate|].
  intros n l' [E|[E|[E|[E|[E|[]]]]]]; try discriminate; injection E as <- <-; (constructor; [repeat constructor; cbn [In name_of map]; intuition discriminate| |]).
  - intros x [<- |[<- |[]]]; cbn; intuition discriminate.
  - intros n l' [E|[E|[]]]; discriminate.
  - intros x [<- |[]]; cbn; intuition discriminate.
  - intros n l' [E|[]]; discriminate.
Qed.
Definition ex_load (f : str) : option modul :=
  if str_eqb f (lit "/w/test_a.py") then Some m_two else if str_eqb f (lit "/w/pkg/test_b.pyw") then Some [cl (lit "D") [lit "helper"; lit "test_a"; lit "test_c"]] else None.
Example ex_tidy_run by_module : tidy_run equal_names ex_load ex_config by_module.
Proof.
  split; [|split].
  - intros f m. unfold ex_load. destruct (str_eqb f _); [|destruct (str_eqb f _); [|discriminate]]; intros E; injection E as <-; unfold m_two, cl; repeat constructor; cbn; intuition discriminate.
  - intros f [<- |[<- |[]]]; unfold no_bar; cbn; intuition discriminate.
  - destruct by_module; [change (NoDup [lit "/w/test_a.py"; lit "/w/pkg/test_b.pyw"]); repeat constructor; cbn [In]; intuition discriminate|]. intros f m. unfold ex_load. destruct (str_eqb f _); [|destruct (str_eqb f _); [|discriminate]]; intros E; injection E as <-; unfold distinct, m_two, cl; (split; [repeat constructor; cbn; intuition discriminate|]); constructor; auto; cbn [attrs map fst]; repeat constructor; cbn [In]; intuition discriminate.
Qed.
Example ex_run : map name2 (run_single equal_names ex_load ex_config) = [lit "C.test_a"; lit "D.test_a"; lit "D.test_c"].
Proof. reflexivity. Qed.
Example ex_parallel : deaths (two_ask 4) = 0 /\ (let l := run_single equal_names ex_load ex_config in jobs_used false 2 l = 2 /\ finished (jobs_used false 2 l) (run_pool equal_names ex_load false l (two_ask 4)) = true) /\
  map name2 (executed equal_names ex_load ex_config 2 false false (two_ask 4)) = [lit "C.test_a"; lit "D.test_a"; lit "D.test_c"].
Proof. vm_compute. auto. Qed.
Example ex_death : let l := run_single equal_names ex_load ex_config in let asks := Dies 0 1 :: two_ask 4 in
  deaths asks < 2 /\ finished 2 (run_pool equal_names ex_load true l asks) = true /\ map name2 (ran (run_pool equal_names ex_load true l (Asks 1 :: asks))) = [lit "C.test_a"; lit "D.test_a"].
Proof. vm_compute. auto. Qed.
Example ex_finishes : forall i, i < 2 -> length (batches false (run_single equal_names ex_load ex_config)) < length (filter (fun a => who a =? i) (two_ask 4)).
Proof. intros [|[|i]] H; [vm_compute; auto|vm_compute; auto|lia]. Qed.
Example ex_once : NoDup (run_single equal_names ex_load ex_config).
Proof. destruct (ex_tidy_run true) as (L & _ & N), (ex_tidy_run false) as (_ & _ & D). apply runner_once; auto. Qed.
Example ex_report : let t := (lit "/w/a.py", lit "C", lit "test_a") in
  run_all (fun s => s) (Res None None) [(t, [AddError true (lit "C <setUpClass>") (lit "E1")], false); (t, [AddFailure (lit "C.test_a") (lit "F"); AddError false (lit "C.test_a") (lit "E")], false); (t, [AddFailure (lit "C.test_a") (lit "F")], false)] =
  [Started (lit "/w/a.py") (lit "C.test_a"); Result Err [lit "E1"] (lit "E1") (lit "C <setUpClass>"); Result Ok [] (lit "/w/a.py") (lit "C.test_a");
   Started (lit "/w/a.py") (lit "C.test_a"); Result Err [lit "E"; lit "F"] (lit "/w/a.py") (lit "C.test_a");
   Started (lit "/w/a.py") (lit "C.test_a"); Result Fail [lit "F"] (lit "/w/a.py") (lit "C.test_a")].
Proof. reflexivity. Qed.
Example ex_sent : send (map (@Notification nat) [1; 2; 3] ++ [Kill]) [1; 0; 5] = [[1; 2]; [3]; []].
Proof. reflexivity. Qed.

Print Assumptions runner_chosen.
Print Assumptions runner_files.
Print Assumptions runner_files_once.
Print Assumptions runner_once.
Print Assumptions runner_deaths.
Print Assumptions runner_parallel.
Print Assumptions runner_finishes.
Print Assumptions runner_report.
Print Assumptions runner_sent.
Print Assumptions runner_runtest_refuted.
Print Assumptions runner_alias_refuted.
Print Assumptions runner_bar_refuted.
Print Assumptions runner_twice_refuted.
Print Assumptions runner_lost_refuted.
Print Assumptions runner_prefix_refuted.
Print Assumptions runner_subtest_refuted.
Print Assumptions runner_skip_refuted.
