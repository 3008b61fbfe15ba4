(** C65: the expression offered for a variable is that variable. *)
From Coq Require Import String.
From Coq Require Import List NArith ZArith Bool Lia PeanoNat.
From Verif Require Import Base Dict SafeRepr SafeReprProps Grouping EvalName.
Import ListNotations.
Open Scope nat_scope.
Open Scope list_scope.

(** * Specification *)
(** A name which can be written in a program *)
Definition identifier (x : str) : bool :=
  match x with c :: r => letter c && forallb name_char r && negb (existsb (str_eqb x) keywords) | [] => false end.
(** Keys made of numbers, texts, None, truth values and tuples of them *)
Fixpoint plain (v : value) : bool :=
  match v with
  | VInt _ | VNone | VBool _ => true
  | VStr s => forallb (fun c => (c <? 1114112)%N) s
  | VTuple l => forallb plain l
  | _ => false
  end.
(** No two keys of a dictionary are equal *)
Fixpoint distinct (l : list (value * value)) : Prop :=
  match l with [] => True | (k, _) :: r => Forall (fun p => py_eqb k (fst p) = false) r /\ distinct r end.
(** No object of the program is part of the value *)
Fixpoint object_free (v : value) : bool :=
  match v with VRef _ => false | VTuple l => forallb object_free l | _ => true end.
(** What an object whose entries are shown must satisfy: dir() gives names, if there are any; each one is an identifier and is given once; keys of
    a dictionary of one of the types whose text is taken for an expression are plain *)
Definition ordinary (w : world) (v : value) : Prop :=
  NoDup (keys (attributes w v)) /\ Forall (fun n => identifier n = true) (keys (attributes w v)) /\
  (attributes w v = [] -> own w v = []) /\
  match contents_of w v with Pairs l => distinct l /\ Forall (fun p => object_free (fst p) = true -> plain (fst p) = true) l | _ => True end.
(** The same for the variables of a frame; the dictionary of return values is one of the program's objects *)
Definition ordinary_frame (w : world) (F : frame) : Prop :=
  NoDup (keys (locals F)) /\ NoDup (keys (globals F)) /\
  Forall (fun n => identifier n = true) (keys (locals F)) /\ Forall (fun n => identifier n = true) (keys (globals F)) /\
  (forall v, lookup F return_values = Some v -> ordinary w v).
(** The variables the client can come to from a frame, by opening one after the other: those of the frame, those of the module which are not hidden
    by a variable of the frame, and the entries of one it came to *)
Inductive reached (C : limits) (w : world) (pres : scope -> presentation) (F : frame) : variable -> Prop :=
  | reached_local x : In x (frame_variables w pres (locals F)) -> reached C w pres F x
  | reached_global x : In x (frame_variables w pres (globals F)) -> get str_eqb (name x) (locals F) = None ->
      (get str_eqb return_values (globals F) <> None -> get str_eqb return_values (locals F) = None) -> reached C w pres F x
  | reached_entry x y : reached C w pres F x -> (forall v, what x = SVal v -> ordinary w v) -> In y (children C w pres x) -> reached C w pres F y.

(** * Reading expressions *)
Lemma step_mono rec rec' m s r : (forall m s r, rec m s = Some r -> rec' m s = Some r) -> step rec m s = Some r -> step rec' m s = Some r.
Proof.
  intros H E. destruct m; cbn [step] in *;
  repeat match goal with
  | E : match rec ?m ?s with Some _ => _ | None => None end = Some _ |- _ =>
      let q := fresh in destruct (rec m s) as [[? ?]|] eqn:q; [apply H in q; rewrite q|discriminate E]
  | E : rec _ _ = Some _ |- _ => apply H in E; exact E
  | E : Some _ = Some _ |- _ => exact E
  | E : context[match begins ?c ?s with Some _ => _ | None => _ end] |- _ => destruct (begins c s) eqn:?
  | E : context[match skip ?s with [] => _ | _ => _ end] |- _ => destruct (skip s) eqn:?
  | E : context[match ?s with [] => _ | _ => _ end] |- _ => is_var s; destruct s
  | E : context[let '(_, _) := take ?a ?b in _] |- _ => destruct (take a b)
  | E : (if ?c then _ else _) = Some _ |- _ => destruct c
  | E : None = Some _ |- _ => discriminate E
  | E : context[match text ?a ?b with Some _ => _ | None => _ end] |- _ => destruct (text a b) as [[? ?]|]
  | E : context[match py_digits ?a ?b ?c with Some _ => _ | None => _ end] |- _ => destruct (py_digits a b c)
  end.
Qed.
Lemma parse_S n : forall m s r, parse n m s = Some r -> parse (S n) m s = Some r.
Proof.
  induction n as [|n IH]; intros m s r E; [discriminate|]. cbn [parse] in E. change (parse (S (S n)) m s) with (step (parse (S n)) m s).
  eapply step_mono; [exact IH|exact E].
Qed.
Lemma parse_le n n' m s r : n <= n' -> parse n m s = Some r -> parse n' m s = Some r.
Proof. intros L E. induction L; auto. now apply parse_S. Qed.
Lemma parse_same n n' m s r r' : parse n m s = Some r -> parse n' m s = Some r' -> r = r'.
Proof. intros A B. apply (parse_le _ (n + n')) in A; [|lia]. apply (parse_le _ (n + n')) in B; [|lia]. rewrite A in B. now injection B. Qed.

Definition gives (m : mode) (s : str) (e : expr) (r : str) : Prop := exists n, parse n m s = Some (e, r).
Ltac both A B := let n := fresh "n" in let k := fresh "k" in destruct A as [n A]; destruct B as [k B]; exists (S (n + k));
  cbn [parse step]; apply (parse_le _ (n + k)) in A; [|lia]; apply (parse_le _ (n + k)) in B; [|lia]; rewrite ?A.
Lemma g_tuple s e r e' r' : gives MSum s e r -> gives (MMore [e]) r e' r' -> gives MTuple s e' r'.
Proof. intros A B. both A B. exact B. Qed.
Lemma g_sum s e r e' r' : gives MPrim s e r -> gives (MPlus e) r e' r' -> gives MSum s e' r'.
Proof. intros A B. both A B. exact B. Qed.
Lemma skip_neq c r : c <> 32%N -> skip (c :: r) = c :: r.
Proof. intros H. unfold skip. cbn [take]. destruct (N.eqb_spec 32 c); [congruence|reflexivity]. Qed.
Lemma skip_space r : skip (32%N :: r) = skip r.
Proof. unfold skip. cbn [take]. rewrite N.eqb_refl. destruct (take (N.eqb 32) r). reflexivity. Qed.
Lemma g_neg s e r : gives MPrim s e r -> gives MPrim (45%N :: s) (ENeg e) r.
Proof. intros [n A]. exists (S n). cbn [parse step]. rewrite skip_neq by discriminate. cbn [begins N.eqb Pos.eqb]. now rewrite A. Qed.
Lemma g_prim c s e r e' r' : c <> 32%N -> c <> 45%N -> gives MAtom (c :: s) e r -> gives (MTrail e) r e' r' -> gives MPrim (c :: s) e' r'.
Proof.
  intros H1 H2 A B. both A B. rewrite skip_neq by exact H1. cbn [begins]. destruct (N.eqb_spec c 45); [congruence|]. rewrite A. exact B.
Qed.
Lemma g_space s e r : gives MPrim s e r -> gives MPrim (32%N :: s) e r.
Proof. intros [[|n] A]; [discriminate|]. exists (S n). cbn [parse step] in *. now rewrite skip_space. Qed.

(** The rest does not continue a name *)
Definition boundary (r : str) : Prop := match r with [] => True | c :: _ => name_char c = false end.
Lemma take_all ok a r : forallb ok a = true -> match r with [] => True | c :: _ => ok c = false end -> take ok (a ++ r) = (a, r).
Proof.
  intros A B. induction a as [|c a IH]; cbn [app take].
  - destruct r as [|c r]; [reflexivity|]. cbn [take]. now rewrite B.
  - cbn [forallb] in A. apply andb_prop in A as [A1 A2]. rewrite A1, (IH A2). reflexivity.
Qed.
Lemma letter_char c : letter c = true -> name_char c = true.
Proof. unfold name_char. now intros ->. Qed.
Lemma letter_facts c : letter c = true -> c <> 32%N /\ c <> 45%N /\ c <> 40%N /\ c <> 39%N /\ c <> 34%N /\ is_digit c = false.
Proof.
  intros H. assert (D : is_digit c = false).
  { destruct (is_digit c) eqn:D; [|reflexivity]. exfalso. unfold is_digit in D. apply andb_prop in D as [D1 D2]. apply N.leb_le in D1, D2.
    unfold letter in H. repeat (apply orb_prop in H as [H|H]); try (apply andb_prop in H as [H H']); try apply N.leb_le in H; try apply N.leb_le in H';
    try apply N.eqb_eq in H; lia. }
  repeat split; auto; intros ->; discriminate H.
Qed.
Lemma identifier_parts x : identifier x = true ->
  exists c t, x = c :: t /\ letter c = true /\ forallb name_char x = true /\ existsb (str_eqb x) keywords = false.
Proof.
  destruct x as [|c t]; [discriminate|]. cbn [identifier]. intros H. apply andb_prop in H as [H K]. apply andb_prop in H as [L A].
  exists c, t. repeat split; auto. - cbn [forallb]. now rewrite letter_char, A. - now destruct (existsb _ _).
Qed.
Lemma g_name x r : identifier x = true -> boundary r -> gives MAtom (x ++ r) (EName x) r.
Proof.
  intros I B. destruct (identifier_parts x I) as (c & t & -> & L & A & K). destruct (letter_facts c L) as (H1 & H2 & H3 & H4 & H5 & H6).
  exists 1. cbn [parse step]. cbn [app]. destruct (N.eqb_spec c 40); [congruence|]. destruct (N.eqb_spec c 39); [congruence|].
  destruct (N.eqb_spec c 34); [congruence|]. cbn [orb]. rewrite H6, L. change (c :: t ++ r) with ((c :: t) ++ r).
  rewrite take_all by (auto; destruct r; auto). cbv beta iota. rewrite K.
  assert (forall k, In k keywords -> str_eqb (c :: t) k = false) as NK.
  { intros k Hk. destruct (str_eqb (c :: t) k) eqn:E; [|reflexivity]. assert (existsb (str_eqb (c :: t)) keywords = true); [|congruence].
    apply existsb_exists. eauto. }
  rewrite !NK by (vm_compute; tauto). reflexivity.
Qed.
Lemma g_attr e x r e' r' : identifier x = true -> boundary r -> gives (MTrail (EAttr e x)) r e' r' -> gives (MTrail e) (46%N :: x ++ r) e' r'.
Proof.
  intros I B [n A]. destruct (identifier_parts x I) as (c & t & -> & L & AL & K). destruct (letter_facts c L) as (H1 & _).
  exists (S n). cbn [parse step]. rewrite skip_neq by discriminate. cbn [begins N.eqb Pos.eqb]. cbn [app]. rewrite skip_neq by exact H1.
  change (c :: t ++ r) with ((c :: t) ++ r). rewrite take_all by (auto; destruct r; auto). cbv beta iota. rewrite L, K. exact A.
Qed.
Lemma g_index e s i r e' r' : gives MTuple s i (93%N :: r) -> gives (MTrail (EIndex e i)) r e' r' -> gives (MTrail e) (91%N :: s) e' r'.
Proof.
  intros A B. both A B. rewrite skip_neq by discriminate. cbn [begins N.eqb Pos.eqb]. rewrite A. rewrite skip_neq by discriminate.
  cbn [begins N.eqb Pos.eqb]. exact B.
Qed.
Lemma g_call e s i r e' r' : gives MTuple s i (41%N :: r) -> gives (MTrail (ECall e i)) r e' r' -> gives (MTrail e) (40%N :: s) e' r'.
Proof.
  intros A B. both A B. rewrite skip_neq by discriminate. cbn [begins N.eqb Pos.eqb]. rewrite A. rewrite skip_neq by discriminate.
  cbn [begins N.eqb Pos.eqb]. exact B.
Qed.
(** The rest ends a primary: nothing, or a closing bracket, or a comma *)
Definition ends (r : str) : Prop := match r with [] => True | c :: _ => c = 93%N \/ c = 41%N \/ c = 44%N end.
Lemma g_trail_end e r : ends r -> gives (MTrail e) r e r.
Proof. intros H. exists 1. destruct r as [|c r]; [reflexivity|]. destruct H as [-> | [-> | ->]]; reflexivity. Qed.
Lemma g_plus_end e r : ends r -> gives (MPlus e) r e r.
Proof. intros H. exists 1. destruct r as [|c r]; [reflexivity|]. destruct H as [-> | [-> | ->]]; reflexivity. Qed.
Lemma ends_boundary r : ends r -> boundary r.
Proof. intros H. destruct r as [|c r]; [exact I|]. destruct H as [-> | [-> | ->]]; reflexivity. Qed.
Lemma g_more_one e r : match r with [] => True | c :: _ => c = 93%N \/ c = 41%N end -> gives (MMore [e]) r e r.
Proof. intros H. exists 1. destruct r as [|c r]; [reflexivity|]. destruct H as [-> | ->]; reflexivity. Qed.

(** ** The texts of keys *)
Definition value_ind' (P : value -> Prop) (Hi : forall z, P (VInt z)) (Hs : forall s, P (VStr s)) (Hn : P VNone) (Hb : forall b, P (VBool b))
  (Ht : forall l, Forall P l -> P (VTuple l)) (Hf : forall n, P (VFloat n)) (He : forall t z, P (VEnum t z)) (Hr : forall a, P (VRef a)) : forall v, P v :=
  fix go (v : value) : P v :=
    match v with
    | VInt z => Hi z | VStr s => Hs s | VNone => Hn | VBool b => Hb b
    | VTuple l => Ht l ((fix all (l : list value) : Forall P l := match l with [] => Forall_nil _ | x :: l => Forall_cons _ (go x) (all l) end) l)
    | VFloat n => Hf n | VEnum t z => He t z | VRef a => Hr a
    end.
Fixpoint ast (v : value) : expr :=
  match v with VInt z => if (z <? 0)%Z then ENeg (EConst (VInt (- z))) else EConst v | VTuple l => ETuple (map ast l) | _ => EConst v end.
Fixpoint eval_all (w : world) (F : frame) (l : list expr) (acc : list value) : option value :=
  match l with [] => Some (VTuple (rev acc)) | x :: l => match eval w F x with Some v => eval_all w F l (v :: acc) | None => None end end.
Lemma eval_tuple w F l : eval w F (ETuple l) = eval_all w F l [].
Proof. cbn [eval]. generalize (@nil value) as acc. induction l as [|x l IH]; intros acc; [reflexivity|]. cbn [eval_all]. destruct (eval w F x); auto. Qed.
Lemma eval_ast w F : forall v, eval w F (ast v) = Some v.
Proof.
  apply value_ind'; try reflexivity.
  - intros z. cbn [ast]. destruct (Z.ltb_spec z 0); [|reflexivity]. cbn [eval number option_map]. now rewrite Z.opp_involutive.
  - intros l H. cbn [ast]. rewrite eval_tuple. change (Some (VTuple l)) with (Some (VTuple (rev [] ++ l))). generalize (@nil value) as acc.
    induction H as [|x l Hx Hl IH]; intros acc; cbn [map eval_all].
    + now rewrite app_nil_r.
    + rewrite Hx, IH. cbn [rev]. now rewrite <- app_assoc.
Qed.

Lemma hex_number_eq s : forall acc, hex_number s acc = unhexs acc s.
Proof. induction s as [|c s IH]; intros acc; [reflexivity|]. cbn [hex_number unhexs]. change (hex_value c) with (unhex c). destruct (unhex c); auto. Qed.
Lemma text_esc pr q c r : q = 39%N \/ q = 34%N -> (c < 1114112)%N -> text q (esc pr false q c ++ r) = cons_to (Some c) (text q r).
Proof.
  intros Hq Hc. unfold esc.
  assert (H2 : forall c, (c < 256)%N -> forall r, text q ((lit "\x" ++ hex 2 c) ++ r) = cons_to (Some c) (text q r)).
  { intros x Hx t. pose proof (unhexs_hex 2 x) as U. rewrite <- hex_number_eq in U. cbn [hex app] in *. rewrite <- U by exact Hx.
    destruct Hq; subst q; reflexivity. }
  assert (H4 : forall c, (c < 65536)%N -> forall r, text q ((lit "\u" ++ hex 4 c) ++ r) = cons_to (Some c) (text q r)).
  { intros x Hx t. pose proof (unhexs_hex 4 x) as U. rewrite <- hex_number_eq in U. cbn [hex app] in *. rewrite <- U by exact Hx.
    destruct Hq; subst q; reflexivity. }
  assert (H8 : forall c, (c < 4294967296)%N -> forall r, text q ((lit "\U" ++ hex 8 c) ++ r) = cons_to (Some c) (text q r)).
  { intros x Hx t. pose proof (unhexs_hex 8 x) as U. rewrite <- hex_number_eq in U. cbn [hex app] in *. rewrite <- U by exact Hx.
    destruct Hq; subst q; reflexivity. }
  destruct (N.eqb_spec c q) as [E|N1]; cbn [orb].
  { subst c. destruct Hq; subst q; reflexivity. }
  destruct (N.eqb_spec c 92) as [E|N2]; cbn [orb].
  { subst c. destruct Hq; subst q; reflexivity. }
  destruct (N.eqb_spec c 9) as [E|N3]; [subst c; destruct Hq; subst q; reflexivity|].
  destruct (N.eqb_spec c 10) as [E|N4]; [subst c; destruct Hq; subst q; reflexivity|].
  destruct (N.eqb_spec c 13) as [E|N5]; [subst c; destruct Hq; subst q; reflexivity|].
  assert (HP : text q ([c] ++ r) = cons_to (Some c) (text q r)).
  { cbn [app text]. apply N.eqb_neq in N1, N2, N4. rewrite N1, N2, N4. reflexivity. }
  destruct (N.ltb_spec c 32); cbn [orb]; [apply H2; lia|].
  destruct (N.eqb_spec c 127); cbn [orb]; [apply H2; lia|].
  destruct (N.ltb_spec c 127); [exact HP|].
  destruct (pr c); [exact HP|].
  destruct (N.ltb_spec c 256); [apply H2; lia|]. destruct (N.ltb_spec c 65536); [apply H4; lia|apply H8; lia].
Qed.
Lemma text_body pr q s r : q = 39%N \/ q = 34%N -> forallb (fun c => (c <? 1114112)%N) s = true ->
  text q (flat_map (esc pr false q) s ++ q :: r) = Some (s, r).
Proof.
  intros Hq H. induction s as [|c s IH]; cbn [flat_map app].
  - cbn [text]. now rewrite N.eqb_refl.
  - cbn [forallb] in H. apply andb_prop in H as [H1 H2]. apply N.ltb_lt in H1. rewrite <- app_assoc, text_esc, IH by auto. reflexivity.
Qed.
Lemma str_repr_shape pr s : exists q, (q = 39%N \/ q = 34%N) /\ str_repr pr false s = q :: flat_map (esc pr false q) s ++ [q].
Proof. exists (quote_of s). split; [unfold quote_of; destruct (_ && _); auto|reflexivity]. Qed.

Lemma digit_facts c : is_digit c = true -> c <> 32%N /\ c <> 45%N /\ c <> 40%N /\ c <> 39%N /\ c <> 34%N /\ c <> 41%N /\ c <> 93%N.
Proof. intros H. repeat split; intros ->; discriminate H. Qed.
Lemma digits_forallb n : forallb is_digit (dec n) = true.
Proof. apply forallb_forall. apply Forall_forall. exact (dec_digits n). Qed.
Lemma g_dec n r : ends r -> gives MPrim (dec n ++ r) (EConst (VInt (Z.of_N n))) r.
Proof.
  intros E. destruct (dec_head n) as (c & t & D & H). destruct (digit_facts c H) as (H1 & H2 & H3 & H4 & H5 & _).
  assert (A : gives MAtom (dec n ++ r) (EConst (VInt (Z.of_N n))) r).
  { exists 1. cbn [parse step]. pose proof (take_all is_digit (dec n) r (digits_forallb n)) as T. rewrite D in *. cbn [app] in *.
    destruct (N.eqb_spec c 40); [congruence|]. destruct (N.eqb_spec c 39); [congruence|]. destruct (N.eqb_spec c 34); [congruence|]. cbn [orb].
    rewrite H, T. - cbv beta iota. rewrite <- D, py_digits_dec. reflexivity.
    - destruct r as [|x r]; [exact I|]. destruct E as [-> | [-> | ->]]; reflexivity. }
  rewrite D in *. cbn [app] in *. eapply g_prim; eauto. now apply g_trail_end.
Qed.
Lemma g_text pr s r : ends r -> forallb (fun c => (c <? 1114112)%N) s = true -> gives MPrim (str_repr pr false s ++ r) (EConst (VStr s)) r.
Proof.
  intros E H. destruct (str_repr_shape pr s) as (q & Hq & ->). cbn [app]. rewrite <- app_assoc. cbn [app].
  eapply g_prim; [destruct Hq; subst q; discriminate..| |now apply g_trail_end].
  exists 1. cbn [parse step]. pose proof (text_body pr q s r Hq H) as T. destruct Hq; subst q; cbn [N.eqb Pos.eqb orb]; rewrite T; reflexivity.
Qed.

(** The elements of a tuple after the first *)
Fixpoint others (w : world) (l : list value) : str := match l with [] => [] | x :: l => lit ", " ++ repr w x ++ others w l end.
Lemma repr_tuple w l : repr w (VTuple l) =
  40%N :: match l with [] => [41%N] | [x] => repr w x ++ [44%N; 41%N] | x :: l => repr w x ++ others w l ++ [41%N] end.
Proof.
  cbn [repr]. set (each := fix each (l : list value) (first : bool) : str := match l with [] => [] | _ => _ end).
  assert (O : forall l, each l false = others w l).
  { induction l0 as [|x l0 IH]; [reflexivity|]. cbn [each others]. cbn [app]. rewrite IH. reflexivity. }
  destruct l as [|x [|y l]]; [reflexivity| |].
  - change (each [x] true) with ([] ++ repr w x ++ lit "," ++ each [] false). rewrite O. cbn [others app]. rewrite <- app_assoc. reflexivity.
  - change (each (x :: y :: l) true) with ([] ++ repr w x ++ [] ++ each (y :: l) false). rewrite O. cbn [app]. rewrite <- app_assoc. reflexivity.
Qed.
(** The beginning of the text of a key *)
Lemma repr_head w k : plain k = true -> exists c t, repr w k = c :: t /\ c <> 32%N /\ c <> 41%N /\ c <> 93%N.
Proof.
  destruct k; intros H; try discriminate H.
  - cbn [repr]. unfold zdec. destruct z as [|p|p].
    + destruct (dec_head (Z.to_N 0)) as (c & t & D & Hd). destruct (digit_facts c Hd) as (H1 & _ & _ & _ & _ & H6 & H7). exists c, t. auto.
    + destruct (dec_head (Z.to_N (Z.pos p))) as (c & t & D & Hd). destruct (digit_facts c Hd) as (H1 & _ & _ & _ & _ & H6 & H7). exists c, t. auto.
    + exists 45%N, (dec (Npos p)). repeat split; discriminate.
  - cbn [repr]. destruct (str_repr_shape (printable w) s) as (q & Hq & ->). eexists _, _. split; [reflexivity|].
    destruct Hq; subst q; repeat split; discriminate.
  - eexists _, _. split; [reflexivity|]. repeat split; discriminate.
  - destruct b; (eexists _, _; split; [reflexivity|]; repeat split; discriminate).
  - rewrite repr_tuple. eexists _, _. split; [reflexivity|]. repeat split; discriminate.
Qed.
Lemma g_sum_end s e r : ends r -> gives MPrim s e r -> gives MSum s e r.
Proof. intros E H. eapply g_sum; [exact H|]. now apply g_plus_end. Qed.
Lemma g_more_next w acc x s e r e' r' : plain x = true -> gives MSum (32%N :: repr w x ++ s) e r -> gives (MMore (e :: acc)) r e' r' ->
  gives (MMore acc) (lit ", " ++ repr w x ++ s) e' r'.
Proof.
  intros P A B. destruct (repr_head w x P) as (c & t & D & H1 & H2 & H3). rewrite D in *. both A B.
  change (lit ", " ++ (c :: t) ++ s) with (44%N :: 32%N :: c :: t ++ s). rewrite skip_neq by discriminate. cbn [begins N.eqb Pos.eqb].
  rewrite skip_space, skip_neq by exact H1. destruct (N.eqb_spec c 41); [congruence|]. destruct (N.eqb_spec c 93); [congruence|]. cbn [orb].
  change ((c :: t) ++ s) with (c :: t ++ s) in A. rewrite A. exact B.
Qed.
Lemma g_others w l r : Forall (fun x => plain x = true /\ forall r, ends r -> gives MPrim (repr w x ++ r) (ast x) r) l ->
  forall acc, match acc with [] => False | [_] => l <> [] | _ => True end ->
  gives (MMore acc) (others w l ++ 41%N :: r) (ETuple (rev acc ++ map ast l)) (41%N :: r).
Proof.
  induction 1 as [|x l [P Hx] Hl IH]; intros acc Ha; cbn [others map].
  - exists 1. cbn [app parse step]. rewrite skip_neq by discriminate. cbn [begins N.eqb Pos.eqb]. rewrite app_nil_r.
    destruct acc as [|e [|e2 acc]]; [tauto|congruence|reflexivity].
  - assert (En : ends (others w l ++ 41%N :: r)) by (destruct l; cbn; auto).
    rewrite <- !app_assoc. eapply g_more_next; [exact P| |].
    + apply g_sum_end; [exact En|]. apply g_space. now apply Hx.
    + specialize (IH (ast x :: acc)). cbn [rev] in IH. rewrite <- app_assoc in IH. cbn [app] in IH. apply IH.
      destruct acc; [tauto|exact I].
Qed.
Lemma g_key w : forall k, plain k = true -> forall r, ends r -> gives MPrim (repr w k ++ r) (ast k) r.
Proof.
  apply (value_ind' (fun k => plain k = true -> forall r, ends r -> gives MPrim (repr w k ++ r) (ast k) r)); try (intros; discriminate).
  - intros z _ r E. cbn [repr ast]. unfold zdec. destruct z as [|p|p].
    + exact (g_dec 0 r E).
    + exact (g_dec (Npos p) r E).
    + cbn [Z.ltb Z.compare Z.opp app]. apply g_neg. exact (g_dec (Npos p) r E).
  - intros s H r E. now apply g_text.
  - intros _ r E. exists 3. destruct r as [|c r]; [reflexivity|]. destruct E as [-> | [-> | ->]]; reflexivity.
  - intros b _ r E. exists 3. destruct b; (destruct r as [|c r]; [reflexivity|]; destruct E as [-> | [-> | ->]]; reflexivity).
  - intros l IH H r E. cbn [plain] in H. rewrite repr_tuple. cbn [ast]. cbn [app].
    assert (A : Forall (fun x => plain x = true /\ forall r, ends r -> gives MPrim (repr w x ++ r) (ast x) r) l).
    { rewrite forallb_forall in H. rewrite Forall_forall in *. intros x Hx. split; [now apply H|]. apply IH; auto. }
    eapply g_prim; [discriminate..| |apply g_trail_end, E].
    destruct l as [|x [|y l]].
    + exists 1. reflexivity.
    + inversion A as [|? ? [P Hx] _]; subst. destruct (repr_head w x P) as (c & t & D & H1 & H2 & H3).
      assert (G : gives MTuple (repr w x ++ 44%N :: 41%N :: r) (ETuple [ast x]) (41%N :: r)).
      { eapply g_tuple; [apply g_sum_end, Hx; cbn; auto|]. cbn; auto. exists 1. reflexivity. }
      destruct G as [n G]. exists (S n). cbn [parse step N.eqb Pos.eqb]. rewrite <- app_assoc. cbn [app]. rewrite G, D. cbn [app].
      rewrite skip_neq by exact H1. cbn [begins]. destruct (N.eqb_spec c 41); [congruence|]. reflexivity.
    + inversion A as [|? ? [P Hx] A']; subst. destruct (repr_head w x P) as (c & t & D & H1 & H2 & H3).
      assert (G : gives MTuple (repr w x ++ others w (y :: l) ++ 41%N :: r) (ETuple (map ast (x :: y :: l))) (41%N :: r)).
      { eapply g_tuple; [apply g_sum_end, Hx; cbn; auto|]. cbn; auto. apply (g_others w (y :: l) r A' [ast x]). discriminate. }
      destruct G as [n G]. exists (S n). cbn [parse step N.eqb Pos.eqb]. rewrite <- !app_assoc. cbn [app] in *. rewrite G, D. cbn [app].
      rewrite skip_neq by exact H1. cbn [begins]. destruct (N.eqb_spec c 41); [congruence|]. reflexivity.
Qed.
Lemma g_key_index w k r : plain k = true -> gives MTuple (repr w k ++ 93%N :: r) (ast k) (93%N :: r).
Proof.
  intros P. apply (g_tuple _ (ast k) (93%N :: r)); [|apply g_more_one; cbn; auto]. apply g_sum_end; [cbn; auto|]. apply g_key; [exact P|cbn; auto].
Qed.

(** ** Primaries *)
Definition primary (t : str) (e : expr) : Prop := forall r e' r', boundary r -> gives (MTrail e) r e' r' -> gives MPrim (t ++ r) e' r'.
Lemma p_name x : identifier x = true -> primary x (EName x).
Proof.
  intros I r e' r' B G. pose proof (g_name x r I B) as A. destruct (identifier_parts x I) as (c & t & -> & L & _).
  destruct (letter_facts c L) as (H1 & H2 & _). cbn [app] in *. eapply g_prim; eauto.
Qed.
Lemma p_attr t e x : primary t e -> identifier x = true -> primary (t ++ lit "." ++ x) (EAttr e x).
Proof. intros P I r e' r' B G. rewrite <- !app_assoc. apply P; [reflexivity|]. change (lit "." ++ x ++ r) with (46%N :: x ++ r). now apply g_attr. Qed.
Lemma p_index w t e k : primary t e -> plain k = true -> primary (t ++ lit "[" ++ repr w k ++ lit "]") (EIndex e (ast k)).
Proof.
  intros P K r e' r' B G. rewrite <- !app_assoc. apply P; [reflexivity|].
  change (lit "[" ++ repr w k ++ lit "]" ++ r) with (91%N :: (repr w k ++ 93%N :: r)). eapply g_index; [|exact G]. now apply g_key_index.
Qed.
Lemma primary_whole t e r : primary t e -> ends r -> gives MPrim (t ++ r) e r.
Proof. intros P E. apply P; [now apply ends_boundary|now apply g_trail_end]. Qed.
Lemma p_len t e : primary t e -> primary (lit "len(" ++ t ++ lit ")") (ECall (EName (lit "len")) e).
Proof.
  intros P r e' r' B G. rewrite <- !app_assoc. change (lit "len(" ++ t ++ lit ")" ++ r) with (lit "len" ++ 40%N :: (t ++ 41%N :: r)).
  apply p_name; [reflexivity..|]. eapply g_call; [|exact G].
  apply (g_tuple _ e (41%N :: r)); [|apply g_more_one; cbn; auto]. apply g_sum_end; [cbn; auto|]. apply primary_whole; [exact P|cbn; auto].
Qed.
Lemma primary_reads t e : primary t e -> reads t e.
Proof.
  intros P. pose proof (primary_whole t e [] P I) as G. rewrite app_nil_r in G. change (gives MTuple t e []).
  apply (g_tuple _ e []); [|now apply g_more_one]. apply g_sum_end; [exact I|exact G].
Qed.
Lemma reads_same t e e' : reads t e -> reads t e' -> e = e'.
Proof. intros [n A] [k B]. pose proof (parse_same _ _ _ _ _ _ A B) as E. now injection E. Qed.

(** * Values *)
Lemma py_eqb_refl : forall v, py_eqb v v = true.
Proof.
  apply value_ind'; intros; cbn [py_eqb number]; auto using Z.eqb_refl, str_eqb_refl, N.eqb_refl.
  induction H as [|x l Hx Hl IH]; [reflexivity|]. now rewrite Hx, IH.
Qed.
Lemma find_key l k x : distinct l -> In (k, x) l -> find (fun p => py_eqb (fst p) k) l = Some (k, x).
Proof.
  induction l as [|[k' y] l IH]; [contradiction|]. cbn [distinct find fst]. intros [A D] [E|H].
  - injection E as -> ->. now rewrite py_eqb_refl.
  - rewrite Forall_forall in A. pose proof (A _ H) as A'. cbn [fst] in A'. rewrite A'. auto.
Qed.
Lemma item_nat {A} (l : list A) i : item l (Z.of_nat i) = nth_error l i.
Proof. unfold item. destruct (Z.ltb_spec (Z.of_nat i) 0); [lia|]. now rewrite Nat2Z.id. Qed.
Lemma in_item_entries i l (e : entry) : In e (item_entries i l) ->
  exists k x, i <= k /\ nth_error l (k - i) = Some x /\ e = (dec (N.of_nat k), SVal x, PSuffix (lit "[" ++ dec (N.of_nat k) ++ lit "]")).
Proof.
  unfold item_entries. rewrite in_map_iff. intros ([k x] & <- & H). cbn [fst snd].
  exists k, x. assert (i <= k /\ nth_error l (k - i) = Some x) as [? ?]; [|auto].
  revert i H. induction l as [|y l IH]; intros i H; cbn [length seq combine] in H; [contradiction|].
  destruct H as [E|H].
  - injection E as -> ->. rewrite Nat.sub_diag. auto.
  - destruct (IH (S i) H). split; [lia|]. replace (k - i) with (S (k - S i)) by lia. auto.
Qed.
Lemma nth_firstn {A} (l : list A) n i x : nth_error (firstn n l) i = Some x -> nth_error l i = Some x /\ i < n.
Proof.
  revert n i. induction l as [|y l IH]; intros n i H.
  - rewrite firstn_nil in H. destruct i; discriminate.
  - destruct n; [destruct i; discriminate|]. destruct i; cbn in *; [split; [exact H|lia]|]. destruct (IH n i H). split; [auto|lia].
Qed.

(** * The expressions of the entries *)
Definition entry_named (w : world) (F : frame) (v : value) (e : entry) : Prop :=
  forall t ex t', primary t ex -> eval w F ex = Some v -> child_name (Some t) (snd e) = Some t' ->
  match snd (fst e) with SVal u => exists e', primary t' e' /\ eval w F e' = Some u | SText _ => True | _ => False end.
Lemma child_suffix t s t' : child_name (Some t) (PSuffix s) = Some t' -> t' = t ++ s.
Proof. destruct t; cbn [child_name]; [discriminate|]. congruence. Qed.
Lemma child_none t p : child_name (Some t) PNone = Some p -> False.
Proof. destruct t; discriminate. Qed.
Lemma default_named w F v : ordinary w v -> Forall (entry_named w F v) (default_entries w v).
Proof.
  intros (ND & ID & OW & _). apply Forall_forall. intros e H. unfold default_entries in H. destruct (attributes w v) as [|p l] eqn:A.
  - rewrite (OW eq_refl) in H. contradiction.
  - apply in_map_iff in H as ([n r] & <- & H). intros t ex t' P E CN. cbn [fst snd] in *. apply child_suffix in CN as ->.
    destruct r as [x|]; [|exact I]. exists (EAttr ex n). split.
    + apply p_attr; [exact P|]. rewrite Forall_forall in ID. apply ID. apply (in_map fst _ _ H).
    + cbn [eval]. rewrite E. unfold getattr. rewrite A. now rewrite (In_get _ str_eqb_spec n (Some x) _ ND H).
Qed.
Lemma len_named w F v n : lookup F (lit "len") = None -> size w v = Some n -> entry_named w F v (len_entry n).
Proof.
  intros L S t ex t' P E CN. cbn [len_entry fst snd] in *. destruct t as [|c t]; [discriminate|]. injection CN as <-.
  exists (ECall (EName (lit "len")) ex). split; [apply (p_len (c :: t)), P|]. cbn [eval]. rewrite L, E, str_eqb_refl, S. reflexivity.
Qed.
Lemma items_named w F v l l' i : contents_of w v = Items l -> (forall k x, nth_error l' k = Some x -> nth_error l (i + k) = Some x) ->
  Forall (entry_named w F v) (item_entries i l').
Proof.
  intros CO Sub. apply Forall_forall. intros e H. apply in_item_entries in H as (k & x & Lk & Nx & ->). intros t ex t' P E CN. cbn [fst snd] in *.
  apply child_suffix in CN as ->. exists (EIndex ex (ast (VInt (Z.of_nat k)))). split.
  - pose proof (p_index w t ex (VInt (Z.of_nat k)) P eq_refl) as Q.
    replace (repr w (VInt (Z.of_nat k))) with (dec (N.of_nat k)) in Q; [exact Q|]. cbn [repr]. rewrite <- nat_N_Z. destruct (N.of_nat k); reflexivity.
  - cbn [eval]. rewrite E, eval_ast. unfold getitem. rewrite CO. cbn [number]. rewrite item_nat. specialize (Sub _ _ Nx).
    replace (i + (k - i)) with k in Sub by lia. exact Sub.
Qed.
Lemma pnone_named w F v (e : entry) : snd e = PNone -> entry_named w F v e.
Proof. intros H t ex t' _ _ CN. rewrite H in CN. now apply child_none in CN. Qed.
Lemma literal_object_free k : literal k = object_free k.
Proof.
  reflexivity.
Qed.
Lemma entries_named C w F v : lookup F (lit "len") = None -> ordinary w v -> Forall (entry_named w F v) (entries C w (SVal v)).
Proof.
  intros L O. pose proof (default_named w F v O) as D.
  assert (LE : forall l, contents_of w v = Items l -> Forall (entry_named w F v) (list_entries C w v l)).
  { intros l CO. unfold list_entries. rewrite !Forall_app. split; [exact D|]. split.
    - apply (items_named w F v l); [exact CO|]. intros k x H. now apply nth_firstn in H.
    - split; [destruct (_ <=? _); [constructor; [|constructor]; now apply pnone_named|constructor]|].
      constructor; [|constructor]. apply len_named; [exact L|]. unfold size. now rewrite CO. }
  unfold entries. destruct v as [z|s| |b|l|n|s z|a]; try constructor.
  - now apply LE.
  - destruct (inside (heap w a)) as [l|l|l|] eqn:IN.
    + now apply LE.
    + destruct O as (_ & _ & _ & O). cbn [contents_of] in O. rewrite IN in O. destruct O as [DI PL].
      unfold dict_entries. rewrite !Forall_app. split; [exact D|]. split.
      * apply Forall_forall. intros e H. apply in_map_iff in H as ([k x] & <- & H). cbn [fst snd].
        assert (In (k, x) l) as HI. { rewrite <- (firstn_skipn (Nat.max 1 (max_items C)) l). apply in_or_app. now left. }
        destruct (literal k) eqn:LK; [|now apply pnone_named]. intros t ex t' P E CN. cbn [fst snd] in *. apply child_suffix in CN as ->.
        rewrite Forall_forall in PL. pose proof (PL _ HI (eq_trans (eq_sym (literal_object_free k)) LK)) as PK. cbn [fst] in PK. exists (EIndex ex (ast k)). split; [now apply p_index|].
        cbn [eval]. rewrite E, eval_ast. unfold getitem. cbn [contents_of]. rewrite IN, (find_key l k x DI HI). reflexivity.
      * split; [destruct (_ <=? _); [constructor; [|constructor]; now apply pnone_named|constructor]|].
        constructor; [|constructor]. apply len_named; [exact L|]. unfold size. cbn [contents_of]. now rewrite IN.
    + unfold set_entries. rewrite !Forall_app. split; [exact D|]. split.
      * apply Forall_forall. intros e H. apply in_map_iff in H as (x & <- & H). now apply pnone_named.
      * split; [destruct (_ <=? _); [constructor; [|constructor]; now apply pnone_named|constructor]|].
        constructor; [|constructor]. apply len_named; [exact L|]. unfold size. cbn [contents_of]. now rewrite IN.
    + exact D.
Qed.

(** * The expressions of the variables *)
Definition named (w : world) (F : frame) (x : variable) : Prop :=
  forall t, ename x = Some t ->
  match what x with
  | SVal v => exists e, primary t e /\ eval w F e = Some v
  | SText _ => True
  | SMore _ _ | SRange _ _ _ => False
  | SGroup l => Forall (fun e : entry => snd e = PNone) l
  end.
Lemma in_groups w pres ret l (e : entry) : In e (groups w pres ret l) ->
  snd e = PNone /\ exists s g, e = (scope_name s, SGroup g, PNone) /\ forall x, In x g -> In x l.
Proof.
  unfold groups. rewrite in_flat_map. intros (s & _ & H). destruct (filter (grouped w pres ret s) l) as [|y g] eqn:E; [contradiction|].
  destruct H as [<-|[]]. split; [reflexivity|]. exists s, (y :: g). split; [reflexivity|]. intros x Hx. rewrite <- E in Hx. now apply filter_In in Hx.
Qed.
Lemma children_named C w pres F x y : lookup F (lit "len") = None -> named w F x -> (forall v, what x = SVal v -> ordinary w v) ->
  In y (children C w pres x) -> named w F y.
Proof.
  intros L N O H. unfold children in H. apply in_map_iff in H as (e & <- & H). intros t CN. cbn [ename what] in *.
  destruct (ename x) as [tx|] eqn:EX; [|discriminate]. specialize (N tx EX). unfold group_entries in H.
  destruct (what x) as [v|s|v n|v n m|l]; try contradiction.
  - destruct N as (ex & P & E). apply in_app_or in H as [H|H].
    + apply in_groups in H as [H _]. rewrite H in CN. now apply child_none in CN.
    + apply filter_In in H as [H _]. pose proof (entries_named C w F v L (O v eq_refl)) as A. rewrite Forall_forall in A.
      specialize (A e H tx ex t P E CN). destruct (snd (fst e)); tauto.
  - cbn [entries] in H. rewrite Forall_forall in N. rewrite (N e H) in CN. now apply child_none in CN.
Qed.
Lemma frame_named w pres F dct x : (forall n v, In (n, v) dct -> n = return_values \/ n = name x -> lookup F n = Some v) ->
  Forall (fun n => identifier n = true) (keys dct) -> (forall v, lookup F return_values = Some v -> ordinary w v) ->
  In x (frame_variables w pres dct) -> named w F x.
Proof.
  intros LK ID RV H. unfold frame_variables in H. cbv zeta in H.
  set (l := map (fun nv : str * value => (fst nv, SVal (snd nv), PNone)) (filter (fun nv => negb (str_eqb (fst nv) (lit "_pydev_stop_at_break"))) dct)) in *.
  assert (HL : forall e : entry, In e l -> exists n v, e = (n, SVal v, PNone) /\ In (n, v) dct).
  { intros e He. apply in_map_iff in He as ([n v] & <- & He). apply filter_In in He as [He _]. eauto. }
  assert (IDN : forall n v, In (n, v) dct -> identifier n = true).
  { intros n v Hn. rewrite Forall_forall in ID. apply ID. apply (in_map fst _ _ Hn). }
  apply in_app_or in H as [H|H].
  - apply in_map_iff in H as (e & <- & H). apply in_groups in H as (_ & s & g & -> & Sub). intros t _. cbn [what fst snd].
    apply Forall_forall. intros e He. destruct (HL e (Sub e He)) as (n & v & -> & _). reflexivity.
  - apply in_flat_map in H as (e & He & H). apply filter_In in He as [He _]. destruct (HL e He) as (n & v & -> & Hn). cbn [fst snd] in H.
    destruct (str_eqb n return_values) eqn:E.
    + apply str_eqb_eq in E as ->. destruct (contents_of w v) as [?|d|?|] eqn:CO; try contradiction. apply in_flat_map in H as ([k u] & Hk & H).
      cbn [fst snd] in H. destruct k as [z|k| | | | | |]; try contradiction. destruct H as [<-|[]]. intros t ET. cbn [ename what] in *. injection ET as <-.
      pose proof (LK _ _ Hn (or_introl eq_refl)) as LV. destruct (RV v LV) as (_ & _ & _ & O). rewrite CO in O. destruct O as [DI PL].
      exists (EIndex (EName return_values) (ast (VStr k))). split.
      * rewrite Forall_forall in PL. exact (p_index w return_values (EName return_values) (VStr k) (p_name return_values eq_refl) (PL _ Hk eq_refl)).
      * cbn [eval]. rewrite LV, eval_ast. unfold getitem. rewrite CO, (find_key d _ _ DI Hk). reflexivity.
    + destruct H as [<-|[]]. intros t ET. cbn [ename what name] in *. injection ET as <-. exists (EName n). split; [exact (p_name n (IDN _ _ Hn))|].
      cbn [eval]. apply LK; auto.
Qed.
Lemma reached_named C w pres F x : lookup F (lit "len") = None -> ordinary_frame w F -> reached C w pres F x -> named w F x.
Proof.
  intros L (NL & NG & IL & IG & RV) R. induction R as [x H|x H HN HR|x y R IH O H].
  - apply (frame_named w pres F (locals F)); auto. intros n v Hn _. unfold lookup. now rewrite (In_get _ str_eqb_spec n v _ NL Hn).
  - apply (frame_named w pres F (globals F)); auto. intros n v Hn E. unfold lookup.
    pose proof (In_get _ str_eqb_spec n v _ NG Hn) as G.
    assert (get str_eqb n (locals F) = None) as -> by (destruct E as [-> | ->]; [apply HR; congruence|auto]). exact G.
  - eapply children_named; eauto.
Qed.

(** The expression of a variable the client comes to is an expression of the language and its value in the frame is the value shown. *)
Theorem evaluate_name : forall C w pres F x t v,
  ordinary_frame w F -> lookup F (lit "len") = None -> reached C w pres F x -> ename x = Some t -> what x = SVal v -> evaluates w F t v.
Proof.
  intros C w pres F x t v O L R ET EV. pose proof (reached_named C w pres F x L O R t ET) as N. rewrite EV in N.
  destruct N as (e & P & E). exists e. split; [now apply primary_reads|exact E].
Qed.
Print Assumptions evaluate_name.

(** A text has at most one value in a frame. *)
Theorem evaluate_unique : forall w F t v v', evaluates w F t v -> evaluates w F t v' -> v = v'.
Proof. intros w F t v v' (e & R & E) (e' & R' & E'). rewrite (reads_same t e e' R R') in E. congruence. Qed.
Print Assumptions evaluate_unique.

(** ** Every entry has its expression *)
(** The items of the first page of a list or tuple, the entries of a dictionary with plain keys and the attributes are shown with their expressions,
    if they are not hidden or put into a group (property C19). *)
Theorem evaluate_item_named : forall C w pres x p v l i u,
  what x = SVal v -> contents_of w v = Items l -> ename x = Some p -> p <> [] -> nth_error l i = Some u -> i < initial C ->
  (forall s, pres s = Inline \/ get_var_scope (dec (N.of_nat i)) (kind_of w u) false <> Some s) ->
  In (Var (dec (N.of_nat i)) (SVal u) (Some (p ++ lit "[" ++ dec (N.of_nat i) ++ lit "]"))) (children C w pres x).
Proof.
  intros C w pres x p v l i u EV CO EN NE NT LI ST. unfold children. rewrite EV, EN. apply in_map_iff.
  exists (dec (N.of_nat i), SVal u, PSuffix (lit "[" ++ dec (N.of_nat i) ++ lit "]")). split.
  - cbn [fst snd]. destruct p; [congruence|reflexivity].
  - cbn [group_entries]. apply in_or_app. right. apply filter_In. split.
    + assert (In (dec (N.of_nat i), SVal u, PSuffix (lit "[" ++ dec (N.of_nat i) ++ lit "]")) (list_entries C w v l)) as H.
      { unfold list_entries. apply in_or_app. right. apply in_or_app. left. unfold item_entries. apply in_map_iff. exists (i, u). split; [reflexivity|].
        assert (NF : nth_error (firstn (Nat.max 1 (initial C)) l) i = Some u).
        { revert NT. assert (i < Nat.max 1 (initial C)) as LM by lia. generalize (Nat.max 1 (initial C)) LM. clear. revert l.
          induction i as [|i IH]; intros l n LM H; (destruct n as [|n]; [lia|]; destruct l as [|y l]; [discriminate|]); cbn in *; [exact H|]. apply IH; auto. lia. }
        revert NF. generalize (firstn (Nat.max 1 (initial C)) l). intros m. change i with (0 + i) at 2. generalize 0. clear. revert i.
        induction m as [|y m IH]; intros i k H; [destruct i; discriminate|]. cbn [length seq combine]. destruct i; cbn in H.
        - injection H as ->. left. now rewrite Nat.add_0_r.
        - right. replace (k + S i) with (S k + i) by lia. now apply IH. }
      destruct v; cbn [contents_of] in CO; try discriminate CO; cbn [entries].
      * injection CO as ->. exact H.
      * rewrite CO. exact H.
    + unfold stays, entry_scope. cbn [fst snd kind_shown]. destruct (get_var_scope _ _ false) as [s|]; [|reflexivity].
      destruct (ST s) as [-> | K]; [reflexivity|congruence].
Qed.
Print Assumptions evaluate_item_named.
Theorem evaluate_key_named : forall C w pres x p a l k u,
  what x = SVal (VRef a) -> inside (heap w a) = Pairs l -> ename x = Some p -> p <> [] -> In (k, u) (firstn (max_items C) l) -> plain k = true ->
  (forall s, pres s = Inline \/ get_var_scope (repr w k) (kind_of w u) false <> Some s) ->
  In (Var (repr w k) (SVal u) (Some (p ++ lit "[" ++ repr w k ++ lit "]"))) (children C w pres x).
Proof.
  intros C w pres x p a l k u EV CO EN NE HI PK ST. unfold children. rewrite EV, EN. apply in_map_iff.
  assert (LK : literal k = true).
  { revert PK. clear. revert k. apply (value_ind' (fun k => plain k = true -> literal k = true)); try discriminate; try reflexivity.
    intros l H P. cbn [plain literal] in *. rewrite forallb_forall in *. rewrite Forall_forall in H. auto. }
  exists (repr w k, SVal u, PSuffix (lit "[" ++ repr w k ++ lit "]")). split.
  - cbn [fst snd]. destruct p; [congruence|reflexivity].
  - cbn [group_entries]. apply in_or_app. right. apply filter_In. split.
    + cbn [entries]. rewrite CO. unfold dict_entries. apply in_or_app. right. apply in_or_app. left. apply in_map_iff. exists (k, u).
      cbn [fst snd]. rewrite LK. split; [reflexivity|]. replace (Nat.max 1 (max_items C)) with (max_items C); [exact HI|].
      destruct (max_items C); [contradiction|lia].
    + unfold stays, entry_scope. cbn [fst snd kind_shown]. destruct (get_var_scope _ _ false) as [s|]; [|reflexivity].
      destruct (ST s) as [-> | K]; [reflexivity|congruence].
Qed.
Print Assumptions evaluate_key_named.
Theorem evaluate_attribute_named : forall C w pres x p a n u,
  what x = SVal (VRef a) -> ename x = Some p -> p <> [] -> In (n, Some u) (attrs (heap w a)) ->
  (forall s, pres s = Inline \/ get_var_scope n (kind_of w u) false <> Some s) ->
  In (Var n (SVal u) (Some (p ++ lit "." ++ n))) (children C w pres x).
Proof.
  intros C w pres x p a n u EV EN NE HI ST. unfold children. rewrite EV, EN. apply in_map_iff. exists (n, SVal u, PSuffix (lit "." ++ n)). split.
  - cbn [fst snd]. destruct p; [congruence|reflexivity].
  - cbn [group_entries]. apply in_or_app. right. apply filter_In. split.
    + assert (In (n, SVal u, PSuffix (lit "." ++ n)) (default_entries w (VRef a))) as H.
      { unfold default_entries. cbn [attributes]. destruct (attrs (heap w a)) as [|y l]; [contradiction|]. apply in_map_iff. exists (n, Some u). split; auto. }
      cbn [entries]. destruct (inside (heap w a)); [apply in_or_app; now left..|exact H].
    + unfold stays, entry_scope. cbn [fst snd kind_shown]. destruct (get_var_scope _ _ false) as [s|]; [|reflexivity].
      destruct (ST s) as [-> | K]; [reflexivity|congruence].
Qed.
Print Assumptions evaluate_attribute_named.

(** ** Changing an entry changes that entry and nothing else *)
Lemma reached_value C w pres F x p v : ordinary_frame w F -> lookup F (lit "len") = None -> reached C w pres F x -> ename x = Some p ->
  what x = SVal v -> exists e, primary p e /\ eval w F e = Some v.
Proof. intros O L R EN EV. pose proof (reached_named C w pres F x L O R p EN) as N. now rewrite EV in N. Qed.
Lemma zdec_nat i : zdec (Z.of_nat i) = dec (N.of_nat i).
Proof. rewrite <- nat_N_Z. destruct (N.of_nat i); reflexivity. Qed.
Lemma put_item_nat l i u x : nth_error l i = Some x -> put_item l (Z.of_nat i) u = Some (firstn i l ++ u :: skipn (S i) l).
Proof. intros H. unfold put_item. rewrite item_nat, H. destruct (Z.ltb_spec (Z.of_nat i) 0); [lia|]. now rewrite Nat2Z.id. Qed.
Theorem evaluate_change_item : forall C w pres F x p a l i u y z,
  ordinary_frame w F -> lookup F (lit "len") = None -> reached C w pres F x -> ename x = Some p -> what x = SVal (VRef a) ->
  inside (heap w a) = Items l -> nth_error l i = Some z -> ename y = Some (p ++ lit "[" ++ dec (N.of_nat i) ++ lit "]") ->
  (exists w', changes w F y u w') /\
  forall w', changes w F y u w' ->
    (forall b, b <> a -> heap w' b = heap w b) /\ attrs (heap w' a) = attrs (heap w a) /\
    exists l', inside (heap w' a) = Items l' /\ length l' = length l /\ nth_error l' i = Some u /\ forall j, j <> i -> nth_error l' j = nth_error l j.
Proof.
  intros C w pres F x p a l i u y z O L R EN EV CO NT EY. destruct (reached_value C w pres F x p _ O L R EN EV) as (e & P & E).
  pose proof (primary_reads _ _ (p_index w p e (VInt (Z.of_nat i)) P eq_refl)) as RD. cbn [repr] in RD. rewrite zdec_nat in RD.
  assert (AS : assign w F (EIndex e (ast (VInt (Z.of_nat i)))) u =
               Some (with_object w a (Obj (Items (firstn i l ++ u :: skipn (S i) l)) (attrs (heap w a)) (dict_at (heap w a))))).
  { cbn [assign]. rewrite E, eval_ast. cbv zeta. rewrite CO. cbn [number]. rewrite (put_item_nat l i u z NT). reflexivity. }
  split; [eexists; exists (p ++ lit "[" ++ dec (N.of_nat i) ++ lit "]"), (EIndex e (ast (VInt (Z.of_nat i)))); repeat split; eauto|].
  intros w' (t & e' & ET & RD' & AS'). rewrite EY in ET. injection ET as <-. rewrite <- (reads_same _ _ _ RD RD'), AS in AS'. injection AS' as <-.
  cbn [with_object heap]. split; [intros b Hb; destruct (N.eqb_spec b a); congruence|]. rewrite N.eqb_refl. cbn [inside attrs]. split; [reflexivity|].
  exists (firstn i l ++ u :: skipn (S i) l). split; [reflexivity|]. assert (LI : i < length l) by (apply nth_error_Some; congruence).
  assert (LF : length (firstn i l) = i) by (rewrite firstn_length; lia).
  split; [|split].
  - pose proof (skipn_length (S i) l) as LS. rewrite app_length. cbn [List.length]. rewrite LF, LS. lia.
  - rewrite nth_error_app2 by lia. replace (i - length (firstn i l)) with 0 by lia. reflexivity.
  - intros j Hj. rewrite <- (firstn_skipn i l) at 3. destruct (Nat.lt_ge_cases j i) as [Lj|Gj].
    + rewrite !nth_error_app1 by lia. reflexivity.
    + rewrite !nth_error_app2 by lia. rewrite LF. destruct (j - i) as [|k] eqn:K; [lia|]. cbn [nth_error].
      assert (SK : skipn i l = z :: skipn (S i) l).
      { clear -NT. revert i NT. induction l as [|q l IH]; intros [|i] H; try discriminate; cbn in *; [now injection H as ->|]. now apply IH. }
      rewrite SK. reflexivity.
Qed.
Print Assumptions evaluate_change_item.
(** A tuple is left as it is: the client is told that there is no new value. *)
Theorem evaluate_change_tuple : forall C w pres F x p l i u y w',
  ordinary_frame w F -> lookup F (lit "len") = None -> reached C w pres F x -> ename x = Some p -> what x = SVal (VTuple l) ->
  ename y = Some (p ++ lit "[" ++ dec (N.of_nat i) ++ lit "]") -> ~ changes w F y u w'.
Proof.
  intros C w pres F x p l i u y w' O L R EN EV EY (t & e' & ET & RD' & AS). destruct (reached_value C w pres F x p _ O L R EN EV) as (e & P & E).
  pose proof (primary_reads _ _ (p_index w p e (VInt (Z.of_nat i)) P eq_refl)) as RD. cbn [repr] in RD. rewrite zdec_nat in RD.
  rewrite EY in ET. injection ET as <-. rewrite <- (reads_same _ _ _ RD RD') in AS. cbn [assign] in AS. rewrite E in AS. discriminate AS.
Qed.
Print Assumptions evaluate_change_tuple.
Lemma put_pair_split l k u x : distinct l -> In (k, x) l -> exists l1 l2, l = l1 ++ (k, x) :: l2 /\ put_pair l k u = l1 ++ (k, u) :: l2.
Proof.
  induction l as [|[k' y] l IH]; [contradiction|]. cbn [distinct put_pair fst]. intros [A D] [E|H].
  - injection E as -> ->. rewrite py_eqb_refl. exists [], l. auto.
  - rewrite Forall_forall in A. pose proof (A _ H) as A'. cbn [fst] in A'. rewrite A'. destruct (IH D H) as (l1 & l2 & E1 & E2).
    exists ((k', y) :: l1), l2. cbn [app]. split; congruence.
Qed.
Theorem evaluate_change_key : forall C w pres F x p a l k z u y,
  ordinary_frame w F -> lookup F (lit "len") = None -> reached C w pres F x -> ename x = Some p -> what x = SVal (VRef a) ->
  inside (heap w a) = Pairs l -> distinct l -> In (k, z) l -> plain k = true -> ename y = Some (p ++ lit "[" ++ repr w k ++ lit "]") ->
  (exists w', changes w F y u w') /\
  forall w', changes w F y u w' ->
    (forall b, b <> a -> heap w' b = heap w b) /\ attrs (heap w' a) = attrs (heap w a) /\
    exists l1 l2, l = l1 ++ (k, z) :: l2 /\ inside (heap w' a) = Pairs (l1 ++ (k, u) :: l2).
Proof.
  intros C w pres F x p a l k z u y O L R EN EV CO DI HI PK EY. destruct (reached_value C w pres F x p _ O L R EN EV) as (e & P & E).
  pose proof (primary_reads _ _ (p_index w p e k P PK)) as RD.
  assert (AS : assign w F (EIndex e (ast k)) u =
               Some (with_object w a (Obj (Pairs (put_pair l k u)) (attrs (heap w a)) (dict_at (heap w a))))).
  { cbn [assign]. rewrite E, eval_ast. cbv zeta. rewrite CO. reflexivity. }
  split; [eexists; exists (p ++ lit "[" ++ repr w k ++ lit "]"), (EIndex e (ast k)); repeat split; eauto|].
  intros w' (t & e' & ET & RD' & AS'). rewrite EY in ET. injection ET as <-. rewrite <- (reads_same _ _ _ RD RD'), AS in AS'. injection AS' as <-.
  cbn [with_object heap]. split; [intros b Hb; destruct (N.eqb_spec b a); congruence|]. rewrite N.eqb_refl. cbn [inside attrs]. split; [reflexivity|].
  destruct (put_pair_split l k u z DI HI) as (l1 & l2 & E1 & E2). exists l1, l2. now rewrite E2.
Qed.
Print Assumptions evaluate_change_key.
Theorem evaluate_change_attribute : forall C w pres F x p a n u y,
  ordinary_frame w F -> lookup F (lit "len") = None -> reached C w pres F x -> ename x = Some p -> what x = SVal (VRef a) ->
  identifier n = true -> ename y = Some (p ++ lit "." ++ n) ->
  (exists w', changes w F y u w') /\
  forall w', changes w F y u w' ->
    (forall b, b <> a -> heap w' b = heap w b) /\ inside (heap w' a) = inside (heap w a) /\
    getattr w' (VRef a) n = Some u /\ forall m, m <> n -> m <> lit "__dict__" -> getattr w' (VRef a) m = getattr w (VRef a) m.
Proof.
  intros C w pres F x p a n u y O L R EN EV ID EY. destruct (reached_value C w pres F x p _ O L R EN EV) as (e & P & E).
  pose proof (primary_reads _ _ (p_attr p e n P ID)) as RD.
  assert (AS : assign w F (EAttr e n) u =
               Some (with_object w a (Obj (inside (heap w a)) (set str_eqb n (Some u) (attrs (heap w a))) (dict_at (heap w a))))).
  { cbn [assign]. rewrite E. reflexivity. }
  split; [eexists; exists (p ++ lit "." ++ n), (EAttr e n); repeat split; eauto|].
  intros w' (t & e' & ET & RD' & AS'). rewrite EY in ET. injection ET as <-. rewrite <- (reads_same _ _ _ RD RD'), AS in AS'. injection AS' as <-.
  cbn [with_object heap]. split; [intros b Hb; destruct (N.eqb_spec b a); congruence|]. unfold getattr. cbn [attributes with_object heap]. rewrite N.eqb_refl.
  cbn [inside attrs]. split; [reflexivity|]. split.
  - now rewrite (get_set_same _ str_eqb_spec).
  - intros m Hm Hd. rewrite (get_set_other _ str_eqb_spec) by congruence. apply str_eqb_neq in Hd. now rewrite Hd.
Qed.
Print Assumptions evaluate_change_attribute.

(** * A case: d = {(-1, ""it's""): [o]} with o.size = (3,), and a return value *)
Definition at_ (l : list (N * obj)) (a : N) : obj := match get N.eqb a l with Some o => o | None => Obj NoContents [] None end.
Definition world_of (l : list (N * obj)) : world :=
  World (at_ l) (fun _ => []) (fun _ => Plain) (fun _ => lit "<object>") (fun _ n => lit "Traceback: " ++ n) (fun _ => true).
Definition grouping (s : scope) : presentation := Group.
Definition standard : limits := Limits 100 1000 500.
Definition key_ex : value := VTuple [VInt (-1); VStr (lit "it's"); VNone].
Definition w_ex : world := world_of
  [(1%N, Obj (Pairs [(VInt 5, VNone); (key_ex, VRef 2)]) [] None); (2%N, Obj (Items [VRef 3]) [(lit "copy", Some (VRef 9))] None);
   (3%N, Obj NoContents [(lit "size", Some (VTuple [VInt 3])); (lit "_cache", Some VNone)] None);
   (4%N, Obj (Pairs [(VStr (lit "f"), VInt 7)]) [] None)].
Definition F_ex : frame := Frame [(lit "d", VRef 1); (return_values, VRef 4)] [(lit "limit", VInt 10)].
Lemma ordinary_ex a : ordinary w_ex (VRef a).
Proof.
  destruct (N.eq_dec a 1) as [->|N1]; [|destruct (N.eq_dec a 2) as [->|N2]; [|destruct (N.eq_dec a 3) as [->|N3]; [|destruct (N.eq_dec a 4) as [->|N4]]]].
  - repeat split; try constructor; cbn; auto.
  - repeat split; cbn; auto; repeat constructor. intros [].
  - repeat split; cbn; auto; repeat constructor; cbn; intuition discriminate.
  - repeat split; try constructor; cbn; auto.
  - assert (E : heap w_ex a = Obj NoContents [] None).
    { cbn [heap w_ex world_of]. unfold at_. cbn [get]. apply N.eqb_neq in N1, N2, N3, N4. now rewrite N1, N2, N3, N4. }
    unfold ordinary. cbn [attributes contents_of own]. rewrite E. repeat split; try constructor.
Qed.
Example evaluate_name_case :
  ordinary_frame w_ex F_ex /\ lookup F_ex (lit "len") = None /\
  (exists x, reached standard w_ex grouping F_ex x /\ ename x = Some (lit "d[(-1, ""it's"", None)][0].size[0]") /\ what x = SVal (VInt 3)) /\
  (exists x, reached standard w_ex grouping F_ex x /\ ename x = Some (lit "len(d[(-1, ""it's"", None)])") /\ what x = SVal (VInt 1)) /\
  (exists x, reached standard w_ex grouping F_ex x /\ name x = lit "f" /\ ename x = Some (lit "__pydevd_ret_val_dict['f']") /\ what x = SVal (VInt 7)) /\
  (exists x, reached standard w_ex grouping F_ex x /\ ename x = Some (lit "limit") /\ what x = SVal (VInt 10)).
Proof.
  split.
  { split; [|split; [|split; [|split]]]; try (cbn; repeat constructor; cbn; intuition discriminate).
    intros v H. vm_compute in H. injection H as <-. apply ordinary_ex. }
  split; [reflexivity|].
  set (R := reached standard w_ex grouping F_ex).
  assert (R1 : R (Var (lit "d") (SVal (VRef 1)) (Some (lit "d")))) by (apply reached_local; vm_compute; tauto).
  assert (R2 : R (Var (lit "(-1, ""it's"", None)") (SVal (VRef 2)) (Some (lit "d[(-1, ""it's"", None)]")))).
  { eapply reached_entry; [exact R1|intros v E; cbn in E; injection E as <-; apply ordinary_ex|vm_compute; tauto]. }
  assert (R3 : R (Var (lit "0") (SVal (VRef 3)) (Some (lit "d[(-1, ""it's"", None)][0]")))).
  { eapply reached_entry; [exact R2|intros v E; cbn in E; injection E as <-; apply ordinary_ex|vm_compute; tauto]. }
  assert (R4 : R (Var (lit "size") (SVal (VTuple [VInt 3])) (Some (lit "d[(-1, ""it's"", None)][0].size")))).
  { eapply reached_entry; [exact R3|intros v E; cbn in E; injection E as <-; apply ordinary_ex|vm_compute; tauto]. }
  split; [|split; [|split]].
  - eexists. split; [eapply reached_entry; [exact R4| |]|].
    + intros v E. cbn in E. injection E as <-. repeat split; try constructor.
    + vm_compute. left. reflexivity.
    + split; reflexivity.
  - eexists. split; [eapply reached_entry; [exact R2| |]|].
    + intros v E. cbn in E. injection E as <-. apply ordinary_ex.
    + vm_compute. right. right. left. reflexivity.
    + split; reflexivity.
  - eexists. split; [apply reached_local; vm_compute; right; left; reflexivity|]. repeat split; reflexivity.
  - eexists. split; [apply reached_global; [vm_compute; left; reflexivity|reflexivity|intros H; now elim H]|]. split; reflexivity.
Qed.

Example evaluate_named_case :
  exists x y, In y (children standard w_ex grouping x) /\ what x = SVal (VRef 1) /\ ename x = Some (lit "d") /\
    In (key_ex, VRef 2) (firstn (max_items standard) [(VInt 5, VNone); (key_ex, VRef 2)]) /\ plain key_ex = true /\
    (forall s, grouping s = Inline \/ get_var_scope (repr w_ex key_ex) Plain false <> Some s) /\ ename y = Some (lit "d[(-1, ""it's"", None)]").
Proof.
  exists (Var (lit "d") (SVal (VRef 1)) (Some (lit "d"))), (Var (lit "(-1, ""it's"", None)") (SVal (VRef 2)) (Some (lit "d[(-1, ""it's"", None)]"))).
  split; [vm_compute; tauto|]. repeat split; try reflexivity; [vm_compute; tauto|]. intros s. right. vm_compute. discriminate.
Qed.
Example evaluate_change_case :
  let y := Var (lit "0") (SVal (VRef 3)) (Some (lit "d[(-1, ""it's"", None)][0]")) in
  exists w', changes w_ex F_ex y (VInt 6) w' /\ inside (heap w' 2) = Items [VInt 6] /\ heap w' 1 = heap w_ex 1.
Proof.
  eexists. split; [|split].
  - do 2 eexists. split; [reflexivity|]. split; [exists 40; vm_compute; reflexivity|]. cbn; reflexivity.
  - reflexivity.
  - reflexivity.
Qed.

(** * What does not hold *)
Ltac one_reading H := let n := fresh in destruct H as [n H];
  let Q := fresh in match type of H with parse _ MTuple ?t = Some (?e, []) =>
    let r := eval vm_compute in (parse 60 MTuple t) in
    match r with Some ?p => assert (Q : parse 60 MTuple t = Some p) by (vm_compute; reflexivity); apply (parse_same _ _ _ _ _ _ Q) in H end end.

(** The entries of the value of an expression get its text followed by a suffix: the text is not put into parentheses, and so the expression of
    an entry is another one.  Here the user evaluates a, b; the entry 0 of the result is the list a, its expression is a, b[0]. *)
Definition w_two : world := world_of [(1%N, Obj (Items [VInt 1; VInt 2]) [] None); (2%N, Obj (Items [VInt 3; VInt 4]) [] None)].
Definition F_two : frame := Frame [(lit "a", VRef 1); (lit "b", VRef 2)] [].
Definition pair_two : variable := expression_variable (lit "a, b") (VTuple [VRef 1; VRef 2]).
Definition first_two : variable := Var (lit "0") (SVal (VRef 1)) (Some (lit "a, b[0]")).
Theorem evaluate_expression_refuted :
  exists C w pres F t v y u t', evaluates w F t v /\ In y (children C w pres (expression_variable t v)) /\ what y = SVal u /\ ename y = Some t' /\
    exists u', evaluates w F t' u' /\ u' <> u.
Proof.
  exists standard, w_two, grouping, F_two, (lit "a, b"), (VTuple [VRef 1; VRef 2]), first_two, (VRef 1), (lit "a, b[0]").
  split; [eexists; split; [exists 20; vm_compute; reflexivity|vm_compute; reflexivity]|]. split; [vm_compute; tauto|]. split; [reflexivity|]. split; [reflexivity|].
  exists (VTuple [VRef 1; VInt 3]). split; [|discriminate]. eexists; split; [exists 20; vm_compute; reflexivity|vm_compute; reflexivity].
Qed.
Print Assumptions evaluate_expression_refuted.
(** Changing that entry to a pair changes an item of b instead. *)
Theorem evaluate_expression_change_refuted :
  exists C w pres F t v y x w', evaluates w F t v /\ In y (children C w pres (expression_variable t v)) /\ what y = SVal (VRef 1) /\
    changes w F y x w' /\ v = VTuple [VRef 1; VRef 2] /\ heap w' 2 <> heap w 2.
Proof.
  exists standard, w_two, grouping, F_two, (lit "a, b"), (VTuple [VRef 1; VRef 2]), first_two, (VTuple [VInt 7; VInt 8]).
  eexists. split; [eexists; split; [exists 20; vm_compute; reflexivity|vm_compute; reflexivity]|]. split; [vm_compute; tauto|]. split; [reflexivity|].
  split; [do 2 eexists; split; [reflexivity|]; split; [exists 20; vm_compute; reflexivity|cbn; reflexivity]|]. split; [reflexivity|].
  vm_compute. discriminate.
Qed.
Print Assumptions evaluate_expression_change_refuted.

(** The text of a float key may be a name: the entry of inf in a dictionary has the expression d[inf]. *)
Definition w_keys : world := world_of [(1%N, Obj (Pairs [(VFloat (lit "inf"), VInt 1); (VEnum (lit "<Color.RED: 1>") 1, VInt 2)]) [] None)].
Definition F_keys : frame := Frame [(lit "d", VRef 1)] [].
Theorem evaluate_float_key_refuted :
  exists C w pres F x y t, In x (frame_variables w pres (locals F)) /\ In y (children C w pres x) /\ ename y = Some t /\
    (exists u, what y = SVal u) /\ forall u, ~ evaluates w F t u.
Proof.
  exists standard, w_keys, grouping, F_keys, (Var (lit "d") (SVal (VRef 1)) (Some (lit "d"))), (Var (lit "inf") (SVal (VInt 1)) (Some (lit "d[inf]"))), (lit "d[inf]").
  split; [vm_compute; tauto|]. split; [vm_compute; tauto|]. split; [reflexivity|]. split; [eexists; reflexivity|].
  intros u (e & R & E). one_reading R. injection R as <-. vm_compute in E. discriminate E.
Qed.
Print Assumptions evaluate_float_key_refuted.
(** Members of an IntEnum are ints: their texts are no expressions. *)
Theorem evaluate_enum_key_refuted :
  exists C w pres F x y t, In x (frame_variables w pres (locals F)) /\ In y (children C w pres x) /\ ename y = Some t /\
    (exists u, what y = SVal u) /\ forall e, ~ reads t e.
Proof.
  exists standard, w_keys, grouping, F_keys, (Var (lit "d") (SVal (VRef 1)) (Some (lit "d"))),
    (Var (lit "<Color.RED: 1>") (SVal (VInt 2)) (Some (lit "d[<Color.RED: 1>]"))), (lit "d[<Color.RED: 1>]").
  split; [vm_compute; tauto|]. split; [vm_compute; tauto|]. split; [reflexivity|]. split; [eexists; reflexivity|].
  intros e [n R]. do 8 (destruct n as [|n]; [discriminate R|]). vm_compute in R. discriminate R.
Qed.
Print Assumptions evaluate_enum_key_refuted.
(** Without names from dir(), the entries of __dict__ get the name of the attribute as the key, without quotation marks: here the expression of the
    attribute x is o.__dict__[x], and since the program has a variable x whose value is the text y, it is the attribute y. *)
Definition w_dict : world := world_of
  [(1%N, Obj NoContents [] (Some 2%N)); (2%N, Obj (Pairs [(VStr (lit "x"), VInt 1); (VStr (lit "y"), VInt 2)]) [] None)].
Definition F_dict : frame := Frame [(lit "o", VRef 1); (lit "x", VStr (lit "y"))] [].
Theorem evaluate_dict_refuted :
  exists C w pres F x y t u u', In x (frame_variables w pres (locals F)) /\ In y (children C w pres x) /\ ename y = Some t /\ what y = SVal u /\
    evaluates w F t u' /\ u' <> u.
Proof.
  exists standard, w_dict, grouping, F_dict, (Var (lit "o") (SVal (VRef 1)) (Some (lit "o"))), (Var (lit "x") (SVal (VInt 1)) (Some (lit "o.__dict__[x]"))),
    (lit "o.__dict__[x]"), (VInt 1), (VInt 2).
  split; [vm_compute; tauto|]. split; [vm_compute; tauto|]. split; [reflexivity|]. split; [reflexivity|]. split; [|discriminate].
  eexists; split; [exists 20; vm_compute; reflexivity|vm_compute; reflexivity].
Qed.
Print Assumptions evaluate_dict_refuted.
(** Attributes whose name is no identifier (made by setattr) get an expression which is none; one whose access raises is shown with a text made
    by the debugger and an expression which raises. *)
Definition w_attr : world := world_of
  [(1%N, Obj NoContents [(lit "class", Some (VInt 1)); (lit "first name", Some (VInt 2)); (lit "total", None)] None)].
Definition F_attr : frame := Frame [(lit "o", VRef 1)] [].
Theorem evaluate_attribute_refuted :
  exists C w pres F x y t, In x (frame_variables w pres (locals F)) /\ In y (children C w pres x) /\ ename y = Some t /\
    (exists u, what y = SVal u) /\ forall e, ~ reads t e.
Proof.
  exists standard, w_attr, grouping, F_attr, (Var (lit "o") (SVal (VRef 1)) (Some (lit "o"))), (Var (lit "class") (SVal (VInt 1)) (Some (lit "o.class"))), (lit "o.class").
  split; [vm_compute; tauto|]. split; [vm_compute; tauto|]. split; [reflexivity|]. split; [eexists; reflexivity|].
  intros e [n R]. do 8 (destruct n as [|n]; [discriminate R|]). vm_compute in R. discriminate R.
Qed.
Print Assumptions evaluate_attribute_refuted.
Theorem evaluate_raising_refuted :
  exists C w pres F x y t, In x (frame_variables w pres (locals F)) /\ In y (children C w pres x) /\ ename y = Some t /\
    (exists s, what y = SText s) /\ forall u, ~ evaluates w F t u.
Proof.
  exists standard, w_attr, grouping, F_attr, (Var (lit "o") (SVal (VRef 1)) (Some (lit "o"))),
    (Var (lit "total") (SText (lit "Traceback: total")) (Some (lit "o.total"))), (lit "o.total").
  split; [vm_compute; tauto|]. split; [vm_compute; tauto|]. split; [reflexivity|]. split; [eexists; reflexivity|].
  intros u (e & R & E). one_reading R. injection R as <-. vm_compute in E. discriminate E.
Qed.
Print Assumptions evaluate_raising_refuted.
(** A variable of the module which has the name of a variable of the frame: its expression is the frame's variable, and changing one of its items
    changes the other list. *)
Definition F_hidden : frame := Frame [(lit "x", VRef 1)] [(lit "x", VRef 2)].
Theorem evaluate_hidden_refuted :
  exists C w pres F x y u w', In x (frame_variables w pres (globals F)) /\ what x = SVal (VRef 2) /\ ename x = Some (lit "x") /\
    evaluates w F (lit "x") (VRef 1) /\ In y (children C w pres x) /\ changes w F y u w' /\ heap w' 2 = heap w 2 /\ heap w' 1 <> heap w 1.
Proof.
  exists standard, w_two, grouping, F_hidden, (Var (lit "x") (SVal (VRef 2)) (Some (lit "x"))), (Var (lit "0") (SVal (VInt 3)) (Some (lit "x[0]"))), (VInt 9).
  eexists. split; [vm_compute; tauto|]. split; [reflexivity|]. split; [reflexivity|].
  split; [eexists; split; [exists 20; vm_compute; reflexivity|vm_compute; reflexivity]|]. split; [vm_compute; tauto|].
  split; [do 2 eexists; split; [reflexivity|]; split; [exists 20; vm_compute; reflexivity|cbn; reflexivity]|].
  split; [reflexivity|vm_compute; discriminate].
Qed.
Print Assumptions evaluate_hidden_refuted.
(** The groups of a frame have an expression which is none. *)
Theorem evaluate_group_refuted :
  exists w pres F x t, In x (frame_variables w pres (locals F)) /\ ename x = Some t /\ forall e, ~ reads t e.
Proof.
  exists w_two, grouping, (Frame [(lit "__file__", VNone)] []), (Var (lit "special variables") (SGroup [(lit "__file__", SVal VNone, PNone)]) (Some (lit "special variables"))),
    (lit "special variables").
  split; [vm_compute; tauto|]. split; [reflexivity|]. intros e R. one_reading R. discriminate R.
Qed.
Print Assumptions evaluate_group_refuted.
(** Variables in a group and the items of a list after the first page have no expression, and so cannot be changed, although there is one. *)
Theorem evaluate_grouped_refuted :
  exists C w pres F x g y u t, In x (frame_variables w pres (locals F)) /\ In g (children C w pres x) /\ In y (children C w pres g) /\
    what y = SVal u /\ ename y = None /\ (forall z w', ~ changes w F y z w') /\ evaluates w F t u.
Proof.
  exists standard, (world_of [(1%N, Obj NoContents [(lit "_total", Some (VInt 5))] None)]), grouping, (Frame [(lit "o", VRef 1)] []),
    (Var (lit "o") (SVal (VRef 1)) (Some (lit "o"))),
    (Var (lit "protected variables") (SGroup [(lit "_total", SVal (VInt 5), PSuffix (lit "._total"))]) None), (Var (lit "_total") (SVal (VInt 5)) None), (VInt 5), (lit "o._total").
  split; [vm_compute; tauto|]. split; [vm_compute; tauto|]. split; [vm_compute; tauto|]. split; [reflexivity|]. split; [reflexivity|].
  split; [intros z w' (t & e & H & _); discriminate H|]. eexists; split; [exists 20; vm_compute; reflexivity|vm_compute; reflexivity].
Qed.
Print Assumptions evaluate_grouped_refuted.
Theorem evaluate_page_refuted :
  exists C w pres F x g y u t, In x (frame_variables w pres (locals F)) /\ In g (children C w pres x) /\ In y (children C w pres g) /\
    what y = SVal u /\ ename y = None /\ (forall z w', ~ changes w F y z w') /\ evaluates w F t u.
Proof.
  exists (Limits 1 10 10), w_two, grouping, F_two, (Var (lit "a") (SVal (VRef 1)) (Some (lit "a"))), (Var (lit "more") (SRange (VRef 1) 1 2) None),
    (Var (lit "1") (SVal (VInt 2)) None), (VInt 2), (lit "a[1]").
  split; [vm_compute; tauto|]. split; [vm_compute; tauto|]. split; [vm_compute; tauto|]. split; [reflexivity|]. split; [reflexivity|].
  split; [intros z w' (t & e & H & _); discriminate H|]. eexists; split; [exists 20; vm_compute; reflexivity|vm_compute; reflexivity].
Qed.
Print Assumptions evaluate_page_refuted.
(** The reference of a variable is that of its object: a variable of another frame with the same object takes its place, and the entries shown
    for the first one get expressions of the other frame. *)
Theorem evaluate_frames_refuted :
  exists C w pres F G x y a f z t, In x (frame_variables w pres (locals F)) /\ what x = SVal (VRef a) /\ In y (frame_variables w pres (locals G)) /\
    get N.eqb a (register (register [] 1 x) 2 y) = Some (f, y) /\ f = 2%N /\ In z (children C w pres y) /\ ename z = Some t /\
    (exists u, what z = SVal u) /\ forall u, ~ evaluates w F t u.
Proof.
  exists standard, w_two, grouping, (Frame [(lit "a", VRef 1)] []), (Frame [(lit "b", VRef 1)] []), (Var (lit "a") (SVal (VRef 1)) (Some (lit "a"))),
    (Var (lit "b") (SVal (VRef 1)) (Some (lit "b"))), 1%N, 2%N, (Var (lit "0") (SVal (VInt 1)) (Some (lit "b[0]"))), (lit "b[0]").
  split; [vm_compute; tauto|]. split; [reflexivity|]. split; [vm_compute; tauto|]. split; [reflexivity|]. split; [reflexivity|]. split; [vm_compute; tauto|].
  split; [reflexivity|]. split; [eexists; reflexivity|]. intros u (e & R & E). one_reading R. injection R as <-. vm_compute in E. discriminate E.
Qed.
Print Assumptions evaluate_frames_refuted.
(** With a variable of the program called len, the expressions of the lengths call it. *)
Theorem evaluate_len_refuted :
  exists C w pres F x y t n, ordinary_frame w F /\ reached C w pres F x /\ (forall v, what x = SVal v -> ordinary w v) /\ In y (children C w pres x) /\
    ename y = Some t /\ what y = SVal (VInt n) /\ ~ evaluates w F t (VInt n).
Proof.
  exists standard, w_two, grouping, (Frame [(lit "a", VRef 1); (lit "len", VInt 5)] []), (Var (lit "a") (SVal (VRef 1)) (Some (lit "a"))),
    (Var (lit "len()") (SVal (VInt 2)) (Some (lit "len(a)"))), (lit "len(a)"), 2%Z.
  split. { split; [|split; [|split; [|split]]]; try (cbn; repeat constructor; cbn; intuition discriminate). }
  split; [apply reached_local; vm_compute; tauto|].
  split. { intros v H. injection H as <-. repeat split; try constructor. }
  split; [vm_compute; tauto|]. split; [reflexivity|]. split; [reflexivity|]. intros (e & R & E). one_reading R. injection R as <-. vm_compute in E. discriminate E.
Qed.
Print Assumptions evaluate_len_refuted.
(** The argument of a generator expression is called .0; its expression is not that variable (in Python it is the number 0.0, which the model does not read). *)
Theorem evaluate_argument_refuted :
  exists w pres F x t u, In x (frame_variables w pres (locals F)) /\ ename x = Some t /\ what x = SVal u /\ ~ evaluates w F t u.
Proof.
  exists w_two, grouping, (Frame [(lit ".0", VRef 1)] []), (Var (lit ".0") (SVal (VRef 1)) (Some (lit ".0"))), (lit ".0"), (VRef 1).
  split; [vm_compute; tauto|]. split; [reflexivity|]. split; [reflexivity|].
  intros (e & [n R] & _). do 8 (destruct n as [|n]; [discriminate R|]). vm_compute in R. discriminate R.
Qed.
Print Assumptions evaluate_argument_refuted.
