(** Property C56: reloading a module gives the functions which exist their new code, and keeps everything else. *)
From Coq Require Import String.
From Coq Require Import List NArith Bool Arith Lia.
From Verif Require Import Base Dict Reload.
Import ListNotations.
Open Scope list_scope.
Notation gets := (get str_eqb).

(** * Specification *)

(** An old object and the new one it corresponds to: where they were found, and by which name. *)
Definition link := (owner * str * addr * addr)%type.
(** What is found in them. *)
Inductive child (h : heap) : addr -> addr -> link -> Prop :=
| child_method a b s u s' v : h a = Method s u -> h b = Method s' v -> child h a b (Nothing, [], u, v)
| child_classmethod a b u v : h a = ClassMethod u -> h b = ClassMethod v -> child h a b (Nothing, [], u, v)
| child_staticmethod a b u v : h a = StaticMethod u -> h b = StaticMethod v -> child h a b (Nothing, [], u, v)
| child_class a b m d bs d' bs' x a' b' : h a = Class m d bs -> h b = Class m d' bs' -> gets x d = Some a' -> gets x d' = Some b' ->
    x <> lit "__dict__" -> x <> lit "__doc__" -> child h a b (InClass a, x, a', b').
(** The names of the module, and so on. *)
Inductive linked (h : heap) (ns e : space) : link -> Prop :=
| linked_name x a b : gets x ns = Some a -> gets x e = Some b -> linked h ns e (Module, x, a, b)
| linked_child w x a b l : linked h ns e (w, x, a, b) -> a <> b -> child h a b l -> linked h ns e l.
Definition corresponds (h : heap) (ns e : space) (a b : addr) : Prop := a <> b /\ exists w x, linked h ns e (w, x, a, b).

(** No old object corresponds to two new ones, and what is new is not old as well. *)
Definition functional (h : heap) (ns e : space) : Prop := forall a b c, corresponds h ns e a b -> corresponds h ns e a c -> b = c.
Definition separate (h : heap) (ns e : space) : Prop := forall a b c, corresponds h ns e a b -> ~ corresponds h ns e b c.
(** Classes are not nested deeper than the limit of recursion. *)
Fixpoint shallow (h : heap) (n : nat) (a b : addr) : Prop :=
  match n with
  | 0 => False
  | S n => a = b \/ n <> 0 /\ forall w x a' b', child h a b (w, x, a', b') -> shallow h n a' b'
  end.
(** Dictionaries have no key twice. *)
Definition nodup_dict (o : obj) : Prop := match o with Function f => NoDup (keys (fdict f)) | Class _ d _ => NoDup (keys d) | _ => True end.
Definition well (h : heap) (ns e : space) (n : nat) : Prop :=
  functional h ns e /\ separate h ns e /\ (forall x, nodup_dict (h x)) /\ 0 < n /\
  forall x a b, gets x ns = Some a -> gets x e = Some b -> shallow h n a b.

(** * Objects *)
Definition fin (o o' : obj) : obj :=
  match o, o' with
  | Function f, Function g => Function (update_func f g)
  | Class m d bs, Class m' e _ => if N.eqb m m' then Class m (d ++ added d e) bs else o
  | _, _ => o
  end.
Definition changes (o o' : obj) : bool :=
  match o, o' with
  | Function f, Function g => code_changes f g
  | Class m d bs, Class m' e _ => N.eqb m m' && match added d e with [] => false | _ => true end
  | _, _ => false
  end.

Lemma set_id (x : str) (v : N) d : gets x d = Some v -> set str_eqb x v d = d.
Proof. induction d as [|[y w] d IH]; cbn [get set]; [discriminate|]. destruct (str_eqb_spec x y) as [->|]; [intros H; injection H as ->; auto|intros H; rewrite IH; auto]. Qed.
Lemma update_dict_id e : forall d, (forall x v, In (x, v) e -> gets x d = Some v) -> update_dict d e = d.
Proof.
  unfold update_dict. induction e as [|[x v] e IH]; intros d H; auto. cbn [fold_left fst snd]. rewrite set_id by (apply H; left; auto). apply IH. intros; apply H; right; auto.
Qed.
Lemma get_update_dict e : forall d x, NoDup (keys e) -> gets x (update_dict d e) = match gets x e with Some v => Some v | None => gets x d end.
Proof.
  unfold update_dict. induction e as [|[y v] e IH]; intros d x H; [reflexivity|]. cbn [fold_left fst snd]. cbn [keys map fst] in H. inversion H; subst.
  rewrite IH by auto. cbn [get]. destruct (str_eqb_spec x y) as [->|Hne].
  - replace (gets y e) with (@None N) by (symmetry; apply (get_None _ str_eqb_spec); auto). apply (get_set_same _ str_eqb_spec).
  - destruct (gets x e); auto. apply (get_set_other _ str_eqb_spec). auto.
Qed.
(** Applying the same update twice *)
Lemma update_dict_twice d e : NoDup (keys e) -> update_dict (update_dict d e) e = update_dict d e.
Proof. intros H. apply update_dict_id. intros x v Hi. rewrite get_update_dict by auto. rewrite (In_get _ str_eqb_spec) with (v := v); auto. Qed.
Lemma code_equal_refl c : code_equal c c = true.
Proof. unfold code_equal. rewrite N.eqb_refl, Nat.eqb_refl. auto. Qed.
Lemma update_func_twice f g : NoDup (keys (fdict g)) -> update_func (update_func f g) g = update_func f g.
Proof.
  intros H. unfold update_func, new_code. destruct (Nat.eqb (free (fcode f)) (free (fcode g))) eqn:E.
  - cbn [fcode fdict fkwdefaults fglobals]. rewrite update_dict_twice by auto. destruct (code_equal (fcode f) (fcode g)) eqn:E2.
    + rewrite E, E2. auto.
    + rewrite Nat.eqb_refl, code_equal_refl. auto.
  - cbn [fcode fdict fdefaults fkwdefaults fglobals]. rewrite update_dict_twice by auto. rewrite E. auto.
Qed.
Lemma changes_twice f g : code_changes (update_func f g) g = false.
Proof.
  unfold code_changes, update_func, new_code. destruct (Nat.eqb (free (fcode f)) (free (fcode g))) eqn:E; cbn [fcode]; [|rewrite E; auto].
  destruct (code_equal (fcode f) (fcode g)) eqn:E2; [rewrite E, E2; auto|rewrite code_equal_refl; apply andb_false_r].
Qed.
Lemma mem_app (x : str) (d e : space) : mem str_eqb x (d ++ e) = mem str_eqb x d || mem str_eqb x e.
Proof. unfold mem. induction d as [|[y v] d IH]; auto. cbn [app get]. destruct (str_eqb x y); auto. Qed.
Lemma get_app (x : str) (d e : space) : gets x (d ++ e) = match gets x d with Some v => Some v | None => gets x e end.
Proof. induction d as [|[y v] d IH]; auto. cbn [app get]. destruct (str_eqb x y); auto. Qed.
Lemma get_added (x : str) (d e : space) : gets x (added d e) = if mem str_eqb x d then None else gets x e.
Proof.
  unfold added. induction e as [|[y v] e IH]; [destruct (mem str_eqb x d); reflexivity|]. cbn [filter fst get]. destruct (str_eqb_spec x y) as [->|Hne].
  - destruct (mem str_eqb y d) eqn:E; cbn [negb]; [rewrite IH; auto|]. cbn [get]. destruct (str_eqb_spec y y); congruence.
  - destruct (negb _); auto. cbn [get]. destruct (str_eqb_spec x y); congruence.
Qed.
Lemma added_twice d e : added (d ++ added d e) e = [].
Proof.
  unfold added at 1. apply incl_l_nil. intros [x v] H. exfalso. apply filter_In in H. destruct H as [H1 H2]. cbn [fst] in H2. rewrite mem_app in H2.
  destruct (mem str_eqb x d) eqn:E; [discriminate|]. cbn [orb] in H2. unfold mem in H2. rewrite get_added, E in H2.
  destruct (gets x e) eqn:Eg; [discriminate|]. apply (get_None _ str_eqb_spec) in Eg. apply Eg. apply in_map_iff. exists (x, v). auto.
Qed.

(** * The run *)
Section Run.
Variables (order : list str -> list str) (inherited : addr -> str -> bool) (hooks : bool).
Hypothesis Horder : forall l x, In x (order l) <-> In x l.
Variables (h0 : heap) (ns e : space).
Hypothesis Hfun : functional h0 ns e.
Hypothesis Hsep : separate h0 ns e.
Hypothesis Hdict : forall x, nodup_dict (h0 x).
Notation corr := (corresponds h0 ns e).
Notation final x y := (fin (h0 x) (h0 y)).
Notation up := (update order inherited hooks).

Definition attr (o : obj) (c : addr) (name : str) : bool :=
  match o with Class _ d _ => mem str_eqb name d || inherited c name | _ => false end.
Definition is_data (o : obj) : bool := match o with Data _ _ => true | _ => false end.
Definition is_class (o : obj) : bool := match o with Class _ _ _ => true | _ => false end.
Definition hooked (w : owner) : Prop :=
  match w with Module => hooks = true | InClass c => exists d, corr c d /\ attr (final c d) c old_new = true | Nothing => False end.
Definition expected (c : call) : Prop :=
  match c with
  | OldNew w x a b => linked h0 ns e (w, x, a, b) /\ a <> b /\ same_type (h0 a) (h0 b) = true /\ is_data (h0 a) = true /\ hooked w
  | After (InClass a) => exists b, corr a b /\ same_type (h0 a) (h0 b) = true /\ is_class (h0 a) = true /\ attr (final a b) a after_update = true
  | After _ => False
  end.

Record inv (s : state) : Prop := {
  inv_heap : forall x, hp s x = h0 x \/ exists y, corr x y /\ hp s x = final x y /\ (changes (h0 x) (h0 y) = true -> found s = true);
  inv_calls : forall c, In c (calls s ++ finish s) -> expected c;
  inv_calls1 : forall c, In c (calls s) -> exists w x a b, c = OldNew w x a b;
  inv_finish : forall c, In c (finish s) -> exists w, c = After w;
  inv_found : found s = true -> added ns e <> [] \/ (exists x y, corr x y /\ changes (h0 x) (h0 y) = true) \/ exists c, In c (calls s ++ finish s);
  inv_told : forall c, In c (calls s ++ finish s) -> found s = true }.
Record mono (s s' : state) : Prop := {
  mono_heap : forall x y, corr x y -> hp s x = final x y -> (changes (h0 x) (h0 y) = true -> found s = true) -> hp s' x = final x y;
  mono_found : found s = true -> found s' = true;
  mono_calls : forall c, In c (calls s ++ finish s) -> In c (calls s' ++ finish s') }.
(** What was done for a pair and all which is found in it. *)
Inductive below : link -> link -> Prop :=
| below_refl l : below l l
| below_step w x a b l l' : a <> b -> child h0 a b l -> below l l' -> below (w, x, a, b) l'.
Definition did (s : state) (l : link) : Prop :=
  forall w x a b, below l (w, x, a, b) -> a <> b ->
    hp s a = final a b /\ (changes (h0 a) (h0 b) = true -> found s = true) /\
    (expected (OldNew w x a b) -> In (OldNew w x a b) (calls s ++ finish s)) /\
    (same_type (h0 a) (h0 b) = true -> is_class (h0 a) = true -> attr (final a b) a after_update = true -> In (After (InClass a)) (calls s ++ finish s)).
Definition ready (w : owner) (s : state) : Prop :=
  match w with InClass c => exists d, corr c d /\ hp s c = final c d /\ (changes (h0 c) (h0 d) = true -> found s = true) | _ => True end.
Definition good (s : state) (n : nat) (l : link) : Prop :=
  let '(w, x, a, b) := l in (a = b /\ 0 < n) \/ linked h0 ns e l /\ shallow h0 n a b.

Lemma mono_refl s : mono s s.
Proof. constructor; auto. Qed.
Lemma mono_trans s t u : mono s t -> mono t u -> mono s u.
Proof.
  intros [A B C] [D E F]. constructor; auto.
Qed.
Lemma ready_mono w s s' : mono s s' -> ready w s -> ready w s'.
Proof. intros [A B C]. destruct w; cbn; auto. intros (d & H1 & H2 & H3). exists d. split; auto. Qed.
Lemma did_mono s s' l : mono s s' -> (forall w x a b, below l (w, x, a, b) -> a <> b -> corr a b) -> did s l -> did s' l.
Proof.
  intros [A B C] Hc H w x a b Hb Hne. destruct (H w x a b Hb Hne) as (H1 & H2 & H3 & H4). split; [apply A; eauto|]. split; auto.
Qed.
Lemma below_linked l l' : linked h0 ns e l -> below l l' -> linked h0 ns e l'.
Proof. intros H Hb. induction Hb; auto. apply IHHb. eapply linked_child; eauto. Qed.
Lemma below_corr l w x a b : linked h0 ns e l -> below l (w, x, a, b) -> a <> b -> corr a b.
Proof. intros H Hb Hne. split; auto. exists w, x. eapply below_linked; eauto. Qed.
Lemma below_same w x a y : below (w, x, a, a) y -> y = (w, x, a, a).
Proof. intros H. inversion H; subst; auto; congruence. Qed.

(** The objects of a pair, as they are found. *)
Lemma seen_old s a b : inv s -> corr a b -> hp s a = h0 a \/ hp s a = final a b /\ (changes (h0 a) (h0 b) = true -> found s = true).
Proof. intros I Hc. destruct (inv_heap s I a) as [H|(y & Hy & H1 & H2)]; auto. rewrite (Hfun a b y Hc Hy). auto. Qed.
Lemma seen_new s a b : inv s -> corr a b -> hp s b = h0 b.
Proof. intros I Hc. destruct (inv_heap s I b) as [H|(y & Hy & _)]; auto. destruct (Hsep a b y Hc Hy). Qed.
Lemma fin_type o o' p : same_type (fin o o') p = same_type o p.
Proof. destruct o, o'; cbn; auto. destruct (N.eqb meta meta0); auto. Qed.

Lemma inv_visit s : inv s -> inv (visit s).
Proof. intros [A B C D E F]. constructor; auto. Qed.
Lemma mono_visit s : mono s (visit s).
Proof. constructor; auto. Qed.

(** Writing the final object of a pair *)
Lemma inv_store s a b o (f : bool) : inv s -> corr a b -> o = final a b -> (changes (h0 a) (h0 b) = true -> f = true) -> (found s = true -> f = true) ->
  (f = true -> found s = true \/ changes (h0 a) (h0 b) = true) ->
  let s' := State (store (hp s) a o) f (calls s) (finish s) (visits s) in inv s' /\ mono s s' /\ hp s' a = final a b.
Proof.
  intros I Hc -> Hf Hs Hr. cbn zeta. split; [|split].
  - constructor; cbn [hp found calls finish]; try apply I.
    + intros x. unfold store. destruct (N.eqb_spec x a) as [->|]; [right; exists b; auto|].
      destruct (inv_heap s I x) as [H|(y & H1 & H2 & H3)]; auto. right. exists y. auto.
    + intros X. destruct (Hr X) as [Y|Y]; [apply (inv_found s I); auto|right; left; eauto].
    + intros c Hcc. apply Hs. eapply (inv_told s I); eauto.
  - constructor; cbn [hp found calls finish]; auto. intros x y H1 H2 H3. unfold store. destruct (N.eqb_spec x a) as [->|]; auto.
    rewrite (Hfun a b y Hc H1). auto.
  - cbn [hp]. unfold store. rewrite N.eqb_refl. auto.
Qed.

Lemma inv_call s w x a b : inv s -> expected (OldNew w x a b) -> let s' := add_call (OldNew w x a b) s in inv s' /\ mono s s' /\ In (OldNew w x a b) (calls s' ++ finish s').
Proof.
  intros I He. cbn zeta. split; [|split].
  - constructor; cbn [add_call hp found calls finish].
    + intros y. destruct (inv_heap s I y) as [H|(z & H1 & H2 & H3)]; auto. right. exists z. auto.
    + intros c Hc. rewrite !in_app_iff in Hc. destruct Hc as [[Hc|[<- | []]]|Hc]; auto; apply (inv_calls s I); apply in_app_iff; auto.
    + intros c Hc. rewrite in_app_iff in Hc. destruct Hc as [Hc|[<- | []]]; [apply (inv_calls1 s I); auto|eauto].
    + apply (inv_finish s I).
    + intros _. right. right. exists (OldNew w x a b). rewrite !in_app_iff. cbn. auto.
    + auto.
  - constructor; cbn [add_call hp found calls finish]; auto. intros c. rewrite !in_app_iff. tauto.
  - cbn [add_call calls finish]. rewrite !in_app_iff. cbn. auto.
Qed.
Lemma inv_after s a : inv s -> expected (After (InClass a)) -> let s' := add_finish (After (InClass a)) s in inv s' /\ mono s s' /\ In (After (InClass a)) (calls s' ++ finish s').
Proof.
  intros I He. cbn zeta. split; [|split].
  - constructor; cbn [add_finish hp found calls finish].
    + intros y. destruct (inv_heap s I y) as [H|(z & H1 & H2 & H3)]; auto. right. exists z. auto.
    + intros c Hc. rewrite !in_app_iff in Hc. destruct Hc as [Hc|[Hc|[<- | []]]]; auto; apply (inv_calls s I); apply in_app_iff; auto.
    + apply (inv_calls1 s I).
    + intros c Hc. rewrite in_app_iff in Hc. destruct Hc as [Hc|[<- | []]]; [apply (inv_finish s I); auto|eauto].
    + intros _. right. right. exists (After (InClass a)). rewrite !in_app_iff. cbn. auto.
    + auto.
  - constructor; cbn [add_finish hp found calls finish]; auto. intros c. rewrite !in_app_iff. tauto.
  - cbn [add_finish calls finish]. rewrite !in_app_iff. cbn. auto.
Qed.
Lemma good_corr s n l w x a b : good s n l -> below l (w, x, a, b) -> a <> b -> corr a b.
Proof.
  destruct l as [[[w' x'] a'] b']. intros [[-> _] | [H _]] Hb Hne; [apply below_same in Hb; congruence|]. eapply below_corr; eauto.
Qed.

Definition ok (n : nat) : Prop := forall w x a b s, good s n (w, x, a, b) -> inv s -> ready w s ->
  let (s', bad) := up n w x a b s in bad = false /\ inv s' /\ mono s s' /\ did s' (w, x, a, b).
Lemma each_ok n w D E : ok n -> forall names s,
  (forall x a b, In x names -> gets x D = Some a -> gets x E = Some b -> good s n (w, x, a, b)) -> inv s -> ready w s ->
  let (s', bad) := each (fun x a b s => up n w x a b s) D E names s in
  bad = false /\ inv s' /\ mono s s' /\ forall x a b, In x names -> gets x D = Some a -> gets x E = Some b -> did s' (w, x, a, b).
Proof.
  intros Hok. induction names as [|x names IH]; intros s Hg I R; cbn [each]; [split; auto; split; auto; split; [apply mono_refl|intros ? ? ? []]|].
  assert (Hskip : (gets x D = None \/ gets x E = None) -> let (s', bad) := each (fun x a b s => up n w x a b s) D E names s in
    bad = false /\ inv s' /\ mono s s' /\ forall y a b, In y (x :: names) -> gets y D = Some a -> gets y E = Some b -> did s' (w, y, a, b)).
  { intros Hn. specialize (IH s). destruct (each _ D E names s) as [s' bad]. destruct IH as (A & B & C & F); auto; [intros y a b Hy; apply Hg; right; auto|].
    split; auto. split; auto. split; auto. intros y a b [<- | Hy] H1 H2; [destruct Hn; congruence|apply F; auto]. }
  destruct (gets x D) as [a|] eqn:Ea; [|apply Hskip; auto]. destruct (gets x E) as [b|] eqn:Eb; [|apply Hskip; auto]. clear Hskip.
  pose proof (Hok w x a b s (Hg x a b (or_introl eq_refl) Ea Eb) I R) as H1. destruct (up n w x a b s) as [s1 bad1]. destruct H1 as (-> & I1 & M1 & D1).
  assert (Hg' : forall y a b, In y names -> gets y D = Some a -> gets y E = Some b -> good s1 n (w, y, a, b)) by (intros y a' b' Hy; apply (Hg y a' b'); right; auto).
  specialize (IH s1 Hg' I1 (ready_mono _ _ _ M1 R)). destruct (each _ D E names s1) as [s2 bad2]. destruct IH as (A & B & C & F).
  split; auto. split; auto. split; [eapply mono_trans; eauto|]. intros y a' b' [<- | Hy] H1 H2; [|apply F; auto].
  rewrite Ea in H1. rewrite Eb in H2. injection H1 as <-. injection H2 as <-. eapply did_mono; eauto. intros w' x' a' b'. apply (good_corr s n). apply Hg; auto. left. auto.
Qed.

Lemma did_leaf s w x a b : (forall l, ~ child h0 a b l) -> (a <> b -> hp s a = final a b /\ (changes (h0 a) (h0 b) = true -> found s = true) /\
    (expected (OldNew w x a b) -> In (OldNew w x a b) (calls s ++ finish s)) /\ (same_type (h0 a) (h0 b) = true -> is_class (h0 a) = false)) -> did s (w, x, a, b).
Proof.
  intros Hn H w' x' a' b' Hb Hne. inversion Hb; subst; [|exfalso; eapply Hn; eauto]. destruct (H Hne) as (A & B & C & D). split; auto. split; auto. split; auto.
  intros X Y. rewrite D in Y by auto. discriminate.
Qed.
Lemma did_node s w x a b : hp s a = final a b -> (changes (h0 a) (h0 b) = true -> found s = true) -> is_data (h0 a) = false ->
  (same_type (h0 a) (h0 b) = true -> is_class (h0 a) = true -> attr (final a b) a after_update = true -> In (After (InClass a)) (calls s ++ finish s)) ->
  (forall l, a <> b -> child h0 a b l -> did s l) -> did s (w, x, a, b).
Proof.
  intros H1 H2 H3 H4 H5 w' x' a' b' Hb Hne. inversion Hb; subst.
  - split; auto. split; auto. split; auto. intros (_ & _ & _ & X & _). congruence.
  - eapply H5; eauto.
Qed.
Lemma child_mismatch a b l : same_type (h0 a) (h0 b) = false -> ~ child h0 a b l.
Proof. intros H Hc. inversion Hc; subst; rewrite H0, H1 in H; cbn in H; try discriminate. rewrite N.eqb_refl in H. discriminate. Qed.

Lemma update_ok : forall n, ok n.
Proof.
  induction n as [|n IH]; intros w x a b s Hg I R; [exfalso; destruct Hg as [[_ Hg]|[_ []]]; lia|]. cbn [update]. pose proof (inv_visit s I) as Iv. pose proof (mono_visit s) as Mv.
  pose proof (ready_mono w _ _ Mv R) as Rv. set (t := visit s) in *. clearbody t.
  destruct (N.eqb_spec a b) as [->|Hne].
  { split; auto. split; auto. split; auto. intros w' x' a' b' Hb Hne. apply below_same in Hb. congruence. }
  destruct Hg as [[Hg _]|[Hl Hs]]; [congruence|]. cbn [shallow] in Hs. destruct Hs as [Hs|[Hn Hs]]; [congruence|].
  assert (Hc : corr a b) by (split; eauto). pose proof (seen_new t a b Iv Hc) as Hb.
  assert (Hty : same_type (hp t a) (hp t b) = same_type (h0 a) (h0 b)).
  { rewrite Hb. destruct (seen_old t a b Iv Hc) as [-> | [-> _]]; auto. apply fin_type. }
  rewrite Hty. destruct (same_type (h0 a) (h0 b)) eqn:Et; cbn [negb].
  2: { split; auto. split; auto. split; auto. apply did_leaf; [intros l; apply child_mismatch; auto|]. intros _.
       assert (Hfin : final a b = h0 a).
       { destruct (h0 a), (h0 b); cbn in *; auto; try discriminate. rewrite Et. auto. }
       assert (Hch : changes (h0 a) (h0 b) = false) by (destruct (h0 a), (h0 b); cbn in *; auto; try discriminate; rewrite Et; auto).
       split; [|split; [congruence|split; [intros (_ & _ & X & _); congruence|congruence]]].
       destruct (seen_old t a b Iv Hc) as [-> | [-> _]]; auto. }
  assert (Hwrap : forall s0 u v, h0 a = s0 -> (forall l, child h0 a b l -> l = (Nothing, [], u, v)) -> child h0 a b (Nothing, [], u, v) -> fin s0 (h0 b) = s0 -> changes s0 (h0 b) = false ->
     is_data s0 = false -> is_class s0 = false ->
     let (s', bad) := (fst (up n Nothing [] u v t), false) in bad = false /\ inv s' /\ mono s s' /\ did s' (w, x, a, b)).
  { intros s0 u v E0 Huniq Hch Hf Hcg Hd Hcl. assert (Hgood : good t n (Nothing, [], u, v)).
    { right. split; [eapply linked_child; eauto|]. eapply Hs. eauto. }
    pose proof (IH Nothing [] u v t Hgood Iv Logic.I) as HH. destruct (up n Nothing [] u v t) as [s1 bad1]. destruct HH as (_ & I1 & M1 & D1). cbn [fst].
    split; auto. split; auto. split; [eapply mono_trans; eauto|]. apply did_node; try (rewrite E0; auto; congruence).
    - destruct (seen_old s1 a b I1 Hc) as [H|[H _]]; auto. rewrite H, E0. auto.
    - intros l _ Hl'. rewrite (Huniq l Hl'). auto. }
  destruct (h0 a) as [f|m u|u|u|m d bs|ty v] eqn:Ea; destruct (h0 b) as [g|m' u'|u'|u'|m' d' bs'|ty' v'] eqn:Eb; cbn in Et; try discriminate; rewrite Hb.
  - (* functions *)
    assert (Hfa : hp t a = Function f \/ hp t a = Function (update_func f g) /\ (changes (Function f) (Function g) = true -> found t = true)).
    { destruct (seen_old t a b Iv Hc) as [H|[H H']]; rewrite ?Ea, ?Eb in H; auto. rewrite Ea, Eb in H'. auto. }
    assert (Hgd : NoDup (keys (fdict g))) by (pose proof (Hdict b) as X; rewrite Eb in X; auto).
    assert (Hgo : exists F fl, hp t a = Function F /\ fl = (if code_changes F g then true else found t) /\ Function (update_func F g) = final a b /\
       (changes (h0 a) (h0 b) = true -> fl = true) /\ (found t = true -> fl = true) /\ (fl = true -> found t = true \/ changes (h0 a) (h0 b) = true)).
    { rewrite Ea, Eb. destruct Hfa as [H|[H1 H2]].
      - exists f, (if code_changes f g then true else found t). cbn [fin changes]. repeat split; auto; destruct (code_changes f g); auto; discriminate.
      - exists (update_func f g), (found t). rewrite changes_twice, update_func_twice by auto. cbn [fin]. repeat split; auto. }
    destruct Hgo as (F & fl & E1 & E2 & E3 & E4 & E5 & E6). rewrite E1.
    destruct (inv_store t a b _ fl Iv Hc E3 E4 E5 E6) as (I2 & M2 & H2). cbn zeta in *.
    assert (Es : (if code_changes F g then set_found (with_hp (store (hp t) a (Function (update_func F g))) t) else with_hp (store (hp t) a (Function (update_func F g))) t)
       = State (store (hp t) a (Function (update_func F g))) fl (calls t) (finish t) (visits t)).
    { rewrite E2. destruct (code_changes F g); reflexivity. }
    rewrite Es. split; auto. split; auto. split; [eapply mono_trans; eauto|]. apply did_leaf.
    + intros l Hl'. inversion Hl'; congruence.
    + intros _. split; auto. split; auto. split; [intros (_ & _ & _ & X & _); rewrite Ea in X; discriminate|rewrite Ea; auto].
  - (* methods *)
    assert (Hta : hp t a = Method m u) by (destruct (seen_old t a b Iv Hc) as [H|[H _]]; rewrite H, Ea; auto). rewrite Hta.
    apply (Hwrap _ u u' eq_refl); auto; [|solve [eapply child_method; eauto|eapply child_classmethod; eauto|eapply child_staticmethod; eauto]]. intros l Hl'. inversion Hl'; subst; congruence.
  - assert (Hta : hp t a = ClassMethod u) by (destruct (seen_old t a b Iv Hc) as [H|[H _]]; rewrite H, Ea; auto). rewrite Hta.
    apply (Hwrap _ u u' eq_refl); auto; [|solve [eapply child_method; eauto|eapply child_classmethod; eauto|eapply child_staticmethod; eauto]]. intros l Hl'. inversion Hl'; subst; congruence.
  - assert (Hta : hp t a = StaticMethod u) by (destruct (seen_old t a b Iv Hc) as [H|[H _]]; rewrite H, Ea; auto). rewrite Hta.
    apply (Hwrap _ u u' eq_refl); auto; [|solve [eapply child_method; eauto|eapply child_classmethod; eauto|eapply child_staticmethod; eauto]]. intros l Hl'. inversion Hl'; subst; congruence.
  - (* classes *)
    clear Hwrap. apply N.eqb_eq in Et. subst m'. assert (Hfin : final a b = Class m (d ++ added d d') bs) by (rewrite Ea, Eb; cbn [fin]; rewrite N.eqb_refl; auto).
    assert (Hchg : changes (h0 a) (h0 b) = match added d d' with [] => false | _ => true end) by (rewrite Ea, Eb; cbn [changes]; rewrite N.eqb_refl; auto).
    assert (Hgo : exists D, hp t a = Class m D bs /\ (forall y, In y (keys d) -> In y (keys D) /\ gets y D = gets y d) /\
       (forall y z, gets y D = Some z -> gets y d = Some z \/ gets y d' = Some z) /\
       exists s1, match added D d' with [] => t | l => set_found (with_hp (store (hp t) a (Class m (D ++ l) bs)) t) end = s1 /\
         inv s1 /\ mono t s1 /\ hp s1 a = final a b /\ (changes (h0 a) (h0 b) = true -> found s1 = true)).
    { assert (Hold : hp t a = Class m (d ++ added d d') bs -> (changes (h0 a) (h0 b) = true -> found t = true) -> exists D, hp t a = Class m D bs /\ (forall y, In y (keys d) -> In y (keys D) /\ gets y D = gets y d) /\
         (forall y z, gets y D = Some z -> gets y d = Some z \/ gets y d' = Some z) /\
         exists s1, match added D d' with [] => t | l => set_found (with_hp (store (hp t) a (Class m (D ++ l) bs)) t) end = s1 /\
           inv s1 /\ mono t s1 /\ hp s1 a = final a b /\ (changes (h0 a) (h0 b) = true -> found s1 = true)).
      { intros H1 H2. exists (d ++ added d d'). split; auto. split; [|split].
        - intros y Hy. split; [unfold keys; rewrite map_app; apply in_app_iff; auto|]. rewrite get_app. destruct (gets y d) eqn:E1; auto.
          apply (get_None _ str_eqb_spec) in E1. contradiction.
        - intros y z. rewrite get_app. destruct (gets y d) eqn:E1; auto. rewrite get_added. unfold mem. rewrite E1. auto.
        - rewrite added_twice. eexists. split; [reflexivity|]. split; auto. split; [apply mono_refl|]. split; [congruence|auto]. }
      destruct (seen_old t a b Iv Hc) as [H|[H H2]].
      - rewrite Ea in H. destruct (added d d') as [|p l] eqn:El.
        + apply Hold; [rewrite app_nil_r; auto|]. rewrite Hchg. discriminate.
        + exists d. split; auto. split; auto. split; auto. rewrite El. eexists. split; [reflexivity|].
          destruct (inv_store t a b (Class m (d ++ p :: l) bs) true Iv Hc ltac:(congruence) ltac:(auto) ltac:(auto) ltac:(auto)) as (X1 & X2 & X3). auto.
      - apply Hold; auto. congruence. }
    destruct Hgo as (D & HD & HD1 & HD2 & s1 & Es1 & I1 & M1 & H1 & F1). rewrite HD, Es1. clear Es1.
    assert (R1 : ready (InClass a) s1) by (exists b; auto).
    assert (Hgood : forall y a' b', In y (order (common D d')) -> gets y D = Some a' -> gets y d' = Some b' -> good s1 n (InClass a, y, a', b')).
    { intros y a' b' Hy Ha Hb'. apply (proj1 (Horder _ _)) in Hy. unfold common in Hy. apply filter_In in Hy. destruct Hy as [Hy1 Hy2].
      apply andb_true_iff in Hy2. destruct Hy2 as [Hy2 Hy3]. apply andb_true_iff in Hy2. destruct Hy2 as [_ Hy2]. apply negb_true_iff in Hy2, Hy3.
      assert (N1 : y <> lit "__dict__") by (intros ->; destruct (str_eqb_spec (lit "__dict__") (lit "__dict__")); congruence).
      assert (N2 : y <> lit "__doc__") by (intros ->; destruct (str_eqb_spec (lit "__doc__") (lit "__doc__")); congruence).
      destruct (in_dec str_eq_dec y (keys d)) as [Hi|Hi].
      - right. destruct (HD1 y Hi) as [_ Hg]. rewrite Hg in Ha. assert (Hch : child h0 a b (InClass a, y, a', b')) by (eapply child_class; eauto).
        split; [eapply linked_child; eauto|]. eapply Hs. eauto.
      - left. destruct (HD2 y a' Ha) as [X|X]; [|split; [congruence|lia]]. apply (get_None _ str_eqb_spec) in Hi. congruence. }
    pose proof (each_ok n (InClass a) D d' IH _ s1 Hgood I1 R1) as HH. destruct (each _ D d' _ s1) as [s2 bad]. destruct HH as (-> & I2 & M2 & D2).
    assert (Hs2 : hp s2 a = final a b) by (apply (mono_heap _ _ M2); auto).
    assert (Hattr : has_attr inherited (hp s2) a after_update = attr (final a b) a after_update) by (unfold has_attr, attr; rewrite Hs2; auto).
    assert (Hkids : forall s3, mono s2 s3 -> forall l, a <> b -> child h0 a b l -> did s3 l).
    { intros s3 M3 l _ Hl'. inversion Hl' as [? ? ? ? ? ? X1 X2|? ? ? ? X1 X2|? ? ? ? X1 X2|? ? m1 e1 b1 e2 b2 y a' b' X1 X2 X3 X4 X5 X6]; subst; try congruence.
      rewrite Ea in X1. rewrite Eb in X2. injection X1 as <- <- <-. injection X2 as <- <-.
      assert (Hi : In y (keys d)) by (apply (mem_In _ str_eqb_spec); unfold mem; rewrite X3; auto). destruct (HD1 y Hi) as [Hi2 Hg2].
      assert (Hy : In y (order (common D d'))).
      { apply Horder. unfold common. apply filter_In. split; auto. unfold mem. rewrite X4. cbn [andb].
        destruct (str_eqb_spec y (lit "__dict__")); [congruence|]. destruct (str_eqb_spec y (lit "__doc__")); [congruence|]. reflexivity. }
      eapply did_mono; [exact M3| |apply (D2 y a' b'); auto; congruence]. intros w' x' p q. apply (good_corr s1 n). apply Hgood; auto. congruence. }
    rewrite Hattr. destruct (attr (final a b) a after_update) eqn:Eat.
    + assert (He : expected (After (InClass a))) by (exists b; rewrite Ea, Eb in *; cbn [same_type is_class]; rewrite N.eqb_refl; auto).
      destruct (inv_after s2 a I2 He) as (I3 & M3 & H3). cbn zeta in *. split; auto. split; auto. split; [eapply mono_trans; [exact Mv|]; eapply mono_trans; [exact M1|]; eapply mono_trans; eauto|].
      apply did_node; auto; [rewrite Ea; auto].
    + split; auto. split; auto. split; [eapply mono_trans; [exact Mv|]; eapply mono_trans; eauto|].
      apply did_node; auto; [intros X; apply (mono_found _ _ M2); auto|rewrite Ea; auto|congruence|apply Hkids, mono_refl].
  - (* data *)
    clear Hwrap. assert (Hta : hp t a = Data ty v) by (destruct (seen_old t a b Iv Hc) as [H|[H _]]; rewrite H, Ea; auto). rewrite Hta.
    assert (Hleaf : forall s', (expected (OldNew w x a b) -> In (OldNew w x a b) (calls s' ++ finish s')) -> inv s' -> did s' (w, x, a, b)).
    { intros s' Hx I'. apply did_leaf; [intros l Hl'; inversion Hl'; congruence|]. intros _. split; [|split; [rewrite Ea; discriminate|split; auto; rewrite Ea; auto]].
      destruct (seen_old s' a b I' Hc) as [H|[H _]]; auto. rewrite H, Ea. auto. }
    assert (Hexp : hooked w -> expected (OldNew w x a b)) by (intros Hh; cbn [expected]; rewrite Ea, Eb; cbn [same_type is_data]; auto).
    assert (Hcase : forall c, (c = true -> hooked w) -> (hooked w -> c = true) ->
       let (s', bad) := (if c then add_call (OldNew w x a b) t else t, false) in bad = false /\ inv s' /\ mono s s' /\ did s' (w, x, a, b)).
    { intros [|] C1 C2.
      - destruct (inv_call t w x a b Iv (Hexp (C1 eq_refl))) as (I3 & M3 & H3). cbn zeta in *. split; auto. split; auto. split; [eapply mono_trans; eauto|]. apply Hleaf; auto.
      - split; auto. split; auto. split; auto. apply Hleaf; auto. intros (_ & _ & _ & _ & X). specialize (C2 X). discriminate. }
    destruct w as [|c|].
    + apply Hcase; auto.
    + destruct Rv as (dd & Q1 & Q2 & Q3). apply Hcase.
      * intros X. exists dd. split; auto. unfold has_attr in X. rewrite Q2 in X. exact X.
      * intros (d2 & Q4 & Q5). rewrite (Hfun c dd d2 Q1 Q4) in Q2. unfold has_attr. rewrite Q2. exact Q5.
    + apply (Hcase false); [discriminate|intros []].
Qed.
Lemma below_trans l l' l'' : below l l' -> below l' l'' -> below l l''.
Proof. induction 1; auto. intros H'. eapply below_step; eauto. Qed.
Lemma linked_below l : linked h0 ns e l -> exists x a b, gets x ns = Some a /\ gets x e = Some b /\ below (Module, x, a, b) l.
Proof.
  induction 1 as [x a b H1 H2|w x a b l Hl IH Hne Hc]; [exists x, a, b; split; auto; split; auto; constructor|].
  destruct IH as (y & a' & b' & H1 & H2 & H3). exists y, a', b'. split; auto. split; auto. eapply below_trans; eauto. eapply below_step; eauto. constructor.
Qed.
End Run.

(** * The reload *)
Section Whole.
Variables (order : list str -> list str) (inherited : addr -> str -> bool) (raises : call -> bool) (n : nat) (h : heap) (ns e : space).
Hypothesis Horder : forall l x, In x (order l) <-> In x l.
Hypothesis Hwell : well h ns e n.
Let ns' := ns ++ added ns e.
Let hooks := mem str_eqb old_new ns'.
Lemma reload_run : exists s, each (fun x a b s => update order inherited hooks n Module x a b s) ns' e (order (filter (fun x => mem str_eqb x e) (keys ns)))
    (State h (match added ns e with [] => false | _ => true end) [] [] 0) = (s, false) /\
  inv inherited hooks h ns e s /\
  (added ns e <> [] -> found s = true) /\
  forall w x a b, linked h ns e (w, x, a, b) -> a <> b ->
    hp s a = fin (h a) (h b) /\ (changes (h a) (h b) = true -> found s = true) /\
    (expected inherited hooks h ns e (OldNew w x a b) -> In (OldNew w x a b) (calls s)) /\
    (expected inherited hooks h ns e (After (InClass a)) -> In (After (InClass a)) (finish s)).
Proof.
  destruct Hwell as (Hf & Hs & Hd & Hn & Hsh). set (s0 := State h _ [] [] 0).
  assert (I0 : inv inherited hooks h ns e s0).
  { constructor; cbn [s0 hp calls finish found app]; auto; try (intros c []). intros X. left. destruct (added ns e); congruence. }
  assert (Hget : forall x a, In x (keys ns) -> gets x ns' = Some a -> gets x ns = Some a).
  { intros x a Hi. unfold ns'. rewrite get_app. destruct (gets x ns) eqn:E; auto. apply (get_None _ str_eqb_spec) in E. contradiction. }
  assert (Hgood : forall x a b, In x (order (filter (fun x => mem str_eqb x e) (keys ns))) -> gets x ns' = Some a -> gets x e = Some b -> good h ns e s0 n (Module, x, a, b)).
  { intros x a b Hi Ha Hb. apply Horder, filter_In in Hi. destruct Hi as [Hi _]. right. split; [constructor; auto|]. eapply Hsh; eauto. }
  pose proof (each_ok order inherited hooks h ns e n Module ns' e (update_ok order inherited hooks Horder h ns e Hf Hs Hd n) _ s0 Hgood I0 Logic.I) as H.
  destruct (each _ ns' e _ s0) as [s bad]. destruct H as (-> & I & M & D). exists s. split; auto. split; auto. split.
  { intros X. apply (mono_found _ _ _ _ _ M). cbn [s0 found]. destruct (added ns e); congruence. }
  intros w x a b Hl Hne. destruct (linked_below h ns e _ Hl) as (y & a' & b' & H1 & H2 & H3).
  assert (Hi : In y (keys ns)) by (apply (mem_In _ str_eqb_spec); unfold mem; rewrite H1; auto).
  assert (Hin : In y (order (filter (fun x => mem str_eqb x e) (keys ns)))) by (apply Horder, filter_In; split; auto; unfold mem; rewrite H2; auto).
  assert (Hy : gets y ns' = Some a') by (unfold ns'; rewrite get_app, H1; auto).
  destruct (D y a' b' Hin Hy H2 w x a b H3 Hne) as (D1 & D2 & D3 & D4). split; auto. split; auto. split.
  - intros X. specialize (D3 X). apply in_app_iff in D3. destruct D3 as [D3|D3]; auto. apply (inv_finish _ _ _ _ _ _ I) in D3. destruct D3 as (w' & D3). discriminate.
  - intros (b2 & [X1 (w2 & x2 & X2)] & X3 & X4 & X5). assert (Hbb : b = b2) by (apply (Hf a); [split; eauto|split; eauto]). subst b2.
    specialize (D4 X3 X4 X5). apply in_app_iff in D4. destruct D4 as [D4|D4]; auto. apply (inv_calls1 _ _ _ _ _ _ I) in D4. destruct D4 as (? & ? & ? & ? & D4). discriminate.
Qed.
End Whole.

Definition any_order (order : list str -> list str) : Prop := forall l x, In x (order l) <-> In x l.
Lemma reload_eq order inherited raises n h ns e : any_order order -> well h ns e n ->
  let hooks := mem str_eqb old_new (ns ++ added ns e) in
  exists s, inv inherited hooks h ns e s /\ (added ns e <> [] -> found s = true) /\
  (forall w x a b, linked h ns e (w, x, a, b) -> a <> b ->
    hp s a = fin (h a) (h b) /\ (changes (h a) (h b) = true -> found s = true) /\
    (expected inherited hooks h ns e (OldNew w x a b) -> In (OldNew w x a b) (calls s)) /\
    (expected inherited hooks h ns e (After (InClass a)) -> In (After (InClass a)) (finish s))) /\
  reload order inherited raises n h ns (Some e) =
    let m := mem str_eqb after_update (ns ++ added ns e) in
    (ns ++ added ns e, hp s, calls s ++ callbacks raises (finish s ++ if m then [After Module] else []), if m then true else found s).
Proof.
  intros Ho Hw hooks. destruct (reload_run order inherited n h ns e Ho Hw) as (s & E & I & F & D). exists s. split; auto. split; auto. split; auto.
  unfold reload. cbv zeta. fold hooks in E. fold hooks. rewrite E. destruct (mem str_eqb after_update (ns ++ added ns e)); cbn [add_finish hp calls finish found]; auto.
  rewrite app_nil_r. auto.
Qed.
Ltac start Hw := let s := fresh "s" in let I := fresh "I" in let F := fresh "F" in let D := fresh "D" in let E := fresh "E" in
  match goal with Ho : any_order ?o |- context [reload ?o ?i ?r ?n ?h ?ns (Some ?e)] =>
    destruct (reload_eq o i r n h ns e Ho Hw) as (s & I & F & D & E); rewrite E; clear E end.

(** The names of the module: those it had denote the same objects, the new ones are added, none is removed. *)
Theorem reload_names : forall order inherited raises n h ns e ns' h' called changed,
  reload order inherited raises n h ns (Some e) = (ns', h', called, changed) ->
  forall x, get str_eqb x ns' = match get str_eqb x ns with Some a => Some a | None => get str_eqb x e end.
Proof.
  intros order inherited raises n h ns e ns' h' called changed H x. assert (Hn : ns' = ns ++ added ns e).
  { unfold reload in H. destruct (each _ _ _ _ _) as [s bad]. destruct bad; injection H; auto. }
  subst. rewrite get_app, get_added. unfold mem. destruct (gets x ns); auto.
Qed.

(** A function which corresponds to a new one is the same object with the code of the new one (apart from line numbers), its
    documentation, its defaults and its attributes. *)
Theorem reload_functions : forall order inherited raises n h ns e a b f g, any_order order -> well h ns e n ->
  corresponds h ns e a b -> h a = Function f -> h b = Function g -> free (fcode f) = free (fcode g) ->
  let '(_, h', _, _) := reload order inherited raises n h ns (Some e) in
  exists f', h' a = Function f' /\ body (fcode f') = body (fcode g) /\ free (fcode f') = free (fcode g) /\ fdoc f' = fdoc g /\ fdefaults f' = fdefaults g /\
    fglobals f' = fglobals f /\ forall x, get str_eqb x (fdict f') = match get str_eqb x (fdict g) with Some v => Some v | None => get str_eqb x (fdict f) end.
Proof.
  intros order inherited raises n h ns e a b f g Ho Hw [Hne (w & x & Hl)] Ea Eb Hf. start Hw. cbv beta iota zeta.
  destruct (D w x a b Hl Hne) as (D1 & _). rewrite D1, Ea, Eb. cbn [fin]. exists (update_func f g). split; auto. unfold update_func, new_code.
  rewrite Hf, Nat.eqb_refl. cbn [fcode fdoc fdefaults fglobals fdict].
  destruct Hw as (_ & _ & Hd & _). specialize (Hd b). rewrite Eb in Hd. cbn [nodup_dict] in Hd.
  assert (Hx : forall y, gets y (update_dict (fdict f) (fdict g)) = match gets y (fdict g) with Some v => Some v | None => gets y (fdict f) end) by (intros y; apply get_update_dict; auto).
  destruct (code_equal (fcode f) (fcode g)) eqn:Ec; repeat split; auto. apply andb_true_iff in Ec. destruct Ec as [Ec _]. apply N.eqb_eq in Ec. auto.
Qed.

(** A class which corresponds to a new one is the same object, with the attributes it had and those which are new; its bases are the same. *)
Theorem reload_classes : forall order inherited raises n h ns e a b m d bs d' bs', any_order order -> well h ns e n ->
  corresponds h ns e a b -> h a = Class m d bs -> h b = Class m d' bs' ->
  let '(_, h', _, _) := reload order inherited raises n h ns (Some e) in
  exists d'', h' a = Class m d'' bs /\ forall x, get str_eqb x d'' = match get str_eqb x d with Some v => Some v | None => get str_eqb x d' end.
Proof.
  intros order inherited raises n h ns e a b m d bs d' bs' Ho Hw [Hne (w & x & Hl)] Ea Eb. start Hw. cbv beta iota zeta.
  destruct (D w x a b Hl Hne) as (D1 & _). rewrite D1, Ea, Eb. cbn [fin]. rewrite N.eqb_refl. eexists. split; [reflexivity|].
  intros y. rewrite get_app, get_added. unfold mem. destruct (gets y d); auto.
Qed.

(** Nothing else changes: objects which correspond to none, or to one of another type, and all which is neither function nor class. *)
Theorem reload_rest : forall order inherited raises n h ns e a, any_order order -> well h ns e n ->
  (forall b, corresponds h ns e a b ->
     ~ (exists f g, h a = Function f /\ h b = Function g) /\ ~ (exists m d bs d' bs', h a = Class m d bs /\ h b = Class m d' bs')) ->
  let '(_, h', _, _) := reload order inherited raises n h ns (Some e) in h' a = h a.
Proof.
  intros order inherited raises n h ns e a Ho Hw Hn. start Hw. cbv beta iota zeta. destruct (inv_heap _ _ _ _ _ _ I a) as [H|(b & Hc & H & _)]; auto.
  destruct (Hn b Hc) as [N1 N2]. rewrite H. destruct (h a) eqn:Ea, (h b) eqn:Eb; cbn [fin]; auto; [exfalso; eauto|].
  destruct (N.eqb_spec meta meta0); auto. subst. exfalso. apply N2. eexists _, _, _, _, _. eauto.
Qed.

(** A change is reported exactly when a name was added to the module or to a class, a function got another code, or a hook was called. *)
Theorem reload_found : forall order inherited raises n h ns e, any_order order -> well h ns e n ->
  let '(_, h', called, changed) := reload order inherited raises n h ns (Some e) in
  changed = true <->
    (exists x, get str_eqb x ns = None /\ get str_eqb x e <> None) \/
    (exists a b f g, corresponds h ns e a b /\ h a = Function f /\ h b = Function g /\ free (fcode f) = free (fcode g) /\ body (fcode f) <> body (fcode g)) \/
    (exists a b m d bs d' bs' x, corresponds h ns e a b /\ h a = Class m d bs /\ h b = Class m d' bs' /\ get str_eqb x d = None /\ get str_eqb x d' <> None) \/
    called <> [].
Proof.
  intros order inherited raises n h ns e Ho Hw. start Hw. cbv beta iota zeta.
  assert (Hadd : forall d d', added d d' <> [] <-> exists x, gets x d = None /\ gets x d' <> None).
  { intros d d'. split.
    - intros X. destruct (added d d') as [|[x v] l] eqn:El; [congruence|]. exists x. assert (Hg : gets x (added d d') <> None).
      { rewrite El. cbn [get]. destruct (str_eqb_spec x x); congruence. }
      rewrite get_added in Hg. unfold mem in Hg. destruct (gets x d); [congruence|auto].
    - intros (x & H1 & H2) X. assert (Hg : gets x (added d d') = None) by (rewrite X; reflexivity). rewrite get_added in Hg. unfold mem in Hg. rewrite H1 in Hg. auto. }
  assert (Hchg : forall a b, changes (h a) (h b) = true <->
    (exists f g, h a = Function f /\ h b = Function g /\ free (fcode f) = free (fcode g) /\ body (fcode f) <> body (fcode g)) \/
    (exists m d bs d' bs', h a = Class m d bs /\ h b = Class m d' bs' /\ exists x, gets x d = None /\ gets x d' <> None)).
  { intros a b. split.
    - intros X. destruct (h a) as [f|? ?|?|?|m d bs|? ?], (h b) as [g|? ?|?|?|m' d' bs'|? ?]; cbn in X; try discriminate.
      + left. exists f, g. unfold code_changes, code_equal in X. apply andb_true_iff in X. destruct X as [X1 X2]. apply Nat.eqb_eq in X1. rewrite X1, Nat.eqb_refl, andb_true_r in X2.
        apply negb_true_iff, N.eqb_neq in X2. auto.
      + apply andb_true_iff in X. destruct X as [X1 X2]. apply N.eqb_eq in X1. subst. right. eexists _, _, _, _, _. split; [reflexivity|]. split; [reflexivity|]. apply Hadd. destruct (added d d'); congruence.
    - intros [(f & g & -> & -> & X1 & X2)|(m & d & bs & d' & bs' & -> & -> & X)]; cbn [changes].
      + unfold code_changes, code_equal. rewrite X1, Nat.eqb_refl, andb_true_r. apply N.eqb_neq in X2. rewrite X2. auto.
      + rewrite N.eqb_refl. apply Hadd in X. destruct (added d d'); [congruence|reflexivity]. }
  set (m := mem str_eqb after_update (ns ++ added ns e)).
  assert (Hcalls : calls s ++ callbacks raises (finish s ++ (if m then [After Module] else [])) <> [] <-> m = true \/ exists c, In c (calls s ++ finish s)).
  { split.
    - intros X. destruct m; auto. right. destruct (calls s) as [|c l]; [|exists c; left; auto]. destruct (finish s) as [|c l]; [cbn in X; congruence|]. exists c. left. auto.
    - intros [-> | (c & Hc)] X; apply app_eq_nil in X; destruct X as [X1 X2].
      + destruct (finish s); discriminate.
      + rewrite X1 in Hc. cbn [app] in Hc. destruct (finish s); [destruct Hc|discriminate]. }
  split.
  - intros X. destruct m eqn:Em; [right; right; right; apply Hcalls; auto|]. destruct (inv_found _ _ _ _ _ _ I X) as [Y|[(a & b & Hc & Y)|(c & Hc)]].
    + left. apply Hadd. auto.
    + apply Hchg in Y. right. destruct Y as [(f & g & Y)|(m1 & d & bs & d' & bs' & Y1 & Y2 & x & Y3)]; [left; exists a, b, f, g; split; auto; tauto|right; left].
      eexists a, b, m1, d, bs, d', bs', x. tauto.
    + right. right. right. apply Hcalls. eauto.
  - intros X. destruct m eqn:Em; auto. destruct X as [X|[(a & b & f & g & [Hne (w & x & Hl)] & X)|[(a & b & m1 & d & bs & d' & bs' & x & [Hne (w & y & Hl)] & X1 & X2 & X3)|X]]].
    + apply F, Hadd. auto.
    + apply (D w x a b Hl Hne). apply Hchg. left. eauto.
    + apply (D w y a b Hl Hne). apply Hchg. right. eexists _, _, _, _, _. split; eauto.
    + apply Hcalls in X. destruct X as [X|(c & X)]; [discriminate|]. apply (inv_told _ _ _ _ _ _ I c X).
Qed.

(** ** Hooks *)
(** Whether the owner of a name has a hook: the old or the new one, or for a class one of its bases. *)
Definition has_hook (inherited : addr -> str -> bool) (h : heap) (ns e : space) (w : owner) (name : str) : Prop :=
  match w with
  | Module => get str_eqb name ns <> None \/ get str_eqb name e <> None
  | InClass c => exists d m l bs l' bs', corresponds h ns e c d /\ h c = Class m l bs /\ h d = Class m l' bs' /\
      (get str_eqb name l <> None \/ get str_eqb name l' <> None \/ inherited c name = true)
  | Nothing => False
  end.
Lemma mem_added (x : str) d d' : mem str_eqb x (d ++ added d d') = true <-> gets x d <> None \/ gets x d' <> None.
Proof.
  unfold mem. rewrite get_app, get_added. unfold mem. destruct (gets x d); [split; auto; left; congruence|]. destruct (gets x d'); split; auto; try congruence.
  - intros _. right. congruence.
  - intros [X|X]; congruence.
Qed.
Lemma callbacks_none raises l : (forall c, raises c = false) -> callbacks raises l = l.
Proof. intros H. induction l as [|c l IH]; auto. cbn [callbacks]. rewrite H, IH. auto. Qed.
Lemma callbacks_sub raises l c : In c (callbacks raises l) -> In c l.
Proof. induction l as [|x l IH]; auto. cbn [callbacks]. intros [<- | H]; [left; auto|]. destruct (raises x); [destruct H|right; auto]. Qed.

(** The hook for a name is called exactly when its objects differ, are of the same type and cannot be updated in place. *)
Theorem reload_hooks : forall order inherited raises n h ns e w x a b, any_order order -> well h ns e n ->
  let '(_, _, called, _) := reload order inherited raises n h ns (Some e) in
  In (OldNew w x a b) called <->
    linked h ns e (w, x, a, b) /\ a <> b /\ (exists t v v', h a = Data t v /\ h b = Data t v') /\ has_hook inherited h ns e w old_new.
Proof.
  intros order inherited raises n h ns e w x a b Ho Hw. start Hw. cbv beta iota zeta. set (hooks := mem str_eqb old_new (ns ++ added ns e)) in *.
  assert (Hex : expected inherited hooks h ns e (OldNew w x a b) <->
    linked h ns e (w, x, a, b) /\ a <> b /\ (exists t v v', h a = Data t v /\ h b = Data t v') /\ has_hook inherited h ns e w old_new).
  { cbn [expected]. assert (Hd : same_type (h a) (h b) = true /\ is_data (h a) = true <-> exists t v v', h a = Data t v /\ h b = Data t v').
    { split; [|intros (t & v & v' & -> & ->); cbn; rewrite N.eqb_refl; auto]. intros [X Y]. destruct (h a), (h b); cbn in X, Y; try discriminate.
      apply N.eqb_eq in X. subst. eauto. }
    assert (Hh : linked h ns e (w, x, a, b) -> (hooked inherited hooks h ns e w <-> has_hook inherited h ns e w old_new)).
    { intros Hlk. destruct w as [|c|]; cbn [hooked has_hook]; [apply mem_added| |tauto]. split.
      - intros (d & Hc & X). assert (Hcls : exists m l bs l' bs', h c = Class m l bs /\ h d = Class m l' bs').
        { inversion Hlk as [|w1 x1 c1 d1 l1 L1 N1 K1]; subst. inversion K1 as [| | |? ? m l bs l' bs' y a' b' X1 X2 X3 X4 X5 X6]; subst.
          destruct Hw as (Hfn & _). assert (d1 = d) by (apply (Hfn c); auto; split; eauto). subst. eexists _, _, _, _, _. eauto. }
        destruct Hcls as (m & l & bs & l' & bs' & E1 & E2). rewrite E1, E2 in X.
        cbn [fin] in X. rewrite N.eqb_refl in X. cbn [attr] in X. apply orb_true_iff in X. exists d. eexists _, _, _, _, _. split; [auto|]. split; [eauto|]. split; [eauto|].
        destruct X as [X|X]; [apply mem_added in X; tauto|auto].
      - intros (d & m & l & bs & l' & bs' & Hc & E1 & E2 & X). exists d. split; auto. rewrite E1, E2. cbn [fin]. rewrite N.eqb_refl. cbn [attr]. apply orb_true_iff.
        rewrite mem_added. tauto. }
    tauto. }
  rewrite <- Hex. split.
  - intros H. apply in_app_iff in H. destruct H as [H|H]; [apply (inv_calls _ _ _ _ _ _ I); apply in_app_iff; auto|]. apply callbacks_sub in H. apply in_app_iff in H.
    destruct H as [H|H]; [apply (inv_finish _ _ _ _ _ _ I) in H; destruct H; discriminate|]. destruct (mem str_eqb after_update _); [destruct H as [H|[]]; discriminate|destruct H].
  - intros H. apply in_app_iff. left. pose proof H as (L & N & _). apply (D w x a b L N). auto.
Qed.

(** The hooks to be called at the end: those of the module and of the classes which have one, after all others; unless one raises. *)
Theorem reload_after : forall order inherited raises n h ns e, any_order order -> well h ns e n -> (forall c, raises c = false) ->
  let '(_, _, called, _) := reload order inherited raises n h ns (Some e) in
  (In (After Module) called <-> has_hook inherited h ns e Module after_update) /\
  (forall c, In (After (InClass c)) called <-> has_hook inherited h ns e (InClass c) after_update) /\
  exists l l', called = l ++ l' /\ (forall c, In c l -> exists w x a b, c = OldNew w x a b) /\ (forall c, In c l' -> exists w, c = After w).
Proof.
  intros order inherited raises n h ns e Ho Hw Hr. start Hw. cbv beta iota zeta. rewrite callbacks_none by auto. set (m := mem str_eqb after_update (ns ++ added ns e)).
  assert (Hm : m = true <-> gets after_update ns <> None \/ gets after_update e <> None) by apply mem_added.
  assert (N1 : forall w, ~ In (After w) (calls s)) by (intros w X; apply (inv_calls1 _ _ _ _ _ _ I) in X; destruct X as (? & ? & ? & ? & X); discriminate).
  split; [|split].
  - cbn [has_hook]. rewrite <- Hm. rewrite !in_app_iff. split.
    + intros [X|[X|X]]; [destruct (N1 _ X)| |destruct m; auto; destruct X]. exfalso. assert (Y : In (After Module) (calls s ++ finish s)) by (apply in_app_iff; auto).
      apply (inv_calls _ _ _ _ _ _ I) in Y. destruct Y.
    + intros ->. right. right. left. auto.
  - intros c. rewrite !in_app_iff. split.
    + intros [X|[X|X]]; [destruct (N1 _ X)| |destruct m; [destruct X as [X|[]]; discriminate|destruct X]].
      assert (Y : In (After (InClass c)) (calls s ++ finish s)) by (apply in_app_iff; auto). apply (inv_calls _ _ _ _ _ _ I) in Y. destruct Y as (d & Y1 & Y2 & Y3 & Y4).
      destruct (h c) eqn:E1; try discriminate. destruct (h d) eqn:E2; try discriminate. cbn [same_type] in Y2. apply N.eqb_eq in Y2. subst.
      cbn [fin] in Y4. rewrite N.eqb_refl in Y4. cbn [attr] in Y4. apply orb_true_iff in Y4. rewrite mem_added in Y4. exists d. eexists _, _, _, _, _. split; eauto. split; eauto. split; eauto. tauto.
    + intros (d & m1 & l & bs & l' & bs' & Y1 & Y2 & Y3 & Y4). right. left. pose proof Y1 as [Hne (w & x & Hl)]. apply (D w x c d Hl Hne).
      exists d. rewrite Y2, Y3. cbn [same_type is_class fin]. rewrite N.eqb_refl. cbn [attr]. split; [auto|]. split; [auto|]. split; [auto|]. apply orb_true_iff. rewrite mem_added. tauto.
  - eexists _, _. split; [reflexivity|]. split; [apply (inv_calls1 _ _ _ _ _ _ I)|]. intros c Hc. apply in_app_iff in Hc.
    destruct Hc as [Hc|Hc]; [apply (inv_finish _ _ _ _ _ _ I); auto|]. destruct m; [destruct Hc as [<- | []]; eauto|destruct Hc].
Qed.

(** The order in which the names are gone through does not matter. *)
Theorem reload_order : forall order order' inherited raises n h ns e, any_order order -> any_order order' -> well h ns e n ->
  let '(ns1, h1, _, c1) := reload order inherited raises n h ns (Some e) in
  let '(ns2, h2, _, c2) := reload order' inherited raises n h ns (Some e) in ns1 = ns2 /\ c1 = c2 /\ forall a, h1 a = h2 a.
Proof.
  intros order order' inherited raises n h ns e Ho Ho' Hw.
  destruct (reload_eq order inherited raises n h ns e Ho Hw) as (s & I & F & D & E). destruct (reload_eq order' inherited raises n h ns e Ho' Hw) as (s' & I' & F' & D' & E').
  rewrite E, E' in *. clear E E'. cbv zeta in *. set (m := mem str_eqb after_update (ns ++ added ns e)) in *.
  assert (Hh : forall a, hp s a = hp s' a).
  { intros a. destruct (inv_heap _ _ _ _ _ _ I a) as [H|(b & [Hne (w & x & Hl)] & H & _)].
    - destruct (inv_heap _ _ _ _ _ _ I' a) as [H'|(b & [Hne (w & x & Hl)] & H' & _)]; [congruence|]. destruct (D w x a b Hl Hne) as (X & _). congruence.
    - destruct (D' w x a b Hl Hne) as (X & _). congruence. }
  split; auto. split; auto. destruct m; auto.
  assert (Hcall : forall t u, inv inherited (mem str_eqb old_new (ns ++ added ns e)) h ns e t -> inv inherited (mem str_eqb old_new (ns ++ added ns e)) h ns e u ->
     (added ns e <> [] -> found u = true) ->
     (forall w x a b, linked h ns e (w, x, a, b) -> a <> b -> hp u a = fin (h a) (h b) /\ (changes (h a) (h b) = true -> found u = true) /\
      (expected inherited (mem str_eqb old_new (ns ++ added ns e)) h ns e (OldNew w x a b) -> In (OldNew w x a b) (calls u)) /\
      (expected inherited (mem str_eqb old_new (ns ++ added ns e)) h ns e (After (InClass a)) -> In (After (InClass a)) (finish u))) ->
     found t = true -> found u = true).
  { intros t u It Iu Fu Du Ht. destruct (inv_found _ _ _ _ _ _ It Ht) as [X|[(a & b & [Hne (w & x & Hl)] & X)|(c & X)]]; [auto|apply (Du w x a b Hl Hne); auto|].
    pose proof (inv_calls _ _ _ _ _ _ It c X) as Hx. destruct c as [w x a b|[|a|]].
    - pose proof Hx as (Hl & Hne & _). destruct (Du w x a b Hl Hne) as (_ & _ & Y & _). apply (inv_told _ _ _ _ _ _ Iu (OldNew w x a b)). apply in_app_iff. left. auto.
    - destruct Hx.
    - pose proof Hx as (b & [Hne (w & y & Hl)] & _). destruct (Du w y a b Hl Hne) as (_ & _ & _ & Y). apply (inv_told _ _ _ _ _ _ Iu (After (InClass a))). apply in_app_iff. right. auto.
    - destruct Hx. }
  pose proof (Hcall s s' I I' F' D') as X1. pose proof (Hcall s' s I' I F D) as X2. destruct (found s), (found s'); auto; symmetry; auto.
Qed.

(** When the new source raises nothing changes; a program which is run does not start again. *)
Theorem reload_failed : forall order inherited raises n h ns, reload order inherited raises n h ns None = (ns, h, [], false).
Proof. reflexivity. Qed.
Theorem reload_main : forall name, run_name name <> lit "__main__" /\ (name <> lit "__main__" -> run_name name = name).
Proof.
  intros name. unfold run_name. destruct (str_eqb_spec name (lit "__main__")) as [->|H]; split; auto; [discriminate|congruence].
Qed.

(** * Not what one may expect *)
Definition fn (b l : N) (fr : nat) (doc : N) (dict : list (str * N)) (def kw glob : N) : obj := Function (Func (Code b l fr) doc dict def kw glob).
Definition id_order (l : list str) := l.
Definition no_base (c : addr) (x : str) := false.
Definition quiet (c : call) := false.
Definition heap_of (l : list (N * obj)) : heap := fun x => match get N.eqb x l with Some o => o | None => Data 0 0 end.

(** A name which was imported from one module and is now imported from another: the function of the first module gets the code of the
    function of the second, for everybody. *)
Theorem reload_import_refuted : exists (h : heap) (ns e : space) a f b g,
  get str_eqb (lit "f") ns = Some a /\ get str_eqb (lit "f") e = Some b /\ h a = Function f /\ h b = Function g /\
  fglobals f <> fglobals g /\ body (fcode f) <> body (fcode g) /\
  forall inherited raises n, let '(_, h', _, _) := reload id_order inherited raises (S n) h ns (Some e) in
  exists f', h' a = Function f' /\ fglobals f' = fglobals f /\ body (fcode f') = body (fcode g).
Proof.
  exists (heap_of [(1, fn 10 1 0 0 [] 0 0 100); (2, fn 20 1 0 0 [] 0 0 200)]%N), [(lit "f", 1)]%N, [(lit "f", 2)]%N, 1%N.
  eexists _, 2%N, _. repeat (split; [reflexivity || discriminate|]). intros. eexists. repeat split; reflexivity.
Qed.

(** Two names of one function, which are two functions now: both are one of them, which depends on the order of the names. *)
Theorem reload_alias_refuted : exists (h : heap) (ns e : space) a,
  get str_eqb (lit "f") ns = Some a /\ get str_eqb (lit "g") ns = Some a /\
  let '(ns1, h1, _, _) := reload id_order no_base quiet 9 h ns (Some e) in
  let '(ns2, h2, _, _) := reload (@rev str) no_base quiet 9 h ns (Some e) in
  ns1 = ns /\ ns2 = ns /\ exists f1 f2 g1 g2 b1 b2, h1 a = Function f1 /\ h2 a = Function f2 /\
  get str_eqb (lit "f") e = Some b1 /\ h b1 = Function g1 /\ get str_eqb (lit "g") e = Some b2 /\ h b2 = Function g2 /\
  body (fcode f1) = body (fcode g2) /\ body (fcode f2) = body (fcode g1) /\ body (fcode g1) <> body (fcode g2).
Proof.
  exists (heap_of [(1, fn 10 1 0 0 [] 0 0 7); (2, fn 20 1 0 0 [] 0 0 8); (3, fn 30 1 0 0 [] 0 0 8)]%N), [(lit "f", 1); (lit "g", 1)]%N, [(lit "f", 2); (lit "g", 3)]%N, 1%N.
  vm_compute. repeat (split; [reflexivity|]). eexists _, _, _, _, _, _. repeat (split; [reflexivity|]). discriminate.
Qed.

(** A function of which only the lines have changed keeps the lines it had. *)
Theorem reload_lines_refuted : exists (h : heap) (ns e : space) a b f g, get str_eqb (lit "f") ns = Some a /\ get str_eqb (lit "f") e = Some b /\ h b = Function g /\
  let '(_, h', _, changed) := reload id_order no_base quiet 9 h ns (Some e) in
  h' a = Function f /\ lines (fcode f) <> lines (fcode g) /\ changed = false.
Proof.
  exists (heap_of [(1, fn 10 1 0 0 [] 0 0 7); (2, fn 10 5 0 0 [] 0 0 8)]%N), [(lit "f", 1)]%N, [(lit "f", 2)]%N, 1%N, 2%N.
  vm_compute. eexists _, _. repeat (split; [reflexivity|]). split; [discriminate|reflexivity].
Qed.

(** The defaults of arguments which are given by keyword only stay; the others are the new ones. *)
Theorem reload_kwdefaults_refuted : exists (h : heap) (ns e : space) a b f g, get str_eqb (lit "f") ns = Some a /\ get str_eqb (lit "f") e = Some b /\ h b = Function g /\
  let '(_, h', _, changed) := reload id_order no_base quiet 9 h ns (Some e) in
  h' a = Function f /\ body (fcode f) = body (fcode g) /\ fdefaults f = fdefaults g /\ fkwdefaults f <> fkwdefaults g.
Proof.
  exists (heap_of [(1, fn 10 1 0 0 [] 3 4 7); (2, fn 11 1 0 0 [] 5 6 8)]%N), [(lit "f", 1)]%N, [(lit "f", 2)]%N, 1%N, 2%N.
  vm_compute. eexists _, _. repeat (split; [reflexivity|]). discriminate.
Qed.

(** A function which now refers to another number of variables of the function around it: the documentation is the new one, the code the old. *)
Theorem reload_closure_refuted : exists (h : heap) (ns e : space) a b f g, get str_eqb (lit "f") ns = Some a /\ get str_eqb (lit "f") e = Some b /\ h b = Function g /\
  let '(_, h', _, changed) := reload id_order no_base quiet 9 h ns (Some e) in
  h' a = Function f /\ fdoc f = fdoc g /\ body (fcode f) <> body (fcode g) /\ fdefaults f <> fdefaults g /\ changed = false.
Proof.
  exists (heap_of [(1, fn 10 1 0 2 [] 3 4 7); (2, fn 11 1 1 6 [] 5 4 8)]%N), [(lit "f", 1)]%N, [(lit "f", 2)]%N, 1%N, 2%N.
  vm_compute. eexists _, _. repeat (split; [reflexivity|]). split; [discriminate|]. split; [discriminate|reflexivity].
Qed.

(** A function which is added does not see the variables of the module: its globals are those of the run of the new source. *)
Theorem reload_added_refuted : exists (h : heap) (ns e : space) a b f g, get str_eqb (lit "f") ns = Some a /\
  let '(ns', h', _, _) := reload id_order no_base quiet 9 h ns (Some e) in
  get str_eqb (lit "f") ns' = Some a /\ get str_eqb (lit "g") ns' = Some b /\ h' a = Function f /\ h' b = Function g /\ fglobals f <> fglobals g.
Proof.
  exists (heap_of [(1, fn 10 1 0 2 [] 3 4 7); (2, fn 11 1 0 6 [] 5 4 8); (3, fn 12 1 0 6 [] 5 4 8)]%N), [(lit "f", 1)]%N, [(lit "f", 2); (lit "g", 3)]%N, 1%N, 3%N.
  vm_compute. eexists _, _. repeat (split; [reflexivity|]). discriminate.
Qed.

(** A class which is added is not a subclass of the class the module has, but of one which no name denotes. *)
Theorem reload_added_class_refuted : exists (h : heap) (ns e : space) a b m d base,
  let '(ns', h', _, _) := reload id_order no_base quiet 9 h ns (Some e) in
  get str_eqb (lit "Base") ns' = Some a /\ get str_eqb (lit "New") ns' = Some b /\ h' b = Class m d [base] /\
  get str_eqb (lit "Base") e = Some base /\ forall x, get str_eqb x ns' <> Some base.
Proof.
  exists (heap_of [(1, Class 9 [] []); (2, Class 9 [] []); (3, Class 9 [] [2])]%N), [(lit "Base", 1)]%N, [(lit "Base", 2); (lit "New", 3)]%N, 1%N, 3%N.
  eexists _, _, _. replace (reload _ _ _ _ _ _ _) with (reload id_order no_base quiet 9 (heap_of [(1, Class 9 [] []); (2, Class 9 [] []); (3, Class 9 [] [2])]%N) [(lit "Base", 1)]%N (Some [(lit "Base", 2); (lit "New", 3)]%N)) by reflexivity.
  vm_compute. repeat (split; [reflexivity|]). intros x. change ((if str_eqb x (lit "Base") then Some 1%N else if str_eqb x (lit "New") then Some 3%N else None) <> Some 2%N).
  destruct (str_eqb x _); [discriminate|]. destruct (str_eqb x _); discriminate.
Qed.

(** An object of another type is not updated, and the hook for what cannot be updated is not called. *)
Theorem reload_hook_refuted : exists (h : heap) (ns e : space) a b, get str_eqb (lit "x") ns = Some a /\ get str_eqb (lit "x") e = Some b /\ h a <> h b /\
  get str_eqb old_new ns <> None /\
  let '(ns', h', called, changed) := reload id_order no_base quiet 9 h ns (Some e) in ns' = ns /\ h' a = h a /\ called = [] /\ changed = false.
Proof.
  exists (heap_of [(1, Data 1 5); (2, Data 2 5); (3, fn 10 1 0 0 [] 0 0 7)]%N), [(lit "x", 1); (old_new, 3)]%N, [(lit "x", 2); (old_new, 3)]%N, 1%N, 2%N.
  vm_compute. repeat (split; [reflexivity || discriminate|]). reflexivity.
Qed.

(** A hook for the end which raises prevents the others. *)
Theorem reload_after_refuted : exists (h : heap) (ns e : space) raises, get str_eqb after_update ns <> None /\
  let '(_, _, called, _) := reload id_order no_base raises 9 h ns (Some e) in ~ In (After Module) called /\ called = [After (InClass 1%N)].
Proof.
  exists (heap_of [(1, Class 9 [(after_update, 3)] []); (2, Class 9 [(after_update, 4)] []); (3, ClassMethod 5); (4, ClassMethod 5); (6, fn 10 1 0 0 [] 0 0 7)]%N),
    [(lit "A", 1); (after_update, 6)]%N, [(lit "A", 2); (after_update, 6)]%N, (fun c => match c with After (InClass _) => true | _ => false end).
  split; [vm_compute; discriminate|]. vm_compute. split; [|reflexivity]. intros [H|[]]. discriminate.
Qed.

(** A class with two names is told twice that it was updated. *)
Theorem reload_twice_refuted : exists (h : heap) (ns e : space) c,
  let '(_, _, called, _) := reload id_order no_base quiet 9 h ns (Some e) in called = [After (InClass c); After (InClass c)].
Proof.
  exists (heap_of [(1, Class 9 [(after_update, 3)] []); (2, Class 9 [(after_update, 4)] []); (3, ClassMethod 5); (4, ClassMethod 5)]%N),
    [(lit "A", 1); (lit "B", 1)]%N, [(lit "A", 2); (lit "B", 2)]%N, 1%N. vm_compute. reflexivity.
Qed.

(** A class two attributes of which are the class itself: the number of updates doubles with each level up to the limit of recursion. *)
Definition loops : heap := heap_of [(1, Class 9 [(lit "l", 1); (lit "r", 1)] []); (2, Class 9 [(lit "l", 2); (lit "r", 2)] [])]%N.
Lemma loop_visits hooks n : forall w x s, hp s = loops ->
  let r := update id_order no_base hooks (S n) w x 1%N 2%N s in hp (fst r) = loops /\ snd r = false /\ (visits s + 2 ^ N.of_nat n <= visits (fst r))%N.
Proof.
  induction n as [|n IH]; intros w x s Hs.
  - cbn [update]. replace (hp (visit s)) with loops by auto. vm_compute (loops 1%N). vm_compute (loops 2%N). vm_compute (id_order _). vm_compute (added _ _). cbn. split; auto. split; auto. lia.
  - set (m := S n) in *. cbn [update]. replace (hp (visit s)) with loops by auto. vm_compute (loops 1%N). vm_compute (loops 2%N). vm_compute (id_order _). vm_compute (added _ _).
    cbn [N.eqb Pos.eqb negb same_type].
    pose proof (IH (InClass 1%N) (lit "l") (visit s) Hs) as H1. cbv zeta in H1.
    match goal with |- context [each ?u ?d ?e ?l (visit s)] => assert (E : each u d e l (visit s) =
      let (s1, b1) := update id_order no_base hooks m (InClass 1%N) (lit "l") 1%N 2%N (visit s) in
      if b1 then (s1, true) else let (s2, b2) := update id_order no_base hooks m (InClass 1%N) (lit "r") 1%N 2%N s1 in if b2 then (s2, true) else (s2, false)) by reflexivity end.
    rewrite E. clear E. destruct (update id_order no_base hooks m (InClass 1%N) (lit "l") 1%N 2%N (visit s)) as [s1 b1]. cbn [fst snd] in H1. destruct H1 as (A1 & -> & A3).
    pose proof (IH (InClass 1%N) (lit "r") s1 A1) as H2. cbv zeta in H2.
    destruct (update id_order no_base hooks m (InClass 1%N) (lit "r") 1%N 2%N s1) as [s2 b2]. cbn [fst snd] in H2. destruct H2 as (B1 & -> & B3).
    cbv zeta. unfold has_attr. rewrite B1. vm_compute (loops 1%N). cbn [mem get]. vm_compute (mem str_eqb after_update _ || _). cbn [fst snd]. split; auto. split; auto.
    cbn [visit visits] in A3. unfold m in *. rewrite Nat2N.inj_succ, N.pow_succ_r'. lia.
Qed.
Theorem reload_loop_refuted : exists h a b, forall hooks n, (2 ^ N.of_nat n <= visits (fst (update id_order no_base hooks (S n) Module [] a b (State h false [] [] 0))))%N.
Proof. exists loops, 1%N, 2%N. intros hooks n. destruct (loop_visits hooks n Module [] (State loops false [] [] 0) eq_refl) as (_ & _ & H). cbn [visits] in H. lia. Qed.

(** * A case *)
(** A function, a class with a method, a class method and a nested class, and a list; the new source changes the functions, adds a
    name to the module and one to the class, and has a hook for what cannot be updated. *)
Definition exh : heap := heap_of [
  (1, fn 10 1 0 1 [(lit "a", 1)] 3 4 7); (2, Class 9 [(lit "m", 3); (lit "k", 4); (lit "n", 5)] []); (3, fn 11 2 0 1 [] 3 4 7); (4, Data 1 5);
  (5, Class 9 [(lit "s", 6)] []); (6, ClassMethod 7); (7, fn 12 3 0 1 [] 3 4 7); (8, Data 2 5); (9, fn 13 4 0 0 [] 0 0 7);
  (11, fn 20 1 0 2 [(lit "b", 2)] 5 6 8); (12, Class 9 [(lit "m", 13); (lit "k", 14); (lit "n", 15); (after_update, 21)] [3]); (13, fn 21 2 0 1 [] 3 4 8); (14, Data 1 6);
  (15, Class 9 [(lit "s", 16)] []); (16, ClassMethod 17); (17, fn 22 3 0 1 [] 3 4 8); (18, Data 2 6); (19, fn 13 4 0 0 [] 0 0 8); (20, Data 3 3); (21, fn 14 4 0 0 [] 0 0 8)]%N.
Definition exns : space := [(lit "f", 1); (lit "C", 2); (lit "l", 8); (old_new, 9)]%N.
Definition exe : space := [(lit "f", 11); (lit "C", 12); (lit "l", 18); (old_new, 19); (lit "x", 20)]%N.
Definition exlinks : list link := [
  (Module, lit "f", 1, 11); (Module, lit "C", 2, 12); (Module, lit "l", 8, 18); (Module, old_new, 9, 19);
  (InClass 2, lit "m", 3, 13); (InClass 2, lit "k", 4, 14); (InClass 2, lit "n", 5, 15); (InClass 5, lit "s", 6, 16); (Nothing, [], 7, 17)]%N.
Ltac names := repeat match goal with H : (if str_eqb ?x ?y then _ else _) = _ |- _ => destruct (str_eqb_spec x y) end; try discriminate.
Lemma ex_child a b l : In (a, b) (map (fun l => (snd (fst l), snd l)) exlinks) -> child exh a b l -> In l exlinks.
Proof.
  cbv [exlinks map fst snd]. intros H Hc.
  repeat (destruct H as [H|H]; [injection H as <- <-; inversion Hc; subst;
    repeat match goal with X : exh _ = _ |- _ => vm_compute in X; try discriminate; injection X; intros; subst; clear X end;
    repeat match goal with X : get _ _ _ = Some _ |- _ => cbn [get] in X end; names;
    repeat match goal with X : Some _ = Some _ |- _ => injection X as X; subst end; try congruence; cbv; tauto|]); destruct H.
Qed.
Lemma ex_linked l : linked exh exns exe l -> In l exlinks.
Proof.
  intros H. induction H as [x a b Ha Hb|w x a b l H IH Hne Hc].
  - unfold exns, exe in *. cbn [get] in Ha, Hb. names; repeat match goal with X : Some _ = Some _ |- _ => injection X as X; subst end; cbv; tauto.
  - apply (ex_child a b); auto. apply in_map_iff. exists (w, x, a, b). auto.
Qed.
Lemma ex_pairs a b : corresponds exh exns exe a b -> In (a, b) (map (fun l => (snd (fst l), snd l)) exlinks).
Proof. intros [_ (w & x & H)]. apply ex_linked in H. apply in_map_iff. exists (w, x, a, b). auto. Qed.
Ltac cases H := cbv [exlinks map fst snd In] in H; repeat (destruct H as [H|H]; [injection H; intros; subst; clear H|]); try destruct H.
Lemma ex_shallow a b w x : In (w, x, a, b) exlinks -> shallow exh 6 a b.
Proof.
  intros H. assert (Hp : In (a, b) (map (fun l => (snd (fst l), snd l)) exlinks)) by (apply in_map_iff; exists (w, x, a, b); auto). clear H w x.
  assert (leaf : forall n a b, (forall l, ~ child exh a b l) -> shallow exh (S (S n)) a b).
  { intros n a0 b0 Hn. right. split; [discriminate|]. intros w x a' b' X. destruct (Hn _ X). }
  assert (L : forall a b, In (a, b) [(1, 11); (8, 18); (9, 19); (3, 13); (4, 14); (7, 17)]%N -> forall l, ~ child exh a b l).
  { intros a0 b0 Hi l Hc. cbv [In] in Hi. repeat (destruct Hi as [Hi|Hi]; [injection Hi; intros; subst; inversion Hc; subst; discriminate|]). destruct Hi. }
  assert (S7 : forall n, shallow exh (S (S n)) 7%N 17%N) by (intros; apply leaf, L; cbv; tauto).
  assert (S6 : forall n, shallow exh (S (S (S n))) 6%N 16%N).
  { intros n. right. split; [discriminate|]. intros w x a' b' Hc. inversion Hc; subst; try discriminate.
    repeat match goal with X : exh _ = _ |- _ => vm_compute in X; injection X; intros; subst; clear X end. apply S7. }
  assert (S5 : forall n, shallow exh (S (S (S (S n)))) 5%N 15%N).
  { intros n. right. split; [discriminate|]. intros w x a' b' Hc. inversion Hc; subst; try discriminate.
    repeat match goal with X : exh _ = _ |- _ => vm_compute in X; injection X; intros; subst; clear X end.
    repeat match goal with X : get _ _ _ = Some _ |- _ => cbn [get] in X end. names. repeat match goal with X : Some _ = Some _ |- _ => injection X as X; subst end. apply S6. }
  cases Hp; try (apply leaf, L; cbv; tauto); [|apply S5|apply S6].
  right. split; [discriminate|]. intros w x a' b' Hc. inversion Hc; subst; try discriminate.
  repeat match goal with X : exh _ = _ |- _ => vm_compute in X; injection X; intros; subst; clear X end.
  repeat match goal with X : get _ _ _ = Some _ |- _ => cbn [get] in X end. names; repeat match goal with X : Some _ = Some _ |- _ => injection X as X; subst end; try congruence;
    try (apply leaf, L; cbv; tauto). apply S5.
Qed.
Example ex_well : well exh exns exe 6.
Proof.
  split; [|split; [|split; [|split]]].
  - intros a b c H1 H2. apply ex_pairs in H1, H2. cases H1; cases H2; auto; try discriminate.
  - intros a b c H1 H2. apply ex_pairs in H1, H2. cases H1; cases H2; try discriminate.
  - intros x. unfold exh, heap_of. repeat (cbn [get]; match goal with |- context [N.eqb x ?y] => destruct (N.eqb x y) end;
      [cbn [nodup_dict fn fdict keys map fst]; repeat constructor; cbv; intuition discriminate|]). exact I.
  - repeat constructor.
  - intros x a b H1 H2. apply (ex_shallow a b Module x). apply ex_linked. constructor; auto.
Qed.
Example ex_reload :
  let '(ns, h, called, changed) := reload id_order no_base quiet 6 exh exns (Some exe) in
  ns = exns ++ [(lit "x", 20)]%N /\ changed = true /\ called = [OldNew Module (lit "l") 8 18; After (InClass 2)]%N /\
  h 1%N = fn 20 1 0 2 [(lit "a", 1%N); (lit "b", 2%N)] 5 4 7 /\ h 2%N = Class 9%N [(lit "m", 3); (lit "k", 4); (lit "n", 5); (after_update, 21)]%N [] /\
  h 7%N = fn 22 3 0 1 [] 3 4 7 /\ h 4%N = Data 1%N 5%N.
Proof. vm_compute. repeat split; reflexivity. Qed.
Example ex_corresponds : corresponds exh exns exe 7%N 17%N.
Proof.
  split; [discriminate|]. exists Nothing, []. apply (linked_child _ _ _ (InClass 5%N) (lit "s") 6%N 16%N); [|discriminate|eapply child_classmethod; reflexivity].
  apply (linked_child _ _ _ (InClass 2%N) (lit "n") 5%N 15%N); [|discriminate|eapply child_class; try reflexivity; discriminate].
  apply (linked_child _ _ _ Module (lit "C") 2%N 12%N); [|discriminate|eapply child_class; try reflexivity; discriminate].
  apply linked_name; reflexivity.
Qed.
Example ex_order : any_order (@rev str).
Proof. intros l x. symmetry. apply in_rev. Qed.

Print Assumptions reload_names.
Print Assumptions reload_functions.
Print Assumptions reload_classes.
Print Assumptions reload_rest.
Print Assumptions reload_found.
Print Assumptions reload_hooks.
Print Assumptions reload_after.
Print Assumptions reload_order.
Print Assumptions reload_failed.
Print Assumptions reload_main.
Print Assumptions reload_import_refuted.
Print Assumptions reload_alias_refuted.
Print Assumptions reload_lines_refuted.
Print Assumptions reload_kwdefaults_refuted.
Print Assumptions reload_closure_refuted.
Print Assumptions reload_added_refuted.
Print Assumptions reload_added_class_refuted.
Print Assumptions reload_hook_refuted.
Print Assumptions reload_after_refuted.
Print Assumptions reload_twice_refuted.
Print Assumptions reload_loop_refuted.
