(** Property C53: stepping into a chosen call stops in that call. *)
From Coq Require Import String.
From Coq Require Import List NArith ZArith Bool Lia Sorted.
From Verif Require Import Base Dict DictViewProps Smart.
Import ListNotations.
Open Scope list_scope.

(** * Specification *)

(** The code [c] has a call at the offset [o]. *)
Definition has_call (c : code) (o : Z) (p : pos) : Prop := In (Call o (Some p)) c.
(** The instruction at [l] belongs to the call at [o]: it is the last call at or before it (a call takes several
    positions, which are all before the next call). *)
Definition in_call (c : code) (o l : Z) : Prop :=
  (exists p, has_call c o p) /\ (o <= l)%Z /\ forall o' p', has_call c o' p' -> (o' <= o \/ l < o')%Z.

(** The offsets of the calls of a code are distinct and in order; every line of a call is one a file may have. *)
Definition offsets (c : code) : list Z := flat_map (fun i => match i with Call o (Some _) => [o] | _ => [] end) c.
Definition ordered (c : code) : Prop := StronglySorted Z.lt (offsets c) /\ Forall (fun o => 0 <= o)%Z (offsets c).
Inductive good_lines : instr -> Prop :=
| good_const c : Forall good_lines c -> good_lines (Const c)
| good_call o p : (forall q, p = Some q -> first_line <= lineno q <= last_line)%Z -> good_lines (Call o p)
| good_other : good_lines Other.

(** * Induction *)
Section Induction.
Variable P : instr -> Prop.
Hypothesis Hc : forall c, Forall P c -> P (Const c).
Hypothesis Hk : forall o p, P (Call o p).
Hypothesis Ho : P Other.
Fixpoint instr_rec' (i : instr) : P i :=
  match i with
  | Const c => Hc c ((fix go l : Forall P l := match l with [] => Forall_nil P | x :: r => Forall_cons x (instr_rec' x) (go r) end) c)
  | Call o p => Hk o p
  | Other => Ho
  end.
End Induction.
Section Induction2.
Variable P : target -> Prop.
Hypothesis Ht : forall a p o l, Forall P l -> P (Target a p o l).
Fixpoint target_rec' (t : target) : P t :=
  match t with
  | Target a p o l => Ht a p o l ((fix go l : Forall P l := match l with [] => Forall_nil P | x :: r => Forall_cons x (target_rec' x) (go r) end) l)
  end.
End Induction2.

(** * The calls *)
Definition shape (t : target) : str * pos * Z := let (a, p, o, _) := t in (a, p, o).
Lemma attach_shape c ts : map shape (attach c ts) = map shape ts.
Proof. induction ts as [|[a p o l] ts IH]; cbn [attach map]; auto. destruct (is_inside _ _); cbn [map shape]; congruence. Qed.
Lemma attach_all_shape cs : forall ts, map shape (fold_left (fun ts c => attach c ts) cs ts) = map shape ts.
Proof. induction cs as [|c cs IH]; intros ts; cbn [fold_left]; auto. rewrite IH. apply attach_shape. Qed.
Lemma targets_shape src c :
  map shape (targets src c) = flat_map (fun i => match i with Call o (Some p) => [(call_text src p, p, o)] | _ => [] end) c.
Proof.
  unfold targets. cbn [inner_targets]. rewrite attach_all_shape. induction c as [|i c IH]; auto.
  cbn [flat_map]. rewrite map_app, IH. destruct i as [| o [p|] |]; reflexivity.
Qed.
Lemma targets_offsets src c : map t_off (targets src c) = offsets c.
Proof.
  assert (H : map snd (map shape (targets src c)) = map t_off (targets src c)).
  { rewrite map_map. apply map_ext. intros [a p o l]. reflexivity. }
  rewrite <- H, targets_shape. unfold offsets. clear H. induction c as [|i c IH]; auto.
  cbn [flat_map]. rewrite map_app, IH. destruct i as [| o [p|] |]; reflexivity.
Qed.

Inductive good_target : target -> Prop :=
| good_t a p o l : (first_line <= lineno p <= last_line)%Z -> Forall good_target l -> good_target (Target a p o l).
Lemma attach_good c ts : good_target c -> Forall good_target ts -> Forall good_target (attach c ts).
Proof.
  intros Hc H. induction H as [|[a p o l] ts Ht Hts IH]; cbn [attach]; auto. destruct (is_inside _ _); constructor; auto.
  inversion Ht; subst. constructor; auto. apply Forall_app. split; auto.
Qed.
Lemma attach_all_good cs : forall ts, Forall good_target cs -> Forall good_target ts ->
  Forall good_target (fold_left (fun ts c => attach c ts) cs ts).
Proof.
  induction cs as [|c cs IH]; intros ts Hc Ht; cbn [fold_left]; auto. inversion Hc; subst. apply IH; auto. apply attach_good; auto.
Qed.
Lemma inner_good src i : good_lines i -> Forall good_target (inner_targets src i).
Proof.
  induction i as [c IH|o p|] using instr_rec'; intros H; cbn [inner_targets]; auto.
  inversion H as [c' Hc| |]; subst. clear H. apply attach_all_good.
  - apply Forall_flat_map. rewrite Forall_forall in *. auto.
  - apply Forall_flat_map. rewrite Forall_forall in *. intros i Hi. destruct i as [| o [p|] |]; auto.
    constructor; auto. constructor; auto. specialize (Hc _ Hi). inversion Hc; subst; auto.
Qed.
Lemma targets_good src c : Forall good_lines c -> Forall good_target (targets src c).
Proof. intros H. apply inner_good. constructor. auto. Qed.

(** * The variants *)
Fixpoint conv_inner (a b lasti : Z) (l : list target) (k : orders) : option (list variant) * orders :=
  match l with
  | [] => (Some [], k)
  | t :: r =>
      match convert a b lasti t k with
      | (Var v, k) => match conv_inner a b lasti r k with (Some vs, k) => (Some (v :: vs), k) | x => x end
      | (_, k) => (None, k)
      end
  end.
Lemma convert_eq a b lasti name p off inner k :
  convert a b lasti (Target name p off inner) k =
  if Z.ltb b (lineno p) || Z.ltb (lineno p) a then (Out, k)
  else
    let order := (match get str_eqb name k with Some n => n | None => 0 end + 1)%Z in
    match conv_inner a b lasti inner (set str_eqb name order k) with
    | (Some vs, k) => (Var (Variant name (Z.leb off lasti) (lineno p) off order vs), k)
    | (None, k) => (Raise, k)
    end.
Proof.
  cbn [convert]. destruct (_ || _); auto. cbn zeta.
  match goal with |- match ?f inner ?k0 with _ => _ end = _ => replace (f inner k0) with (conv_inner a b lasti inner k0); auto end.
  generalize (set str_eqb name (match get str_eqb name k with Some n => n | None => 0 end + 1)%Z k) as k0.
  induction inner as [|t r IH]; intros k0; auto. cbn [conv_inner]. destruct (convert a b lasti t k0) as [[| |v] k1]; auto.
  rewrite IH. reflexivity.
Qed.

(** A variant is that of a target. *)
Inductive of_target (lasti : Z) : target -> variant -> Prop :=
| of_t a p o l k vs : Forall2 (of_target lasti) l vs -> of_target lasti (Target a p o l) (Variant a (Z.leb o lasti) (lineno p) o k vs).
Lemma convert_good lasti t : forall k, good_target t ->
  exists v k', convert first_line last_line lasti t k = (Var v, k') /\ of_target lasti t v.
Proof.
  induction t as [a p o l IH] using target_rec'; intros k H. inversion H as [? ? ? ? Hp Hl]; subst. rewrite convert_eq.
  replace (Z.ltb last_line (lineno p) || Z.ltb (lineno p) first_line) with false
    by (symmetry; apply orb_false_iff; rewrite !Z.ltb_ge; lia).
  cbn zeta. generalize (match get str_eqb a k with Some n => n | None => 0 end + 1)%Z as order. intros order.
  assert (Hx : forall k, exists vs k', conv_inner first_line last_line lasti l k = (Some vs, k') /\ Forall2 (of_target lasti) l vs).
  { clear - IH Hl. induction IH as [|t l Ht Hl' IHl]; intros k; [eexists _, _; split; [reflexivity|constructor]|].
    inversion Hl; subst. cbn [conv_inner]. destruct (Ht k) as (v & k1 & -> & Hv); auto.
    destruct (IHl H2 k1) as (vs & k2 & -> & Hvs). eexists _, _. split; [reflexivity|]. constructor; auto. }
  destruct (Hx (set str_eqb a order k)) as (vs & k' & -> & Hvs). eexists _, _. split; [reflexivity|]. constructor. auto.
Qed.
Lemma convert_all_good lasti ts : Forall good_target ts -> forall k,
  exists vs, convert_all first_line last_line lasti ts k = Some vs /\ Forall2 (of_target lasti) ts vs.
Proof.
  induction 1 as [|t ts Ht Hts IH]; intros k; cbn [convert_all]; [eexists; split; [reflexivity|constructor]|].
  destruct (convert_good lasti t k Ht) as (v & k1 & -> & Hv). destruct (IH k1) as (vs & -> & Hvs).
  eexists. split; [reflexivity|]. constructor; auto.
Qed.
Lemma of_target_offs lasti ts vs : Forall2 (of_target lasti) ts vs -> map v_off vs = map t_off ts.
Proof. induction 1 as [|t v ts vs H Hs IH]; auto. cbn [map]. rewrite IH. inversion H; reflexivity. Qed.

Lemma variants_offsets src c lasti vs es : Forall good_lines c ->
  step_in_targets src c lasti = Some (vs, es) -> map v_off vs = offsets c /\ es = add_targets vs [] /\ Forall2 (of_target lasti) (targets src c) vs.
Proof.
  intros Hg. unfold step_in_targets, variants_of. destruct (convert_all_good lasti (targets src c) (targets_good src c Hg) []) as (vs' & -> & H).
  cbn [option_map]. intros E. injection E as <- <-. rewrite (of_target_offs _ _ _ H), targets_offsets. auto.
Qed.

(** * The variant at an offset *)
Definition off_at (vs : list variant) (j : nat) : option Z := option_map v_off (nth_error vs j).
Lemma bisect_loop_spec vs x : StronglySorted Z.lt (map v_off vs) -> forall n lo hi,
  hi <= List.length vs -> lo <= hi -> hi - lo <= n ->
  (forall j o, j < lo -> off_at vs j = Some o -> (o <= x)%Z) ->
  (forall j o, hi <= j -> off_at vs j = Some o -> (x < o)%Z) ->
  let r := bisect_loop n lo hi vs x in
  r <= List.length vs /\ (forall j o, j < r -> off_at vs j = Some o -> (o <= x)%Z) /\ (forall j o, r <= j -> off_at vs j = Some o -> (x < o)%Z).
Proof.
  intros Hs. assert (Hmono : forall i j a b, i < j -> off_at vs i = Some a -> off_at vs j = Some b -> (a < b)%Z).
  { clear x. induction vs as [|v vs IH]; intros i j a b Hij Hi Hj; [destruct i; discriminate|].
    inversion Hs as [|? ? Hs1 Hs2]; subst. destruct j as [|j]; [lia|]. destruct i as [|i].
    - cbn in Hi. injection Hi as <-. rewrite Forall_forall in Hs2. apply Hs2. unfold off_at in Hj. cbn [nth_error] in Hj.
      destruct (nth_error vs j) as [w|] eqn:E; [|discriminate]. cbn in Hj. injection Hj as <-. apply in_map. eapply nth_error_In; eauto.
    - apply (IH Hs1 i j); auto. lia. }
  induction n as [|n IH]; intros lo hi Hhi Hle Hn Hlo Hup; cbn [bisect_loop]; cbn zeta.
  - assert (lo = hi) by lia. subst. auto.
  - destruct (Nat.ltb_spec lo hi) as [Hlt|Hge]; [|assert (lo = hi) by lia; subst; auto].
    set (mid := Nat.div2 (lo + hi)).
    assert (Hm : lo <= mid < hi).
    { unfold mid. rewrite Nat.div2_div. split; [apply Nat.div_le_lower_bound; lia | apply Nat.div_lt_upper_bound; lia]. }
    destruct (nth_error vs mid) as [v|] eqn:Ev; [|apply nth_error_None in Ev; lia].
    assert (Eo : off_at vs mid = Some (v_off v)) by (unfold off_at; rewrite Ev; reflexivity).
    destruct (Z.ltb_spec x (v_off v)) as [Hx|Hx].
    + apply IH; auto; try lia. intros j o Hj Ho. destruct (Nat.eq_dec j mid) as [->|Hne]; [congruence|].
      assert (v_off v < o)%Z by (apply (Hmono mid j); auto; lia). lia.
    + apply IH; auto; try lia. intros j o Hj Ho. destruct (Nat.eq_dec j mid) as [->|Hne]; [assert (o = v_off v) by congruence; lia|].
      assert (o < v_off v)%Z by (apply (Hmono j mid); auto; lia). lia.
Qed.
Lemma bisect_spec vs x : StronglySorted Z.lt (map v_off vs) ->
  (forall j o, j < bisect vs x -> off_at vs j = Some o -> (o <= x)%Z) /\ (forall j o, bisect vs x <= j -> off_at vs j = Some o -> (x < o)%Z).
Proof.
  intros Hs. apply (bisect_loop_spec vs x Hs (List.length vs) 0 (List.length vs)); try lia.
  intros j o Hj Ho. unfold off_at in Ho. assert (E : nth_error vs j = None) by (apply nth_error_None; lia). rewrite E in Ho. discriminate.
Qed.
Lemma In_off vs o : In o (map v_off vs) <-> exists j, off_at vs j = Some o.
Proof.
  unfold off_at. split.
  - intros H. apply in_map_iff in H. destruct H as (v & <- & H). apply In_nth_error in H. destruct H as [j H]. exists j. rewrite H. reflexivity.
  - intros [j H]. destruct (nth_error vs j) as [v|] eqn:E; [|discriminate]. injection H as <-. apply in_map. eapply nth_error_In; eauto.
Qed.
(** Two offsets have the same variant when no call is between them. *)
Lemma same_variant_spec vs o l : StronglySorted Z.lt (map v_off vs) -> In o (map v_off vs) ->
  (same_variant (at_offset l vs) (at_offset o vs) = true <-> (o <= l)%Z /\ forall o', In o' (map v_off vs) -> (o' <= o \/ l < o')%Z).
Proof.
  intros Hs Ho. destruct (bisect_spec vs l Hs) as [L1 L2]. destruct (bisect_spec vs o Hs) as [O1 O2].
  assert (Hi : same_variant (at_offset l vs) (at_offset o vs) = true <-> bisect vs l = bisect vs o).
  { unfold at_offset. destruct vs as [|v vs]; [destruct Ho|]. destruct (bisect (v :: vs) l), (bisect (v :: vs) o); cbn [same_variant];
    rewrite ?Nat.eqb_eq; try tauto; split; congruence. }
  rewrite Hi. apply In_off in Ho. destruct Ho as [j Hj].
  assert (Hjo : j < bisect vs o). { destruct (Nat.lt_ge_cases j (bisect vs o)) as [H|H]; auto. specialize (O2 j o H Hj). lia. }
  split.
  - intros E. split.
    + apply (L1 j o); auto. congruence.
    + intros o' H. apply In_off in H. destruct H as [i Hi']. destruct (Nat.lt_ge_cases i (bisect vs o)) as [H|H]; [left; eauto|right].
      apply (L2 i); auto. congruence.
  - intros [Hle Hbet].
    assert (Hlen : forall x, bisect vs x <= List.length vs).
    { intros x. apply (bisect_loop_spec vs x Hs (List.length vs) 0 (List.length vs)); try lia.
      intros i o' Hi' H'. unfold off_at in H'. assert (E : nth_error vs i = None) by (apply nth_error_None; lia). rewrite E in H'. discriminate. }
    assert (Hat : forall i, i < List.length vs -> exists o', off_at vs i = Some o').
    { intros i Hi'. unfold off_at. destruct (nth_error vs i) eqn:E; [eexists; reflexivity|apply nth_error_None in E; lia]. }
    destruct (Nat.lt_trichotomy (bisect vs l) (bisect vs o)) as [H|[H|H]]; auto; exfalso.
    + destruct (Hat (bisect vs l)) as [o' Ho']; [specialize (Hlen o); lia|].
      pose proof (O1 _ _ H Ho'). pose proof (L2 _ _ (Nat.le_refl _) Ho'). lia.
    + destruct (Hat (bisect vs o)) as [o' Ho']; [specialize (Hlen l); lia|].
      pose proof (L1 _ _ H Ho'). pose proof (O2 _ _ (Nat.le_refl _) Ho').
      destruct (Hbet o'); [apply In_off; eauto| lia | lia].
Qed.

(** * Stepping into a call of the frame *)
Lemma has_call_off c o : In o (offsets c) <-> exists p, has_call c o p.
Proof.
  unfold offsets, has_call. rewrite in_flat_map. split.
  - intros (i & Hi & Ho). destruct i as [| o' [p|] |]; try (destruct Ho; fail). destruct Ho as [<- | []]. eauto.
  - intros [p H]. exists (Call o (Some p)). split; auto. left. reflexivity.
Qed.

(** The targets which would be offered were there no limit. *)
Definition of_variant (v : variant) : list entry :=
  if v_visited v then []
  else match v_inner v with [] => [Entry (label v) None (v_off v)] | cs => map (fun c => Entry (label c) (Some (v_off v)) (v_off c)) cs end.
Definition every (vs : list variant) : list entry := flat_map of_variant vs.

Lemma add_inner_prefix p vs : forall acc, exists n, add_inner p vs acc = acc ++ firstn n (map (fun c => Entry (label c) (Some p) (v_off c)) vs)
  /\ (length acc + length vs <= 15 -> n = length vs).
Proof.
  induction vs as [|v vs IH]; intros acc; cbn [add_inner map]; [exists 0; rewrite app_nil_r; auto|]. cbn zeta.
  destruct (Nat.leb_spec 15 (length (acc ++ [Entry (label v) (Some p) (v_off v)]))) as [H|H].
  - exists 1. cbn [firstn]. split; auto. rewrite app_length in H. cbn [length] in *. intros H'. lia.
  - destruct (IH (acc ++ [Entry (label v) (Some p) (v_off v)])) as (n & -> & Hn). exists (S n). cbn [firstn length]. rewrite <- app_assoc. split; auto.
    rewrite app_length in Hn. cbn [length] in Hn. intros H'. f_equal. apply Hn. lia.
Qed.
Lemma add_targets_all vs : forall acc, length acc + length (every vs) <= 15 -> add_targets vs acc = acc ++ every vs.
Proof.
  unfold every. induction vs as [|v vs IH]; intros acc H; cbn [add_targets flat_map] in *; [rewrite app_nil_r; auto|].
  rewrite app_length in H. unfold of_variant in *. destruct (v_visited v); [apply IH; auto|].
  destruct (v_inner v) as [|c cs] eqn:Ei.
  - cbn zeta. destruct (Nat.leb_spec 15 (length (acc ++ [Entry (label v) None (v_off v)]))) as [Hl|Hl]; rewrite app_length in Hl; cbn [length] in *.
    + destruct (flat_map _ vs); auto. cbn [length] in H. lia.
    + rewrite IH; [rewrite <- app_assoc; auto|]. rewrite app_length. cbn [length]. lia.
  - rewrite map_length in H. destruct (add_inner_prefix (v_off v) (c :: cs) acc) as (n & -> & Hn). rewrite Hn by lia.
    rewrite firstn_all2 by (rewrite map_length; auto). rewrite IH; [rewrite <- app_assoc; auto|]. rewrite app_length, map_length. lia.
Qed.
Lemma add_targets_first vs : (forall v, In v vs -> v_inner v = []) -> forall acc, length acc < 15 ->
  add_targets vs acc = acc ++ firstn (15 - length acc) (every vs).
Proof.
  unfold every. induction vs as [|v vs IH]; intros Hv acc H; cbn [add_targets flat_map] in *; [rewrite firstn_nil, app_nil_r; auto|].
  unfold of_variant at 1. destruct (v_visited v); [apply IH; auto; intros; apply Hv; right; auto|].
  rewrite (Hv v) by (left; auto). cbn zeta. cbn [app].
  destruct (Nat.leb_spec 15 (length (acc ++ [Entry (label v) None (v_off v)]))) as [Hl|Hl]; rewrite app_length in Hl; cbn [length] in Hl.
  - replace (15 - length acc) with 1 by lia. reflexivity.
  - rewrite IH; [|intros; apply Hv; right; auto|rewrite app_length; cbn [length]; lia]. rewrite app_length, <- app_assoc. cbn [length app].
    replace (15 - length acc) with (S (15 - (length acc + 1))) by lia. reflexivity.
Qed.
Lemma add_targets_sub vs : forall acc e, In e (add_targets vs acc) -> In e acc \/ In e (every vs).
Proof.
  unfold every. induction vs as [|v vs IH]; intros acc e H; cbn [add_targets flat_map] in *; auto.
  unfold of_variant at 1. rewrite in_app_iff. destruct (v_visited v); [apply IH in H; tauto|]. destruct (v_inner v) as [|c cs] eqn:Ei.
  - cbn zeta in H. destruct (Nat.leb _ _).
    + rewrite in_app_iff in H. tauto.
    + apply IH in H. rewrite in_app_iff in H. tauto.
  - apply IH in H. destruct (add_inner_prefix (v_off v) (c :: cs) acc) as (n & E & _). rewrite E, in_app_iff in H.
    destruct H as [[H|H]|H]; auto. right. left. rewrite <- (firstn_skipn n). apply in_or_app. auto.
Qed.

(** ** What is offered *)

(** Everything offered is a call which is still to be made, or one made by an inner code in such a call. *)
Theorem smart_offered : forall src c lasti vs es e, Forall good_lines c -> step_in_targets src c lasti = Some (vs, es) -> In e es ->
  exists o p, has_call c o p /\ (lasti < o)%Z /\ (e_parent e = Some o \/ e_parent e = None /\ e_off e = o).
Proof.
  intros src c lasti vs es e Hg Hs He. destruct (variants_offsets _ _ _ _ _ Hg Hs) as (Ho & -> & Hv).
  apply add_targets_sub in He. destruct He as [[]|He]. apply in_flat_map in He. destruct He as (v & Hin & He).
  assert (Hc : In (v_off v) (offsets c)) by (rewrite <- Ho; apply in_map; auto).
  apply has_call_off in Hc. destruct Hc as [p Hc]. exists (v_off v), p. split; auto.
  assert (Hvis : v_visited v = Z.leb (v_off v) lasti).
  { clear - Hv Hin. induction Hv as [|t w ts ws H Hs IH]; [destruct Hin|]. destruct Hin as [<- | Hin]; auto. inversion H; reflexivity. }
  unfold of_variant in He. destruct (v_visited v); [destruct He|]. symmetry in Hvis. apply Z.leb_gt in Hvis. split; auto.
  destruct (v_inner v) as [|w ws]; [destruct He as [<- | []]; auto|]. apply in_map_iff in He. destruct He as (x & <- & _). auto.
Qed.

(** The targets of a code without inner codes, by the specification: the calls still to be made, in order, with their text.  A call
    which is made again later carries the number of times its text appeared. *)
Fixpoint seen (t : str) (l : list (str * Z)) : nat :=
  match l with [] => 0 | (t', _) :: r => if str_eqb t t' then S (seen t r) else seen t r end.
Definition named (t : str) (n : nat) : str := if Nat.ltb 0 n then t ++ lit " (call " ++ dec (N.of_nat (S n)) ++ lit ")" else t.
Fixpoint to_offer (lasti : Z) (before rest : list (str * Z)) : list entry :=
  match rest with
  | [] => []
  | (t, o) :: r =>
      (if Z.leb o lasti then [] else [Entry (named t (seen t before)) None o]) ++ to_offer lasti (before ++ [(t, o)]) r
  end.
Definition texts (src : Z -> str) (c : code) : list (str * Z) :=
  flat_map (fun i => match i with Call o (Some p) => [(call_text src p, o)] | _ => [] end) c.

Definition no_inner_code (c : code) : Prop := forall i, In i c -> forall d, i <> Const d.

Lemma seen_app t a b : seen t (a ++ b) = seen t a + seen t b.
Proof. induction a as [|[t' o] a IH]; cbn [seen app]; auto. destruct (str_eqb t t'); rewrite IH; auto. Qed.
Lemma flat_targets src c : no_inner_code c ->
  targets src c = flat_map (fun i => match i with Call o (Some p) => [Target (call_text src p) p o []] | _ => [] end) c.
Proof.
  intros H. unfold targets. cbn [inner_targets]. replace (flat_map (inner_targets src) c) with (@nil target); auto.
  induction c as [|i c IH]; auto. cbn [flat_map]. rewrite <- IH by (intros j Hj; apply H; right; auto).
  destruct i as [d| |]; auto. destruct (H (Const d) (or_introl eq_refl) d eq_refl).
Qed.
Lemma every_flat src lasti c : Forall good_lines c -> forall k before,
  (forall t, match get str_eqb t k with Some n => n | None => 0%Z end = Z.of_nat (seen t before)) ->
  exists vs, convert_all first_line last_line lasti
    (flat_map (fun i => match i with Call o (Some p) => [Target (call_text src p) p o []] | _ => [] end) c) k = Some vs /\
    every vs = to_offer lasti before (texts src c) /\ (forall v, In v vs -> v_inner v = []).
Proof.
  intros Hg. induction Hg as [|i c Hi Hc IH]; intros k before Hk; [exists []; split; [reflexivity|split; [reflexivity|intros ? []]]|].
  unfold texts. cbn [flat_map]. destruct i as [d|o [p|]|]; try (apply IH; auto; fail).
  cbn [app]. cbn [convert_all]. rewrite convert_eq. inversion Hi; subst. specialize (H0 p eq_refl).
  replace (Z.ltb last_line (lineno p) || Z.ltb (lineno p) first_line) with false
    by (symmetry; apply orb_false_iff; rewrite !Z.ltb_ge; lia).
  cbn [conv_inner]. cbn zeta. rewrite Hk.
  destruct (IH (set str_eqb (call_text src p) (Z.of_nat (seen (call_text src p) before) + 1)%Z k) (before ++ [(call_text src p, o)])) as (vs & -> & Hev & Hin).
  { intros t. rewrite (get_set _ str_eqb_spec), seen_app. cbn [seen]. destruct (str_eqb_spec t (call_text src p)) as [->|Hne]; [lia|].
    rewrite Hk. lia. }
  eexists. split; [reflexivity|]. split.
  - unfold every. cbn [flat_map to_offer]. fold (every vs). rewrite Hev. f_equal. unfold of_variant. cbn [v_visited v_inner v_off].
    destruct (Z.leb o lasti); auto. f_equal. f_equal. unfold label, named. cbn [v_order v_name].
    destruct (Nat.ltb_spec 0 (seen (call_text src p) before)) as [H|H].
    + replace (Z.ltb 1 _) with true by (symmetry; apply Z.ltb_lt; lia).
      replace (Z.to_N (Z.of_nat (seen (call_text src p) before) + 1)) with (N.of_nat (S (seen (call_text src p) before))) by lia. reflexivity.
    + replace (Z.ltb 1 _) with false by (symmetry; apply Z.ltb_ge; lia). reflexivity.
  - intros v [<- | Hv]; auto.
Qed.

Theorem smart_targets : forall src c lasti, Forall good_lines c -> no_inner_code c ->
  exists vs, step_in_targets src c lasti = Some (vs, firstn 15 (to_offer lasti [] (texts src c))).
Proof.
  intros src c lasti Hg Hn. unfold step_in_targets, variants_of. rewrite flat_targets by auto.
  destruct (every_flat src lasti c Hg [] []) as (vs & -> & He & Hi); [intros t; reflexivity|].
  exists vs. cbn [option_map]. rewrite add_targets_first by (auto; cbn [length]; lia). rewrite He. reflexivity.
Qed.

(** ** Labels *)
Fixpoint all_of (v : variant) : list variant := let (_, _, _, _, _, l) := v in v :: flat_map all_of l.
Definition key (v : variant) : str * Z := (v_name v, v_order v).
Definition cnt (k : orders) (n : str) : Z := match get str_eqb n k with Some x => x | None => 0%Z end.
Definition spans (k k' : orders) (l : list variant) : Prop :=
  (forall w, In w l -> cnt k (v_name w) < v_order w <= cnt k' (v_name w))%Z /\ NoDup (map key l) /\ (forall n, cnt k n <= cnt k' n)%Z.
Lemma spans_nil k : spans k k [].
Proof. split; [intros ? []|split; [constructor|intros; lia]]. Qed.
Lemma spans_app k1 k2 k3 a b : spans k1 k2 a -> spans k2 k3 b -> spans k1 k3 (a ++ b).
Proof.
  intros (A1 & A2 & A3) (B1 & B2 & B3). split; [|split].
  - intros w H. apply in_app_or in H. destruct H as [H|H]; [specialize (A1 w H); specialize (B3 (v_name w)) | specialize (B1 w H); specialize (A3 (v_name w))]; lia.
  - rewrite map_app. clear A3 B3. induction a as [|w a IH]; auto. cbn [map app] in *. inversion A2; subst. constructor.
    + rewrite in_app_iff. intros [H|H]; auto. apply in_map_iff in H. destruct H as (x & E & H). unfold key in E. injection E as E1 E2.
      specialize (A1 w (or_introl eq_refl)). specialize (B1 x H). rewrite E1, E2 in *. lia.
    + apply IH; auto. intros x H. apply A1. right. auto.
  - intros n. specialize (A3 n). specialize (B3 n). lia.
Qed.
Lemma convert_spans a b lasti t : forall k v k', (forall n, 0 <= cnt k n)%Z -> convert a b lasti t k = (Var v, k') -> spans k k' (all_of v).
Proof.
  induction t as [name p o l IH] using target_rec'; intros k v k' Hk H. rewrite convert_eq in H. destruct (_ || _); [discriminate|]. cbn zeta in H.
  change (match get str_eqb name k with Some n => n | None => 0%Z end) with (cnt k name) in H.
  assert (Hx : forall k vs k', (forall n, 0 <= cnt k n)%Z -> conv_inner a b lasti l k = (Some vs, k') -> spans k k' (flat_map all_of vs)).
  { clear - IH. induction IH as [|t l Ht Hl IHl]; intros k vs k' Hk H; cbn [conv_inner] in H; [injection H as <- <-; apply spans_nil|].
    destruct (convert a b lasti t k) as [[| |v] k1] eqn:E; try discriminate. destruct (conv_inner a b lasti l k1) as [[vs'|] k2] eqn:E2; [|discriminate].
    injection H as <- <-. pose proof (Ht _ _ _ Hk E) as S1. cbn [flat_map]. apply (spans_app k k1 k2); auto. apply IHl; auto.
    intros n. destruct S1 as (_ & _ & S). specialize (S n). specialize (Hk n). lia. }
  set (k1 := set str_eqb name (cnt k name + 1)%Z k) in *.
  assert (Hc : forall n, cnt k1 n = if str_eqb n name then (cnt k name + 1)%Z else cnt k n).
  { intros n. unfold cnt at 1, k1. rewrite (get_set _ str_eqb_spec). destruct (str_eqb n name); reflexivity. }
  destruct (conv_inner a b lasti l k1) as [[vs|] k2] eqn:E; [|discriminate]. injection H as <- <-.
  assert (Hk1 : forall n, (cnt k n <= cnt k1 n)%Z) by (intros n; rewrite Hc; destruct (str_eqb_spec n name) as [->|]; lia).
  cbn [all_of]. apply (spans_app k k1 k2 [_]).
  - split; [|split; auto].
    + intros w [<- | []]. cbn [v_name v_order]. rewrite Hc. destruct (str_eqb_spec name name); [lia|congruence].
    + constructor; [intros []|constructor].
  - apply (Hx k1); auto. intros n. specialize (Hk n). specialize (Hk1 n). lia.
Qed.
Lemma convert_out a b lasti t k k' : convert a b lasti t k = (Out, k') -> k' = k.
Proof.
  destruct t as [name p o l]. rewrite convert_eq. destruct (_ || _); [congruence|]. cbn zeta. destruct (conv_inner _ _ _ _ _) as [[vs|] k2]; discriminate.
Qed.
Lemma convert_all_keys a b lasti ts : forall k vs, (forall n, 0 <= cnt k n)%Z -> convert_all a b lasti ts k = Some vs ->
  exists k', spans k k' (flat_map all_of vs).
Proof.
  induction ts as [|t ts IH]; intros k vs Hk H; cbn [convert_all] in H; [injection H as <-; exists k; apply spans_nil|].
  destruct (convert a b lasti t k) as [[| |v] k1] eqn:E; [|discriminate|].
  - apply convert_out in E. subst. eauto.
  - destruct (convert_all a b lasti ts k1) as [vs'|] eqn:E2; [|discriminate]. injection H as <-.
    pose proof (convert_spans _ _ _ _ _ _ _ Hk E) as S1. destruct (IH k1 vs') as [k2 S2]; auto.
    + intros n. destruct S1 as (_ & _ & S). specialize (S n). specialize (Hk n). lia.
    + exists k2. cbn [flat_map]. eapply spans_app; eauto.
Qed.

Inductive call_in : instr -> pos -> Prop :=
| in_here o p : call_in (Call o (Some p)) p
| in_const c i p : In i c -> call_in i p -> call_in (Const c) p.
Inductive every_target (P : str -> Prop) : target -> Prop :=
| every_t a p o l : P a -> Forall (every_target P) l -> every_target P (Target a p o l).
Lemma attach_every P c ts : every_target P c -> Forall (every_target P) ts -> Forall (every_target P) (attach c ts).
Proof.
  intros Hc H. induction H as [|[a p o l] ts Ht Hts IH]; cbn [attach]; auto. destruct (is_inside _ _); constructor; auto.
  inversion Ht; subst. constructor; auto. apply Forall_app. split; auto.
Qed.
Lemma inner_every (P : str -> Prop) src i : (forall p, call_in i p -> P (call_text src p)) -> Forall (every_target P) (inner_targets src i).
Proof.
  induction i as [c IH|o p|] using instr_rec'; intros H; cbn [inner_targets]; auto.
  assert (Hx : forall cs ts, Forall (every_target P) cs -> Forall (every_target P) ts -> Forall (every_target P) (fold_left (fun ts c => attach c ts) cs ts)).
  { clear. induction cs as [|c cs IH]; intros ts Hc Ht; cbn [fold_left]; auto. inversion Hc; subst. apply IH; auto. apply attach_every; auto. }
  apply Hx; apply Forall_flat_map; rewrite Forall_forall in *; intros i Hi.
  - apply IH; auto. intros p Hp. apply H. econstructor; eauto.
  - destruct i as [| o [p|] |]; auto. constructor; auto. constructor; auto. apply H. econstructor; eauto. constructor.
Qed.
Lemma of_target_names lasti (P : str -> Prop) t : forall v, of_target lasti t v -> every_target P t -> forall w, In w (all_of v) -> P (v_name w).
Proof.
  induction t as [a p o l IH] using target_rec'; intros v Hv He w Hw. inversion Hv as [? ? ? ? ? vs Hvs]; subst. inversion He as [? ? ? ? Ha Hl]; subst.
  cbn [all_of] in Hw. destruct Hw as [<- | Hw]; auto. apply in_flat_map in Hw. destruct Hw as (x & Hx & Hw).
  clear Hv He Ha. induction Hvs as [|t v l vs Ht Hts IHl]; [destruct Hx|]. inversion IH; subst. inversion Hl; subst.
  destruct Hx as [<- | Hx]; eauto.
Qed.

(** No text of a call looks like the label of a repeated one (Python has no such call). *)
Definition plain (t : str) : Prop := forall n k, t <> n ++ lit " (call " ++ dec k ++ lit ")".

Lemma digits_split (a b : str) x y r q : Forall digit_ok a -> Forall digit_ok b -> ~ digit_ok x -> ~ digit_ok y ->
  a ++ x :: r = b ++ y :: q -> a = b /\ x :: r = y :: q.
Proof.
  intros Ha. revert b. induction Ha as [|c a Hc Ha IH]; intros b Hb Hx Hy E; destruct b as [|d b]; cbn [app] in E; auto.
  - injection E as -> _. inversion Hb; contradiction.
  - injection E as <- _. contradiction.
  - injection E as -> E. inversion Hb; subst. destruct (IH b) as [-> E']; auto.
Qed.
Lemma call_suffix_inj n1 n2 a b : n1 ++ lit " (call " ++ dec a ++ lit ")" = n2 ++ lit " (call " ++ dec b ++ lit ")" -> n1 = n2 /\ a = b.
Proof.
  intros E. apply (f_equal (@rev N)) in E. rewrite !rev_app_distr in E. rewrite <- !app_assoc in E.
  change (rev (lit ")")) with ([41%N] : str) in E. cbn [app] in E. injection E as E.
  assert (Hd : forall n, Forall digit_ok (rev (dec n))) by (intros n; apply Forall_rev, dec_digits).
  change (rev (lit " (call ")) with (32%N :: [108; 108; 97; 99; 40; 32]%N) in E. cbn [app] in E.
  apply digits_split in E; auto; try (unfold digit_ok; vm_compute; discriminate).
  destruct E as [E1 E2]. injection E2 as E2. split.
  - rewrite <- (rev_involutive n1), E2, rev_involutive. reflexivity.
  - apply (f_equal (@rev N)) in E1. rewrite !rev_involutive in E1. apply dec_inj. auto.
Qed.
Lemma label_inj v w : plain (v_name v) -> plain (v_name w) -> (1 <= v_order v)%Z -> (1 <= v_order w)%Z -> label v = label w -> key v = key w.
Proof.
  intros Pv Pw Hv Hw. unfold label, key. destruct (Z.ltb_spec 1 (v_order v)), (Z.ltb_spec 1 (v_order w)); intros E.
  - apply call_suffix_inj in E. destruct E as [-> E]. f_equal. apply (f_equal Z.of_N) in E. rewrite !Z2N.id in E by lia. auto.
  - symmetry in E. apply Pw in E. destruct E.
  - apply Pv in E. destruct E.
  - f_equal; [auto|lia].
Qed.

(** The targets of the variants, from the variants themselves: a part of them all, in the same order. *)
Inductive sub {A} : list A -> list A -> Prop :=
| sub_nil : sub [] []
| sub_keep x a b : sub a b -> sub (x :: a) (x :: b)
| sub_skip x a b : sub a b -> sub a (x :: b).
Lemma sub_nil_l {A} (l : list A) : sub [] l.
Proof. induction l; constructor; auto. Qed.
Lemma sub_refl {A} (l : list A) : sub l l.
Proof. induction l; constructor; auto. Qed.
Lemma sub_app {A} (a b c d : list A) : sub a b -> sub c d -> sub (a ++ c) (b ++ d).
Proof. induction 1; cbn [app]; auto; intros; constructor; auto. Qed.
Lemma sub_trans {A} (a b c : list A) : sub a b -> sub b c -> sub a c.
Proof.
  intros H1 H2. revert a H1. induction H2 as [|x b c H2 IH|x b c H2 IH]; intros a H1; auto.
  - inversion H1; subst; constructor; auto.
  - constructor; auto.
Qed.
Lemma sub_In {A} (a b : list A) x : sub a b -> In x a -> In x b.
Proof. induction 1; cbn [In]; tauto. Qed.
Lemma sub_NoDup {A} (a b : list A) : sub a b -> NoDup b -> NoDup a.
Proof.
  induction 1 as [|x a b H IH|x a b H IH]; intros Hn; auto; inversion Hn; subst; auto. constructor; auto.
  intros Hx. eapply sub_In in Hx; eauto.
Qed.
Lemma sub_map {A B} (f : A -> B) a b : sub a b -> sub (map f a) (map f b).
Proof. induction 1; cbn [map]; constructor; auto. Qed.
Lemma sub_firstn {A} n (l : list A) : sub (firstn n l) l.
Proof. revert l. induction n as [|n IH]; intros [|x l]; cbn [firstn]; try apply sub_nil_l. constructor. apply IH. Qed.
Lemma all_of_head v : all_of v = v :: flat_map all_of (v_inner v).
Proof. destruct v; reflexivity. Qed.
Lemma heads_sub l : sub l (flat_map all_of l).
Proof. induction l as [|v l IH]; cbn [flat_map]; [constructor|]. rewrite all_of_head. cbn [app]. constructor. apply (sub_app [] _ l); auto. apply sub_nil_l. Qed.
Lemma every_sub vs : exists ws, sub ws (flat_map all_of vs) /\ map e_label (every vs) = map label ws.
Proof.
  induction vs as [|v vs (ws & Hs & He)]; [exists []; split; constructor|]. unfold every. cbn [flat_map]. rewrite map_app. fold (every vs). rewrite He.
  assert (H : exists xs, sub xs (all_of v) /\ map e_label (of_variant v) = map label xs).
  { unfold of_variant. destruct (v_visited v); [exists []; split; [apply sub_nil_l|auto]|]. rewrite all_of_head. destruct (v_inner v) as [|c cs].
    - exists [v]. split; auto. apply sub_refl.
    - exists (c :: cs). split; [constructor; apply heads_sub|]. rewrite map_map. reflexivity. }
  destruct H as (xs & Hx & ->). exists (xs ++ ws). split; [apply sub_app; auto|]. rewrite map_app. reflexivity.
Qed.
Lemma add_targets_sublist vs : forall acc, exists l, add_targets vs acc = acc ++ l /\ sub l (every vs).
Proof.
  unfold every. induction vs as [|v vs IH]; intros acc; cbn [add_targets flat_map]; [exists []; rewrite app_nil_r; split; [auto|constructor]|].
  unfold of_variant at 1. destruct (v_visited v); [apply IH|]. destruct (v_inner v) as [|c cs] eqn:Ei.
  - cbn zeta. destruct (Nat.leb _ _).
    + eexists. split; [reflexivity|]. cbn [app]. constructor. apply sub_nil_l.
    + destruct (IH (acc ++ [Entry (label v) None (v_off v)])) as (l & -> & Hl). eexists. rewrite <- app_assoc. split; [reflexivity|].
      cbn [app]. constructor. auto.
  - destruct (add_inner_prefix (v_off v) (c :: cs) acc) as (n & -> & _).
    destruct (IH (acc ++ firstn n (map (fun c => Entry (label c) (Some (v_off v)) (v_off c)) (c :: cs)))) as (l & -> & Hl).
    eexists. rewrite <- app_assoc. split; [reflexivity|]. apply sub_app; auto. apply sub_firstn.
Qed.

(** No two targets have the same label, whatever the codes in the code. *)
Theorem smart_labels : forall src c lasti vs es, Forall good_lines c ->
  (forall i p, In i c -> call_in i p -> plain (call_text src p)) ->
  step_in_targets src c lasti = Some (vs, es) -> NoDup (map e_label es).
Proof.
  intros src c lasti vs es Hg Hp Hs. destruct (variants_offsets _ _ _ _ _ Hg Hs) as (_ & -> & Hv).
  assert (Hk : exists k', spans [] k' (flat_map all_of vs)).
  { unfold step_in_targets in Hs. destruct (variants_of _ _ _ _ _) as [vs'|] eqn:E; [|discriminate]. injection Hs as ->.
    apply convert_all_keys in E; auto. intros n. unfold cnt. cbn. lia. }
  destruct Hk as (k' & Hord & Hnd & _).
  assert (Hpl : forall w, In w (flat_map all_of vs) -> plain (v_name w)).
  { assert (Ht : Forall (every_target plain) (targets src c)).
    { apply inner_every. intros p H. inversion H; subst. eauto. }
    intros w Hw. apply in_flat_map in Hw. destruct Hw as (x & Hx & Hw). clear - Hv Ht Hx Hw.
    induction Hv as [|t v ts vs H Hs IH]; [destruct Hx|]. inversion Ht; subst. destruct Hx as [<- | Hx]; auto. eapply of_target_names; eauto. }
  destruct (add_targets_sublist vs []) as (l & -> & Hl). cbn [app]. destruct (every_sub vs) as (ws & Hw & E).
  apply (sub_map e_label) in Hl. rewrite E in Hl. eapply sub_NoDup; [eauto|].
  assert (Hnw : NoDup (map key ws)) by (eapply sub_NoDup; [apply sub_map; eauto|auto]).
  clear Hl E l. assert (Hin : forall w, In w ws -> plain (v_name w) /\ (1 <= v_order w)%Z).
  { intros w H. eapply sub_In in H; eauto. split; auto. specialize (Hord w H). unfold cnt at 1 in Hord. cbn in Hord. lia. }
  clear - Hnw Hin. induction ws as [|w ws IH]; cbn [map] in *; constructor; inversion Hnw; subst.
  - intros H. apply in_map_iff in H. destruct H as (x & E & Hx). apply H1. apply in_map_iff. exists x. split; auto.
    destruct (Hin w (or_introl eq_refl)) as [? ?], (Hin x (or_intror Hx)) as [? ?]. apply label_inj; auto.
  - apply IH; auto. intros x H. apply Hin. right. auto.
Qed.

(** ** Where it stops *)

(** The step made for the target [e], in the frame [fr]. *)
Definition step_for (fr : N) (vs : list variant) (e : entry) : step :=
  match e_parent e with Some p => Step fr p (e_off e) vs | None => Step fr (e_off e) (-1) vs end.
Lemma step_for_choose es id e : nth_error es id = Some e ->
  choose es id = Some (st_parent (step_for 0 [] e), st_child (step_for 0 [] e)).
Proof. intros H. unfold choose, step_for. rewrite H. destruct (e_parent e); reflexivity. Qed.

Lemma offered_in src c lasti vs es e : Forall good_lines c -> step_in_targets src c lasti = Some (vs, es) -> In e es -> e_parent e = None ->
  In (e_off e) (offsets c).
Proof.
  intros Hg Hs He Hp. destruct (smart_offered _ _ _ _ _ _ Hg Hs He) as (o & p & Hc & _ & [H|[_ H]]); [congruence|].
  subst. apply has_call_off. eauto.
Qed.

(** In a frame called by the frame of the step, the line is one to stop at exactly when the call being made is the chosen one. *)
Lemma line_stops_iff src c lasti vs es e fr back :
  Forall good_lines c -> ordered c -> step_in_targets src c lasti = Some (vs, es) -> In e es -> e_parent e = None ->
  (line_stops (step_for fr vs e) back = true <-> exists b rest, back = b :: rest /\ fid b = fr /\ in_call c (e_off e) (flasti b)).
Proof.
  intros Hg [Hord Hpos] Hs He Hp. pose proof (offered_in _ _ _ _ _ _ Hg Hs He Hp) as Hin.
  destruct (variants_offsets _ _ _ _ _ Hg Hs) as (Ho & _ & _). unfold step_for. rewrite Hp.
  rewrite Forall_forall in Hpos. pose proof (Hpos _ Hin) as H0.
  destruct back as [|b rest]; [split; [discriminate|intros (b & r & E & _); discriminate]|].
  unfold line_stops. cbn [st_frame st_child st_parent st_variants]. destruct (N.eqb_spec (fid b) fr) as [Ef|Ef].
  - change (negb (Z.eqb (-1) (-1))) with false. cbv beta iota zeta.
    replace (Z.leb 0 (e_off e)) with true by (symmetry; apply Z.leb_le; lia).
    assert (Hne : vs <> []) by (intros ->; cbn in Ho; rewrite <- Ho in Hin; destruct Hin).
    destruct vs as [|v0 vs0] eqn:Ev; [congruence|]. rewrite <- Ev in *. cbv beta iota zeta. cbn [andb negb].
    rewrite same_variant_spec by (rewrite Ho; auto). rewrite Ho. unfold in_call. split.
    + intros [H1 H2]. exists b, rest. split; auto. split; auto. split; [apply has_call_off; auto|]. split; auto.
      intros o' p' H'. apply H2. apply has_call_off. eauto.
    + intros (b' & r' & E & _ & _ & H1 & H2). injection E as <- <-. split; auto. intros o' H'. apply has_call_off in H'. destruct H' as [p' H']. eauto.
  - split.
    + destruct rest as [|bb rest]; [discriminate|]. destruct (N.eqb (fid bb) fr); discriminate.
    + intros (b' & r' & E & E' & _). injection E as <- <-. contradiction.
Qed.

(** The thread stops at a line of a function called by the frame at the chosen call, or when the frame returns, and nowhere else. *)
Theorem smart_only : forall en src c lasti vs es e fr fs l at_ a,
  Forall good_lines c -> ordered c -> step_in_targets src c lasti = Some (vs, es) -> In e es -> e_parent e = None ->
  until_stop en (step_for fr vs e) fs l = Some (at_, a) ->
  (a = Line /\ exists f b rest, at_ = f :: b :: rest /\ fid f <> fr /\ fid b = fr /\ in_call c (e_off e) (flasti b)) \/
  (exists real f rest, a = Return real /\ at_ = f :: rest /\ fid f = fr /\ (real = true \/ fgen f = false)).
Proof.
  intros en src c lasti vs es e fr fs l at_ a Hg Hord Hs He Hp. revert fs. induction l as [|x l IH]; intros fs H; [discriminate|].
  cbn [until_stop] in H. destruct (do_act en (step_for fr vs e) fs x) as [fs' b] eqn:E. destruct b; [|eauto].
  injection H as <- <-. assert (Hfr : st_frame (step_for fr vs e) = fr) by (unfold step_for; destruct (e_parent e); auto).
  unfold do_act in E. rewrite Hfr in E. destruct x as [site f|l'| |real]; destruct fs as [|f0 rest]; try discriminate; try (injection E as _ E; discriminate).
  - destruct (fon f0); [|discriminate]. destruct (N.eqb_spec (fid f0) fr) as [Ef|Ef]; cbn [negb andb] in E; [destruct en; discriminate|].
    destruct (line_stops _ rest) eqn:Es; [|destruct en; discriminate].
    apply (line_stops_iff src c lasti vs es e fr rest) in Es; auto. destruct Es as (b & r & -> & Hb & Hc).
    left. split; auto. exists f0, b, r. auto.
  - right. injection E as _ E. apply andb_prop in E. destruct E as [E1 E2]. apply andb_prop in E1. destruct E1 as [_ E1]. apply N.eqb_eq in E1.
    exists real, f0, rest. repeat split; auto. destruct real; auto. right. destruct (fgen f0); auto.
Qed.

(** The stack after the actions. *)
Definition after (en : engine) (s : step) (fs : list frame) (l : list act) : list frame :=
  fold_left (fun fs a => fst (do_act en s fs a)) l fs.
Lemma until_stop_app en s l1 l2 : forall fs, until_stop en s fs l1 = None ->
  until_stop en s fs (l1 ++ l2) = until_stop en s (after en s fs l1) l2.
Proof.
  induction l1 as [|a l1 IH]; intros fs H; cbn [until_stop app] in *; auto. unfold after. cbn [fold_left].
  destruct (do_act en s fs a) as [fs' b]. cbn [fst]. destruct b; [discriminate|]. apply IH. auto.
Qed.
Lemma until_moves en s ms : forall f rest l,
  until_stop en s (f :: rest) (map Move ms ++ l) = until_stop en s (fold_left (fun f m => move m f) ms f :: rest) l.
Proof. induction ms as [|m ms IH]; intros f rest l; cbn [map app fold_left until_stop do_act]; auto. Qed.
Lemma moves_same ms : forall f, let g := fold_left (fun f m => move m f) ms f in fid g = fid f /\ fon g = fon f.
Proof. induction ms as [|m ms IH]; intros f; cbn [fold_left]; auto. apply (IH (move m f)). Qed.

(** Whatever was called before, when the frame makes the chosen call and the function called is one which is debugged, the thread
    stops at its first line. *)
Theorem smart_reached : forall en src c lasti vs es e fr fs before b rest site f ms,
  Forall good_lines c -> ordered c -> step_in_targets src c lasti = Some (vs, es) -> In e es -> e_parent e = None ->
  let s := step_for fr vs e in
  until_stop en s fs before = None -> after en s fs before = b :: rest -> fid b = fr ->
  in_call c (e_off e) site -> fid f <> fr -> fseen f = true ->
  exists g, fid g = fid f /\
    until_stop en s fs (before ++ Enter site f :: map Move ms ++ [Line]) = Some (g :: move site b :: rest, Line).
Proof.
  intros en src c lasti vs es e fr fs before b rest site f ms Hg Hord Hs He Hp s Hnone Haft Hb Hc Hf Hseen.
  rewrite until_stop_app by auto. rewrite Haft.
  assert (Hfr : st_frame s = fr) by (unfold s, step_for; destruct (e_parent e); auto).
  assert (Henter : exists f1, fid f1 = fid f /\ fon f1 = true /\ do_act en s (b :: rest) (Enter site f) = (f1 :: move site b :: rest, false)).
  { unfold do_act. destruct en; eexists; split; [|split; [|reflexivity]| |split; [|reflexivity]]; try reflexivity; cbn [set_on fon]; rewrite Hseen; auto.
    unfold near. cbn [firstn existsb fid move]. rewrite Hfr, (proj2 (N.eqb_eq _ _) Hb), !orb_true_r. reflexivity. }
  destruct Henter as (f1 & E1 & E2 & E3). cbn [until_stop]. rewrite E3. rewrite until_moves.
  destruct (moves_same ms f1) as [M1 M2]. exists (fold_left (fun f m => move m f) ms f1). split; [congruence|].
  cbn [until_stop do_act]. rewrite M2, E2, M1, E1, Hfr. rewrite (proj2 (N.eqb_neq _ _) Hf). cbn [negb andb].
  assert (Hl : line_stops s (move site b :: rest) = true).
  { apply (line_stops_iff src c lasti vs es e fr (move site b :: rest)); auto. exists (move site b), rest. auto. }
  rewrite Hl. reflexivity.
Qed.

(** The frame of the step is never left without a stop: when the chosen call was not made, the thread stops as it returns.  This
    holds for a target in an inner code too. *)
Theorem smart_not_lost : forall en s f0 rest l, fid f0 = st_frame s -> fon f0 = true -> fgen f0 = false ->
  until_stop en s (f0 :: rest) l = None -> exists above f, after en s (f0 :: rest) l = above ++ f :: rest /\ fid f = st_frame s.
Proof.
  intros en s f0 rest l H1 H2 H3.
  assert (G : forall l fs, (exists above f, fs = above ++ f :: rest /\ fid f = st_frame s /\ fon f = true /\ fgen f = false) ->
            until_stop en s fs l = None -> exists above f, after en s fs l = above ++ f :: rest /\ fid f = st_frame s).
  { clear l. induction l as [|a l IH]; intros fs (above & f & -> & F1 & F2 & F3) H.
    - exists above, f. auto.
    - cbn [until_stop] in H. destruct (do_act en s (above ++ f :: rest) a) as [fs' b] eqn:E. destruct b; [discriminate|].
      unfold after. cbn [fold_left]. rewrite E. cbn [fst]. apply IH; auto. clear IH H.
      destruct above as [|g above]; cbn [app] in E; unfold do_act in E.
      + destruct a as [site h|m| |real].
        * destruct en; injection E as <-; eexists [_], (move site f); cbn [app]; split; auto.
        * injection E as <-. exists [], (move m f). auto.
        * rewrite F2 in E. rewrite F1, N.eqb_refl in E. cbn [negb andb] in E. exists [], f. destruct en; injection E as <-; auto.
        * rewrite F2, F3, F1, N.eqb_refl, orb_true_r in E. discriminate.
      + destruct a as [site h|m| |real].
        * destruct en; injection E as <-; eexists (_ :: move site g :: above), f; cbn [app]; split; auto.
        * injection E as <-. exists (move m g :: above), f. auto.
        * destruct (fon g); [|injection E as <-; exists (g :: above), f; auto]. destruct (_ && _); [discriminate|].
          destruct en; injection E as <-; [|exists (g :: above), f; auto].
          destruct (N.eqb _ _); [exists (g :: above), f; auto|exists (set_on false g :: above), f; auto].
        * injection E as <- _. exists above, f. auto. }
  intros H. apply G; auto. exists [], f0. auto.
Qed.

(** * Stepping into a call of a code inside the code *)

(** [i] lies within [c]: it begins no sooner and ends no later. *)
Definition before_or_at (l1 c1 l2 c2 : Z) : Prop := (l1 < l2 \/ l1 = l2 /\ c1 <= c2)%Z.
Definition inside (i c : pos) : Prop :=
  before_or_at (lineno c) (startcol c) (lineno i) (startcol i) /\ before_or_at (endlineno i) (endcol i) (endlineno c) (endcol c).
Lemma is_inside_spec i c : is_inside i c = true <-> inside i c.
Proof.
  unfold is_inside, inside, before_or_at.
  destruct (Z.ltb_spec (lineno i) (lineno c)), (Z.ltb_spec (endlineno c) (endlineno i)); cbn [orb]; try (split; [discriminate|lia]).
  destruct (Z.eqb_spec (lineno i) (lineno c)), (Z.ltb_spec (startcol i) (startcol c)); cbn [andb]; try (split; [discriminate|lia]);
    destruct (Z.eqb_spec (endlineno i) (endlineno c)), (Z.ltb_spec (endcol c) (endcol i)); cbn [andb]; split; try discriminate; lia.
Qed.

(** The call at [o] is the first of [c] around the position [q]. *)
Definition holds (c : code) (q : pos) (o : Z) : Prop :=
  exists a p b, c = a ++ Call o (Some p) :: b /\ inside q p /\ forall o' p', has_call a o' p' -> ~ inside q p'.

Fixpoint first_of (c : target) (ts : list target) : option nat :=
  match ts with [] => None | t :: r => if is_inside (t_pos c) (t_pos t) then Some 0 else option_map S (first_of c r) end.
Definition at_ (c : target) (i : nat) (ts : list target) : bool := match first_of c ts with Some j => Nat.eqb i j | None => false end.
Definition add (cs : list target) (t : target) : target := let (a, p, o, l) := t in Target a p o (l ++ cs).
Lemma add_nil t : add [] t = t.
Proof. destruct t. cbn. rewrite app_nil_r. reflexivity. Qed.
Lemma attach_nth c ts : forall i, nth_error (attach c ts) i = option_map (add (if at_ c i ts then [c] else [])) (nth_error ts i).
Proof.
  unfold at_. induction ts as [|[a p o l] ts IH]; intros i; [destruct i; reflexivity|]. cbn [attach first_of t_pos].
  destruct (is_inside (t_pos c) p).
  - destruct i as [|i]; cbn [nth_error]; [reflexivity|]. cbn [Nat.eqb]. destruct (nth_error ts i); cbn [option_map]; [rewrite add_nil|]; reflexivity.
  - destruct i as [|i]; cbn [nth_error].
    + destruct (first_of c ts); cbn [option_map Nat.eqb add]; rewrite app_nil_r; reflexivity.
    + rewrite IH. destruct (first_of c ts); reflexivity.
Qed.
Lemma first_of_shape c ts ts' : map shape ts = map shape ts' -> first_of c ts = first_of c ts'.
Proof.
  revert ts'. induction ts as [|[a p o l] ts IH]; intros [|[a' p' o' l'] ts'] H; try discriminate; auto. cbn [map shape] in H.
  injection H as -> -> -> H. cbn [first_of t_pos]. rewrite (IH ts'); auto.
Qed.
Lemma attach_all_nth cs : forall ts i, nth_error (fold_left (fun ts c => attach c ts) cs ts) i =
  option_map (add (filter (fun c => at_ c i ts) cs)) (nth_error ts i).
Proof.
  induction cs as [|c cs IH]; intros ts i; cbn [fold_left filter].
  - destruct (nth_error ts i); cbn [option_map]; [rewrite add_nil|]; reflexivity.
  - rewrite IH, attach_nth. destruct (nth_error ts i) as [[a p o l]|]; cbn [option_map]; auto. f_equal.
    replace (filter (fun c0 => at_ c0 i (attach c ts)) cs) with (filter (fun c0 => at_ c0 i ts) cs).
    + destruct (at_ c i ts); cbn [add]; rewrite <- app_assoc; reflexivity.
    + apply filter_ext. intros x. unfold at_. rewrite (first_of_shape x (attach c ts) ts); auto. apply attach_shape.
Qed.

Definition tops (src : Z -> str) (c : code) : list target :=
  flat_map (fun i => match i with Call o (Some p) => [Target (call_text src p) p o []] | _ => [] end) c.
Lemma first_of_holds src x c : forall i, first_of x (tops src c) = Some i -> exists t, nth_error (tops src c) i = Some t /\ holds c (t_pos x) (t_off t).
Proof.
  unfold tops. induction c as [|k c IH]; intros i H; [discriminate|]. cbn [flat_map] in *.
  assert (Hskip : forall i, first_of x (tops src c) = Some i -> (forall o p, k <> Call o (Some p) \/ ~ inside (t_pos x) p) ->
    exists t, nth_error (tops src c) i = Some t /\ holds (k :: c) (t_pos x) (t_off t)).
  { intros j Hj Hk. destruct (IH j Hj) as (t & Ht & a & p & b & Ea & Hi & Ha). exists t. split; auto. exists (k :: a), p, b. rewrite Ea. split; auto. split; auto.
    intros o' p' [E|Hin]; [|eapply Ha; eauto]. intros Hins. destruct (Hk o' p'); contradiction. }
  destruct k as [d|o [p|]|]; cbn [app] in *; try (apply Hskip; auto; intros; left; discriminate).
  cbn [first_of t_pos] in H. destruct (is_inside (t_pos x) p) eqn:E.
  - injection H as <-. eexists. split; [reflexivity|]. exists [], p, c. split; auto. split; [apply is_inside_spec; auto|intros ? ? []].
  - destruct (first_of x (flat_map _ c)) as [j|] eqn:Ej; [|discriminate]. injection H as <-. cbn [nth_error]. apply Hskip; auto.
    intros o' p'. destruct (is_inside (t_pos x) p') eqn:E'; [left; intros X; injection X as _ ->; congruence|right; rewrite <- is_inside_spec, E'; discriminate].
Qed.
Lemma holds_first_of src x c o : holds c (t_pos x) o -> exists i t, first_of x (tops src c) = Some i /\ nth_error (tops src c) i = Some t /\ t_off t = o.
Proof.
  intros (a & p & b & -> & Hi & Ha). unfold tops. rewrite flat_map_app. cbn [flat_map app]. induction a as [|k a IH].
  - cbn [flat_map app first_of t_pos]. rewrite (proj2 (is_inside_spec _ _) Hi). exists 0. eexists. split; [reflexivity|]. split; reflexivity.
  - cbn [flat_map]. rewrite <- app_assoc. assert (Ha' : forall o' p', has_call a o' p' -> ~ inside (t_pos x) p') by (intros o' p' H; apply (Ha o'); right; auto).
    destruct (IH Ha') as (i & t & H1 & H2 & H3). destruct k as [d|o' [p'|]|]; cbn [app]; eauto.
    cbn [first_of t_pos]. destruct (is_inside (t_pos x) p') eqn:E; [apply is_inside_spec in E; destruct (Ha o' p'); [left; auto|auto]|].
    rewrite H1. exists (S i), t. auto.
Qed.

Lemma tops_In src c t : In t (tops src c) <-> exists o p, t = Target (call_text src p) p o [] /\ has_call c o p.
Proof.
  unfold tops, has_call. rewrite in_flat_map. split.
  - intros (i & Hi & H). destruct i as [| o [p|] |]; try (destruct H; fail). destruct H as [<- | []]. eauto.
  - intros (o & p & -> & H). eexists. split; eauto. left. reflexivity.
Qed.
Lemma tops_offsets src c : map t_off (tops src c) = offsets c.
Proof.
  unfold tops, offsets. induction c as [|i c IH]; auto. cbn [flat_map]. rewrite map_app, IH. destruct i as [| o [p|] |]; reflexivity.
Qed.

Lemma filter_sorted (f : target -> bool) l : StronglySorted Z.lt (map t_off l) -> StronglySorted Z.lt (map t_off (filter f l)).
Proof.
  induction l as [|t l IH]; intros H; auto. cbn [map] in H. inversion H as [|? ? H1 H2]; subst. cbn [filter]. destruct (f t); auto.
  cbn [map]. constructor; auto. rewrite Forall_forall in *. intros o Ho. apply H2. apply in_map_iff in Ho. destruct Ho as (x & <- & Hx).
  apply filter_In in Hx. apply in_map. tauto.
Qed.
Lemma sorted_mono vs : StronglySorted Z.lt (map v_off vs) -> forall i j a b, i < j -> off_at vs i = Some a -> off_at vs j = Some b -> (a < b)%Z.
Proof.
  induction vs as [|v vs IH]; intros Hs i j a b Hij Hi Hj; [destruct i; discriminate|].
  inversion Hs as [|? ? Hs1 Hs2]; subst. destruct j as [|j]; [lia|]. destruct i as [|i].
  - cbn in Hi. injection Hi as <-. rewrite Forall_forall in Hs2. apply Hs2. apply In_off. exists j. exact Hj.
  - apply (IH Hs1 i j); auto. lia.
Qed.
Lemma at_offset_exact vs i v : StronglySorted Z.lt (map v_off vs) -> nth_error vs i = Some v -> at_offset (v_off v) vs = Some i.
Proof.
  intros Hs Hi. destruct (bisect_spec vs (v_off v) Hs) as [B1 B2]. assert (Ho : off_at vs i = Some (v_off v)) by (unfold off_at; rewrite Hi; auto).
  assert (H : bisect vs (v_off v) = S i).
  { destruct (Nat.lt_trichotomy (bisect vs (v_off v)) (S i)) as [H|[H|H]]; auto; exfalso.
    - assert (bisect vs (v_off v) <= i) by lia. specialize (B2 _ _ H0 Ho). lia.
    - destruct (off_at vs (S i)) as [o|] eqn:E.
      + pose proof (B1 _ _ H E). pose proof (sorted_mono vs Hs i (S i) _ _ ltac:(lia) Ho E). lia.
      + unfold off_at in E. destruct (nth_error vs (S i)) eqn:E2; [discriminate|]. apply nth_error_None in E2.
        assert (bisect vs (v_off v) <= length vs); [|lia].
        apply (bisect_loop_spec vs (v_off v) Hs (length vs) 0 (length vs)); try lia.
        intros j o' Hj H'. unfold off_at in H'. assert (X : nth_error vs j = None) by (apply nth_error_None; lia). rewrite X in H'. discriminate. }
  unfold at_offset. rewrite H. destruct vs; [destruct i; discriminate|]. reflexivity.
Qed.
Lemma Forall2_nth {A B} (R : A -> B -> Prop) l m : Forall2 R l m -> forall i y, nth_error m i = Some y -> exists x, nth_error l i = Some x /\ R x y.
Proof. induction 1 as [|x y l m H Hs IH]; intros [|i] z Hz; try discriminate; [injection Hz as <-; exists x; auto|apply IH; auto]. Qed.

(** [c] has one inner code, [d], which has none. *)
Definition one_inner (c d : code) : Prop := exists a b, c = a ++ Const d :: b /\ no_inner_code a /\ no_inner_code b /\ no_inner_code d.
Lemma one_inner_targets src c d : one_inner c d ->
  targets src c = fold_left (fun ts c => attach c ts) (tops src d) (tops src c).
Proof.
  intros (a & b & -> & Ha & Hb & Hd). unfold targets at 1. cbn [inner_targets]. fold (tops src (a ++ Const d :: b)). f_equal.
  assert (Hz : forall x, no_inner_code x -> flat_map (inner_targets src) x = []).
  { intros x Hx. induction x as [|i x IH]; auto. cbn [flat_map]. rewrite IH by (intros j Hj; apply Hx; right; auto).
    destruct i as [e| |]; auto. destruct (Hx (Const e) (or_introl eq_refl) e eq_refl). }
  rewrite flat_map_app. cbn [flat_map]. rewrite (Hz a Ha), (Hz b Hb). change (inner_targets src (Const d)) with (targets src d).
  rewrite flat_targets by auto. rewrite app_nil_r. reflexivity.
Qed.

(** The calls of the inner code made for the call at [o]; the instruction at [l] belongs to the one at [o']. *)
Definition in_inner_call (c d : code) (o o' l : Z) : Prop :=
  (exists q, has_call d o' q /\ holds c q o) /\ (o' <= l)%Z /\ forall o2 q2, has_call d o2 q2 -> holds c q2 o -> (o2 <= o' \/ l < o2)%Z.

Lemma inner_stops_iff src c d lasti vs es e fr o :
  Forall good_lines c -> ordered c -> one_inner c d -> ordered d ->
  step_in_targets src c lasti = Some (vs, es) -> In e es -> e_parent e = Some o ->
  (exists p, has_call c o p) /\ (lasti < o)%Z /\ (exists q, has_call d (e_off e) q /\ holds c q o) /\
  forall back, line_stops (step_for fr vs e) back = true <->
    exists m b rest, back = m :: b :: rest /\ fid m <> fr /\ fid b = fr /\ in_inner_call c d o (e_off e) (flasti m).
Proof.
  intros Hg [Hord Hpos] H1 [Hd Hdpos] Hs He Hp. destruct (smart_offered _ _ _ _ _ _ Hg Hs He) as (o0 & p0 & Hc0 & Hl0 & [E0|[E0 _]]); [|congruence].
  assert (o0 = o) by congruence. subst o0. split; [eauto|]. split; auto.
  destruct (variants_offsets _ _ _ _ _ Hg Hs) as (Ho & -> & Hv).
  apply add_targets_sub in He. destruct He as [[]|He]. apply in_flat_map in He. destruct He as (v & Hin & He).
  assert (Hw : v_off v = o /\ In (e_off e) (map v_off (v_inner v))).
  { unfold of_variant in He. destruct (v_visited v); [destruct He|]. destruct (v_inner v) as [|w ws]; [destruct He as [<- | []]; discriminate|].
    apply in_map_iff in He. destruct He as (x & <- & Hx). cbn [e_parent e_off] in *. split; [congruence|]. apply in_map. auto. }
  destruct Hw as [Hvo Hwin]. apply In_nth_error in Hin. destruct Hin as [i Hi].
  destruct (Forall2_nth _ _ _ Hv _ _ Hi) as (t & Ht & Hof). rewrite one_inner_targets with (d := d) in Ht by auto. rewrite attach_all_nth in Ht.
  destruct (nth_error (tops src c) i) as [t0|] eqn:Et0; [|discriminate]. cbn [option_map] in Ht. injection Ht as Ht.
  assert (Hin0 : In t0 (tops src c)) by (eapply nth_error_In; eauto). apply tops_In in Hin0. destruct Hin0 as (o1 & p1 & -> & Hc1).
  cbn [add app] in Ht. subst t. inversion Hof as [? ? ? ? ? ws Hws Ex Ey]; subst. cbn [v_off v_inner] in *. rename o1 into o.
  pose proof (of_target_offs _ _ _ Hws) as Hoffs.
  assert (Hsorted : StronglySorted Z.lt (map v_off ws)) by (rewrite Hoffs; apply filter_sorted; rewrite tops_offsets; auto).
  assert (Hvs : StronglySorted Z.lt (map v_off vs)) by (rewrite Ho; auto).
  assert (Hmem : forall x, In x (map v_off ws) <-> exists q, has_call d x q /\ holds c q o).
  { intros x. rewrite Hoffs. split.
    - intros H. apply in_map_iff in H. destruct H as (y & <- & Hy). apply filter_In in Hy. destruct Hy as [Hy Hat]. apply tops_In in Hy.
      destruct Hy as (x & q & -> & Hq). cbn [t_off]. exists q. split; auto. unfold at_ in Hat. destruct (first_of _ _) as [j|] eqn:Ej; [|discriminate].
      apply Nat.eqb_eq in Hat. subst j. apply first_of_holds in Ej. destruct Ej as (t & Ht & Hh). rewrite Et0 in Ht. injection Ht as <-. exact Hh.
    - intros (q & Hq & Hh). apply in_map_iff. exists (Target (call_text src q) q x []). split; auto. apply filter_In. split; [apply tops_In; eauto|].
      destruct (holds_first_of src (Target (call_text src q) q x []) c o Hh) as (j & t & Hf & Hj & Hto). unfold at_. rewrite Hf. apply Nat.eqb_eq.
      assert (Hoj : forall k y, nth_error (tops src c) k = Some y -> off_at vs k = Some (t_off y)).
      { intros k9 y Hk. unfold off_at. apply (map_nth_error t_off) in Hk. rewrite tops_offsets, <- Ho in Hk. rewrite nth_error_map in Hk. exact Hk. }
      pose proof (Hoj _ _ Hj) as O1. pose proof (Hoj _ _ Et0) as O2. rewrite Hto in O1. cbn [t_off] in O2.
      destruct (Nat.lt_trichotomy i j) as [X|[X|X]]; auto; [pose proof (sorted_mono vs Hvs _ _ _ _ X O2 O1) | pose proof (sorted_mono vs Hvs _ _ _ _ X O1 O2)]; lia. }
  split; [apply Hmem; auto|]. intros back. unfold step_for. rewrite Hp.
  assert (Hoff0 : (0 <= e_off e)%Z).
  { rewrite Forall_forall in Hdpos. apply Hdpos. apply Hmem in Hwin. destruct Hwin as (q & Hq & _). apply has_call_off. eauto. }
  assert (Ho0 : (0 <= o)%Z). { rewrite Forall_forall in Hpos. apply Hpos. apply has_call_off. eauto. }
  unfold line_stops. cbn [st_frame st_child st_parent st_variants].
  destruct back as [|m back]; [split; [discriminate|intros (m & b & r & E & _); discriminate]|].
  destruct (N.eqb_spec (fid m) fr) as [Em|Em].
  { replace (Z.eqb (e_off e) (-1)) with false by (symmetry; apply Z.eqb_neq; lia). cbn [negb]. split; [discriminate|].
    intros (m' & b & r & E & Hm & _). injection E as <- _. contradiction. }
  destruct back as [|b rest]; [split; [discriminate|intros (m' & b & r & E & _); discriminate]|].
  destruct (N.eqb_spec (fid b) fr) as [Eb|Eb]; [|split; [discriminate|intros (m' & b' & r & E & _ & Hb & _); injection E as <- <- <-; contradiction]].
  replace (Z.leb 0 (e_off e)) with true by (symmetry; apply Z.leb_le; lia). replace (Z.leb 0 o) with true by (symmetry; apply Z.leb_le; lia).
  assert (Hne : match vs with [] => true | _ => false end = false) by (destruct vs; [destruct i; discriminate|reflexivity]).
  rewrite Hne. cbn [negb andb]. pose proof (at_offset_exact vs i _ Hvs Hi) as Hx. cbn [v_off] in Hx. rewrite Hx, Hi. cbn [v_inner].
  destruct ws as [|w ws'] eqn:Ew; [destruct Hwin|]. rewrite <- Ew in *. rewrite same_variant_spec by auto. unfold in_inner_call. split.
  - intros [S1 S2]. exists m, b, rest. split; auto. split; auto. split; auto. split; [apply Hmem; auto|]. split; auto.
    intros o2 q2 Hq Hh. apply S2. apply Hmem. eauto.
  - intros (m' & b' & r & E & _ & _ & _ & S1 & S2). injection E as <- <- <-. split; auto. intros o2 H2. apply Hmem in H2. destruct H2 as (q2 & Hq & Hh). eauto.
Qed.

(** What the target in an inner code denotes. *)
Theorem smart_inner_offered : forall src c d lasti vs es e o,
  Forall good_lines c -> ordered c -> one_inner c d -> ordered d ->
  step_in_targets src c lasti = Some (vs, es) -> In e es -> e_parent e = Some o ->
  (exists p, has_call c o p) /\ (lasti < o)%Z /\ exists q, has_call d (e_off e) q /\ holds c q o.
Proof.
  intros src c d lasti vs es e o Hg Hc H1 Hd Hs He Hp. destruct (inner_stops_iff src c d lasti vs es e 0 o) as (A & B & C & _); auto.
Qed.

(** The thread stops at a line of a function called, at the chosen call, by a frame called by the frame of the step, or when the
    latter returns, and nowhere else. *)
Theorem smart_inner_only : forall en src c d lasti vs es e o fr fs l st a,
  Forall good_lines c -> ordered c -> one_inner c d -> ordered d ->
  step_in_targets src c lasti = Some (vs, es) -> In e es -> e_parent e = Some o ->
  until_stop en (step_for fr vs e) fs l = Some (st, a) ->
  (a = Line /\ exists f m b rest, st = f :: m :: b :: rest /\ fid f <> fr /\ fid m <> fr /\ fid b = fr /\
     in_inner_call c d o (e_off e) (flasti m)) \/
  (exists real f rest, a = Return real /\ st = f :: rest /\ fid f = fr /\ (real = true \/ fgen f = false)).
Proof.
  intros en src c d lasti vs es e o fr fs l st a Hg Hc H1 Hd Hs He Hp. revert fs. induction l as [|x l IH]; intros fs H; [discriminate|].
  cbn [until_stop] in H. destruct (do_act en (step_for fr vs e) fs x) as [fs' b] eqn:E. destruct b; [|eauto].
  injection H as <- <-. assert (Hfr : st_frame (step_for fr vs e) = fr) by (unfold step_for; destruct (e_parent e); auto).
  unfold do_act in E. rewrite Hfr in E. destruct x as [site f|l'| |real]; destruct fs as [|f0 rest]; try discriminate; try (injection E as _ E; discriminate).
  - destruct (fon f0); [|discriminate]. destruct (N.eqb_spec (fid f0) fr) as [Ef|Ef]; cbn [negb andb] in E; [destruct en; discriminate|].
    destruct (line_stops _ rest) eqn:Es; [|destruct en; discriminate].
    destruct (inner_stops_iff src c d lasti vs es e fr o) as (_ & _ & _ & Hiff); auto. apply Hiff in Es. destruct Es as (m & b & r & -> & Hm & Hb & Hi).
    left. split; auto. exists f0, m, b, r. auto.
  - right. injection E as _ E. apply andb_prop in E. destruct E as [E1 E2]. apply andb_prop in E1. destruct E1 as [_ E1]. apply N.eqb_eq in E1.
    exists real, f0, rest. repeat split; auto. destruct real; auto. right. destruct (fgen f0); auto.
Qed.

(** When the frame of the inner code, called by the frame of the step, makes the chosen call and the function called is one which is
    debugged, the thread stops at its first line. *)
Theorem smart_inner_reached : forall en src c d lasti vs es e o fr fs before m b rest site f ms,
  Forall good_lines c -> ordered c -> one_inner c d -> ordered d ->
  step_in_targets src c lasti = Some (vs, es) -> In e es -> e_parent e = Some o ->
  let s := step_for fr vs e in
  until_stop en s fs before = None -> after en s fs before = m :: b :: rest -> fid m <> fr -> fid b = fr ->
  in_inner_call c d o (e_off e) site -> fid f <> fr -> fseen f = true ->
  exists g, fid g = fid f /\
    until_stop en s fs (before ++ Enter site f :: map Move ms ++ [Line]) = Some (g :: move site m :: b :: rest, Line).
Proof.
  intros en src c d lasti vs es e o fr fs before m b rest site f ms Hg Hc H1 Hd Hs He Hp s Hnone Haft Hm Hb Hi Hf Hseen.
  rewrite until_stop_app by auto. rewrite Haft.
  assert (Hfr : st_frame s = fr) by (unfold s, step_for; destruct (e_parent e); auto).
  assert (Henter : exists f1, fid f1 = fid f /\ fon f1 = true /\ do_act en s (m :: b :: rest) (Enter site f) = (f1 :: move site m :: b :: rest, false)).
  { unfold do_act. destruct en; eexists; split; [|split; [|reflexivity]| |split; [|reflexivity]]; try reflexivity; cbn [set_on fon]; rewrite Hseen; auto.
    unfold near. cbn [firstn existsb]. rewrite Hfr, (proj2 (N.eqb_eq _ _) Hb), !orb_true_r. reflexivity. }
  destruct Henter as (f1 & E1 & E2 & E3). cbn [until_stop]. rewrite E3. rewrite until_moves.
  destruct (moves_same ms f1) as [M1 M2]. exists (fold_left (fun f m => move m f) ms f1). split; [congruence|].
  cbn [until_stop do_act]. rewrite M2, E2, M1, E1, Hfr. rewrite (proj2 (N.eqb_neq _ _) Hf). cbn [negb andb].
  assert (Hl : line_stops s (move site m :: b :: rest) = true).
  { destruct (inner_stops_iff src c d lasti vs es e fr o) as (_ & _ & _ & Hiff); auto. apply Hiff. exists (move site m), b, rest. auto. }
  rewrite Hl. reflexivity.
Qed.

(** * Cases *)

Ltac good := repeat first [apply Forall_nil | apply Forall_cons | apply good_other | apply good_const
  | apply good_call; intros ? E; injection E as <-; cbn; unfold first_line, last_line; lia].

(** The third line of a file: r = f(1) + g(f(2)). *)
Definition src1 (l : Z) : str := if Z.eqb l 3 then lit "r = f(1) + g(f(2))" else [].
Definition p1 (a b : Z) : pos := Pos 3 3 a b.
Definition code1 : code := [Other; Call 10 (Some (p1 4 8)); Other; Call 24 (Some (p1 13 17)); Call 32 (Some (p1 11 18)); Other].
Lemma code1_good : Forall good_lines code1.
Proof. good. Qed.
Lemma code1_ordered : ordered code1.
Proof. split; cbn; repeat constructor; lia. Qed.
Definition targets1 : list entry :=
  [Entry (lit "f(1)") None 10; Entry (lit "f(2)") None 24; Entry (lit "g(f(2))") None 32].
Example ex_targets1 : option_map snd (step_in_targets src1 code1 0) = Some targets1.
Proof. vm_compute. reflexivity. Qed.
Example ex_targets1_later : option_map snd (step_in_targets src1 code1 10) = Some (tl targets1).
Proof. vm_compute. reflexivity. Qed.
(** The same call twice: x = f() + f(). *)
Definition src2 (l : Z) : str := lit "x = f() + f()".
Definition code2 : code := [Call 10 (Some (Pos 1 1 4 7)); Call 20 (Some (Pos 1 1 10 13))].
Example ex_targets2 : option_map snd (step_in_targets src2 code2 0) = Some [Entry (lit "f()") None 10; Entry (lit "f() (call 2)") None 20].
Proof. vm_compute. reflexivity. Qed.
Example ex_plain : plain (lit "f()").
Proof.
  intros n k E. apply (f_equal (@rev N)) in E. rewrite !rev_app_distr in E. change (rev (lit "f()")) with (41%N :: 40%N :: [102%N]) in E.
  change (rev (lit ")")) with [41%N] in E. cbn [app] in E. injection E as E. rewrite <- !app_assoc in E.
  destruct (rev (dec k)) as [|x r] eqn:Ek.
  - apply (f_equal (@rev N)) in Ek. rewrite rev_involutive in Ek. destruct (dec_nonempty k). auto.
  - cbn [app] in E. injection E as E _. subst x. assert (H : In 40%N (dec k)) by (apply in_rev; rewrite Ek; left; auto).
    pose proof (dec_digits k) as D. rewrite Forall_forall in D. specialize (D _ H). discriminate.
Qed.
Example ex_in_call : in_call code1 24 24 /\ ~ in_call code1 24 32.
Proof.
  split.
  - split; [exists (p1 13 17); cbn; auto|]. split; [lia|]. intros o p H. cbn in H.
    repeat (destruct H as [H|H]; [try discriminate; injection H as <- _; lia|]). destruct H.
  - intros (_ & _ & H). destruct (H 32%Z (p1 11 18)); [cbn; auto 10|lia|lia].
Qed.

Definition fr0 : frame := Frame 0 0 false true true.
Definition callee (i : N) : frame := Frame i 0 false true false.
(** The first f is passed over, with the function it calls; the second one is where the thread stops. *)
Example ex_step1 : forall en,
  exists vs, step_in_targets src1 code1 0 = Some (vs, targets1) /\
  until_stop en (step_for 0 vs (Entry (lit "f(2)") None 24)) [fr0]
    [Move 8; Enter 10 (callee 1); Line; Enter 6 (callee 2); Line; Return true; Line; Return true; Move 20; Enter 24 (callee 3); Move 2; Line]
  = Some ([Frame 3 2 false true true; Frame 0 24 false true true], Line).
Proof. intros en. eexists. split; [vm_compute; reflexivity|]. destruct en; vm_compute; reflexivity. Qed.
(** A call which is not made: the thread stops as the frame returns. *)
Example ex_step2 : forall en, exists vs, step_in_targets src1 code1 0 = Some (vs, targets1) /\
  until_stop en (step_for 0 vs (Entry (lit "f(2)") None 24)) [fr0] [Move 8; Enter 10 (callee 1); Line; Return true; Line; Return true]
  = Some ([Frame 0 10 false true true], Return true).
Proof. intros en. eexists. split; [vm_compute; reflexivity|]. destruct en; vm_compute; reflexivity. Qed.

(** any(g(x) for x in l): the generator is called at 20, any at 30. *)
Definition src3 (l : Z) : str := lit "any(g(x) for x in l)".
Definition gen3 : code := [Other; Call 12 (Some (Pos 1 1 4 8)); Other].
Definition code3 : code := [Const gen3; Other; Call 20 (Some (Pos 1 1 3 20)); Call 30 (Some (Pos 1 1 0 20))].
Definition targets3 : list entry := [Entry (lit "g(x)") (Some 20%Z) 12; Entry (lit "any(g(x) for x in l)") None 30].
Lemma code3_good : Forall good_lines code3.
Proof. good. Qed.
Lemma code3_one : one_inner code3 gen3.
Proof.
  exists [], [Other; Call 20 (Some (Pos 1 1 3 20)); Call 30 (Some (Pos 1 1 0 20))]. split; [reflexivity|].
  split; [intros i []|]. split; intros i H; cbn in H; intuition (subst; discriminate).
Qed.
Lemma code3_ordered : ordered code3 /\ ordered gen3.
Proof. split; split; cbn; repeat constructor; lia. Qed.
Example ex_inner3 : forall en, exists vs, step_in_targets src3 code3 0 = Some (vs, targets3) /\
  until_stop en (step_for 0 vs (Entry (lit "g(x)") (Some 20%Z) 12)) [fr0]
    [Enter 20 (Frame 1 0 true true false); Return false; Enter 30 (Frame 1 0 true true false); Line; Enter 12 (callee 2); Line]
  = Some ([Frame 2 0 false true true; Frame 1 12 true true (match en with Settrace => false | Monitoring => true end); Frame 0 30 false true true], Line).
Proof. intros en. eexists. split; [vm_compute; reflexivity|]. destruct en; vm_compute; reflexivity. Qed.

(** * Where the claim fails *)

(** The frame between the two is not looked at: having chosen the call of g in the generator of [code4], the thread stops in a function
    called by h, which was called elsewhere.  Here the code is h() and any(g(x) for x in l). *)
Definition src4 (l : Z) : str := lit "h() and any(g(x) for x in l)".
Definition gen4 : code := [Call 12 (Some (Pos 1 1 12 16))].
Definition code4 : code := [Call 6 (Some (Pos 1 1 0 3)); Const gen4; Call 20 (Some (Pos 1 1 11 28)); Call 30 (Some (Pos 1 1 8 28))].
Theorem smart_inner_other_refuted : exists vs es e o f m b,
  step_in_targets src4 code4 0 = Some (vs, es) /\ In e es /\ e_parent e = Some o /\ e_label e = lit "g(x)" /\
  (forall en, until_stop en (step_for 0 vs e) [fr0] [Enter 6 (callee 1); Enter 14 (callee 2); Line] = Some ([f; m en; b], Line)) /\
  ~ in_call code4 o (flasti b).
Proof.
  eexists _, _, (Entry (lit "g(x)") (Some 20%Z) 12), 20%Z, (Frame 2 0 false true true), (fun _ => Frame 1 14 false true true), (Frame 0 6 false true true).
  split; [vm_compute; reflexivity|]. split; [right; left; reflexivity|]. split; [reflexivity|]. split; [reflexivity|]. split.
  - intros en. destruct en; vm_compute; reflexivity.
  - intros (_ & H & _). cbn in H. lia.
Qed.

(** Two inner codes of the same call cannot be told apart: f(lambda: g(), lambda: h()). *)
Definition src5 (l : Z) : str := lit "f(lambda: g(), lambda: h())".
Definition code5 : code := [Const [Call 10 (Some (Pos 1 1 10 13))]; Const [Call 10 (Some (Pos 1 1 23 26))]; Call 30 (Some (Pos 1 1 0 27))].
Theorem smart_inner_two_refuted : exists vs es e1 e2, step_in_targets src5 code5 0 = Some (vs, es) /\
  nth_error es 0 = Some e1 /\ nth_error es 1 = Some e2 /\ e_label e1 = lit "g()" /\ e_label e2 = lit "h()" /\
  choose es 0 = choose es 1 /\ step_for 0 vs e1 = step_for 0 vs e2.
Proof. eexists _, _, _, _. split; [vm_compute; reflexivity|]. repeat split. Qed.

(** More targets than the limit. *)
Definition code6 : code :=
  flat_map (fun i => [Const [Call 6 (Some (Pos (Z.of_nat i) (Z.of_nat i) 2 4))]; Call (10 * Z.of_nat i)%Z (Some (Pos (Z.of_nat i) (Z.of_nat i) 0 6))]) (seq 1 20).
Theorem smart_limit_refuted : exists src c vs es, step_in_targets src c 0 = Some (vs, es) /\ 15 < length es.
Proof. exists (fun _ => lit "f(g())"), code6. eexists _, _. split; [vm_compute; reflexivity|]. vm_compute. lia. Qed.

(** The variants of the first line of a call on three lines cannot be had, when an inner code makes a call on another line. *)
Definition code7 : code := [Const [Call 10 (Some (Pos 2 2 4 8))]; Call 20 (Some (Pos 1 3 4 1))].
Theorem smart_lines_refuted : exists src c o p, has_call c o p /\ lineno p = 1%Z /\ variants_of src c 0 1 1 = None.
Proof. exists src3, code7, 20%Z, (Pos 1 3 4 1). split; [cbn; auto|]. split; [reflexivity|]. vm_compute. reflexivity. Qed.

(** Columns count bytes and the text is taken by characters: the label of the call in a line which starts with a letter of two bytes
    is wrong.  The line is [233 = f(x)], and the call is its characters 4 to 8. *)
Definition line8 : str := 233%N :: lit " = f(x)".
Definition byte_column (s : str) (n : nat) : Z :=
  fold_left (fun z c => (z + if N.ltb c 128 then 1 else if N.ltb c 2048 then 2 else if N.ltb c 65536 then 3 else 4)%Z) (firstn n s) 0%Z.
Theorem smart_text_refuted : exists a b, firstn (b - a) (skipn a line8) = lit "f(x)" /\
  call_text (fun _ => line8) (Pos 1 1 (byte_column line8 a) (byte_column line8 b)) = lit "(x)".
Proof. exists 4, 8. split; vm_compute; reflexivity. Qed.
(** In a line of ASCII the text is the one of the call. *)
Theorem smart_text : forall line a b, Forall (fun c => c < 128)%N line -> a <= b <= length line ->
  call_text (fun _ => line) (Pos 1 1 (byte_column line a) (byte_column line b)) = firstn (b - a) (skipn a line).
Proof.
  intros line a b H Hab. assert (Hc : forall n, n <= length line -> byte_column line n = Z.of_nat n).
  { intros n Hn. unfold byte_column. assert (G : forall l z, Forall (fun c => c < 128)%N l ->
      fold_left (fun z c => (z + if N.ltb c 128 then 1 else if N.ltb c 2048 then 2 else if N.ltb c 65536 then 3 else 4)%Z) l z = (z + Z.of_nat (length l))%Z).
    { intros l. induction l as [|c l IH]; intros z Hl; cbn [fold_left length]; [lia|]. inversion Hl; subst. rewrite IH by auto.
      rewrite (proj2 (N.ltb_lt _ _) H2). lia. }
    rewrite G; [rewrite firstn_length; lia|]. rewrite <- (firstn_skipn n line) in H. apply Forall_app in H. tauto. }
  unfold call_text. cbn [lineno endlineno startcol endcol]. rewrite Z.eqb_refl. unfold slice. rewrite !Hc by lia. rewrite !Nat2Z.id. reflexivity.
Qed.

(** A call which no instruction CALL makes counts for the one before it: the function called at 14 (an operator, say) is not the one
    chosen, which is called at 10. *)
Theorem smart_operator_refuted : exists vs es e site f, step_in_targets src1 code1 0 = Some (vs, es) /\ In e es /\
  e_parent e = None /\ site <> e_off e /\ forall en, exists st, until_stop en (step_for 0 vs e) [fr0] [Enter site f; Line] = Some (st, Line).
Proof.
  eexists _, _, (Entry (lit "f(1)") None 10), 14%Z, (callee 1). split; [vm_compute; reflexivity|]. split; [left; reflexivity|].
  split; [reflexivity|]. split; [cbn; lia|]. intros en. eexists. destruct en; vm_compute; reflexivity.
Qed.

(** A call in an inner code is said to have been made, in the answer of the line protocol, when its offset is before that of the
    instruction of the outer code. *)
Theorem smart_visited_refuted : exists vs name line o o' k,
  variants_of src3 code3 16 first_line last_line = Some vs /\ In (name, true, line, o, o', k) (xml_variants vs) /\ (16 < o)%Z.
Proof. eexists _, _, _, _, _, _. split; [vm_compute; reflexivity|]. split; [left; vm_compute; reflexivity|]. lia. Qed.

(** The step made for a target which is chosen by its id is the one for that target; there is no other id. *)
Theorem smart_chosen : forall es id fr vs a b,
  choose es id = Some (a, b) <-> exists e, nth_error es id = Some e /\ step_for fr vs e = Step fr a b vs.
Proof.
  intros es id fr vs a b. unfold choose, step_for. destruct (nth_error es id) as [e|].
  - split.
    + intros H. injection H as H. exists e. split; auto. destruct (e_parent e); injection H as -> ->; reflexivity.
    + intros (e' & He & H). injection He as <-. destruct (e_parent e); injection H as -> ->; reflexivity.
  - split; [discriminate|]. intros (e & H & _). discriminate.
Qed.
(** The variants sent by the line protocol: each target is there, with the offsets its step is made with; without inner codes
    they are the calls of the code, and whether they were made. *)
Theorem smart_variants : forall src c lasti vs es, Forall good_lines c -> step_in_targets src c lasti = Some (vs, es) ->
  (forall e fr, In e es -> exists name line k visited, In (name, visited, line, st_parent (step_for fr vs e), st_child (step_for fr vs e), k) (xml_variants vs)) /\
  (no_inner_code c -> map (fun x => let '(_, visited, _, o, o', _) := x in (visited, o, o')) (xml_variants vs) = map (fun o => (Z.leb o lasti, o, (-1)%Z)) (offsets c)).
Proof.
  intros src c lasti vs es Hg Hs. destruct (variants_offsets _ _ _ _ _ Hg Hs) as (Ho & -> & Hv). split.
  - intros e fr He. apply add_targets_sub in He. destruct He as [[]|He]. apply in_flat_map in He. destruct He as (v & Hin & He).
    unfold xml_variants. unfold of_variant in He. destruct (v_visited v) eqn:Ev; [destruct He|]. destruct (v_inner v) as [|w ws] eqn:Ei.
    + destruct He as [<- | []]. eexists _, _, _, _. apply in_flat_map. exists v. split; auto. rewrite Ei. left. reflexivity.
    + apply in_map_iff in He. destruct He as (x & <- & Hx). eexists _, _, _, _. apply in_flat_map. exists v. split; auto. rewrite Ei.
      apply in_map_iff. exists x. split; [reflexivity|auto].
  - intros Hn. rewrite flat_targets in Hv by auto. fold (tops src c) in Hv. rewrite <- (tops_offsets src c).
    assert (Ht : Forall (fun t => exists a p o, t = Target a p o []) (tops src c)) by (apply Forall_forall; intros t Hin; apply tops_In in Hin; destruct Hin as (o & p & -> & _); eauto).
    clear - Hv Ht. induction Hv as [|t v ts vs H Hs IH]; auto. inversion Ht as [|? ? (a & p & o & ->) Ht']; subst. inversion H as [? ? ? ? k ws Hw]; subst. inversion Hw; subst.
    specialize (IH Ht'). unfold xml_variants in *. cbn [flat_map v_inner app]. cbn [map]. rewrite <- IH. reflexivity.
Qed.

Print Assumptions smart_offered.
Print Assumptions smart_targets.
Print Assumptions smart_labels.
Print Assumptions smart_only.
Print Assumptions smart_reached.
Print Assumptions smart_not_lost.
Print Assumptions smart_inner_offered.
Print Assumptions smart_inner_only.
Print Assumptions smart_inner_reached.
Print Assumptions smart_text.
Print Assumptions smart_inner_other_refuted.
Print Assumptions smart_inner_two_refuted.
Print Assumptions smart_limit_refuted.
Print Assumptions smart_lines_refuted.
Print Assumptions smart_text_refuted.
Print Assumptions smart_operator_refuted.
Print Assumptions smart_visited_refuted.
Print Assumptions smart_chosen.
Print Assumptions smart_variants.
