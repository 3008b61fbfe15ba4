(** How a value is shown does not depend on what has been shown before. *)
From Coq Require Import String.
From Coq Require Import List Bool Arith Lia NArith.
From Verif Require Import Base Dict TypeView.
Import ListNotations.
Open Scope nat_scope.
Open Scope list_scope.

(** ** Specification *)

Definition usable (w : world) (t : nat) : Prop := named w t = true /\ hashable w t = true.

(** The class as which a value is shown: the one it says to have, or else the one it has. *)
Definition seen_as (w : world) (v t : nat) : Prop :=
  (class_of w v = Some t /\ usable w t) \/
  ((forall t', class_of w v = Some t' -> ~ usable w t') /\ type_of w v = t /\ usable w t).

(** The view which a value should have: the first provider for the class, or else what the first class of the table
    has of which the value is an instance, or else its attributes; its attributes also if a provider fails. *)
Definition proper (w : world) (v t : nat) (r : option view) : Prop :=
  (exists pre p post, providers w = pre ++ p :: post /\ (forall q, In q pre -> can w q t = Some false) /\
    ((can w p t = Some true /\ r = Some (ByProvider p)) \/ (can w p t = None /\ r = Some Default))) \/
  ((forall q, In q (providers w) -> can w q t = Some false) /\
   ((exists pre m r' post, type_map w = pre ++ (m, r') :: post /\ (forall x, In x pre -> isinst w v (fst x) = false) /\
      isinst w v m = true /\ r = option_map ByResolver r') \/
    ((forall x, In x (type_map w) -> isinst w v (fst x) = false) /\ r = Some Default))).

(** Values shown as the same class are instances of the same classes of the table. *)
Definition coherent (w : world) : Prop :=
  forall v v' t, seen_as w v t -> seen_as w v' t -> forall x, In x (type_map w) -> isinst w v (fst x) = isinst w v' (fst x).

(** The text shown with the text provider [o]. *)
Definition plain_text (w : world) (v : nat) : str :=
  match plain w v with
  | Some x => x
  | None => match repr_of w v with Some x => x | None => unable_text w v end
  end.
Definition text_by (w : world) (o : option nat) (v ctx : nat) : str :=
  match o with
  | None => plain_text w v
  | Some p => match str_of w p v ctx with
              | Some (Some x) => x
              | Some None => plain_text w v
              | None => match repr_of w v with Some x => x | None => unable_text w v end
              end
  end.

(** The first text provider for the class which does not fail for the value. *)
Definition settled (w : world) (v t ctx : nat) (o : option nat) : Prop :=
  match o with
  | Some p => exists pre post, str_providers w = pre ++ p :: post /\
                (forall q, In q pre -> str_can w q t = Some true -> str_of w q v ctx = None) /\
                str_can w p t = Some true /\ str_of w p v ctx <> None
  | None => forall q, In q (str_providers w) -> str_can w q t = Some true -> str_of w q v ctx = None
  end.

(** No text of a value of the class has been asked for. *)
Definition no_text (w : world) (t : nat) (h : asked) : Prop :=
  forall v ctx, In (v, true, ctx) h -> ~ seen_as w v t.

(** ** Proofs *)

Lemma seen_fun w v t t' : seen_as w v t -> seen_as w v t' -> t = t'.
Proof.
  intros [[A B] | [A [B C]]] [[D E] | [D [E F]]]; try congruence.
  - exfalso. exact (D t A B).
  - exfalso. exact (A t' D E).
Qed.

Lemma first_spec cn ps t : match first_provider cn ps t with
  | Found p => exists pre post, ps = pre ++ p :: post /\ (forall q, In q pre -> cn q t = Some false) /\ cn p t = Some true
  | Raised => exists pre p post, ps = pre ++ p :: post /\ (forall q, In q pre -> cn q t = Some false) /\ cn p t = None
  | NotFound => forall q, In q ps -> cn q t = Some false
  end.
Proof.
  induction ps as [|p ps IH]; cbn [first_provider]; [intros q []|].
  destruct (cn p t) as [[|]|] eqn:E.
  - exists [], ps. repeat split; auto. intros q [].
  - destruct (first_provider cn ps t) as [p'| |].
    + destruct IH as (pre & post & -> & A & B). exists (p :: pre), post. repeat split; auto. intros q [<- | Q]; auto.
    + intros q [<- | Q]; auto.
    + destruct IH as (pre & p' & post & -> & A & B). exists (p :: pre), p', post. repeat split; auto. intros q [<- | Q]; auto.
  - exists [], p, ps. repeat split; auto. intros q [].
Qed.

Lemma find_first {A} (P : A -> bool) l : match find P l with
  | Some x => exists pre post, l = pre ++ x :: post /\ (forall y, In y pre -> P y = false) /\ P x = true
  | None => forall y, In y l -> P y = false
  end.
Proof.
  induction l as [|x l IH]; cbn [find]; [intros y []|]. destruct (P x) eqn:E.
  - exists [], l. repeat split; auto. intros y [].
  - destruct (find P l) as [y|].
    + destruct IH as (pre & post & -> & A1 & B). exists (x :: pre), post. repeat split; auto. intros z [<- | Z]; auto.
    + intros y [<- | Y]; auto.
Qed.

Lemma proper_coherent w v v' t r : coherent w -> seen_as w v t -> seen_as w v' t -> proper w v' t r -> proper w v t r.
Proof.
  intros C S S' [P | [P [Q | Q]]]; [left; exact P|right|right]; (split; [exact P|]).
  - left. destruct Q as (pre & m & r' & post & E & A & B & D). exists pre, m, r', post. split; [exact E|]. split.
    + intros x X. rewrite (C v v' t S S'); [auto|]. rewrite E. apply in_or_app. auto.
    + split; [|exact D]. rewrite <- B. apply (C v v' t S S' (m, r')). rewrite E. apply in_or_app. right. left. reflexivity.
  - right. destruct Q as [Q D]. split; [|exact D]. intros x X. rewrite (C v v' t S S' x X). auto.
Qed.

Definition sound (w : world) (c : dict nat (option view)) : Prop :=
  forall t r, get Nat.eqb t c = Some r -> exists v, seen_as w v t /\ proper w v t r.

Lemma get_type_as_ok w c v t : coherent w -> sound w c -> seen_as w v t ->
  exists r c', get_type_as w c v t = Some (r, c') /\ proper w v t r /\ sound w c'.
Proof.
  intros C S A. unfold get_type_as.
  assert (H : hashable w t = true) by (destruct A as [[_ [_ H]] | [_ [_ [_ H]]]]; exact H). rewrite H.
  set (r := match first_provider (can w) (providers w) t with Found p => _ | NotFound => _ | Raised => _ end).
  assert (P : proper w v t r).
  { subst r. pose proof (first_spec (can w) (providers w) t) as F. destruct (first_provider (can w) (providers w) t) as [p| |].
    - destruct F as (pre & post & E & F1 & F2). left. exists pre, p, post. auto.
    - right. split; [exact F|]. pose proof (find_first (fun m => isinst w v (fst m)) (type_map w)) as G.
      destruct (find (fun m => isinst w v (fst m)) (type_map w)) as [[m r']|].
      + destruct G as (pre & post & E & G1 & G2). left. exists pre, m, r', post. auto.
      + right. auto.
    - destruct F as (pre & p & post & E & F1 & F2). left. exists pre, p, post. auto. }
  assert (N0 : sound w (set Nat.eqb t r c)).
  { intros t' r' G. rewrite (get_set Nat.eqb Nat.eqb_spec) in G. destruct (Nat.eqb_spec t' t) as [-> | NE].
    - injection G as <-. exists v. auto.
    - apply S. exact G. }
  destruct (get Nat.eqb t c) as [[r'|]|] eqn:G.
  - exists (Some r'), c. split; [reflexivity|]. split; [|exact S]. destruct (S t (Some r') G) as (v' & S' & P').
    exact (proper_coherent w v v' t (Some r') C A S' P').
  - exists r, (set Nat.eqb t r c). auto.
  - exists r, (set Nat.eqb t r c). auto.
Qed.

Lemma usable_dec w t : {usable w t} + {~ usable w t}.
Proof. unfold usable. destruct (named w t), (hashable w t); auto; right; intros [A B]; discriminate. Qed.

Lemma get_type_ok w c v : coherent w -> sound w c ->
  exists t r c', get_type w c v = (t, r, c') /\ sound w c' /\
  ((seen_as w v t /\ proper w v t r) \/
   ((forall t', ~ seen_as w v t') /\ c' = c /\
    ((t = type_of w v /\ hashable w t = false /\ is_class w t = true /\ r = Some Default) \/ (t = unable w /\ r = None)))).
Proof.
  intros C S. unfold get_type.
  destruct (class_of w v) as [t0|] eqn:K; [destruct (usable_dec w t0) as [U | U]|].
  - assert (A : seen_as w v t0) by (left; auto). destruct (get_type_as_ok w c v t0 C S A) as (r & c' & E & P & S').
    destruct U as [U1 U2]. rewrite U1, E. cbn [option_map]. exists t0, r, c'. auto.
  - assert (X : (if named w t0 then option_map (fun x => (t0, x)) (get_type_as w c v t0) else None) = None).
    { destruct (named w t0) eqn:D; [|reflexivity]. unfold get_type_as. destruct (hashable w t0) eqn:H; [|reflexivity].
      exfalso. apply U. split; assumption. }
    rewrite X. assert (K' : forall t', class_of w v = Some t' -> ~ usable w t') by (intros t' Q; congruence).
    destruct (named w (type_of w v)) eqn:D; [destruct (hashable w (type_of w v)) eqn:H|].
    + assert (A : seen_as w v (type_of w v)) by (right; split; [exact K'|split; [reflexivity|split; assumption]]).
      destruct (get_type_as_ok w c v _ C S A) as (r & c' & E & P & S'). rewrite E. exists (type_of w v), r, c'. auto.
    + unfold get_type_as at 1. rewrite H.
      assert (NS : forall t', ~ seen_as w v t').
      { intros t' [[A B] | [_ [<- [_ B]]]]; [exact (K' t' A B) | congruence]. }
      destruct (is_class w (type_of w v)) eqn:I; eexists _, _, _; (split; [reflexivity|]); split; auto; right; repeat split; auto.
    + assert (NS : forall t', ~ seen_as w v t').
      { intros t' [[A B] | [_ [<- [B _]]]]; [exact (K' t' A B) | congruence]. }
      eexists _, _, _. split; [reflexivity|]. split; [exact S|]. right. split; [exact NS|]. split; [reflexivity|]. right. auto.
  - assert (K' : forall t', class_of w v = Some t' -> ~ usable w t') by (intros t' Q; congruence).
    destruct (named w (type_of w v)) eqn:D; [destruct (hashable w (type_of w v)) eqn:H|].
    + assert (A : seen_as w v (type_of w v)) by (right; split; [exact K'|split; [reflexivity|split; assumption]]).
      destruct (get_type_as_ok w c v _ C S A) as (r & c' & E & P & S'). rewrite E. exists (type_of w v), r, c'. auto.
    + unfold get_type_as at 1. rewrite H.
      assert (NS : forall t', ~ seen_as w v t').
      { intros t' [[A B] | [_ [<- [_ B]]]]; [exact (K' t' A B) | congruence]. }
      destruct (is_class w (type_of w v)) eqn:I; eexists _, _, _; (split; [reflexivity|]); split; auto; right; repeat split; auto.
    + assert (NS : forall t', ~ seen_as w v t').
      { intros t' [[A B] | [_ [<- [B _]]]]; [exact (K' t' A B) | congruence]. }
      eexists _, _, _. split; [reflexivity|]. split; [exact S|]. right. split; [exact NS|]. split; [reflexivity|]. right. auto.
Qed.

Lemma details_views w s v full ctx : views (snd (details w s v full ctx)) = snd (get_type w (views s) v) /\
  s_type (fst (details w s v full ctx)) = fst (fst (get_type w (views s) v)) /\
  s_view (fst (details w s v full ctx)) = snd (fst (get_type w (views s) v)).
Proof.
  unfold details. destruct (get_type w (views s) v) as [[t r] c]. destruct full; [|auto].
  destruct (str_from w (texts s) v t ctx) as [x c']. auto.
Qed.

Lemma after_snoc w h v full ctx : after w (h ++ [(v, full, ctx)]) = snd (details w (after w h) v full ctx).
Proof. unfold after. rewrite fold_left_app. reflexivity. Qed.

Lemma after_sound w h : coherent w -> sound w (views (after w h)).
Proof.
  intros C. induction h as [|[[v full] ctx] h IH] using rev_ind.
  - intros t r G. discriminate.
  - rewrite after_snoc. destruct (details_views w (after w h) v full ctx) as [-> _].
    destruct (get_type_ok w (views (after w h)) v C IH) as (t & r & c' & -> & S & _). exact S.
Qed.

(** The text cache *)

Lemma try_other w t' : forall ps c v t ctx, t <> t' -> get Nat.eqb t' (snd (try_providers w ps c v t ctx)) = get Nat.eqb t' c.
Proof.
  induction ps as [|p ps IH]; intros c v t ctx NE; cbn [try_providers].
  - cbn [snd]. apply (get_set_other Nat.eqb Nat.eqb_spec). exact NE.
  - destruct (str_can w p t) as [[|]|]; [|apply IH; exact NE|reflexivity].
    destruct (str_of w p v ctx); [cbn [snd]; apply (get_set_other Nat.eqb Nat.eqb_spec); exact NE|].
    rewrite IH by exact NE. apply (get_set_other Nat.eqb Nat.eqb_spec). exact NE.
Qed.

Lemma str_from_other w c v t ctx t' : t <> t' -> get Nat.eqb t' (snd (str_from w c v t ctx)) = get Nat.eqb t' c.
Proof.
  intros NE. unfold str_from. destruct (hashable w t); [|reflexivity]. destruct (get Nat.eqb t c) as [[p|]|]; try reflexivity.
  apply try_other. exact NE.
Qed.

(** The class found does not depend on the cache. *)
Lemma type_seen w c v t : seen_as w v t -> fst (fst (get_type w c v)) = t.
Proof.
  intros A. unfold get_type. destruct A as [[K [U1 U2]] | [K' [<- [U1 U2]]]].
  - rewrite K, U1. unfold get_type_as. rewrite U2. destruct (get Nat.eqb t c) as [[r|]|]; reflexivity.
  - assert (X : match class_of w v with Some t => if named w t then option_map (fun x => (t, x)) (get_type_as w c v t) else None | None => None end = None).
    { destruct (class_of w v) as [t0|]; [|reflexivity]. destruct (named w t0) eqn:D; [|reflexivity]. unfold get_type_as.
      destruct (hashable w t0) eqn:H; [|reflexivity]. exfalso. apply (K' t0 eq_refl). split; assumption. }
    rewrite X, U1. unfold get_type_as. rewrite U2. destruct (get Nat.eqb (type_of w v) c) as [[r|]|]; reflexivity.
Qed.

Lemma seen_dec w v : {t | seen_as w v t} + {forall t, ~ seen_as w v t}.
Proof.
  destruct (class_of w v) as [t0|] eqn:K; [destruct (usable_dec w t0) as [U | U]|].
  - left. exists t0. left. auto.
  - destruct (usable_dec w (type_of w v)) as [V | V].
    + left. exists (type_of w v). right. split; [congruence|auto].
    + right. intros t [[A B] | [_ [<- B]]]; [congruence|auto].
  - destruct (usable_dec w (type_of w v)) as [V | V].
    + left. exists (type_of w v). right. split; [congruence|auto].
    + right. intros t [[A B] | [_ [<- B]]]; [congruence|auto].
Qed.

Lemma type_unseen w c v : (forall t, ~ seen_as w v t) ->
  fst (fst (get_type w c v)) = unable w \/ hashable w (fst (fst (get_type w c v))) = false.
Proof.
  intros A. unfold get_type.
  assert (X : match class_of w v with Some t => if named w t then option_map (fun x => (t, x)) (get_type_as w c v t) else None | None => None end = None).
  { destruct (class_of w v) as [t0|] eqn:K; [|reflexivity]. destruct (named w t0) eqn:D; [|reflexivity]. unfold get_type_as.
    destruct (hashable w t0) eqn:H; [|reflexivity]. exfalso. apply (A t0). left. repeat split; assumption. }
  rewrite X. destruct (named w (type_of w v)) eqn:D; [|auto]. unfold get_type_as.
  destruct (hashable w (type_of w v)) eqn:H; [|destruct (is_class w (type_of w v)); cbn; auto].
  exfalso. apply (A (type_of w v)). right. split; [|split; [reflexivity|split; assumption]].
  intros t' K U. apply (A t'). left. auto.
Qed.

Lemma details_texts w s v full ctx :
  texts (snd (details w s v full ctx)) =
  if full then snd (str_from w (texts s) v (fst (fst (get_type w (views s) v))) ctx) else texts s.
Proof.
  unfold details. destruct (get_type w (views s) v) as [[t r] c]. destruct full; [|reflexivity]. cbn [fst].
  destruct (str_from w (texts s) v t ctx). reflexivity.
Qed.

Lemma texts_other w s v full ctx t : t <> unable w -> (full = true -> ~ seen_as w v t) ->
  get Nat.eqb t (texts (snd (details w s v full ctx))) = get Nat.eqb t (texts s).
Proof.
  intros NU H. rewrite details_texts. destruct full; [|reflexivity]. specialize (H eq_refl).
  destruct (seen_dec w v) as [[t' S] | NS].
  - rewrite (type_seen w _ v t' S). apply str_from_other. intros ->. auto.
  - destruct (type_unseen w (views s) v NS) as [-> | HF].
    + apply str_from_other. congruence.
    + unfold str_from. rewrite HF. reflexivity.
Qed.

Lemma texts_kept w s v full ctx t o : t <> unable w -> get Nat.eqb t (texts s) = Some o ->
  get Nat.eqb t (texts (snd (details w s v full ctx))) = Some o.
Proof.
  intros NU G. destruct (seen_dec w v) as [[t' S] | NS].
  - destruct (Nat.eq_dec t' t) as [-> | NE].
    + rewrite details_texts. destruct full; [|exact G]. rewrite (type_seen w _ v t S). unfold str_from.
      destruct (hashable w t); [|exact G]. rewrite G. destruct o; exact G.
    + rewrite texts_other; auto. intros _ S'. exact (NE (seen_fun w v t' t S S')).
  - rewrite texts_other; auto.
Qed.

Lemma after_no_text w t h : t <> unable w -> no_text w t h -> get Nat.eqb t (texts (after w h)) = None.
Proof.
  intros NU. induction h as [|[[v full] ctx] h IH] using rev_ind; intros NT; [reflexivity|]. rewrite after_snoc, texts_other; auto.
  - apply IH. intros v' c' I. apply (NT v' c'). apply in_or_app. auto.
  - intros ->. apply (NT v ctx). apply in_or_app. right. left. reflexivity.
Qed.

Lemma after_kept w t o h1 : forall h2, t <> unable w -> get Nat.eqb t (texts (after w h1)) = Some o ->
  get Nat.eqb t (texts (after w (h1 ++ h2))) = Some o.
Proof.
  intros h2 NU G. induction h2 as [|[[v full] ctx] h2 IH] using rev_ind; [rewrite app_nil_r; exact G|].
  rewrite app_assoc, after_snoc. apply texts_kept; auto.
Qed.

Lemma try_spec w ps v t ctx : forall c, (forall p, In p ps -> str_can w p t <> None) ->
  exists o, get Nat.eqb t (snd (try_providers w ps c v t ctx)) = Some o /\
  match o with
  | Some p => exists pre post, ps = pre ++ p :: post /\
                (forall q, In q pre -> str_can w q t = Some true -> str_of w q v ctx = None) /\
                str_can w p t = Some true /\ str_of w p v ctx <> None /\ fst (try_providers w ps c v t ctx) = str_of w p v ctx
  | None => (forall q, In q ps -> str_can w q t = Some true -> str_of w q v ctx = None) /\ fst (try_providers w ps c v t ctx) = Some None
  end.
Proof.
  induction ps as [|p ps IH]; intros c H; cbn [try_providers].
  - exists None. split; [cbn [snd]; apply (get_set_same Nat.eqb Nat.eqb_spec)|]. split; [intros q []|reflexivity].
  - assert (H' : forall p, In p ps -> str_can w p t <> None) by (intros q Q; apply H; right; exact Q).
    destruct (str_can w p t) as [[|]|] eqn:E; [| |exfalso; exact (H p (or_introl eq_refl) E)].
    + destruct (str_of w p v ctx) as [x|] eqn:X.
      * exists (Some p). split; [cbn [snd]; apply (get_set_same Nat.eqb Nat.eqb_spec)|]. exists [], ps.
        repeat split; auto; [intros q []|congruence].
      * destruct (IH (set Nat.eqb t (Some p) c) H') as (o & G & R). exists o. split; [exact G|]. destruct o as [p'|].
        -- destruct R as (pre & post & -> & A & B & D & F). exists (p :: pre), post. repeat split; auto. intros q [<- | Q]; auto.
        -- destruct R as [A F]. split; [|exact F]. intros q [<- | Q]; auto.
    + destruct (IH c H') as (o & G & R). exists o. split; [exact G|]. destruct o as [p'|].
      * destruct R as (pre & post & -> & A & B & D & F). exists (p :: pre), post. repeat split; auto. intros q [<- | Q]; [congruence|auto].
      * destruct R as [A F]. split; [|exact F]. intros q [<- | Q]; [congruence|auto].
Qed.

Lemma details_text w s v t ctx : seen_as w v t -> s_text (fst (details w s v true ctx)) =
  match fst (str_from w (texts s) v t ctx) with
  | Some (Some x) => x
  | Some None => plain_text w v
  | None => match repr_of w v with Some x => x | None => unable_text w v end
  end.
Proof.
  intros S. unfold details. pose proof (type_seen w (views s) v t S) as T. destruct (get_type w (views s) v) as [[t' r] c].
  cbn [fst] in T. subst t'. destruct (str_from w (texts s) v t ctx) as [x c']. cbn [fst s_text]. destruct x as [[x|]|]; reflexivity.
Qed.

Lemma text_cached w s v t ctx o : seen_as w v t -> get Nat.eqb t (texts s) = Some o ->
  s_text (fst (details w s v true ctx)) = text_by w o v ctx.
Proof.
  intros S G. rewrite (details_text w s v t ctx S). unfold str_from.
  assert (H : hashable w t = true) by (destruct S as [[_ [_ H]] | [_ [_ [_ H]]]]; exact H). rewrite H, G. destruct o; reflexivity.
Qed.

Lemma seen_hash w v t : seen_as w v t -> hashable w t = true.
Proof. intros [[_ [_ H]] | [_ [_ [_ H]]]]; exact H. Qed.

(** ** Theorems *)

(** Whatever has been shown before, a value is shown as its class and with the view it should have. *)
Theorem view_proper w h v t full ctx : coherent w -> seen_as w v t ->
  let d := fst (details w (after w h) v full ctx) in s_type d = t /\ proper w v t (s_view d).
Proof.
  intros C S. cbv zeta. destruct (details_views w (after w h) v full ctx) as (_ & -> & ->).
  split; [apply type_seen; exact S|].
  destruct (get_type_ok w (views (after w h)) v C (after_sound w h C)) as (t' & r & c' & E & _ & [[S' P] | [NS _]]).
  - rewrite E. cbn. rewrite (seen_fun w v t t' S S'). exact P.
  - destruct (NS t S).
Qed.

(** A value without such a class is shown with its attributes if it has a class at all, and with nothing
    otherwise. *)
Theorem view_unhashable w h v full ctx : coherent w -> (forall t, ~ seen_as w v t) ->
  let d := fst (details w (after w h) v full ctx) in
  (s_type d = type_of w v /\ is_class w (type_of w v) = true /\ s_view d = Some Default) \/ (s_type d = unable w /\ s_view d = None).
Proof.
  intros C NS. cbv zeta. destruct (details_views w (after w h) v full ctx) as (_ & -> & ->).
  destruct (get_type_ok w (views (after w h)) v C (after_sound w h C)) as (t & r & c' & E & _ & [[S' P] | [_ [_ X]]]).
  - destruct (NS t S').
  - rewrite E. cbn. destruct X as [(-> & _ & I & ->) | [-> ->]]; auto.
Qed.

(** The first text asked for of a value of a class settles which provider gives the texts of all values of the
    class from then on: the first one for the class which does not fail. *)
Theorem text_first w h1 v0 c0 h2 v t ctx :
  t <> unable w -> (forall p, In p (str_providers w) -> str_can w p t <> None) ->
  seen_as w v0 t -> seen_as w v t -> no_text w t h1 ->
  exists o, settled w v0 t c0 o /\
  s_text (fst (details w (after w h1) v0 true c0)) = text_by w o v0 c0 /\
  s_text (fst (details w (after w (h1 ++ (v0, true, c0) :: h2)) v true ctx)) = text_by w o v ctx.
Proof.
  intros NU NR S0 S NT. pose proof (after_no_text w t h1 NU NT) as G0.
  destruct (try_spec w (str_providers w) v0 t c0 (texts (after w h1)) NR) as (o & G & R).
  exists o. assert (F : str_from w (texts (after w h1)) v0 t c0 = try_providers w (str_providers w) (texts (after w h1)) v0 t c0)
    by (unfold str_from; rewrite (seen_hash w v0 t S0), G0; reflexivity).
  split; [|split].
  - destruct o as [p|]; cbn [settled]; [|tauto]. destruct R as (pre & post & A & B & D & E & _). exists pre, post. auto.
  - rewrite (details_text w _ v0 t c0 S0), F. destruct o as [p|]; cbn [text_by].
    + destruct R as (_ & _ & _ & _ & _ & _ & ->). reflexivity.
    + destruct R as [_ ->]. reflexivity.
  - apply (text_cached w _ v t ctx o S).
    replace (h1 ++ (v0, true, c0) :: h2) with ((h1 ++ [(v0, true, c0)]) ++ h2) by (rewrite <- app_assoc; reflexivity).
    apply after_kept; [exact NU|]. rewrite after_snoc, details_texts, (type_seen w _ v0 t S0), F. exact G.
Qed.

(** If the first provider for the class fails for none of its values, it gives all texts, whatever has been shown
    before. *)
Theorem text_steady w h v t ctx pre p post :
  t <> unable w -> seen_as w v t -> str_providers w = pre ++ p :: post ->
  (forall q, In q pre -> str_can w q t = Some false) -> str_can w p t = Some true ->
  (forall v' ctx', seen_as w v' t -> str_of w p v' ctx' <> None) ->
  s_text (fst (details w (after w h) v true ctx)) = text_by w (Some p) v ctx.
Proof.
  intros NU S E A B D.
  assert (T : forall c v' c', seen_as w v' t -> try_providers w (str_providers w) c v' t c' = (str_of w p v' c', set Nat.eqb t (Some p) c)).
  { intros c v' c' S'. rewrite E. clear E. induction pre as [|q pre IH]; cbn [app try_providers].
    - rewrite B. destruct (str_of w p v' c') eqn:X; [reflexivity|]. destruct (D v' c' S' X).
    - rewrite (A q (or_introl eq_refl)). apply IH. intros q' Q. apply A. right. exact Q. }
  assert (I : get Nat.eqb t (texts (after w h)) = None \/ get Nat.eqb t (texts (after w h)) = Some (Some p)).
  { induction h as [|[[v' full] c'] h IH] using rev_ind; [left; reflexivity|]. rewrite after_snoc.
    destruct IH as [IH | IH]; [|right; apply texts_kept; auto].
    destruct (seen_dec w v') as [[t' S'] | NS]; [|left; rewrite texts_other; auto].
    destruct (Nat.eq_dec t' t) as [-> | NE]; [|left; rewrite texts_other; auto; intros _ S2; exact (NE (seen_fun w v' t' t S' S2))].
    rewrite details_texts. destruct full; [|left; exact IH]. right. rewrite (type_seen w _ v' t S'). unfold str_from.
    rewrite (seen_hash w v t S), IH, (T _ v' c' S'). cbn [snd]. apply (get_set_same Nat.eqb Nat.eqb_spec). }
  destruct I as [I | I].
  - rewrite (details_text w _ v t ctx S). unfold str_from. rewrite (seen_hash w v t S), I, (T _ v ctx S). reflexivity.
  - apply (text_cached w _ v t ctx (Some p) S I).
Qed.

(** Without a provider for the class the text is that of the value, whatever has been shown before. *)
Theorem text_no_provider w h v t ctx :
  t <> unable w -> seen_as w v t -> (forall q, In q (str_providers w) -> str_can w q t = Some false) ->
  s_text (fst (details w (after w h) v true ctx)) = plain_text w v.
Proof.
  intros NU S A.
  assert (T : forall c v' c', try_providers w (str_providers w) c v' t c' = (Some None, set Nat.eqb t None c)).
  { intros c v' c'. induction (str_providers w) as [|q l IH]; cbn [try_providers]; [reflexivity|].
    rewrite (A q (or_introl eq_refl)). apply IH. intros q' Q. apply A. right. exact Q. }
  assert (I : get Nat.eqb t (texts (after w h)) = None \/ get Nat.eqb t (texts (after w h)) = Some None).
  { induction h as [|[[v' full] c'] h IH] using rev_ind; [left; reflexivity|]. rewrite after_snoc.
    destruct IH as [IH | IH]; [|right; apply texts_kept; auto].
    destruct (seen_dec w v') as [[t' S'] | NS]; [|left; rewrite texts_other; auto].
    destruct (Nat.eq_dec t' t) as [-> | NE]; [|left; rewrite texts_other; auto; intros _ S2; exact (NE (seen_fun w v' t' t S' S2))].
    rewrite details_texts. destruct full; [|left; exact IH]. right. rewrite (type_seen w _ v' t S'). unfold str_from.
    rewrite (seen_hash w v t S), IH, T. cbn [snd]. apply (get_set_same Nat.eqb Nat.eqb_spec). }
  destruct I as [I | I].
  - rewrite (details_text w _ v t ctx S). unfold str_from. rewrite (seen_hash w v t S), I, T. reflexivity.
  - apply (text_cached w _ v t ctx None S I).
Qed.

(** Without its text being asked for, a value is shown with the default text. *)
Theorem text_not_asked w h v ctx : s_text (fst (details w (after w h) v false ctx)) = default_value w.
Proof. unfold details. destruct (get_type w (views (after w h)) v) as [[t r] c]. reflexivity. Qed.

(** If the first provider which does not refuse the class fails when it is asked about it, values of the class are
    shown by their repr, always. *)
Theorem text_question_fails w h v t ctx pre p post :
  t <> unable w -> seen_as w v t -> str_providers w = pre ++ p :: post ->
  (forall q, In q pre -> str_can w q t = Some false) -> str_can w p t = None ->
  s_text (fst (details w (after w h) v true ctx)) =
  match repr_of w v with Some x => x | None => unable_text w v end.
Proof.
  intros NU S E A B.
  assert (T : forall c v' c', try_providers w (str_providers w) c v' t c' = (None, c)).
  { intros c v' c'. rewrite E. clear E. induction pre as [|q pre IH]; cbn [app try_providers].
    - rewrite B. reflexivity.
    - rewrite (A q (or_introl eq_refl)). apply IH. intros q' Q. apply A. right. exact Q. }
  assert (I : get Nat.eqb t (texts (after w h)) = None).
  { induction h as [|[[v' full] c'] h IH] using rev_ind; [reflexivity|]. rewrite after_snoc.
    destruct (seen_dec w v') as [[t' S'] | NS]; [|rewrite texts_other; auto].
    destruct (Nat.eq_dec t' t) as [-> | NE].
    - rewrite details_texts. destruct full; [|exact IH]. rewrite (type_seen w _ v' t S'). unfold str_from.
      rewrite (seen_hash w v' t S'), IH, T. exact IH.
    - rewrite texts_other; auto. intros _ S2. exact (NE (seen_fun w v' t' t S' S2)). }
  rewrite (details_text w _ v t ctx S). unfold str_from. rewrite (seen_hash w v t S), I, T. reflexivity.
Qed.

(** ** Examples and what does not hold *)

(** Classes: 0 object, 1 dict, 2 a subclass of dict, 3 int, 4 a class of the user, 5 a metaclass without hash;
    values: 10 a dict of class 2, 11 an int, 12 and 13 of class 4, 14 of class 5, 15 a dict which says that its class
    is 4. Provider 20 is for class 2 in [w1] and fails on it in [w2]; text provider 21 is for class 4 and fails
    for the value 12. *)
Definition w0 (can : nat -> nat -> option bool) : world :=
  World (fun v => Some (nth (v - 10) [2; 3; 4; 4; 5; 4] 0)) (fun v => nth (v - 10) [2; 3; 4; 4; 5; 2] 0)
    (fun _ => true) (fun t => negb (t =? 5)) (fun _ => true) 99
    (fun v t => match t with 1 => (v =? 10) || (v =? 15) | 3 => v =? 11 | _ => false end)
    [20] can [(3, None); (1, Some 30)]
    [21] (fun p t => Some (t =? 4)) (fun p v ctx => if v =? 12 then None else Some (Some (lit "nice")))
    (fun v => Some (lit "plain")) (fun v => Some (lit "repr")) (fun _ => lit "unable") (lit "?").
Definition w1 := w0 (fun p t => Some false).
Definition w2 := w0 (fun p t => if t =? 2 then None else Some false).

Example views_case : map (fun v => s_view (fst (details w1 init v false 0))) [10; 11; 12; 14] =
  [Some (ByResolver 30); None; Some Default; Some Default].
Proof. reflexivity. Qed.

Example seen_case : seen_as w1 10 2 /\ (forall t, ~ seen_as w1 14 t).
Proof.
  split; [left; repeat split|]. intros t [[E [_ H]] | [_ [E [_ H]]]]; cbn in E; [injection E as <-|subst t]; discriminate H.
Qed.

(** A world of dictionaries (the even values), of a subclass of dict, and of integers. *)
Definition w3 : world :=
  World (fun v => Some (if Nat.even v then 2 else 3)) (fun v => if Nat.even v then 2 else 3)
    (fun _ => true) (fun _ => true) (fun _ => true) 99 (fun v t => if Nat.even v then t =? 1 else t =? 3)
    [20] (fun _ _ => Some false) [(3, None); (1, Some 30)]
    [21] (fun p t => Some (t =? 2)) (fun p v ctx => Some (Some (lit "nice")))
    (fun v => Some (lit "plain")) (fun v => Some (lit "repr")) (fun _ => lit "unable") (lit "?").

Example coherent_case : coherent w3 /\ seen_as w3 4 2 /\ proper w3 4 2 (Some (ByResolver 30)).
Proof.
  split; [|split; [left; repeat split|]].
  - intros v v' t S S' x _.
    assert (E : forall v, seen_as w3 v t -> t = if Nat.even v then 2 else 3).
    { intros u [[A _] | [_ [A _]]]; cbn in A; [injection A as <-; reflexivity | auto]. }
    pose proof (E v S) as A. pose proof (E v' S') as B. cbn. destruct (Nat.even v), (Nat.even v'); congruence.
  - right. split; [intros q _; reflexivity|]. left. exists [(3, None)], 1, (Some 30), []. repeat split.
    intros x [<- | []]. reflexivity.
Qed.

(** A text provider which fails when it is asked about the class, whatever was shown before. *)
Definition w4 : world :=
  World (class_of w3) (type_of w3) (named w3) (hashable w3) (is_class w3) (unable w3) (isinst w3) (providers w3) (can w3)
    (type_map w3) (str_providers w3) (fun _ _ => None) (str_of w3) (plain w3) (repr_of w3) (unable_text w3) (default_value w3).

Example question_case : seen_as w4 4 2 /\ str_can w4 21 2 = None /\
  s_text (fst (details w4 (after w4 [(6, true, 0); (3, false, 1)]) 4 true 0)) = lit "repr".
Proof. split; [left; repeat split|split; reflexivity]. Qed.

(** One failure of a provider for one value takes its texts away from all values of the class. *)
Theorem failing_provider_refuted : exists w v v0,
  s_text (fst (details w (after w []) v true 0)) = lit "nice" /\
  s_text (fst (details w (after w [(v0, true, 0)]) v true 0)) = lit "plain".
Proof. exists w1, 13, 12. split; reflexivity. Qed.

(** And in the other order, the same failure shows the repr of the value instead of its usual text. *)
Theorem failing_later_refuted : exists w v v0,
  s_text (fst (details w (after w []) v true 0)) = lit "plain" /\
  s_text (fst (details w (after w [(v0, true, 0)]) v true 0)) = lit "repr".
Proof. exists w1, 12, 13. split; reflexivity. Qed.

(** A provider which fails when asked for a class takes away the view of a dictionary. *)
Theorem failing_question_refuted : exists w v,
  isinst w v 1 = true /\ In (1, Some 30) (type_map w) /\ s_view (fst (details w init v false 0)) = Some Default.
Proof. exists w2, 10. repeat split. cbn. auto. Qed.

(** A value which says to be of another class can change how the values of that class are shown. *)
Theorem proxy_refuted : exists w v v0,
  s_view (fst (details w (after w []) v false 0)) = Some Default /\
  s_view (fst (details w (after w [(v0, false, 0)]) v false 0)) = Some (ByResolver 30).
Proof. exists w1, 13, 15. split; reflexivity. Qed.

Print Assumptions view_proper.
Print Assumptions view_unhashable.
Print Assumptions text_first.
Print Assumptions text_steady.
Print Assumptions text_no_provider.
Print Assumptions failing_provider_refuted.
Print Assumptions failing_later_refuted.
Print Assumptions failing_question_refuted.
Print Assumptions proxy_refuted.
Print Assumptions text_not_asked.
Print Assumptions text_question_fails.
