(** Property C81: messages of the debug adapter protocol are read and written without loss. *)
From Coq Require Import String List ZArith Bool Lia.
From Verif Require Import DapMessage DapSchema.
Import ListNotations.
Open Scope list_scope.
Open Scope string_scope.

(** Specification.  JSON: no objects, and the names of a dictionary differ. *)
Fixpoint nodup (l : list string) : bool :=
  match l with [] => true | x :: r => negb (mem x r) && nodup r end.

Fixpoint json (v : py) : bool :=
  match v with
  | PObj _ _ _ => false
  | PArr l => forallb json l
  | PDict d => nodup (map fst d) && forallb (fun kv => json (snd kv)) d
  | _ => true
  end.

(** [extends a b]: whatever a says, b says too; null is as if absent. *)
Inductive extends : py -> py -> Prop :=
| ext_same v : extends v v
| ext_dict a b :
    (forall k v, lookup k a = Some v -> v <> PNull -> exists w, lookup k b = Some w /\ extends v w) ->
    extends (PDict a) (PDict b).

(** What the debugger may add: the kind and the name of the message, its number, and dictionaries which say nothing. *)
Definition header (k : string) : Prop := k = "type" \/ k = "command" \/ k = "event" \/ k = "seq".

Inductive blank : py -> Prop :=
| blank_dict d : (forall k w, lookup k d = Some w -> header k \/ blank w) -> blank (PDict d).

(** [only a b]: b says nothing which a does not say. *)
Inductive only : py -> py -> Prop :=
| only_same v : only v v
| only_dict a b :
    (forall k w, lookup k b = Some w ->
       (exists v, lookup k a = Some v /\ v <> PNull /\ only v w) \/
       ((lookup k a = None \/ lookup k a = Some PNull) /\ (w = PNull \/ header k \/ blank w))) ->
    only (PDict a) (PDict b).

(** The classes this holds for: names differ; ids are simple values without default number; fixed values and default numbers
    are in the headers.  [dap_wf] says that the real ones are such. *)
Definition wf_class (ps : class) : bool :=
  nodup (map pname ps) &&
  forallb (fun p =>
    (negb (ident p) || match pkind p with Plain => match pneed p with Given _ => false | _ => true end | _ => false end) &&
    match pkind p with Const _ => mem (pname p) ["type"; "command"; "event"] | _ => true end &&
    match pneed p with Given _ => mem (pname p) ["seq"] && match pkind p with Plain => true | _ => false end | _ => true end &&
    negb (reserved (pname p))) ps.

Definition wf_schema (S : schema) : bool := forallb (fun e => wf_class (snd e)) S.

(** Lists. *)
Lemma mem_spec k l : mem k l = true <-> In k l.
Proof.
  unfold mem. rewrite existsb_exists. split.
  - intros (x & i & e). apply String.eqb_eq in e. now subst.
  - intros i. exists k. split; [exact i|apply String.eqb_refl].
Qed.

Lemma nodup_spec l : nodup l = true <-> NoDup l.
Proof.
  induction l as [|x l IH]; cbn [nodup].
  - split; [intros _; constructor|auto].
  - rewrite andb_true_iff, negb_true_iff, IH. split.
    + intros (h & n). constructor; [|exact n]. intros i. apply mem_spec in i. congruence.
    + intros h. inversion h; subst. split; [|assumption]. destruct (mem x l) eqn:E; [|reflexivity]. apply mem_spec in E. contradiction.
Qed.

Lemma lookup_in {A} k (d : list (string * A)) v : lookup k d = Some v -> In (k, v) d.
Proof.
  induction d as [|[x w] d IH]; cbn [lookup]; [discriminate|]. destruct (String.eqb_spec k x) as [->|n].
  - intros e. injection e as ->. now left.
  - intros e. right. auto.
Qed.

Lemma lookup_none {A} k (d : list (string * A)) : lookup k d = None <-> ~ In k (map fst d).
Proof.
  induction d as [|[x w] d IH]; cbn [lookup map fst In]; [tauto|]. destruct (String.eqb_spec k x) as [->|n].
  - split; [discriminate|]. intros h. destruct h. now left.
  - rewrite IH. split; [intros h [e|i]; [congruence|auto]|tauto].
Qed.

Lemma in_lookup {A} k (d : list (string * A)) v : NoDup (map fst d) -> In (k, v) d -> lookup k d = Some v.
Proof.
  induction d as [|[x w] d IH]; cbn [lookup map fst]; [intros _ []|]. intros h [e|i].
  - injection e as -> ->. now rewrite String.eqb_refl.
  - inversion h as [|? ? h1 h2]; subst. destruct (String.eqb_spec k x) as [->|n]; [|auto].
    destruct h1. apply in_map_iff. now exists (x, v).
Qed.

Lemma lookup_set k v x d : lookup x (set_ k v d) = if String.eqb x k then Some v else lookup x d.
Proof.
  induction d as [|[y w] d IH]; cbn [set_ lookup].
  - reflexivity.
  - destruct (String.eqb_spec k y) as [->|n]; cbn [lookup].
    + now destruct (String.eqb x y).
    + rewrite IH. destruct (String.eqb_spec x y) as [->|m]; [|reflexivity].
      destruct (String.eqb_spec y k); congruence.
Qed.

Lemma lookup_update k kw : forall d, NoDup (map fst kw) ->
  lookup k (update d kw) = match lookup k kw with Some v => Some v | None => lookup k d end.
Proof.
  induction kw as [|[x v] kw IH]; intros d h; cbn [map fst] in h; [reflexivity|]. inversion h as [|? ? h1 h2]; subst.
  unfold update. cbn [fold_left fst snd]. fold (update (set_ x v d) kw). rewrite IH by assumption. cbn [lookup].
  rewrite lookup_set. destruct (String.eqb_spec k x) as [->|n]; [|reflexivity].
  destruct (lookup x kw) eqn:E; [|reflexivity]. destruct h1. apply lookup_in in E. apply in_map_iff. now exists (x, p).
Qed.

Lemma lookup_filter (f : string -> bool) k (d : list (string * py)) :
  lookup k (filter (fun kv => f (fst kv)) d) = if f k then lookup k d else None.
Proof.
  induction d as [|[x w] d IH]; cbn [filter lookup fst].
  - now destruct (f k).
  - destruct (f x) eqn:E; cbn [lookup]; rewrite IH; destruct (String.eqb_spec k x) as [->|n]; try reflexivity.
    + now rewrite E.
    + now rewrite E.
Qed.

Lemma filter_keys f (d : list (string * py)) : NoDup (map fst d) -> NoDup (map fst (filter f d)).
Proof.
  induction d as [|[x w] d IH]; cbn [filter map fst]; intros h; [constructor|]. inversion h as [|? ? h1 h2]; subst.
  destruct (f (x, w)); [|auto]. cbn [map fst]. constructor; [|auto]. intros i. apply h1. apply in_map_iff in i as (y & e & i).
  apply filter_In in i as (i & _). apply in_map_iff. now exists y.
Qed.

Lemma map_opt_in {A B} (f : A -> option B) l ys : map_opt f l = Some ys -> forall x, In x l -> exists y, f x = Some y /\ In y ys.
Proof.
  revert ys. induction l as [|a l IH]; cbn [map_opt]; intros ys h x i; [destruct i|].
  destruct (f a) as [b|] eqn:E; [|discriminate]. destruct (map_opt f l) as [bs|]; [|discriminate]. injection h as <-.
  destruct i as [<-|i]; [exists b; split; [exact E|now left]|]. destruct (IH _ eq_refl _ i) as (y & e & j). exists y. split; [exact e|now right].
Qed.

(** Results with the name of the property. *)
Lemma map_opt_lookup (f : prop -> option (string * py)) ps fs :
  (forall p y, f p = Some y -> fst y = pname p) -> NoDup (map pname ps) -> map_opt f ps = Some fs ->
  forall p, In p ps -> exists w, f p = Some (pname p, w) /\ lookup (pname p) fs = Some w.
Proof.
  intros hf. revert fs. induction ps as [|q ps IH]; cbn [map_opt map]; intros fs hn h p i; [destruct i|].
  inversion hn as [|? ? h1 h2]; subst. destruct (f q) as [[k v]|] eqn:E; [|discriminate].
  destruct (map_opt f ps) as [r|] eqn:R; [|discriminate]. injection h as <-. pose proof (hf _ _ E) as e. cbn in e. subst k.
  destruct i as [->|i].
  - exists v. split; [exact E|]. cbn [lookup]. now rewrite String.eqb_refl.
  - destruct (IH _ h2 eq_refl _ i) as (w & e1 & e2). exists w. split; [exact e1|]. cbn [lookup].
    destruct (String.eqb_spec (pname p) (pname q)) as [e|_]; [|exact e2]. destruct h1. rewrite <- e. now apply in_map.
Qed.

Lemma collect_lookup (f : prop -> option (option (string * py))) ps d :
  (forall p y, f p = Some (Some y) -> fst y = pname p) -> NoDup (map pname ps) -> collect f ps = Some d ->
  (forall k w, lookup k d = Some w -> exists p, In p ps /\ pname p = k /\ f p = Some (Some (k, w))) /\
  (forall p, In p ps -> f p = Some None \/ exists w, f p = Some (Some (pname p, w)) /\ lookup (pname p) d = Some w).
Proof.
  intros hf. revert d. induction ps as [|q ps IH]; cbn [collect map]; intros d hn h.
  - injection h as <-. split; [discriminate|intros p []].
  - inversion hn as [|? ? h1 h2]; subst. destruct (f q) as [e|] eqn:E; [|discriminate].
    destruct (collect f ps) as [r|] eqn:R; [|destruct e; discriminate]. destruct (IH _ h2 eq_refl) as (ha & hb).
    destruct e as [[k0 v0]|]; injection h as <-.
    + pose proof (hf _ _ E) as e. cbn in e. subst k0. split.
      * intros k w. cbn [lookup]. destruct (String.eqb_spec k (pname q)) as [->|n].
        -- intros e. injection e as ->. exists q. split; [now left|auto].
        -- intros e. destruct (ha _ _ e) as (p & i & e1 & e2). exists p. split; [now right|auto].
      * intros p [->|i]; [right; exists v0; cbn [lookup]; now rewrite String.eqb_refl|].
        destruct (hb _ i) as [e|(w & e1 & e2)]; [now left|]. right. exists w. split; [exact e1|]. cbn [lookup].
        destruct (String.eqb_spec (pname p) (pname q)) as [e|_]; [|exact e2]. destruct h1. rewrite <- e. now apply in_map.
    + split.
      * intros k w e. destruct (ha _ _ e) as (p & i & e1 & e2). exists p. split; [now right|auto].
      * intros p [->|i]; [now left|auto].
Qed.

(** The steps of the two functions, by name. *)
Definition value_of (S : schema) from_ upd n (p : prop) (v : py) : option py :=
  match pkind p with
  | Plain => Some v
  | Const t => Some (PStr t)
  | Enum valid => match v with PNull => Some v | PStr s => if mem s valid then Some v else None | _ => None end
  | Ref r =>
      match v with
      | PNull => init S from_ false n r []
      | PDict d => init S from_ upd n r d
      | PObj r' _ _ => if String.eqb r r' then Some v else None
      | _ => None
      end
  | Array None => Some v
  | Array (Some r) => if upd then list_ids (id_names S r) from_ v else Some v
  end.

Definition arg_of (args : list (string * py)) (p : prop) : option py :=
  match pkind p with
  | Const t => Some (PStr t)
  | _ => match lookup (pname p) args with
         | Some v => Some v
         | None => match pneed p with Required => None | Given z => Some (PNum z) | Optional => Some PNull end
         end
  end.

Definition field_of S from_ upd n args (p : prop) : option (string * py) :=
  match arg_of args p with
  | None => None
  | Some v =>
      match value_of S from_ upd n p v with
      | None => None
      | Some w => option_map (pair (pname p)) (if upd && ident p then from_ w else Some w)
      end
  end.

Lemma init_eq S from_ upd n c args :
  init S from_ upd (Datatypes.S n) c args =
  match lookup c S with
  | None => None
  | Some ps =>
      if existsb (fun kv => reserved (fst kv)) args then None else
      match map_opt (field_of S from_ upd n args) ps with
      | None => None
      | Some fs => Some (PObj c fs (filter (fun kv => negb (is_param ps (fst kv))) args))
      end
  end.
Proof. reflexivity. Qed.

Definition list_of S to_ n (p : prop) (v : py) : option py :=
  match pkind p with
  | Array _ =>
      match v with
      | PArr (PObj _ _ _ :: _ as l) => option_map PArr (map_opt (to_dict S to_ false n) l)
      | PArr _ | PStr _ => Some v
      | _ => if truthy v then None else Some v
      end
  | _ => Some v
  end.

Definition out_of S to_ (upd : bool) n (p : prop) (v2 : py) : option py :=
  match pkind p with
  | Ref _ => to_dict S to_ upd n v2
  | Array (Some r) => if upd then list_ids (id_names S r) (fun x => Some (to_ x)) v2 else Some v2
  | _ => Some v2
  end.

Definition entry_of S to_ upd n fs (p : prop) : option (option (string * py)) :=
  match list_of S to_ n p (match lookup (pname p) fs with Some v => v | None => PNull end) with
  | None => None
  | Some v1 =>
      let v2 := if upd && ident p && negb (is_null v1) then to_ v1 else v1 in
      if negb (always p) && is_null v2 then Some None
      else match out_of S to_ upd n p v2 with None => None | Some w => Some (Some (pname p, w)) end
  end.

Lemma to_dict_eq S to_ upd n c fs kw :
  to_dict S to_ upd (Datatypes.S n) (PObj c fs kw) =
  match lookup c S with
  | None => None
  | Some ps => match collect (entry_of S to_ upd n fs) ps with None => None | Some d => Some (PDict (update d kw)) end
  end.
Proof. reflexivity. Qed.

Lemma field_name S f upd n args p y : field_of S f upd n args p = Some y -> fst y = pname p.
Proof.
  unfold field_of. destruct (arg_of args p); [|discriminate]. destruct (value_of S f upd n p p0); [|discriminate].
  destruct (upd && ident p); [destruct (f p1); [|discriminate]|]; cbn [option_map]; intros e; injection e as <-; reflexivity.
Qed.

Lemma entry_name S g upd n fs p y : entry_of S g upd n fs p = Some (Some y) -> fst y = pname p.
Proof.
  unfold entry_of. destruct (list_of S g n p _); [|discriminate]. cbn zeta. destruct (negb (always p) && _); [discriminate|].
  destruct (out_of S g upd n p _); [|discriminate]. intros e. injection e as <-. reflexivity.
Qed.

Lemma wf_lookup S c ps : wf_schema S = true -> lookup c S = Some ps -> wf_class ps = true.
Proof.
  intros h e. apply lookup_in in e. unfold wf_schema in h. rewrite forallb_forall in h. apply (h _ e).
Qed.

Lemma wf_names ps : wf_class ps = true -> NoDup (map pname ps).
Proof. unfold wf_class. rewrite andb_true_iff. intros (h & _). now apply nodup_spec. Qed.

Lemma wf_prop ps p : wf_class ps = true -> In p ps ->
  (ident p = true -> pkind p = Plain /\ forall z, pneed p <> Given z) /\
  (forall t, pkind p = Const t -> header (pname p)) /\
  (forall z, pneed p = Given z -> pname p = "seq" /\ pkind p = Plain).
Proof.
  unfold wf_class. rewrite andb_true_iff. intros (_ & h) i. rewrite forallb_forall in h. specialize (h _ i).
  rewrite !andb_true_iff in h. destruct h as (((h1 & h2) & h3) & h4). split; [|split].
  - intros e. rewrite e in h1. cbn [negb orb] in h1. destruct (pkind p); try discriminate. split; [reflexivity|]. intros z ez.
    rewrite ez in h1. discriminate.
  - intros t e. rewrite e in h2. apply mem_spec in h2. unfold header. cbn in h2. intuition (try congruence; auto).
  - intros z e. rewrite e in h3. apply andb_prop in h3 as (h3 & h5). apply mem_spec in h3. cbn in h3.
    split; [intuition congruence|]. destruct (pkind p); congruence.
Qed.

Lemma param_spec ps k : is_param ps k = true <-> exists p, In p ps /\ pname p = k /\ forall t, pkind p <> Const t.
Proof.
  unfold is_param. rewrite existsb_exists. split.
  - intros (p & i & e). apply andb_prop in e as (e1 & e2). apply String.eqb_eq in e1. exists p. repeat split; auto.
    intros t et. rewrite et in e2. discriminate.
  - intros (p & i & e & h). exists p. split; [exact i|]. rewrite e, String.eqb_refl. cbn [andb]. destruct (pkind p); auto. destruct (h v eq_refl).
Qed.

(** What an object is, and what its dictionary contains. *)
Lemma init_parts S f upd n c args o : wf_schema S = true -> init S f upd n c args = Some o ->
  exists n' ps fs, n = Datatypes.S n' /\ lookup c S = Some ps /\ wf_class ps = true /\
    o = PObj c fs (filter (fun kv => negb (is_param ps (fst kv))) args) /\
    forall p, In p ps -> exists w, field_of S f upd n' args p = Some (pname p, w) /\ lookup (pname p) fs = Some w.
Proof.
  intros hS h. destruct n as [|n]; [discriminate|]. rewrite init_eq in h. destruct (lookup c S) as [ps|] eqn:E; [|discriminate].
  destruct (existsb _ args); [discriminate|]. destruct (map_opt (field_of S f upd n args) ps) as [fs|] eqn:M; [|discriminate].
  injection h as <-. pose proof (wf_lookup _ _ _ hS E) as hw. exists n, ps, fs. repeat split; auto.
  apply map_opt_lookup; auto; [apply field_name|now apply wf_names].
Qed.

Lemma dict_parts S g upd m c fs kw out : wf_schema S = true -> NoDup (map fst kw) -> to_dict S g upd m (PObj c fs kw) = Some out ->
  exists m' ps d, m = Datatypes.S m' /\ lookup c S = Some ps /\ out = PDict (update d kw) /\
    (forall k, lookup k (update d kw) = match lookup k kw with Some v => Some v | None => lookup k d end) /\
    (forall k w, lookup k d = Some w -> exists p, In p ps /\ pname p = k /\ entry_of S g upd m' fs p = Some (Some (k, w))) /\
    (forall p, In p ps -> entry_of S g upd m' fs p = Some None \/
       exists w, entry_of S g upd m' fs p = Some (Some (pname p, w)) /\ lookup (pname p) d = Some w).
Proof.
  intros hS hk h. destruct m as [|m]; [discriminate|]. rewrite to_dict_eq in h. destruct (lookup c S) as [ps|] eqn:E; [|discriminate].
  destruct (collect (entry_of S g upd m fs) ps) as [d|] eqn:C; [|discriminate]. injection h as <-.
  apply collect_lookup in C as (h1 & h2); [|apply entry_name|apply wf_names; eapply wf_lookup; eauto].
  exists m, ps, d. repeat split; auto. intros k. now apply lookup_update.
Qed.

Lemma json_dict d : json (PDict d) = true -> NoDup (map fst d) /\ forall k v, lookup k d = Some v -> json v = true.
Proof.
  cbn [json]. rewrite andb_true_iff. intros (h1 & h2). split; [now apply nodup_spec|]. intros k v e. apply lookup_in in e.
  rewrite forallb_forall in h2. apply (h2 _ e).
Qed.

(** A list read from JSON is written as it is. *)
Lemma list_json S g n p v v1 : json v = true -> (forall r, pkind p <> Ref r) -> list_of S g n p v = Some v1 -> v1 = v.
Proof.
  unfold list_of. intros hj hr. destruct (pkind p); try (intros e; now injection e as <-). destruct v; cbn [truthy]; try discriminate;
    try (destruct b); try (destruct (negb (Z.eqb z 0))); try (destruct l as [|[] l]); try (destruct d); try discriminate;
    try (intros e; now injection e as <-).
Qed.

Lemma list_ref S g n p r v : pkind p = Ref r -> list_of S g n p v = Some v.
Proof. unfold list_of. now intros ->. Qed.

(** Writing what was read, without translation. *)
Lemma default_blank S f g : wf_schema S = true -> forall n c o m out,
  init S f false n c [] = Some o -> to_dict S g false m o = Some out -> blank out.
Proof.
  intros hS. induction n as [|n IH]; intros c o m out h1 h2; [discriminate|].
  destruct (init_parts _ _ _ _ _ _ _ hS h1) as (n' & ps & fs & en & ec & hw & -> & hf). injection en as <-. cbn [filter] in h2.
  destruct (dict_parts S g false m c fs [] _ hS (NoDup_nil _) h2) as (m' & ps' & d & _ & ec' & -> & hu & hd & _).
  rewrite ec in ec'. injection ec' as <-. constructor. intros k w e. rewrite hu in e. cbn [lookup] in e.
  destruct (hd _ _ e) as (p & i & ek & en). destruct (hf _ i) as (x & e1 & e2). destruct (wf_prop _ _ hw i) as (w1 & w2 & w3).
  unfold entry_of in en. rewrite e2 in en. unfold field_of, arg_of in e1. cbn [lookup andb] in e1.
  destruct (pkind p) as [|t|vs|r|it] eqn:K.
  - destruct (pneed p) as [|z|] eqn:N1; [discriminate| |].
    + left. subst k. right. right. right. now destruct (w3 _ eq_refl).
    + unfold value_of in e1. rewrite K in e1. cbn [option_map] in e1. injection e1 as <-. unfold list_of, always in en.
      rewrite K, N1 in en. cbn in en. discriminate.
  - left. subst k. eauto.
  - destruct (pneed p) as [|z|] eqn:N1; [discriminate| |].
    + destruct (w3 _ eq_refl) as (_ & e4). congruence.
    + unfold value_of in e1. rewrite K in e1. cbn [option_map] in e1. injection e1 as <-. unfold list_of, always in en.
      rewrite K, N1 in en. cbn in en. discriminate.
  - right. destruct (pneed p) as [|z|] eqn:N1; [discriminate| |].
    + destruct (w3 _ eq_refl) as (_ & e4). congruence.
    + unfold value_of in e1. rewrite K in e1. destruct (init S f false n r []) as [o'|] eqn:I; [|discriminate].
      cbn [option_map] in e1. injection e1 as <-. rewrite (list_ref _ _ _ _ _ _ K) in en. cbn [andb] in en.
      destruct (negb (always p) && is_null o'); [discriminate|]. unfold out_of in en. rewrite K in en.
      destruct (to_dict S g false m' o') as [w'|] eqn:T; [|discriminate]. injection en as _ <-. eapply IH; eauto.
  - destruct (pneed p) as [|z|] eqn:N1; [discriminate| |].
    + destruct (w3 _ eq_refl) as (_ & e4). congruence.
    + unfold value_of in e1. rewrite K in e1. assert (x = PNull) as -> by (destruct it; cbn [option_map] in e1; congruence).
      unfold list_of, always in en. rewrite K, N1 in en. cbn in en. discriminate.
Qed.

Lemma out_plain S g n p v : (forall r, pkind p <> Ref r) -> out_of S g false n p v = Some v.
Proof. unfold out_of. destruct (pkind p) as [| | | |[]]; intros h; auto. destruct (h c eq_refl). Qed.

Lemma value_plain S f n p v w : (forall r, pkind p <> Ref r) -> (forall t, pkind p <> Const t) ->
  value_of S f false n p v = Some w -> w = v.
Proof.
  unfold value_of. destruct (pkind p) as [|t|vs|r|[]]; intros h1 h2; try congruence.
  - destruct (h2 t eq_refl).
  - destruct v; try congruence. destruct (mem s vs); congruence.
  - destruct (h1 r eq_refl).
Qed.

Lemma same_name (ps : class) p q : NoDup (map pname ps) -> In p ps -> In q ps -> pname p = pname q -> p = q.
Proof.
  induction ps as [|a ps IH]; cbn [map In]; [intros _ []|]. intros h [->|i] [->|j] e; auto; inversion h as [|? ? h1 h2]; subst.
  - destruct h1. rewrite e. now apply in_map.
  - destruct h1. rewrite <- e. now apply in_map.
  - auto.
Qed.

Lemma written S f g : wf_schema S = true -> forall n c args o m out,
  json (PDict args) = true -> init S f false n c args = Some o -> to_dict S g false m o = Some out ->
  extends (PDict args) out /\ only (PDict args) out.
Proof.
  intros hS. induction n as [|n IH]; intros c args o m out hj h1 h2; [discriminate|]. destruct (json_dict _ hj) as (hnd & hv).
  destruct (init_parts _ _ _ _ _ _ _ hS h1) as (n' & ps & fs & en & ec & hw & -> & hf). injection en as <-.
  destruct (dict_parts _ _ _ _ _ _ _ _ hS (filter_keys _ _ hnd) h2) as (m' & ps' & d & _ & ec' & -> & hu & hd & hp).
  rewrite ec in ec'. injection ec' as <-.
  assert (hkw : forall k, lookup k (filter (fun kv => negb (is_param ps (fst kv))) args) =
                          if negb (is_param ps k) then lookup k args else None).
  { intros k. apply (lookup_filter (fun k => negb (is_param ps k))). }
  split; constructor.
  - intros k v e hn. rewrite hu, hkw. destruct (is_param ps k) eqn:P; cbn [negb].
    + apply param_spec in P as (p & i & ek & hc). destruct (hf _ i) as (x & e1 & e2).
      assert (ea : arg_of args p = Some v). { unfold arg_of. rewrite ek, e. destruct (pkind p); auto. destruct (hc v0 eq_refl). }
      unfold field_of in e1. rewrite ea in e1. cbn [andb] in e1. destruct (value_of S f false n p v) as [x'|] eqn:V; [|discriminate].
      cbn [option_map] in e1. injection e1 as ->.
      assert (hr : (exists r, pkind p = Ref r) \/ forall r, pkind p <> Ref r).
      { destruct (pkind p); try (right; discriminate). left. eauto. }
      destruct hr as [(r & K)|hr].
      * unfold value_of in V. rewrite K in V. pose proof (hv _ _ e) as hj'.
        destruct (hp _ i) as [en|(w & en & el)]; unfold entry_of in en; rewrite e2, (list_ref _ _ _ _ _ _ K) in en; cbn [andb] in en.
        -- destruct (negb (always p) && is_null x) eqn:A; [|destruct (out_of S g false m' p x); discriminate].
           apply andb_prop in A as (_ & A). destruct x; try discriminate. destruct v; try discriminate; [congruence|].
           apply init_parts in V as (? & ? & ? & _ & _ & _ & V & _); [discriminate V|exact hS].
        -- destruct (negb (always p) && is_null x); [discriminate|]. unfold out_of in en. rewrite K in en.
           destruct (to_dict S g false m' x) as [w'|] eqn:T; [|discriminate]. injection en as <-.
           exists w'. split; [now rewrite <- ek|]. destruct v; try discriminate; [congruence|].
           destruct (IH _ _ _ _ _ hj' V T). assumption.
      * apply value_plain in V; auto. subst x. destruct (hp _ i) as [en|(w & en & el)]; unfold entry_of in en; rewrite e2 in en;
          destruct (list_of S g m' p v) as [v1|] eqn:L; try discriminate; apply list_json in L; eauto; subst v1; cbn [andb] in en;
          rewrite out_plain in en by assumption.
        -- destruct (negb (always p) && is_null v) eqn:A; [|discriminate]. apply andb_prop in A as (_ & A).
           destruct v; try discriminate. congruence.
        -- destruct (negb (always p) && is_null v); [discriminate|]. injection en as <-. exists v. split; [now rewrite <- ek|constructor].
    + rewrite e. exists v. split; [reflexivity|constructor].
  - intros k w e. rewrite hu, hkw in e.
    assert (hparam : lookup k d = Some w -> is_param ps k = true \/ lookup k args = None -> (exists v, lookup k args = Some v /\ v <> PNull /\ only v w) \/
       ((lookup k args = None \/ lookup k args = Some PNull) /\ (w = PNull \/ header k \/ blank w))).
    { clear e. intros e hor. destruct (hd _ _ e) as (p & i & ek & en). destruct (hf _ i) as (x & e1 & e2).
      destruct (wf_prop _ _ hw i) as (w1 & w2 & w3).
      assert (hcn : (exists t, pkind p = Const t) \/ forall t, pkind p <> Const t).
      { destruct (pkind p); try (right; discriminate). left. eauto. }
      destruct hcn as [(t & K)|hc].
      { right. split; [|right; left; rewrite <- ek; eauto]. destruct hor as [hpar|hno]; [|now left].
        apply param_spec in hpar as (q & j & eqk & hq). exfalso.
        assert (p = q) as ->; [|now apply (hq t)]. apply (same_name ps); auto; [now apply wf_names|congruence]. }
      unfold field_of in e1. destruct (arg_of args p) as [v|] eqn:A; [|discriminate].
      destruct (value_of S f false n p v) as [x'|] eqn:V; [|discriminate]. cbn [andb option_map] in e1. injection e1 as ->.
      unfold entry_of in en. rewrite e2 in en.
      assert (hav : lookup k args = Some v \/ (lookup k args = None /\ (v = PNull \/ header k))).
      { unfold arg_of in A. rewrite ek in A. destruct (lookup k args) as [v'|] eqn:LA.
        - left. destruct (pkind p); try congruence. destruct (hc v0 eq_refl).
        - right. split; [reflexivity|]. destruct (pkind p) eqn:K; try (destruct (hc v0 eq_refl));
            (destruct (pneed p) eqn:N1; [discriminate| |left; congruence]; right; rewrite <- ek; unfold header;
             destruct (w3 _ eq_refl); auto). }
      assert (hr : (exists r, pkind p = Ref r) \/ forall r, pkind p <> Ref r).
      { destruct (pkind p); try (right; discriminate). left. eauto. }
      destruct hr as [(r & K)|hr].
      + rewrite (list_ref _ _ _ _ _ _ K) in en. cbn [andb] in en. unfold value_of in V. rewrite K in V.
        destruct (negb (always p) && is_null x); [discriminate|]. unfold out_of in en. rewrite K in en.
        destruct (to_dict S g false m' x) as [w'|] eqn:T; [|discriminate]. injection en as _ <-.
        destruct hav as [ha|(ha & hb)].
        * destruct v; try discriminate.
          -- right. split; [now right|]. right. right. eapply default_blank; eauto.
          -- left. exists (PDict d0). split; [exact ha|]. split; [discriminate|]. now destruct (IH _ _ _ _ _ (hv _ _ ha) V T).
          -- specialize (hv _ _ ha). discriminate hv.
        * right. split; [now left|]. destruct hb as [->|hb]; [|auto]. right. right. eapply default_blank; eauto.
      + apply value_plain in V; auto. subst x. destruct (list_of S g m' p v) as [v1|] eqn:L; [|discriminate]. cbn [andb] in en.
        assert (hjv : json v = true).
        { destruct hav as [ha|(ha & [->|hb])]; eauto. unfold arg_of in A. rewrite ek, ha in A.
          destruct (pkind p); try (destruct (hc v0 eq_refl)); (destruct (pneed p); [discriminate| |]; injection A as <-; reflexivity). }
        apply list_json in L; auto. subst v1. rewrite out_plain in en by assumption.
        destruct (negb (always p) && is_null v); [discriminate|]. injection en as _ <-.
        destruct hav as [ha|(ha & hb)].
        * destruct (is_null v) eqn:NU; [destruct v; try discriminate; right; split; [now right|now left]|].
          left. exists v. split; [exact ha|]. split; [intros ->; discriminate|constructor].
        * right. split; [now left|]. destruct hb as [->|hb]; auto. }
    destruct (is_param ps k) eqn:P; cbn [negb] in e.
    + apply hparam; auto.
    + destruct (lookup k args) as [v|] eqn:LA; [|apply hparam; auto]. injection e as <-.
      destruct (is_null v) eqn:NU; [destruct v; try discriminate; right; split; [now right|now left]|].
      left. exists v. split; [exact eq_refl|]. split; [intros ->; discriminate|constructor].
Qed.

(** Whatever a message said is written, and nothing else but headers and dictionaries which say nothing. *)
Theorem message_kept S f g n c args o m out :
  wf_schema S = true -> json (PDict args) = true ->
  init S f false n c args = Some o -> to_dict S g false m o = Some out -> extends (PDict args) out.
Proof. intros hS hj h1 h2. now destruct (written S f g hS _ _ _ _ _ _ hj h1 h2). Qed.

Theorem message_only S f g n c args o m out :
  wf_schema S = true -> json (PDict args) = true ->
  init S f false n c args = Some o -> to_dict S g false m o = Some out -> only (PDict args) out.
Proof. intros hS hj h1 h2. now destruct (written S f g hS _ _ _ _ _ _ hj h1 h2). Qed.

(** Specification: the dictionaries which a class describes. *)
Fixpoint shaped (S : schema) (n : nat) (c : string) (args : list (string * py)) : bool :=
  match n with
  | O => false
  | Datatypes.S n =>
      match lookup c S with
      | None => false
      | Some ps =>
          negb (existsb (fun kv => reserved (fst kv)) args) &&
          forallb (fun p =>
            match pkind p, lookup (pname p) args with
            | Const _, _ => true
            | Ref r, Some (PDict d) => shaped S n r d
            | Ref r, Some PNull => shaped S n r []
            | Ref r, Some _ => false
            | Ref r, None => match pneed p with Required => false | _ => shaped S n r [] end
            | _, None => match pneed p with Required => false | _ => true end
            | Enum valid, Some (PStr s) => mem s valid
            | Enum _, Some PNull => true
            | Enum _, Some _ => false
            | Array _, Some (PArr _) => true
            | Array _, Some PNull => true
            | Array _, Some _ => false
            | Plain, Some _ => true
            end) ps
      end
  end.

Lemma map_opt_total {A B} (f : A -> option B) l : (forall x, In x l -> exists y, f x = Some y) -> exists ys, map_opt f l = Some ys.
Proof.
  induction l as [|a l IH]; intros h; cbn [map_opt]; [eauto|]. destruct (h a (or_introl eq_refl)) as (y & ->).
  destruct IH as (ys & ->); [intros x i; apply h; now right|]. eauto.
Qed.

Lemma collect_total {A B} (f : A -> option (option B)) l :
  (forall x, In x l -> exists y, f x = Some y) -> exists ys, collect f l = Some ys.
Proof.
  induction l as [|a l IH]; intros h; cbn [collect]; [eauto|]. destruct (h a (or_introl eq_refl)) as (y & ->).
  destruct IH as (ys & ->); [intros x i; apply h; now right|]. destruct y; eauto.
Qed.

Lemma init_total S f upd n c args ps : lookup c S = Some ps -> existsb (fun kv => reserved (fst kv)) args = false ->
  (forall p, In p ps -> exists y, field_of S f upd n args p = Some y) -> exists o, init S f upd (Datatypes.S n) c args = Some o.
Proof. intros e r h. rewrite init_eq, e, r. destruct (map_opt_total _ _ h) as (fs & ->). eauto. Qed.

(** Every such message is read and can be written. *)
Theorem message_read S f g n c args :
  wf_schema S = true -> json (PDict args) = true -> shaped S n c args = true ->
  exists o out, init S f false n c args = Some o /\ to_dict S g false n o = Some out.
Proof.
  intros hS. revert c args. induction n as [|n IH]; intros c args hj hs; [discriminate|]. cbn [shaped] in hs.
  destruct (lookup c S) as [ps|] eqn:E; [|discriminate]. apply andb_prop in hs as (hr & hs). apply negb_true_iff in hr.
  rewrite forallb_forall in hs. destruct (json_dict _ hj) as (hnd & hv).
  assert (hnil : forall r, shaped S n r [] = true -> exists o out, init S f false n r [] = Some o /\ to_dict S g false n o = Some out)
    by (intros r h; apply IH; auto).
  assert (hp : forall p, In p ps -> exists y, field_of S f false n args p = Some (pname p, y) /\
     ((exists r out, pkind p = Ref r /\ to_dict S g false n y = Some out) \/
      ((forall r, pkind p <> Ref r) /\ list_of S g n p y = Some y))).
  { intros p i. specialize (hs _ i). unfold field_of, arg_of, value_of, list_of. destruct (wf_prop _ _ (wf_lookup _ _ _ hS E) i) as (_ & _ & w3).
    destruct (pkind p) as [|t|vs|r|it] eqn:K.
    - destruct (lookup (pname p) args) as [v|]; [|destruct (pneed p); [discriminate| |]]; cbn [andb option_map]; eexists;
        (split; [reflexivity|]); right; (split; [discriminate|reflexivity]).
    - cbn [andb option_map]. eexists. split; [reflexivity|]. right. split; [discriminate|reflexivity].
    - destruct (lookup (pname p) args) as [v|].
      + destruct v as [| | |s| | |]; try discriminate; [|rewrite hs]; cbn [andb option_map]; eexists; (split; [reflexivity|]); right;
          (split; [discriminate|reflexivity]).
      + destruct (pneed p) eqn:N1; [discriminate|destruct (w3 _ eq_refl); discriminate|]. cbn [andb option_map]. eexists.
        split; [reflexivity|]. right. split; [discriminate|reflexivity].
    - assert (ho : exists o out, match lookup (pname p) args with
                     | Some PNull => init S f false n r [] | Some (PDict d) => init S f false n r d
                     | Some _ => None | None => init S f false n r [] end = Some o /\ to_dict S g false n o = Some out).
      { destruct (lookup (pname p) args) as [v|] eqn:L.
        - destruct v; try discriminate; [auto|]. apply IH; [exact (hv _ _ L)|exact hs].
        - destruct (pneed p); [discriminate| |]; auto. }
      destruct ho as (o & out & e1 & e2). exists o. split; [|left; eauto].
      destruct (lookup (pname p) args) as [v|] eqn:L.
      + destruct v; try discriminate; cbn [andb]; now rewrite e1.
      + destruct (pneed p) eqn:N1; [discriminate|destruct (w3 _ eq_refl); discriminate|]. now rewrite e1.
    - assert (ho : exists v, match lookup (pname p) args with Some v => Some v | None =>
                     match pneed p with Required => None | Given z => Some (PNum z) | Optional => Some PNull end end = Some v /\
                     (v = PNull \/ exists l, v = PArr l /\ json v = true)).
      { destruct (lookup (pname p) args) as [v|] eqn:L.
        - exists v. split; [reflexivity|]. destruct v; try discriminate; [now left|]. right. eexists. split; [reflexivity|]. eauto.
        - destruct (pneed p) eqn:N1; [discriminate|destruct (w3 _ eq_refl); discriminate|]. eauto. }
      destruct ho as (v & -> & ho). exists v. split; [now destruct it|]. right. split; [discriminate|].
      destruct ho as [->|(l & -> & hl)]; [reflexivity|]. destruct l as [|[] l]; try reflexivity. discriminate hl. }
  destruct (init_total S f false n c args ps E hr) as (o & ho).
  { intros p i. destruct (hp _ i) as (y & -> & _). eauto. }
  exists o. assert (ho' := ho). destruct (init_parts _ _ _ _ _ _ _ hS ho') as (n' & ps' & fs & en & ec & hw & -> & hf).
  injection en as <-. rewrite E in ec. injection ec as <-. rewrite to_dict_eq, E.
  destruct (collect_total (entry_of S g false n fs) ps) as (d & ->); [|eauto].
  intros p i. destruct (hp _ i) as (y & e1 & e2). destruct (hf _ i) as (w & e3 & e4). rewrite e1 in e3. injection e3 as ->.
  unfold entry_of. rewrite e4. destruct e2 as [(r & out & K & T)|(hr' & ->)].
  - rewrite (list_ref _ _ _ _ _ _ K). cbn [andb]. unfold out_of. rewrite K, T. destruct (negb (always p) && is_null w); eauto.
  - cbn [andb]. rewrite out_plain by assumption. destruct (negb (always p) && is_null w); eauto.
Qed.

(** Translated ids come back: specification of the translation, and of lists whose items have no null. *)
Definition inverse (f : py -> option py) (g : py -> py) : Prop :=
  f PNull = Some PNull /\ forall x y, f x = Some y -> x <> PNull -> y <> PNull /\ g y = x.

Fixpoint clean (v : py) : bool :=
  match v with
  | PDict d => forallb (fun kv => clean (snd kv)) d
  | PArr l => forallb (fun o => match o with PDict d => forallb (fun kv => negb (is_null (snd kv))) d | _ => true end) l
  | _ => true
  end.

Lemma collect_le {A B} (f g : A -> option (option B)) l d :
  (forall x e, In x l -> f x = Some e -> g x = Some e) -> collect f l = Some d -> collect g l = Some d.
Proof.
  revert d. induction l as [|a l IH]; cbn [collect]; intros d h e; [exact e|].
  destruct (f a) as [x|] eqn:E; [|discriminate]. rewrite (h _ _ (or_introl eq_refl) E).
  destruct (collect f l) as [r|]; [|destruct x; discriminate]. rewrite (IH r); auto. intros y z i. apply h. now right.
Qed.

Lemma dict_le S g c fs fs0 kw m out :
  (forall ps p m e, lookup c S = Some ps -> In p ps -> entry_of S g false m fs0 p = Some e -> entry_of S g true m fs p = Some e) ->
  to_dict S g false m (PObj c fs0 kw) = Some out -> to_dict S g true m (PObj c fs kw) = Some out.
Proof.
  intros h e. destruct m as [|m]; [discriminate|]. rewrite to_dict_eq in *. destruct (lookup c S) as [ps|] eqn:E; [|discriminate].
  destruct (collect (entry_of S g false m fs0) ps) as [d|] eqn:C; [|discriminate].
  rewrite (collect_le _ _ _ _ (fun p e i => h ps p m e eq_refl i) C). exact e.
Qed.

Lemma default_same S f g : wf_schema S = true -> forall n c o m out,
  init S f false n c [] = Some o -> to_dict S g false m o = Some out -> to_dict S g true m o = Some out.
Proof.
  intros hS. induction n as [|n IH]; intros c o m out h1; [discriminate|].
  destruct (init_parts _ _ _ _ _ _ _ hS h1) as (n' & ps & fs & en & ec & hw & -> & hf). injection en as <-.
  apply dict_le. clear m out. intros ps' p m e ec' i he. rewrite ec in ec'. injection ec' as <-.
  destruct (hf _ i) as (x & e1 & e2). destruct (wf_prop _ _ hw i) as (w1 & w2 & w3).
  unfold entry_of in *. rewrite e2 in *. unfold field_of, arg_of, value_of in e1. cbn [lookup andb] in *.
  destruct (ident p) eqn:ID.
  - destruct (w1 eq_refl) as (K & hz). rewrite K in e1. destruct (pneed p) eqn:N1; [discriminate|destruct (hz z eq_refl)|].
    cbn [option_map] in e1. injection e1 as <-. unfold list_of, out_of in *. rewrite K in *. cbn [is_null negb] in *. exact he.
  - destruct (list_of S g m p x) as [v1|] eqn:L; [|discriminate]. cbn [andb] in *. destruct (negb (always p) && is_null v1); [exact he|].
    unfold out_of in *. destruct (pkind p) as [|t|vs|r|[r|]] eqn:K; try exact he.
    + rewrite (list_ref _ _ _ _ _ _ K) in L. injection L as <-. destruct (pneed p) eqn:N1; [discriminate| |].
      * destruct (w3 _ eq_refl); discriminate.
      * destruct (init S f false n r []) as [o'|] eqn:I; [|discriminate]. cbn [option_map] in e1. injection e1 as <-.
        destruct (to_dict S g false m o') as [w|] eqn:T; [|discriminate]. now rewrite (IH _ _ _ _ I T).
    + destruct (pneed p) eqn:N1; [discriminate| |].
      * destruct (w3 _ eq_refl); discriminate.
      * cbn [option_map] in e1. injection e1 as <-. unfold list_of in L. rewrite K in L. cbn in L. injection L as <-. exact he.
Qed.

Lemma item_back ids f g o o' : inverse f g -> json o = true ->
  match o with PDict d => forallb (fun kv => negb (is_null (snd kv))) d | _ => true end = true ->
  item_ids ids f o = Some o' -> item_ids ids (fun x => Some (g x)) o' = Some o /\ json o' = json o' /\ (forall c a b, o' <> PObj c a b).
Proof.
  intros (_ & hi) hj hn h. unfold item_ids in h. destruct o as [| | | | |d|]; try (destruct ids; [|discriminate]; injection h as <-;
    split; [reflexivity|split; [reflexivity|discriminate]]); try discriminate hj.
  destruct (map_opt _ d) as [d'|] eqn:M; [|discriminate]. injection h as <-. split; [|split; [reflexivity|discriminate]].
  clear hj. unfold item_ids.
  assert (e : map_opt (fun kv => if mem (fst kv) ids then option_map (pair (fst kv)) (Some (g (snd kv))) else Some kv) d' = Some d);
    [|now rewrite e].
  revert d' hn M. induction d as [|[k v] d IH]; cbn [map_opt forallb fst snd]; intros d' hn M; [now injection M as <-|].
  apply andb_prop in hn as (hn1 & hn2). destruct (mem k ids) eqn:E.
  - destruct (f v) as [w|] eqn:F; [|discriminate]. cbn [option_map] in M.
    destruct (map_opt _ d) as [r|]; [|discriminate]. injection M as <-. cbn [map_opt]. rewrite (IH r hn2 eq_refl). cbn [fst snd]. rewrite E. cbn [option_map]. destruct (hi _ _ F) as (_ & ->); [intros ->; discriminate|reflexivity].
  - destruct (map_opt _ d) as [r|]; [|discriminate]. injection M as <-. cbn [map_opt]. rewrite (IH r hn2 eq_refl). cbn [fst snd]. now rewrite E.
Qed.

Lemma list_back ids f g l l' : inverse f g -> forallb json l = true -> clean (PArr l) = true ->
  map_opt (item_ids ids f) l = Some l' ->
  map_opt (item_ids ids (fun x => Some (g x))) l' = Some l /\ (l <> [] -> l' <> []) /\ forall c a b r, l' <> PObj c a b :: r.
Proof.
  intros hi. cbn [clean]. revert l'. induction l as [|o l IH]; cbn [map_opt forallb]; intros l' hj hc h.
  - injection h as <-. split; [reflexivity|]. split; [auto|discriminate].
  - apply andb_prop in hj as (hj1 & hj2). apply andb_prop in hc as (hc1 & hc2).
    destruct (item_ids ids f o) as [o'|] eqn:E; [|discriminate]. destruct (map_opt (item_ids ids f) l) as [r|]; [|discriminate].
    injection h as <-. destruct (item_back _ _ _ _ _ hi hj1 hc1 E) as (e & _ & hne). destruct (IH r hj2 hc2 eq_refl) as (e2 & _).
    cbn [map_opt]. rewrite e, e2. split; [reflexivity|]. split; [discriminate|]. intros c a b r0 e0. injection e0 as e0 _. now apply (hne c a b).
Qed.

Lemma both S f g : wf_schema S = true -> inverse f g -> forall n c args o,
  json (PDict args) = true -> clean (PDict args) = true -> init S f true n c args = Some o ->
  exists o0, init S f false n c args = Some o0 /\ forall m out, to_dict S g false m o0 = Some out -> to_dict S g true m o = Some out.
Proof.
  intros hS hinv. pose proof hinv as (hnull & hi). induction n as [|n IH]; intros c args o hj hcl h1; [discriminate|].
  destruct (json_dict _ hj) as (hnd & hv).
  assert (hcv : forall k v, lookup k args = Some v -> clean v = true).
  { intros k v e. apply lookup_in in e. cbn [clean] in hcl. rewrite forallb_forall in hcl. apply (hcl _ e). }
  assert (hres : existsb (fun kv => reserved (fst kv)) args = false).
  { rewrite init_eq in h1. destruct (lookup c S); [|discriminate]. destruct (existsb _ args); [discriminate|reflexivity]. }
  destruct (init_parts _ _ _ _ _ _ _ hS h1) as (n' & ps & fs & en & ec & hw & -> & hf). injection en as <-.
  assert (hp : forall p, In p ps -> exists w0 w, field_of S f false n args p = Some (pname p, w0) /\ lookup (pname p) fs = Some w /\
     (forall m e fs0, lookup (pname p) fs0 = Some w0 -> entry_of S g false m fs0 p = Some e -> entry_of S g true m fs p = Some e)).
  { intros p i. destruct (hf _ i) as (w & e1 & e2). destruct (wf_prop _ _ hw i) as (w1 & w2 & w3).
    unfold field_of in *. destruct (arg_of args p) as [v|] eqn:A; [|discriminate].
    assert (hjv : (exists t, pkind p = Const t) \/ (json v = true /\ clean v = true)).
    { unfold arg_of in A. destruct (pkind p) eqn:K; try (left; eauto; fail);
        right; (destruct (lookup (pname p) args) eqn:LA; [injection A as ->; eauto|]);
        (destruct (pneed p); [discriminate| |]; injection A as <-; auto). }
    cbn [andb] in *. destruct (ident p) eqn:ID.
    - destruct (w1 eq_refl) as (K & _). unfold value_of in *. rewrite K in *. destruct (f v) as [w'|] eqn:F; [|discriminate].
      cbn [option_map] in e1. injection e1 as ->. exists v, w. split; [reflexivity|]. split; [exact e2|]. intros m e fs0 e0.
      unfold entry_of. rewrite e0, e2. unfold list_of, out_of. rewrite K, ID. cbn [andb].
      destruct (is_null v) eqn:NU.
      + destruct v; try discriminate. rewrite hnull in F. injection F as <-. auto.
      + destruct (hi _ _ F) as (hw0 & hg); [intros ->; discriminate|].
        destruct (is_null w) eqn:NW; [destruct w; try discriminate; congruence|]. cbn [negb]. rewrite hg, NU. auto.
    - destruct (value_of S f true n p v) as [w'|] eqn:V; [|discriminate]. cbn [option_map] in e1. injection e1 as ->.
      destruct (pkind p) as [|t|vs|r|[r|]] eqn:K; unfold value_of in V; rewrite K in V.
      + exists w, w. unfold value_of. rewrite K. injection V as ->. split; [reflexivity|]. split; [exact e2|]. intros m e fs0 e0.
        unfold entry_of. rewrite e0, e2. unfold list_of, out_of. rewrite K, ID. auto.
      + exists w, w. unfold value_of. rewrite K. injection V as ->. split; [reflexivity|]. split; [exact e2|]. intros m e fs0 e0.
        unfold entry_of. rewrite e0, e2. unfold list_of, out_of. rewrite K, ID. auto.
      + exists w, w. unfold value_of. rewrite K, V. split; [reflexivity|]. split; [exact e2|]. intros m e fs0 e0.
        unfold entry_of. rewrite e0, e2. unfold list_of, out_of. rewrite K, ID. auto.
      + assert (ho : exists o0, value_of S f false n p v = Some o0 /\ is_null o0 = false /\ is_null w = false /\
                   forall m out, to_dict S g false m o0 = Some out -> to_dict S g true m w = Some out).
        { unfold value_of. rewrite K. destruct v; try discriminate.
          - exists w. split; [exact V|]. assert (is_null w = false).
            { destruct (init_parts _ _ _ _ _ _ _ hS V) as (? & ? & ? & _ & _ & _ & -> & _). reflexivity. }
            split; [assumption|]. split; [assumption|]. intros m out. eapply default_same; eauto.
          - destruct hjv as [(t & e)|(hjv & hclv)]; [discriminate|].
            destruct (IH _ _ _ hjv hclv V) as (o0 & e0 & h0). exists o0. split; [exact e0|].
            destruct (init_parts _ _ _ _ _ _ _ hS V) as (? & ? & ? & _ & _ & _ & -> & _).
            destruct (init_parts _ _ _ _ _ _ _ hS e0) as (? & ? & ? & _ & _ & _ & -> & _). auto.
          - destruct hjv as [(t & e)|(hjv & hclv)]; discriminate. }
        destruct ho as (o0 & e0 & n0 & n1 & h0). exists o0, w. rewrite e0. split; [reflexivity|]. split; [exact e2|].
        intros m e fs0 el. unfold entry_of. rewrite el, e2, !(list_ref _ _ _ _ _ _ K), ID. cbn [andb].
        rewrite n0, n1, andb_false_r. unfold out_of. rewrite K. destruct (to_dict S g false m o0) as [out|] eqn:T; [|discriminate].
        now rewrite (h0 _ _ T).
      + exists v, w. unfold value_of. rewrite K. split; [reflexivity|]. split; [exact e2|]. intros m e fs0 e0.
        destruct hjv as [(t & e')|(hjv & hclv)]; [discriminate|].
        unfold entry_of. rewrite e0, e2, ID. cbn [andb]. unfold out_of. rewrite K. unfold list_ids in V. destruct (truthy v) eqn:T.
        * destruct v as [| | | |l| |]; try discriminate. destruct (map_opt (item_ids (id_names S r) f) l) as [l'|] eqn:M; [|discriminate].
          injection V as <-. destruct (list_back _ _ g _ _ hinv hjv hclv M) as (b1 & b2 & b3).
          assert (list_of S g m p (PArr l) = Some (PArr l)) as ->.
          { unfold list_of. rewrite K. destruct l as [|[] l]; try reflexivity. discriminate hjv. }
          assert (list_of S g m p (PArr l') = Some (PArr l')) as ->.
          { unfold list_of. rewrite K. destruct l' as [|[] l']; try reflexivity. now destruct (b3 c0 fs1 kw l'). }
          cbn [is_null]. rewrite !andb_false_r. unfold list_ids.
          assert (truthy (PArr l') = true) as ->. { destruct l'; [|reflexivity]. exfalso. apply b2; [|reflexivity]. intros ->. discriminate T. }
          rewrite b1. cbn [option_map]. auto.
        * injection V as ->. destruct (list_of S g m p w) as [v1|] eqn:L; [|discriminate]. apply list_json in L; auto; [|congruence].
          subst v1. destruct (negb (always p) && is_null w); [auto|]. unfold list_ids. rewrite T. auto.
      + exists w, w. unfold value_of. rewrite K. injection V as ->. split; [reflexivity|]. split; [exact e2|]. intros m e fs0 e0.
        unfold entry_of. rewrite e0, e2. unfold out_of. rewrite K, ID. auto. }
  destruct (init_total S f false n c args ps ec hres) as (o0 & ho).
  { intros p i. destruct (hp _ i) as (w0 & w & -> & _). eauto. }
  exists o0. split; [exact ho|]. destruct (init_parts _ _ _ _ _ _ _ hS ho) as (n' & ps' & fs0 & en & ec' & _ & -> & hf0).
  injection en as <-. rewrite ec in ec'. injection ec' as <-. intros m out. apply dict_le. clear m out.
  intros ps' p m e ec' i he. rewrite ec in ec'. injection ec' as <-. destruct (hp _ i) as (w0 & w & a1 & a2 & a3).
  destruct (hf0 _ i) as (x & b1 & b2). rewrite a1 in b1. injection b1 as <-. eapply a3; eauto.
Qed.

(** Ids which are translated when a message is read are the same again when it is written: it is written as if there was no
    translation. *)
Theorem ids_back S f g n c args o :
  wf_schema S = true -> inverse f g -> json (PDict args) = true -> clean (PDict args) = true -> init S f true n c args = Some o ->
  exists o0, init S f false n c args = Some o0 /\ forall m out, to_dict S g false m o0 = Some out -> to_dict S g true m o = Some out.
Proof. intros hS hi hj hc h. eapply both; eauto. Qed.

(** Specification: the dictionary in which every id, at any depth, is the one of the client. *)
Fixpoint ids_mapped (S : schema) (g : py -> py) (c : string) (v : py) : py :=
  match v with
  | PDict d =>
      PDict (map (fun kv =>
        (fst kv,
         match (match lookup c S with Some ps => find (fun p => String.eqb (pname p) (fst kv)) ps | None => None end) with
         | None => snd kv
         | Some p =>
             if ident p then match snd kv with PNull => PNull | x => g x end
             else match pkind p with
                  | Ref r => ids_mapped S g r (snd kv)
                  | Array (Some r) => match snd kv with PArr l => PArr (map (ids_mapped S g r) l) | x => x end
                  | _ => snd kv
                  end
         end)) d)
  | _ => v
  end.

(** Classes in which there are no ids, at any depth; what is in lists has ids only at its own level. *)
Definition refs (ps : class) : list string :=
  flat_map (fun p => match pkind p with Ref r => [r] | Array (Some r) => [r] | _ => [] end) ps.

Definition props_of (S : schema) (c : string) : class := match lookup c S with Some ps => ps | None => [] end.

Definition idless (S : schema) (L : list string) (c : string) : bool :=
  forallb (fun p => negb (ident p)) (props_of S c) && forallb (fun r => mem r L) (refs (props_of S c)).

Definition flat_schema (S : schema) (L : list string) : bool :=
  forallb (idless S L) L &&
  forallb (fun e => forallb (fun p => match pkind p with
    | Array (Some r) => forallb (fun r' => mem r' L) (refs (props_of S r)) | _ => true end) (snd e)) S.

Section PyInd.
  Variable P : py -> Prop.
  Hypothesis hnull : P PNull.
  Hypothesis hbool : forall b, P (PBool b).
  Hypothesis hnum : forall z, P (PNum z).
  Hypothesis hstr : forall s, P (PStr s).
  Hypothesis harr : forall l, Forall P l -> P (PArr l).
  Hypothesis hdict : forall d, Forall (fun kv => P (snd kv)) d -> P (PDict d).
  Hypothesis hobj : forall c a b, P (PObj c a b).
  Fixpoint py_ind' (v : py) : P v :=
    match v with
    | PNull => hnull
    | PBool b => hbool b
    | PNum z => hnum z
    | PStr s => hstr s
    | PArr l => harr l ((fix go l : Forall P l :=
        match l with [] => Forall_nil _ | x :: r => Forall_cons _ (py_ind' x) (go r) end) l)
    | PDict d => hdict d ((fix go d : Forall (fun kv => P (snd kv)) d :=
        match d with [] => Forall_nil _ | x :: r => Forall_cons x (py_ind' (snd x)) (go r) end) d)
    | PObj c a b => hobj c a b
    end.
End PyInd.

Lemma map_same {A} (f : A -> A) l : (forall x, In x l -> f x = x) -> map f l = l.
Proof. induction l as [|a l IH]; cbn [map]; intros h; [reflexivity|]. rewrite h, IH; auto; [intros; apply h; now right|now left]. Qed.

Lemma refs_in ps p r : In p ps -> (pkind p = Ref r \/ pkind p = Array (Some r)) -> In r (refs ps).
Proof. intros i h. unfold refs. apply in_flat_map. exists p. split; [exact i|]. destruct h as [-> | ->]; now left. Qed.

Lemma find_in c S (k : string) p : match lookup c S with Some ps => find (fun p => String.eqb (pname p) k) ps | None => None end = Some p ->
  In p (props_of S c) /\ pname p = k.
Proof.
  unfold props_of. destruct (lookup c S) as [ps|]; [|discriminate]. intros e. apply find_some in e as (i & e).
  apply String.eqb_eq in e. auto.
Qed.

Lemma idless_both S g L : forallb (idless S L) L = true -> forall v c, In c L ->
  ids_mapped S g c v = v /\ forall l, v = PArr l -> forall x, In x l -> ids_mapped S g c x = x.
Proof.
  intros hL. rewrite forallb_forall in hL.
  induction v as [|b|z|s|l IH|d IH|c0 a b] using py_ind'; intros c hc; split; try reflexivity; try discriminate.
  - intros l' e x i. injection e as <-. rewrite Forall_forall in IH. now apply IH.
  - cbn [ids_mapped]. f_equal. apply map_same. intros [k v] i. cbn [fst snd]. f_equal.
    destruct (match lookup c S with Some ps => _ | None => None end) as [p|] eqn:F; [|reflexivity].
    apply find_in in F as (ip & _). specialize (hL _ hc) as hcl. unfold idless in hcl. apply andb_prop in hcl as (h1 & h2).
    rewrite forallb_forall in h1, h2. specialize (h1 _ ip). apply negb_true_iff in h1. rewrite h1.
    rewrite Forall_forall in IH. specialize (IH _ i). cbn [snd] in IH.
    destruct (pkind p) as [|t|vs|r|[r|]] eqn:K; try reflexivity.
    + apply IH. apply mem_spec. apply h2. apply (refs_in _ p); auto.
    + destruct v as [| | | |l| |]; try reflexivity.
      assert (hr : In r L) by (apply mem_spec, h2, (refs_in _ p); auto).
      f_equal. apply map_same. intros x ix. destruct (IH r hr) as (_ & h). apply (h l eq_refl x ix).
Qed.

Lemma idless_same S g L v c : forallb (idless S L) L = true -> In c L -> ids_mapped S g c v = v.
Proof. intros hL hc. now destruct (idless_both S g L hL v c hc). Qed.

(** One item of a list. *)
Lemma map_opt_map {A} (f : A -> option A) (h : A -> A) l : (forall x, In x l -> f x = Some (h x)) -> map_opt f l = Some (map h l).
Proof.
  induction l as [|a l IH]; cbn [map_opt map]; intros e; [reflexivity|]. rewrite e by now left. rewrite IH; [reflexivity|].
  intros x i. apply e. now right.
Qed.

Lemma find_none c S k : match lookup c S with Some ps => find (fun p => String.eqb (pname p) k) ps | None => None end = None ->
  forall p, In p (props_of S c) -> pname p <> k.
Proof.
  unfold props_of. destruct (lookup c S) as [ps|]; [|intros _ p []]. intros e p i ek. pose proof (find_none _ _ e _ i) as h.
  cbn beta in h. rewrite ek, String.eqb_refl in h. discriminate.
Qed.

Lemma id_names_spec S r k : In k (id_names S r) <-> exists p, In p (props_of S r) /\ pname p = k /\ ident p = true.
Proof.
  unfold id_names, props_of. destruct (lookup r S) as [ps|]; [|split; [intros []|intros (p & [] & _)]]. rewrite in_map_iff. split.
  - intros (p & e & i). apply filter_In in i as (i & j). eauto.
  - intros (p & i & e & j). exists p. split; [exact e|]. apply filter_In. auto.
Qed.

Lemma props_wf S r : wf_schema S = true -> wf_class (props_of S r) = true.
Proof. unfold props_of. intros h. destruct (lookup r S) eqn:E; [eapply wf_lookup; eauto|reflexivity]. Qed.

Lemma item_mapped S g L r o o' : wf_schema S = true -> forallb (idless S L) L = true ->
  forallb (fun r' => mem r' L) (refs (props_of S r)) = true -> json o = true ->
  match o with PDict d => forallb (fun kv => negb (is_null (snd kv))) d | _ => true end = true ->
  item_ids (id_names S r) (fun x => Some (g x)) o = Some o' -> o' = ids_mapped S g r o.
Proof.
  intros hS hL hr hj hn h. unfold item_ids in h. destruct o as [| | | | |d|];
    try (destruct (id_names S r); [injection h as <-; reflexivity|discriminate]).
  destruct (map_opt _ d) as [d'|] eqn:M; [|discriminate]. injection h as <-. cbn [ids_mapped]. f_equal.
  erewrite map_opt_map in M; [injection M as <-; reflexivity|]. intros [k v] i. cbn [fst snd option_map].
  rewrite forallb_forall in hn. specialize (hn _ i). cbn [snd] in hn. rewrite forallb_forall in hr.
  pose proof (wf_names _ (props_wf S r hS)) as hnd.
  destruct (match lookup r S with Some ps => _ | None => None end) as [p|] eqn:F.
  - apply find_in in F as (ip & ek). destruct (ident p) eqn:ID.
    + assert (mem k (id_names S r) = true) as -> by (apply mem_spec, id_names_spec; eauto). destruct v; try reflexivity. discriminate hn.
    + assert (mem k (id_names S r) = false) as ->.
      { destruct (mem k (id_names S r)) eqn:E; [|reflexivity]. apply mem_spec, id_names_spec in E as (q & iq & eq & hq).
        rewrite (same_name _ p q hnd ip iq) in ID; congruence. }
      do 2 f_equal. destruct (pkind p) as [|t|vs|r0|[r0|]] eqn:K; try reflexivity.
      * symmetry. apply (idless_same S g L); auto. apply mem_spec, hr, (refs_in _ p); auto.
      * destruct v as [| | | |l| |]; try reflexivity. f_equal. symmetry. apply map_same. intros x _.
        apply (idless_same S g L); auto. apply mem_spec, hr, (refs_in _ p); auto.
  - assert (mem k (id_names S r) = false) as ->; [|reflexivity].
    destruct (mem k (id_names S r)) eqn:E; [|reflexivity]. apply mem_spec, id_names_spec in E as (q & iq & eq & hq).
    now destruct (find_none _ _ _ F _ iq).
Qed.

(** The whole dictionary. *)
Lemma set_map h (k : string) v d : (forall kv, fst (h kv) = fst kv) -> h (k, v) = (k, v) ->
  set_ k v (map h d) = map h (set_ k v d).
Proof.
  intros hk hv. induction d as [|[x w] d IH]; cbn [map set_]; [now rewrite hv|]. destruct (h (x, w)) as [x' w'] eqn:E.
  pose proof (hk (x, w)) as e. rewrite E in e. cbn in e. subst x'. destruct (String.eqb_spec k x) as [->|n].
  - cbn [map]. now rewrite hv.
  - cbn [map]. now rewrite E, IH.
Qed.

Lemma update_map h d kw : (forall kv, fst (h kv) = fst kv) -> (forall kv, In kv kw -> h kv = kv) ->
  update (map h d) kw = map h (update d kw).
Proof.
  intros hk. revert d. induction kw as [|[k v] kw IH]; intros d hv; [reflexivity|]. unfold update. cbn [fold_left fst snd].
  fold (update (set_ k v (map h d)) kw). fold (update (set_ k v d) kw). rewrite set_map; [|exact hk|apply hv; now left].
  apply IH. intros kv i. apply hv. now right.
Qed.

Lemma collect_map {A B} (f f' : A -> option (option B)) h l d d' :
  (forall x e e', In x l -> f x = Some e -> f' x = Some e' -> e' = option_map h e) ->
  collect f l = Some d -> collect f' l = Some d' -> d' = map h d.
Proof.
  revert d d'. induction l as [|a l IH]; cbn [collect]; intros d d' hh e e'.
  - injection e as <-. injection e' as <-. reflexivity.
  - destruct (f a) as [x|] eqn:E; [|discriminate]. destruct (f' a) as [x'|] eqn:E'; [|discriminate].
    pose proof (hh _ _ _ (or_introl eq_refl) E E') as ->.
    destruct (collect f l) as [r|]; [|destruct x; discriminate].
    destruct (collect f' l) as [r'|]; [|destruct x; discriminate].
    assert (r' = map h r) as -> by (apply IH; auto; intros y z z' i; apply hh; now right).
    destruct x; cbn [option_map] in e'; injection e as <-; injection e' as <-; reflexivity.
Qed.

Lemma map_opt_items S g L r l l' : wf_schema S = true -> forallb (idless S L) L = true ->
  forallb (fun r' => mem r' L) (refs (props_of S r)) = true -> forallb json l = true -> clean (PArr l) = true ->
  map_opt (item_ids (id_names S r) (fun x => Some (g x))) l = Some l' -> l' = map (ids_mapped S g r) l.
Proof.
  intros hS hL hr. cbn [clean]. revert l'. induction l as [|o l IH]; cbn [map_opt forallb map]; intros l' hj hc h.
  - now injection h as <-.
  - apply andb_prop in hj as (hj1 & hj2). apply andb_prop in hc as (hc1 & hc2).
    destruct (item_ids (id_names S r) _ o) as [o'|] eqn:E; [|discriminate]. destruct (map_opt _ l) as [l0|]; [|discriminate].
    injection h as <-. f_equal; [eapply item_mapped; eauto|auto].
Qed.

Lemma find_self S c ps p : wf_schema S = true -> lookup c S = Some ps -> In p ps ->
  match lookup c S with Some ps => find (fun q => String.eqb (pname q) (pname p)) ps | None => None end = Some p.
Proof.
  intros hS ec i. pose proof (wf_names _ (wf_lookup _ _ _ hS ec)) as hnd. rewrite ec.
  destruct (find _ ps) as [q|] eqn:F.
  - apply find_some in F as (j & e). apply String.eqb_eq in e. f_equal. now apply (same_name ps).
  - pose proof (List.find_none _ _ F _ i) as h. cbn beta in h. rewrite String.eqb_refl in h. discriminate.
Qed.

Lemma mapped S f g L : (forall x, x <> PNull -> g x <> PNull) -> wf_schema S = true -> flat_schema S L = true -> forall n c args o m out0 out1,
  json (PDict args) = true -> clean (PDict args) = true -> init S f false n c args = Some o ->
  to_dict S g false m o = Some out0 -> to_dict S g true m o = Some out1 -> out1 = ids_mapped S g c out0.
Proof.
  intros hg hS hfl. pose proof hfl as hfl0. unfold flat_schema in hfl. apply andb_prop in hfl as (hL & hA). rewrite forallb_forall in hA.
  induction n as [|n IH]; intros c args o m out0 out1 hj hcl h1 t0 t1; [discriminate|]. destruct (json_dict _ hj) as (hnd & hv).
  assert (hcv : forall k v, lookup k args = Some v -> clean v = true).
  { intros k v e. apply lookup_in in e. cbn [clean] in hcl. rewrite forallb_forall in hcl. apply (hcl _ e). }
  destruct (init_parts _ _ _ _ _ _ _ hS h1) as (n' & ps & fs & en & ec & hw & -> & hf). injection en as <-.
  destruct m as [|m]; [discriminate|]. rewrite to_dict_eq, ec in t0, t1.
  destruct (collect (entry_of S g false m fs) ps) as [d0|] eqn:C0; [|discriminate].
  destruct (collect (entry_of S g true m fs) ps) as [d1|] eqn:C1; [|discriminate]. injection t0 as <-. injection t1 as <-.
  cbn [ids_mapped]. f_equal. match goal with |- _ = map ?h _ => set (h0 := h) end.
  assert (d1 = map h0 d0) as ->.
  { eapply collect_map; [|exact C0|exact C1]. clear C0 C1 d0 d1. intros p e e' i a0 a1.
    destruct (hf _ i) as (w & e1 & e2). destruct (wf_prop _ _ hw i) as (w1 & w2 & w3).
    unfold field_of in e1. destruct (arg_of args p) as [v|] eqn:A; [|discriminate]. cbn [andb] in e1.
    destruct (value_of S f false n p v) as [x|] eqn:V; [|discriminate]. cbn [option_map] in e1. injection e1 as ->.
    assert (hjv : (exists t, pkind p = Const t) \/ (json v = true /\ clean v = true)).
    { unfold arg_of in A. destruct (pkind p) eqn:K; try (left; eauto; fail);
        right; (destruct (lookup (pname p) args) eqn:LA; [injection A as ->; eauto|]);
        (destruct (pneed p); [discriminate| |]; injection A as <-; auto). }
    unfold entry_of in a0, a1. rewrite e2 in a0, a1. destruct (list_of S g m p w) as [v1|] eqn:LO; [|discriminate]. cbn [andb] in a0, a1.
    assert (hh : forall y, h0 (pname p, y) = (pname p,
        if ident p then match y with PNull => PNull | _ => g y end
        else match pkind p with Ref r => ids_mapped S g r y
             | Array (Some r) => match y with PArr l => PArr (map (ids_mapped S g r) l) | _ => y end | _ => y end)).
    { intros y. unfold h0. cbn [fst snd]. rewrite (find_self S c ps p hS ec i).
      destruct (ident p), (pkind p) as [|t|vs|r|[r|]], y; reflexivity. }
    destruct (ident p) eqn:ID.
    - destruct (w1 eq_refl) as (K & _). unfold out_of in a0, a1. rewrite K in a0, a1. destruct (is_null v1) eqn:NU.
      + destruct v1; try discriminate. destruct (always p); cbn in a0, a1.
        * injection a0 as <-. injection a1 as <-. cbn [option_map]. now rewrite hh.
        * injection a0 as <-. injection a1 as <-. reflexivity.
      + change (negb false) with true in a1. change (true && true) with true in a1. cbv beta iota zeta in a1. rewrite andb_false_r in a0. injection a0 as <-. cbn [option_map]. rewrite hh.
        destruct (negb (always p) && is_null (g v1)) eqn:NG.
        * exfalso. apply andb_prop in NG as (_ & NG). apply (hg v1); [intros ->; discriminate|]. now destruct (g v1).
        * injection a1 as <-. destruct v1; try reflexivity. discriminate NU.
    - change (false && negb (is_null v1)) with false in a1. cbv beta iota zeta in a1.
      destruct (negb (always p) && is_null v1); [injection a0 as <-; injection a1 as <-; reflexivity|].
      unfold out_of in a0, a1. destruct (pkind p) as [|t|vs|r|[r|]] eqn:K;
        try (injection a0 as <-; injection a1 as <-; cbn [option_map]; rewrite hh; reflexivity).
      + rewrite (list_ref _ _ _ _ _ _ K) in LO. injection LO as <-.
        destruct (to_dict S g false m w) as [b0|] eqn:T0; [|discriminate]. destruct (to_dict S g true m w) as [b1|] eqn:T1; [|discriminate].
        injection a0 as <-. injection a1 as <-. cbn [option_map]. rewrite hh. do 2 f_equal.
        unfold value_of in V. rewrite K in V. destruct v; try discriminate.
        * apply (IH r [] w m b0 b1); auto.
        * destruct hjv as [(t & e)|(hjv & hclv)]; [discriminate|]. eapply IH; eauto.
        * destruct hjv as [(t & e)|(hjv & hclv)]; discriminate.
      + destruct hjv as [(t & e0)|(hjv & hclv)]; [discriminate|].
        unfold value_of in V. rewrite K in V. injection V as <-. apply list_json in LO; auto; [|congruence]. subst v1.
        injection a0 as <-. cbn [option_map]. rewrite hh. unfold list_ids in a1. destruct (truthy v) eqn:T.
        * destruct v as [| | | |l| |]; try discriminate. destruct (map_opt _ l) as [l'|] eqn:M; [|discriminate]. injection a1 as <-.
          do 3 f_equal. eapply map_opt_items; eauto.
          apply lookup_in in ec. specialize (hA _ ec). cbn [snd] in hA. rewrite forallb_forall in hA. specialize (hA _ i). now rewrite K in hA.
        * injection a1 as <-. destruct v as [| | | |[|? ?]| |]; try reflexivity. discriminate T. }
  apply update_map; [reflexivity|]. intros [k v] i. unfold h0. cbn [fst snd]. f_equal.
  destruct (match lookup c S with Some ps => _ | None => None end) as [p|] eqn:F; [|reflexivity].
  apply filter_In in i as (_ & i). cbn [fst] in i. apply negb_true_iff in i.
  apply find_in in F as (ip & ek). unfold props_of in ip. rewrite ec in ip.
  destruct (pkind p) as [|t|vs|r|it] eqn:K;
    try (exfalso; assert (is_param ps k = true); [|congruence]; apply param_spec; exists p; repeat split; auto; congruence).
  destruct (ident p) eqn:ID; [|reflexivity]. destruct (wf_prop _ _ hw ip) as (w1 & _). destruct (w1 ID). congruence.
Qed.

(** Every id which is sent, at any depth, is the client's, and nothing else is changed. *)
Theorem ids_sent S f g L n c args o m out0 out1 :
  (forall x, x <> PNull -> g x <> PNull) -> wf_schema S = true -> flat_schema S L = true ->
  json (PDict args) = true -> clean (PDict args) = true -> init S f false n c args = Some o ->
  to_dict S g false m o = Some out0 -> to_dict S g true m o = Some out1 -> out1 = ids_mapped S g c out0.
Proof. intros hg hS hL hj hc h t0 t1. eapply mapped; eauto. Qed.

(** The real classes. *)
Fixpoint shrink (S : schema) (n : nat) (L : list string) : list string :=
  match n with O => L | Datatypes.S n => shrink S n (filter (idless S L) L) end.
Definition without_ids : list string := Eval vm_compute in shrink dap 8 (map fst dap).

Theorem dap_wf : wf_schema dap = true /\ flat_schema dap without_ids = true.
Proof. split; vm_compute; reflexivity. Qed.

(** A message is read as the class of its kind and name: the class has that name as its fixed value. *)
Definition fixed (c k : string) : option string :=
  match find (fun p => String.eqb (pname p) k) (props_of dap c) with
  | Some p => match pkind p with Const t => Some t | _ => None end
  | None => None
  end.

Definition reg_ok (e : (string * string) * string) : bool :=
  let '((t, name), c) := e in
  match fixed c "type" with Some t' => String.eqb t t' | None => false end &&
  (if String.eqb t "response" then true
   else match fixed c (if String.eqb t "event" then "event" else "command") with Some n => String.eqb n name | None => false end).

Lemma regs_ok : forallb reg_ok registered = true.
Proof. vm_compute. reflexivity. Qed.

Theorem read_as_named f upd n dct o :
  from_dict dap registered f upd n dct = Some o ->
  exists c fs kw, o = PObj c fs kw /\
    (lookup "type" dct = Some (PStr "request") ->
       exists name, lookup "command" dct = Some (PStr name) /\ fixed c "type" = Some "request" /\ fixed c "command" = Some name) /\
    (lookup "type" dct = Some (PStr "response") -> fixed c "type" = Some "response") /\
    (lookup "type" dct = Some (PStr "event") ->
       exists name, lookup "event" dct = Some (PStr name) /\ fixed c "type" = Some "event" /\ fixed c "event" = Some name).
Proof.
  unfold from_dict. destruct (lookup "type" dct) as [ty|] eqn:T; [|discriminate]. intros h.
  assert (hty : ty <> PNull) by (intros ->; discriminate). destruct ty as [|b|z|ty|l|d|c fs kw]; [congruence|..]; cbv beta zeta in h;
  match type of h with match lookup ?k dct with _ => _ end = _ => destruct (lookup k dct) as [[| | |use| | |]|] eqn:U end;
    try discriminate;
  match type of h with match find ?f ?l with _ => _ end = _ => destruct (find f l) as [[[t nm] c0]|] eqn:F end; try discriminate;
  apply find_some in F as (i & F); cbn [fst snd] in F; apply andb_prop in F as (F1 & F2); apply String.eqb_eq in F1, F2; subst nm;
  (destruct (init_parts _ _ _ _ _ _ _ (proj1 dap_wf) h) as (? & ? & fs1 & _ & _ & _ & -> & _));
  exists c0, fs1; eexists; (split; [reflexivity|]);
  pose proof (proj1 (forallb_forall _ _) regs_ok _ i) as hr; unfold reg_ok in hr; apply andb_prop in hr as (r1 & r2);
  (split; [|split]); intros e; try discriminate e; injection e as ->;
  cbn in F1; subst t; cbn [String.eqb Ascii.eqb Bool.eqb] in r2.
  - exists use. split; [exact U|]. destruct (fixed c0 "type") as [t'|]; [|discriminate]. apply String.eqb_eq in r1. subst t'.
    destruct (fixed c0 "command") as [t'|]; [|discriminate]. apply String.eqb_eq in r2. subst t'. auto.
  - destruct (fixed c0 "type") as [t'|]; [|discriminate]. apply String.eqb_eq in r1. now subst t'.
  - exists use. split; [exact U|]. destruct (fixed c0 "type") as [t'|]; [|discriminate]. apply String.eqb_eq in r1. subst t'.
    destruct (fixed c0 "event") as [t'|]; [|discriminate]. apply String.eqb_eq in r2. subst t'. auto.
Qed.

(** The ids of the real classes are the properties with these names, in all of them. *)
Definition id_prop (c k : string) : bool :=
  mem k ["threadId"; "frameId"; "variablesReference"] || (mem c ["Thread"; "StackFrame"] && String.eqb k "id").

Theorem which_ids c ps p : In (c, ps) dap -> In p ps -> ident p = id_prop c (pname p).
Proof.
  intros i j.
  assert (h : forallb (fun e => forallb (fun p => Bool.eqb (ident p) (id_prop (fst e) (pname p))) (snd e)) dap = true)
    by (vm_compute; reflexivity).
  rewrite forallb_forall in h. specialize (h _ i). cbn [fst snd] in h. rewrite forallb_forall in h. specialize (h _ j).
  now apply eqb_prop in h.
Qed.

(** Every request has its answer: the class of the same name is registered for it. *)
Theorem answer_class name c : In (("request", name), c) registered ->
  exists base, c = append base "Request" /\
    find (fun e => String.eqb (fst (fst e)) "response" && String.eqb (snd (fst e)) name) registered =
    Some (("response", name), append base "Response").
Proof.
  intros i.
  assert (h : forallb (fun e =>
    let base := substring 0 (String.length (snd e) - 7) (snd e) in
    if String.eqb (fst (fst e)) "request" then
      String.eqb (snd e) (append base "Request") &&
      match find (fun e' => String.eqb (fst (fst e')) "response" && String.eqb (snd (fst e')) (snd (fst e))) registered with
      | Some ((t, n), c') => String.eqb t "response" && String.eqb n (snd (fst e)) && String.eqb c' (append base "Response")
      | None => false
      end
    else true) registered = true) by (vm_compute; reflexivity).
  rewrite forallb_forall in h. specialize (h _ i). cbn [fst snd] in h. cbv zeta in h. change (String.eqb "request" "request") with true in h.
  cbv iota in h. apply andb_prop in h as (h1 & h2). apply String.eqb_eq in h1. eexists. split; [exact h1|].
  destruct (find _ registered) as [[[t n] c']|]; [|discriminate]. apply andb_prop in h2 as (h2 & h3). apply andb_prop in h2 as (h2 & h4).
  apply String.eqb_eq in h2, h3, h4. now subst.
Qed.

(** Witnesses: a request with an id, read, written and sent back; a stack with frames. *)
Definition from1 (x : py) : option py :=
  match x with PNull => Some PNull | PNum z => if Z.ltb z 100 then Some (PNum (z + 1000)) else None | _ => None end.
Definition to1 (x : py) : py := match x with PNum z => PNum (z - 1000) | _ => x end.

Lemma inverse1 : inverse from1 to1.
Proof.
  split; [reflexivity|]. intros x y. destruct x; try discriminate; cbn [from1]; [congruence|]. destruct (Z.ltb z 100); [|discriminate].
  intros e _. injection e as <-. split; [discriminate|]. cbn [to1]. f_equal. lia.
Qed.

Definition scopes : list (string * py) :=
  [("type", PStr "request"); ("command", PStr "scopes"); ("seq", PNum 3); ("arguments", PDict [("frameId", PNum 7); ("x", PBool true)])].

Example scopes_json : json (PDict scopes) = true /\ clean (PDict scopes) = true /\ shaped dap 4 "ScopesRequest" scopes = true.
Proof. vm_compute. auto. Qed.

Example scopes_read :
  from_dict dap registered from1 true 4 scopes =
  Some (PObj "ScopesRequest"
    [("type", PStr "request"); ("command", PStr "scopes");
     ("arguments", PObj "ScopesArguments" [("frameId", PNum 1007)] [("x", PBool true)]); ("seq", PNum 3)]
    [("type", PStr "request"); ("command", PStr "scopes")]).
Proof. vm_compute. reflexivity. Qed.

Definition stack : list (string * py) :=
  [("stackFrames", PArr [PDict [("id", PNum 1001); ("name", PStr "f"); ("line", PNum 3); ("column", PNum 1);
                                ("source", PDict [("path", PStr "a.py")])]]); ("totalFrames", PNum 1)].

Example stack_sent :
  match init dap from1 false 4 "StackTraceResponseBody" stack with
  | Some o => to_dict dap to1 true 4 o
  | None => None
  end =
  Some (PDict [("stackFrames", PArr [PDict [("id", PNum 1); ("name", PStr "f"); ("line", PNum 3); ("column", PNum 1);
                                ("source", PDict [("path", PStr "a.py")])]]); ("totalFrames", PNum 1)]).
Proof. vm_compute. reflexivity. Qed.

(** Findings.  A request whose arguments are optional cannot be read without them. *)
Theorem optional_arguments_refuted :
  exists dct, json (PDict dct) = true /\ lookup "arguments" dct = None /\
    (exists ps p, lookup "BreakpointLocationsRequest" dap = Some ps /\ In p ps /\ pname p = "arguments" /\ pneed p = Optional) /\
    forall f upd n, from_dict dap registered f upd n dct = None.
Proof.
  exists [("type", PStr "request"); ("command", PStr "breakpointLocations"); ("seq", PNum 1)]. split; [reflexivity|]. split; [reflexivity|].
  split.
  - eexists. eexists. split; [vm_compute; reflexivity|]. split; [right; right; right; left; reflexivity|]. split; reflexivity.
  - intros f upd n. destruct n as [|[|n]]; [reflexivity|destruct upd; vm_compute; reflexivity|].
    destruct upd; vm_compute; reflexivity.
Qed.

(** An argument of the name self (in a launch request, the client may add any) makes a request unreadable. *)
Theorem self_refuted :
  exists dct dct', json (PDict dct) = true /\ dct' = filter (fun kv => negb (String.eqb (fst kv) "self")) dct /\
    forall f n, from_dict dap registered f false n dct = None /\ exists n, from_dict dap registered f false n dct' <> None.
Proof.
  exists [("type", PStr "event"); ("event", PStr "initialized"); ("seq", PNum 1); ("self", PNum 1)]. eexists. split; [reflexivity|].
  split; [reflexivity|]. intros f n. split.
  - destruct n as [|n]; vm_compute; reflexivity.
  - exists 3%nat. vm_compute. discriminate.
Qed.

(** A stack frame without source is sent with an empty one. *)
Theorem empty_source_refuted :
  exists args o out, json (PDict args) = true /\ lookup "source" args = None /\
    init dap from1 false 4 "StackFrame" args = Some o /\ to_dict dap to1 false 4 o = Some (PDict out) /\ lookup "source" out = Some (PDict []).
Proof.
  exists [("id", PNum 1); ("name", PStr "f"); ("line", PNum 0); ("column", PNum 0)]. eexists. eexists. split; [reflexivity|].
  split; [reflexivity|]. split; [vm_compute; reflexivity|]. split; vm_compute; reflexivity.
Qed.

(** In an item of a list, an id which is null is translated: the code gives null a number of its own. *)
Theorem null_item_refuted :
  exists args o g out0 out1, (forall x, x <> PNull -> g x <> PNull) /\ json (PDict args) = true /\
    init dap from1 false 4 "ThreadsResponseBody" args = Some o /\ to_dict dap g false 4 o = Some out0 /\
    to_dict dap g true 4 o = Some out1 /\ out1 <> ids_mapped dap g "ThreadsResponseBody" out0.
Proof.
  exists [("threads", PArr [PDict [("id", PNull); ("name", PStr "t")]])]. eexists.
  exists (fun x => match x with PNull => PNum 1 | _ => x end). eexists. eexists.
  split; [intros x h; destruct x; congruence|]. split; [reflexivity|]. split; [vm_compute; reflexivity|].
  split; [vm_compute; reflexivity|]. split; [vm_compute; reflexivity|]. vm_compute. discriminate.
Qed.

Print Assumptions message_kept.
Print Assumptions message_only.
Print Assumptions message_read.
Print Assumptions ids_back.
Print Assumptions ids_sent.
Print Assumptions dap_wf.
Print Assumptions read_as_named.
Print Assumptions which_ids.
Print Assumptions answer_class.
Print Assumptions optional_arguments_refuted.
Print Assumptions self_refuted.
Print Assumptions empty_source_refuted.
Print Assumptions null_item_refuted.
