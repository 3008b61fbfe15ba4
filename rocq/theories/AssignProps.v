(** Properties C54: changing a variable changes that variable and nothing else, and C55: what is assigned in the debug console is what
    the program and the next evaluations see. *)
From Coq Require Import String.
From Coq Require Import List NArith Bool Lia.
From Verif Require Import Base Dict HitCond SetBreak SetBreakProps Assign.
Import ListNotations.
Open Scope list_scope.

(** * Specification *)

(** The value the code of a frame finds in its own variable [x]. *)
Definition sees (f : frame) (x : str) : option N :=
  match kd f with
  | Fun => match get str_eqb x (slots f) with Some o => o | None => None end
  | Top => get str_eqb x (globs f)
  | Body => get str_eqb x (table f)
  end.
Definition global (f : frame) (x : str) : option N := get str_eqb x (globs f).
(** A variable of the code: those of a function are known beforehand. *)
Definition own (f : frame) (x : str) : Prop := match kd f with Fun => In x (keys (slots f)) | _ => True end.

(** Dictionaries have no key twice; with Python 3.13 the other names of a frame are not those of its variables. *)
Definition wf (v : version) (f : frame) : Prop :=
  NoDup (keys (slots f)) /\ NoDup (keys (table f)) /\ NoDup (keys (globs f)) /\
  (kd f = Fun -> v = New -> forall x, In x (keys (slots f)) -> ~ In x (keys (table f))).

(** The expression has the value [r] in the frame, whenever it is evaluated (None: it raises). *)
Definition steady {W} (means : str -> ns -> ns -> W -> option N * W) (text : str) (f : frame) (r : option N) : Prop :=
  forall l w, (forall y, own f y -> get str_eqb y l = sees f y) -> exists w', means text (globs f) l w = (r, w').

Definition plain_name (x : str) : Prop := starts_with (lit "Globals") x = false.
Definition plain_text (s : str) : Prop := ~ In 64%N s.

(** * Lookups *)
Notation gets := (get str_eqb).
Lemma get_to_table l : forall t x, NoDup (keys l) -> NoDup (keys t) ->
  gets x (to_table l t) = match gets x l with Some o => o | None => gets x t end.
Proof.
  unfold to_table. induction l as [|[y o] l IH]; intros t x Hl Ht; [reflexivity|]. cbn [fold_left fst snd]. cbn [keys map fst] in Hl. inversion Hl; subst.
  rewrite IH; auto; [|destruct o; [apply (NoDup_keys_set _ str_eqb_spec); auto|apply NoDup_keys_del; auto]].
  cbn [get]. destruct (str_eqb_spec x y) as [->|Hne].
  - replace (gets y l) with (@None (option N)) by (symmetry; apply (get_None _ str_eqb_spec); auto).
    destruct o; [apply (get_set_same _ str_eqb_spec)|apply (get_del_same _ str_eqb_spec); auto].
  - destruct (gets x l); auto. destruct o; [apply (get_set_other _ str_eqb_spec); auto|apply (get_del_other _ str_eqb_spec); auto].
Qed.
Lemma NoDup_to_table l : forall t, NoDup (keys t) -> NoDup (keys (to_table l t)).
Proof.
  unfold to_table. induction l as [|[y o] l IH]; intros t Ht; auto. cbn [fold_left fst snd]. apply IH.
  destruct o; [apply (NoDup_keys_set _ str_eqb_spec); auto|apply NoDup_keys_del; auto].
Qed.
Lemma keys_to_slots t l : keys (to_slots t l) = keys l.
Proof. unfold keys, to_slots. rewrite map_map. apply map_ext. intros [x o]. reflexivity. Qed.
Lemma get_to_slots t l x : gets x (to_slots t l) =
  match gets x l with Some o => Some (match gets x t with Some v => Some v | None => o end) | None => None end.
Proof.
  induction l as [|[y o] l IH]; [reflexivity|]. cbn [to_slots map fst snd get]. destruct (str_eqb_spec x y) as [->|Hne]; auto.
Qed.
Lemma get_bound l t x : gets x (bound l ++ t) = match gets x (bound l) with Some v => Some v | None => gets x t end.
Proof. induction (bound l) as [|[y v] b IH]; [reflexivity|]. cbn [app get]. destruct (str_eqb x y); auto. Qed.
Lemma get_bound_slots l x : NoDup (keys l) -> gets x (bound l) = match gets x l with Some o => o | None => None end.
Proof.
  induction l as [|[y o] l IH]; intros H; [reflexivity|]. cbn [keys map fst] in H. inversion H; subst. unfold bound. cbn [flat_map fst snd get].
  fold (bound l). destruct o as [v|]; cbn [app get]; destruct (str_eqb_spec x y) as [->|Hne]; auto.
  rewrite IH by auto. replace (gets y l) with (@None (option N)); auto. symmetry. apply (get_None _ str_eqb_spec). auto.
Qed.

Ltac prj := cbn [kd slots table globs with_slots with_table with_globs].
Ltac prj_in := cbn [kd slots table globs with_slots with_table with_globs] in *.
Lemma keys_access v f : keys (slots (access v f)) = keys (slots f) /\ kd (access v f) = kd f /\ globs (access v f) = globs f.
Proof. unfold access. destruct (kd f) eqn:E, v; prj; auto. Qed.
Lemma wf_access v f : wf v f -> wf v (access v f).
Proof.
  intros (A & B & C & D). unfold wf, access. destruct (kd f) eqn:E, v; prj; rewrite ?E; repeat split; auto. apply NoDup_to_table; auto.
  all: intros; discriminate.
Qed.

(** The lookup in f_locals *)
Definition lk (v : version) (f : frame) (x : str) : option N := gets x (view v f).
(** When f_locals was just accessed *)
Definition fresh (v : version) (f : frame) : Prop :=
  kd f = Fun -> v = Old -> forall x o, gets x (slots f) = Some o -> gets x (table f) = o.
Lemma fresh_access v f : wf v f -> fresh v (access v f).
Proof.
  intros (A & B & C & D) Hk ->. unfold access in *. destruct (kd f) eqn:E ; prj_in; try congruence. intros x o H. rewrite get_to_table by auto. rewrite H. auto.
Qed.
Lemma lk_own v f x : wf v f -> fresh v f -> own f x -> lk v f x = sees f x.
Proof.
  intros (A & B & C & D) Hf Ho. unfold lk, view, sees, own in *. destruct (kd f) eqn:E; auto. destruct v.
  - destruct (gets x (slots f)) as [o|] eqn:Es; [rewrite (Hf E eq_refl x o); auto|]. apply (get_None _ str_eqb_spec) in Es. contradiction.
  - rewrite get_bound, get_bound_slots by auto. destruct (gets x (slots f)) as [[w|]|] eqn:Es; auto.
    + apply (get_None _ str_eqb_spec). apply (D eq_refl eq_refl). auto.
    + apply (get_None _ str_eqb_spec) in Es. contradiction.
Qed.
Lemma lk_other f x : wf New f -> kd f = Fun -> ~ In x (keys (slots f)) -> lk New f x = gets x (table f).
Proof.
  intros (A & _) E H. unfold lk, view. rewrite E, get_bound, get_bound_slots by auto. apply (get_None _ str_eqb_spec) in H. rewrite H. reflexivity.
Qed.
Lemma sees_access v f x : sees (access v f) x = sees f x.
Proof. unfold sees, access. destruct (kd f) eqn:E, v; prj; rewrite ?E; auto. Qed.
Lemma own_access v f x : own (access v f) x <-> own f x.
Proof. unfold own, access. destruct (kd f) eqn:E, v; prj; rewrite ?E; tauto. Qed.

Lemma keys_set_in (x : str) (o : option N) l : In x (keys l) -> keys (set str_eqb x o l) = keys l.
Proof. intros H. rewrite (keys_set _ str_eqb_spec). replace (mem str_eqb x l) with true; auto. symmetry. apply (mem_In _ str_eqb_spec). auto. Qed.
Lemma wf_put v x w f : wf v f -> wf v (put v x w f).
Proof.
  intros (A & B & C & D). unfold put, wf. destruct (kd f) eqn:E, v; prj; rewrite ?E;
    try (repeat split; auto; try (apply (NoDup_keys_set _ str_eqb_spec); auto); intros; discriminate).
  destruct (mem str_eqb x (slots f)) eqn:Em; prj; rewrite ?E.
  - apply (mem_In _ str_eqb_spec) in Em. rewrite (keys_set_in x (Some w)) by auto. repeat split; auto.
  - repeat split; auto; [apply (NoDup_keys_set _ str_eqb_spec); auto|]. intros _ _ y Hy. rewrite (keys_set _ str_eqb_spec).
    assert (Hx : ~ In x (keys (slots f))) by (intros X; apply (mem_In _ str_eqb_spec) in X; congruence).
    destruct (mem str_eqb x (table f)); [apply D; auto|]. rewrite in_app_iff. intros [H|[<- | []]]; [eapply D; eauto|contradiction].
Qed.
Lemma lk_put v x w f y : wf v f -> lk v (put v x w f) y = if str_eqb y x then Some w else lk v f y.
Proof.
  intros (A & B & C & D). unfold lk, view, put. destruct (kd f) eqn:E, v; prj; rewrite ?E; try apply (get_set _ str_eqb_spec).
  destruct (mem str_eqb x (slots f)) eqn:Em; prj; rewrite ?E.
  - apply (mem_In _ str_eqb_spec) in Em. rewrite !get_bound, !get_bound_slots; auto; [|rewrite (keys_set_in x (Some w)); auto].
    rewrite (get_set _ str_eqb_spec). destruct (str_eqb y x); auto.
  - rewrite !get_bound, !get_bound_slots by auto. rewrite (get_set _ str_eqb_spec). destruct (str_eqb_spec y x) as [->|]; auto.
    unfold mem in Em. destruct (gets x (slots f)); [discriminate|auto].
Qed.
Lemma put_same v x w f : kd (put v x w f) = kd f /\ keys (slots (put v x w f)) = keys (slots f) /\ (kd f <> Top -> globs (put v x w f) = globs f).
Proof.
  unfold put. destruct (kd f) eqn:E, v; prj; repeat split; auto; try congruence; destruct (mem str_eqb x (slots f)) eqn:Em; prj; auto.
  apply keys_set_in. apply (mem_In _ str_eqb_spec). auto.
Qed.
Lemma put_slots_old x w f : slots (put Old x w f) = slots f.
Proof. unfold put. destruct (kd f); reflexivity. Qed.

(** save_locals followed by an access *)
Lemma wf_save v f : wf v f -> wf v (save v f).
Proof.
  intros (A & B & C & D). unfold save, wf. destruct (kd f) eqn:E, v; prj; rewrite ?E; repeat split; auto. rewrite keys_to_slots. auto.
  intros; discriminate.
Qed.
Lemma sees_save v f x : wf v f -> own f x -> (forall w, lk v f x = Some w -> sees (save v f) x = Some w) /\
  (lk v f x = None -> sees (save v f) x = sees f x).
Proof.
  intros Hw Ho. pose proof Hw as (A & B & C & D). unfold save. destruct (kd f) eqn:E, v; prj; try (unfold lk, view, sees; rewrite E; split; auto; fail).
  - unfold lk, view, sees. prj. rewrite E. rewrite get_to_slots. unfold own in Ho. rewrite E in Ho.
    destruct (gets x (slots f)) as [o|] eqn:Es; [|apply (get_None _ str_eqb_spec) in Es; contradiction].
    split; [intros w ->; auto|intros ->; auto].
  - rewrite (lk_own New f x); auto. intros _ X. discriminate.
Qed.
Lemma save_same v f : kd (save v f) = kd f /\ keys (slots (save v f)) = keys (slots f) /\ globs (save v f) = globs f /\ table (save v f) = table f.
Proof. unfold save. destruct (kd f) eqn:E, v; prj; auto. rewrite keys_to_slots. auto. Qed.

(** * Changing a variable *)
Lemma replace_plain new s : plain_text s -> replace (lit "@LINE@") new s = s.
Proof.
  unfold replace, plain_text. induction s as [|c s IH]; intros H; auto. cbn [replace_from].
  replace (starts_with (lit "@LINE@") (c :: s)) with false; [rewrite IH; auto; intros X; apply H; right; auto|].
  symmetry. change (lit "@LINE@") with (64%N :: lit "LINE@"). cbn [starts_with]. destruct (N.eqb_spec 64 c) as [<-|]; auto. exfalso. apply H. left. auto.
Qed.
Lemma sees_put_other v f x w y : y <> x -> sees (put v x w f) y = sees f y.
Proof.
  intros H. unfold sees, put. destruct (kd f) eqn:E, v; prj; rewrite ?E; auto; try (apply (get_set_other _ str_eqb_spec); auto).
  destruct (mem str_eqb x (slots f)); prj; rewrite E; auto. rewrite (get_set_other _ str_eqb_spec) by auto. reflexivity.
Qed.
Lemma put_sees v f x w y : wf v f -> fresh v f -> own f x -> own f y ->
  sees (save v (put v x w f)) y = if str_eqb y x then Some w else sees f y.
Proof.
  intros Hw Hf Hx Hy. destruct (put_same v x w f) as (K & S & _).
  assert (Ho : own (put v x w f) y) by (unfold own in *; rewrite K, S; auto).
  destruct (sees_save v (put v x w f) y (wf_put v x w f Hw) Ho) as [S1 S2]. rewrite lk_put in S1, S2 by auto.
  destruct (str_eqb_spec y x) as [->|Hne]; [apply S1; auto|]. destruct (lk v f y) as [z|] eqn:El.
  - rewrite (S1 z eq_refl). rewrite <- El. apply lk_own; auto.
  - rewrite S2 by auto. apply sees_put_other. auto.
Qed.
Lemma access_new f : access New f = f.
Proof. unfold access. destruct (kd f); reflexivity. Qed.
Lemma save_new f : save New f = f.
Proof. unfold save. destruct (kd f); reflexivity. Qed.
Lemma steady_view {W} (means : str -> ns -> ns -> W -> option N * W) v text f r w : wf v f -> steady means text f r ->
  exists w', means text (globs (access v f)) (view v (access v f)) w = (r, w').
Proof.
  intros Hw Hs. destruct (keys_access v f) as (_ & _ & ->). apply Hs. intros y Hy. fold (lk v (access v f) y).
  rewrite lk_own; [apply sees_access|apply wf_access; auto|apply fresh_access; auto|apply own_access; auto].
Qed.

(** What a change does to the frame: [x] has the value [w] and everything else is as before. *)
Definition only_changed (f f' : frame) (x : str) (w : N) : Prop :=
  sees f' x = Some w /\ (forall y, own f y -> y <> x -> sees f' y = sees f y) /\ (kd f <> Top -> globs f' = globs f) /\ kd f' = kd f /\ (forall y, own f' y <-> own f y).

(** The change of a variable of the frame: the code sees the value, which is also the answer, and nothing else changed. *)
Theorem change_variable : forall W (means : str -> ns -> ns -> W -> option N * W) hidden v f w sc name text x,
  wf v f -> own f name -> sc <> Some Globals -> plain_name name -> plain_text text -> steady means text f (Some x) ->
  exists f' w' r, set_variable means hidden v f w sc name text = (f', w', r) /\ only_changed f f' name x /\ wf v f' /\
    (hidden name = false -> r = Some x).
Proof.
  intros W means hidden v f w sc name text x Hw Ho Hsc Hn Ht Hs. unfold set_variable, change_attr. rewrite Hn, replace_plain by auto.
  replace (match sc with Some Globals => true | _ => false end) with false by (destruct sc as [[|]|]; congruence). cbn [orb]. cbv beta iota zeta.
  set (f1 := access v f). assert (W1 : wf v f1) by (apply wf_access; auto). assert (F1 : fresh v f1) by (apply fresh_access; auto).
  assert (O1 : forall y, own f1 y <-> own f y) by (intros y; apply own_access).
  assert (Gen : forall g, wf v g -> fresh v g -> (forall y, own g y <-> own f y) -> (forall y, sees g y = sees f y) -> kd g = kd f -> globs g = globs f ->
    only_changed f (access v (save v (put v name x g))) name x /\ wf v (save v (put v name x g)) /\
    lk v (access v (access v (save v (put v name x g)))) name = Some x).
  { intros g Wg Fg Og Sg Kg Gg. set (h := save v (put v name x g)). assert (Wh : wf v h) by (apply wf_save, wf_put; auto).
    destruct (put_same v name x g) as (K & S & G). destruct (save_same v (put v name x g)) as (K2 & S2 & G2 & _). fold h in K2, S2, G2.
    assert (Oh : forall y, own h y <-> own f y) by (intros y; rewrite <- Og; unfold own; rewrite K2, K, S2, S; tauto).
    assert (Hsee : forall y, own f y -> sees h y = if str_eqb y name then Some x else sees f y).
    { intros y Hy. unfold h. rewrite put_sees; auto; [rewrite Sg; auto|apply Og; auto|apply Og; auto]. }
    destruct (keys_access v h) as (_ & K3 & G3). split; [|split; auto].
    - split; [|split; [|split; [|split]]].
      + rewrite sees_access, Hsee by auto. destruct (str_eqb_spec name name); congruence.
      + intros y Hy Hne. rewrite sees_access, Hsee by auto. destruct (str_eqb_spec y name); congruence.
      + intros Ht'. rewrite G3, G2, G by congruence. auto.
      + congruence.
      + intros y. rewrite own_access. auto.
    - rewrite lk_own; [|apply wf_access, wf_access; auto|apply fresh_access, wf_access; auto|rewrite own_access, own_access; apply Oh; auto].
      rewrite !sees_access, Hsee by auto. destruct (str_eqb_spec name name); congruence. }
  assert (Same : forall g, (forall y, sees (access v g) y = sees g y) /\ kd (access v g) = kd g /\ globs (access v g) = globs g).
  { intros g. destruct (keys_access v g) as (_ & B & C). split; auto. intros y. apply sees_access. }
  destruct (steady_view means v text f (Some x) w Hw Hs) as (w1 & E1). fold f1 in E1. rewrite E1. destruct v.
  - destruct (Gen (access Old f1)) as (G1 & G2 & G3); auto.
    { apply wf_access; auto. } { apply fresh_access; auto. } { intros y. rewrite own_access. auto. }
    { intros y. unfold f1. rewrite !sees_access. auto. } { destruct (Same f1) as (_ & -> & _). apply (Same f). } { destruct (Same f1) as (_ & _ & ->). apply (Same f). }
    set (h := save Old (put Old name x (access Old f1))) in *. eexists _, _, _. split; [reflexivity|]. split; [|split].
    + destruct G1 as (A & B & C & D & E). split; [|split; [|split; [|split]]].
      * rewrite sees_access. auto.
      * intros y Hy Hne. rewrite sees_access. auto.
      * intros X. destruct (Same (access Old h)) as (_ & _ & ->). auto.
      * destruct (Same (access Old h)) as (_ & -> & _). auto.
      * intros y. rewrite own_access. auto.
    + apply wf_access, wf_access. auto.
    + intros ->. destruct sc as [[|]|]; [congruence| |]; exact G3.
  - destruct (steady_view means New text f (Some x) w1 Hw Hs) as (w2 & E2). fold f1 in E2. rewrite E2.
    destruct (Gen f1) as (G1 & G2 & G3); auto.
    { intros y. apply sees_access. } { apply (Same f). } { apply (Same f). }
    rewrite save_new in *. eexists _, _, _. split; [reflexivity|]. split; [auto|split].
    + apply wf_access. auto.
    + intros ->. rewrite access_new in G3. destruct sc as [[|]|]; [congruence| |]; exact G3.
Qed.

(** The change of a global variable. *)
Theorem change_global : forall W (means : str -> ns -> ns -> W -> option N * W) hidden v f w name text x,
  wf v f -> In name (keys (globs f)) -> plain_name name -> plain_text text -> steady means text f (Some x) ->
  exists f' w' r, set_variable means hidden v f w (Some Globals) name text = (f', w', r) /\
    global f' name = Some x /\ (forall y, y <> name -> global f' y = global f y) /\ (kd f <> Top -> forall y, sees f' y = sees f y) /\
    (hidden name = false -> r = Some x).
Proof.
  intros W means hidden v f w name text x Hw Hi Hn Ht Hs. unfold set_variable, change_attr. rewrite Hn, replace_plain by auto. cbn [orb]. cbv beta iota zeta.
  rewrite (proj2 (mem_In _ str_eqb_spec _ _) Hi). destruct (steady_view means v text f (Some x) w Hw Hs) as (w1 & E1). rewrite E1.
  eexists _, _, _. split; [reflexivity|]. set (g := with_globs _ _). destruct (keys_access v g) as (_ & K & G). unfold global. rewrite G. unfold g. prj.
  destruct (keys_access v f) as (_ & K2 & ->). split; [apply (get_set_same _ str_eqb_spec)|]. split; [intros y Hy; apply (get_set_other _ str_eqb_spec); auto|]. split.
  - intros Hk y. rewrite sees_access. rewrite <- (sees_access v f y). unfold sees. prj. rewrite K2. destruct (kd f); congruence.
  - intros ->. apply (get_set_same _ str_eqb_spec).
Qed.

(** When the expression raises, or there is no global of the name, nothing changes. *)
Theorem change_fails : forall W (means : str -> ns -> ns -> W -> option N * W) hidden v f w sc name text,
  wf v f -> plain_name name -> plain_text text -> (sc = Some Globals /\ ~ In name (keys (globs f)) \/ steady means text f None) ->
  exists f' w' r, set_variable means hidden v f w sc name text = (f', w', r) /\ (forall y, sees f' y = sees f y) /\ globs f' = globs f.
Proof.
  intros W means hidden v f w sc name text Hw Hn Ht Hs. unfold set_variable, change_attr. rewrite Hn, replace_plain by auto. cbn [orb]. cbv beta iota zeta.
  assert (Key : exists f' w', (if match sc with Some Globals => true | _ => false end then
      if mem str_eqb name (globs f) then
        match means text (globs (access v f)) (view v (access v f)) w with
        | (Some x, w0) => (with_globs (set str_eqb name x (globs (access v f))) (access v f), w0, Some x)
        | (None, w0) => (access v f, w0, None) end
      else (f, w, None)
    else match means text (globs (access v f)) (view v (access v f)) w with
        | (Some x, w0) =>
            match v with
            | Old => (access v (save v (put v name x (access v (access v f)))), w0, get str_eqb name (view v (access v (save v (put v name x (access v (access v f)))))))
            | New => match means text (globs (access v f)) (view v (access v f)) w0 with
                     | (Some y, w1) => (put v name y (access v f), w1, Some x) | (None, w1) => (access v f, w1, None) end
            end
        | (None, w0) => (access v f, w0, None) end) = (f', w', @None N) /\ (forall y, sees f' y = sees f y) /\ globs f' = globs f).
  { destruct (keys_access v f) as (_ & _ & G). destruct Hs as [[-> Hg] | Hs].
    - replace (mem str_eqb name (globs f)) with false; [eexists _, _; split; [reflexivity|auto]|].
      symmetry. destruct (mem str_eqb name (globs f)) eqn:E; auto. apply (mem_In _ str_eqb_spec) in E. contradiction.
    - destruct (steady_view means v text f None w Hw Hs) as (w1 & E1). rewrite E1.
      destruct (match sc with Some Globals => true | _ => false end); [destruct (mem str_eqb name (globs f))|];
        eexists _, _; (split; [reflexivity|]); split; auto; intros y; apply sees_access. }
  destruct Key as (f' & w' & E & S & G). rewrite E. eexists _, _, _. split; [reflexivity|]. split.
  - intros y. rewrite sees_access. auto.
  - destruct (keys_access v f') as (_ & _ & ->). auto.
Qed.

(** The command of the line protocol, when no part has a tab except between the names of the path. *)
Theorem change_read : forall thread frame scope path value,
  no_tab thread -> no_tab frame -> no_tab scope -> no_tab value ->
  read_change (fields [thread; frame; scope; path ++ 9%N :: value]) =
  Some (thread, frame, scope, map (fun c => if N.eqb c 9 then 46%N else c) path, value).
Proof.
  intros t f s p val Ht Hf Hs Hv. unfold read_change. rewrite (splitn_fields [t; f; s; p ++ 9%N :: val]);
    [|discriminate|repeat constructor; auto|right; reflexivity].
  replace (rsplit (p ++ 9%N :: val)) with (Some (p, val)); auto. symmetry. induction p as [|c p IH]; cbn [app rsplit].
  - replace (rsplit val) with (@None (str * str)); auto. symmetry. clear - Hv. induction val as [|c val IH]; auto. cbn [rsplit].
    rewrite IH by (intros X; apply Hv; right; auto). destruct (N.eqb_spec c tab) as [->|]; auto. exfalso. apply Hv. left. auto.
  - rewrite IH. reflexivity.
Qed.

Lemma NoDup_snoc {A} (m : list A) x : NoDup m -> ~ In x m -> NoDup (m ++ [x]).
Proof.
  induction 1 as [|y m Hy Hm IH]; intros Hx; cbn [app]; [repeat constructor; auto|]. constructor.
  - rewrite in_app_iff. intros [X|[<- | []]]; auto. apply Hx. left. auto.
  - apply IH. intros X. apply Hx. right. auto.
Qed.
(** An item of a set: the values of the set are those it had, with the new one instead of the old one. *)
Theorem change_set : forall hashable l name new l' r, NoDup (map snd l) -> change_item hashable l name new = (l', Some r) ->
  exists old, In (name, old) l /\ r = fst new /\ NoDup (map snd l') /\
    forall x, In x (map snd l') <-> x = snd new \/ In x (map snd l) /\ x <> old.
Proof.
  intros hashable l name new l' r Hn H. unfold change_item in H. destruct (hashable new); [|discriminate].
  destruct (find _ l) as [[i o]|] eqn:E; [|discriminate]. injection H as <- <-. apply find_some in E. destruct E as [Hi E]. cbn [fst] in E. apply N.eqb_eq in E. subst i.
  exists o. split; auto. split; auto. cbn [snd].
  assert (Hr : forall x, In x (map snd (remove_equal o l)) <-> In x (map snd l) /\ x <> o).
  { intros x. unfold remove_equal. rewrite !in_map_iff. split.
    - intros (j & <- & Hj). apply filter_In in Hj. destruct Hj as [Hj Hb]. apply negb_true_iff, N.eqb_neq in Hb. split; eauto.
    - intros ((j & <- & Hj) & Hne). exists j. split; auto. apply filter_In. split; auto. apply negb_true_iff, N.eqb_neq. auto. }
  assert (Hnr : NoDup (map snd (remove_equal o l))).
  { unfold remove_equal. clear - Hn. induction l as [|j l IH]; cbn [filter map]; auto. inversion Hn; subst. destruct (negb _); auto. cbn [map]. constructor; auto.
    intros X. apply H1. apply in_map_iff in X. destruct X as (k & <- & Hk). apply filter_In in Hk. apply in_map. tauto. }
  unfold add_item. destruct (existsb _ _) eqn:Ee.
  - split; auto. intros x. rewrite Hr. apply existsb_exists in Ee. destruct Ee as (j & Hj & Ej). apply N.eqb_eq in Ej. split; auto.
    intros [->|H]; auto. apply Hr. rewrite <- Ej. apply in_map. auto.
  - assert (Hnew : ~ In (snd new) (map snd (remove_equal o l))).
    { intros X. apply in_map_iff in X. destruct X as (j & Ej & Hj). assert (existsb (fun j => N.eqb (snd j) (snd new)) (remove_equal o l) = true); [|congruence].
      apply existsb_exists. exists j. split; auto. apply N.eqb_eq. auto. }
    rewrite map_app. cbn [map]. split.
    + apply NoDup_snoc; auto.
    + intros x. rewrite in_app_iff, Hr. cbn [In]. intuition.
Qed.

(** * Running code *)
Lemma get_update e : forall d x, NoDup (keys e) -> gets x (update d e) = match gets x e with Some v => Some v | None => gets x d end.
Proof.
  unfold update. induction e as [|[y v] e IH]; intros d x H; [reflexivity|]. cbn [fold_left fst snd]. cbn [keys map fst] in H. inversion H; subst.
  rewrite IH by auto. cbn [get]. destruct (str_eqb_spec x y) as [->|Hne].
  - replace (gets y e) with (@None N) by (symmetry; apply (get_None _ str_eqb_spec); auto). apply (get_set_same _ str_eqb_spec).
  - destruct (gets x e); auto. apply (get_set_other _ str_eqb_spec). auto.
Qed.
Lemma NoDup_update e : forall d, NoDup (keys d) -> NoDup (keys (update d e)).
Proof. unfold update. induction e as [|[y v] e IH]; intros d H; auto. cbn [fold_left fst snd]. apply IH. apply (NoDup_keys_set _ str_eqb_spec). auto. Qed.
Lemma keys_bound l x : In x (keys (bound l)) -> In x (keys l).
Proof.
  induction l as [|[y o] l IH]; intros H; auto. unfold bound in H. cbn [flat_map fst snd] in H. fold (bound l) in H. destruct o; cbn [app keys map fst In] in *; tauto.
Qed.
Lemma NoDup_view v f : wf v f -> NoDup (keys (view v f)).
Proof.
  intros (A & B & C & D). unfold view. destruct (kd f) eqn:E, v; auto. unfold keys. rewrite map_app.
  specialize (D eq_refl eq_refl). revert A D. generalize (slots f) as l. induction l as [|[y o] l IH]; intros A D; auto.
  cbn [keys map fst] in A. inversion A; subst. unfold bound. cbn [flat_map fst snd]. fold (bound l).
  assert (IH' : NoDup (map fst (bound l) ++ map fst (table f))) by (apply IH; auto; intros x Hx; apply D; right; auto).
  destruct o as [w|]; auto. cbn [app map fst]. constructor; auto. rewrite in_app_iff. intros [X|X].
  - apply keys_bound in X. contradiction.
  - apply (D y); [left; auto|auto].
Qed.
Lemma get_namespace v f x : wf v f -> gets x (namespace v f) =
  match lk v (access v f) x with Some a => Some a
  | None => match global f x with Some b => Some b | None => if str_eqb x (lit "globals") then Some globals_fn else None end end.
Proof.
  intros Hw. assert (Hb : forall y, gets y (update (update [] (globs f)) (view v (access v f))) =
    match lk v (access v f) y with Some a => Some a | None => global f y end).
  { intros y. rewrite get_update by (apply NoDup_view, wf_access; auto). unfold lk. destruct (gets y (view v (access v f))); auto.
    rewrite get_update by (destruct Hw; tauto). unfold global. destruct (gets y (globs f)); auto. }
  unfold namespace, with_globals_fn. unfold mem. rewrite (Hb (lit "globals")).
  destruct (match lk v (access v f) (lit "globals") with Some a => Some a | None => global f (lit "globals") end) as [z|] eqn:E.
  - rewrite Hb. destruct (lk v (access v f) x) eqn:E1; auto. destruct (global f x) eqn:E2; auto.
    destruct (str_eqb_spec x (lit "globals")) as [->|]; auto. rewrite E1, E2 in E. discriminate.
  - rewrite (get_set _ str_eqb_spec), Hb. destruct (str_eqb_spec x (lit "globals")) as [->|].
    + destruct (lk v (access v f) (lit "globals")); [discriminate|]. rewrite E. auto.
    + destruct (lk v (access v f) x); auto. destruct (global f x); auto.
Qed.
Lemma NoDup_namespace v f : NoDup (keys (namespace v f)).
Proof.
  unfold namespace, with_globals_fn. assert (H : NoDup (keys (update (update [] (globs f)) (view v (access v f))))) by (apply NoDup_update, NoDup_update; constructor).
  destruct (mem _ _ _); auto. apply (NoDup_keys_set _ str_eqb_spec). auto.
Qed.

Lemma wf_drop v x f : wf v f -> wf v (drop v x f).
Proof.
  intros (A & B & C & D). unfold drop, wf. destruct (kd f) eqn:E, v; prj; rewrite ?E;
    try (repeat split; auto; try (apply NoDup_keys_del; auto); intros; discriminate).
  destruct (gets x (slots f)) as [[w|]|] eqn:Es; prj; rewrite ?E.
  - assert (Hi : In x (keys (slots f))) by (apply (mem_In _ str_eqb_spec); unfold mem; rewrite Es; auto). rewrite (keys_set_in x (Some none)) by auto. repeat split; auto.
  - repeat split; auto; [apply NoDup_keys_del; auto|]. intros _ _ y Hy X. apply keys_del_incl in X. apply (D eq_refl eq_refl y); auto.
  - repeat split; auto; [apply NoDup_keys_del; auto|]. intros _ _ y Hy X. apply keys_del_incl in X. apply (D eq_refl eq_refl y); auto.
Qed.
Lemma drop_same v x f : kd (drop v x f) = kd f /\ keys (slots (drop v x f)) = keys (slots f) /\ (kd f <> Top -> globs (drop v x f) = globs f).
Proof.
  unfold drop. destruct (kd f) eqn:E, v; prj; repeat split; auto; try congruence; destruct (gets x (slots f)) as [[w|]|] eqn:Es; prj; auto.
  apply keys_set_in. apply (mem_In _ str_eqb_spec). unfold mem. rewrite Es. auto.
Qed.
Lemma lk_drop_other v x f y : wf v f -> y <> x -> lk v (drop v x f) y = lk v f y /\ sees (drop v x f) y = sees f y.
Proof.
  intros (A & B & C & D) Hne. unfold lk, view, drop, sees. destruct (kd f) eqn:E, v; prj; rewrite ?E; rewrite ?(get_del_other _ str_eqb_spec) by auto; auto.
  destruct (gets x (slots f)) as [[w|]|] eqn:Es; prj; rewrite E.
  - assert (Hi : In x (keys (slots f))) by (apply (mem_In _ str_eqb_spec); unfold mem; rewrite Es; auto).
    rewrite !get_bound, !get_bound_slots; auto; [|rewrite (keys_set_in x (Some none)); auto]. rewrite (get_set_other _ str_eqb_spec) by auto. auto.
  - rewrite !get_bound, !get_bound_slots by auto. rewrite (get_del_other _ str_eqb_spec) by auto. auto.
  - rewrite !get_bound, !get_bound_slots by auto. rewrite (get_del_other _ str_eqb_spec) by auto. auto.
Qed.
Lemma drops_spec v rs : forall f, wf v f -> let f' := fold_left (fun f x => drop v x f) rs f in
  wf v f' /\ kd f' = kd f /\ keys (slots f') = keys (slots f) /\ (kd f <> Top -> globs f' = globs f) /\
  (forall y, ~ In y rs -> lk v f' y = lk v f y /\ sees f' y = sees f y) /\ (kd f = Top -> forall y, In y rs -> global f' y = None).
Proof.
  induction rs as [|x rs IH]; intros f Hw; cbn [fold_left]; cbn zeta; [split; [auto|]; split; [auto|]; split; [auto|]; split; [auto|]; split; [auto|intros _ y []]|].
  destruct (drop_same v x f) as (K & S & G). destruct (IH (drop v x f) (wf_drop v x f Hw)) as (A & B & C & D & E & F). cbn zeta in *.
  rewrite K in B. rewrite S in C. split; auto. split; auto. split; auto. split; [intros X; rewrite D by congruence; auto|]. split.
  - intros y Hy. destruct (E y) as [E1 E2]; [intros X; apply Hy; right; auto|]. rewrite E1, E2. apply lk_drop_other; auto. intros ->. apply Hy. left. auto.
  - intros Ht y Hy. destruct (in_dec str_eq_dec y rs) as [Hr|Hr]; [apply F; congruence|]. destruct Hy as [<- | Hy]; [|contradiction].
    destruct (E x Hr) as [E1 _]. unfold lk, view in E1. rewrite B, K, Ht in E1. unfold global. rewrite E1. unfold drop. rewrite Ht. prj.
    apply (get_del_same _ str_eqb_spec). destruct Hw; tauto.
Qed.
Lemma puts_spec v cs : forall f, wf v f -> NoDup (keys cs) -> let f' := fold_left (fun f x => put v (fst x) (snd x) f) cs f in
  wf v f' /\ kd f' = kd f /\ keys (slots f') = keys (slots f) /\ (kd f <> Top -> globs f' = globs f) /\
  (forall y, lk v f' y = match gets y cs with Some w => Some w | None => lk v f y end) /\ (forall y, gets y cs = None -> sees f' y = sees f y).
Proof.
  induction cs as [|[x w] cs IH]; intros f Hw Hn; cbn [fold_left fst snd]; cbn zeta; [split; [auto|]; split; [auto|]; split; [auto|]; split; [auto|]; split; [auto|auto]|].
  cbn [keys map fst] in Hn. inversion Hn; subst. destruct (put_same v x w f) as (K & S & G).
  destruct (IH (put v x w f) (wf_put v x w f Hw) ltac:(auto)) as (A & B & C & D & E & F). cbn zeta in *.
  rewrite K in B. rewrite S in C. split; auto. split; auto. split; auto. split; [intros X; rewrite D by congruence; auto|]. cbn [get]. split.
  - intros y. rewrite E, lk_put by auto. destruct (str_eqb_spec y x) as [Hyx|]; auto. subst y. replace (gets x cs) with (@None N); auto.
    symmetry. apply (get_None _ str_eqb_spec). auto.
  - intros y Hy. destruct (str_eqb_spec y x); [discriminate|]. rewrite F by auto. apply sees_put_other. auto.
Qed.

Lemma get_changes after before x : NoDup (keys after) ->
  gets x (changes after before) = match gets x after with Some w => if same (Some w) (gets x before) then None else Some w | None => None end.
Proof.
  induction after as [|[y w] l IH]; intros H; [reflexivity|]. cbn [keys map fst] in H. inversion H; subst. unfold changes. cbn [filter fst snd].
  fold (changes l before). cbn [get]. destruct (str_eqb_spec x y) as [->|Hne].
  - destruct (same (Some w) (gets y before)); cbn [negb].
    + rewrite IH by auto. replace (gets y l) with (@None N); auto. symmetry. apply (get_None _ str_eqb_spec). auto.
    + cbn [get]. destruct (str_eqb_spec y y); congruence.
  - destruct (negb _); auto. cbn [get]. destruct (str_eqb_spec x y); [congruence|auto].
Qed.
Lemma NoDup_changes after before : NoDup (keys after) -> NoDup (keys (changes after before)).
Proof.
  intros H. unfold changes. induction after as [|[y w] l IH]; [constructor|]. cbn [keys map fst] in H. inversion H; subst. cbn [filter].
  destruct (negb _); auto. cbn [keys map fst]. constructor; auto. intros X. apply in_map_iff in X. destruct X as (z & <- & Hz). apply filter_In in Hz.
  apply H2. apply in_map. tauto.
Qed.
Lemma In_removed after before x : In x (removed after before) <-> gets x after = None /\ gets x before <> None.
Proof.
  unfold removed. rewrite filter_In. unfold mem. rewrite (get_None _ str_eqb_spec x before). split.
  - intros [H1 H2]. destruct (gets x after); [discriminate|]. auto.
  - intros [H1 H2]. rewrite H1. split; auto. destruct (in_dec str_eq_dec x (keys before)); tauto.
Qed.
Lemma same_spec a b : same a b = true <-> a = b.
Proof. destruct a as [x|], b as [y|]; cbn; split; try congruence; try (intros H; apply N.eqb_eq in H; congruence). intros H. injection H as ->. apply N.eqb_refl. Qed.

(** What the update of a frame does, name by name. *)
Definition touched (after before : ns) (x : str) : Prop := gets x after <> gets x before.
Lemma update_spec v after before f : wf v f -> fresh v f -> NoDup (keys after) -> let f' := update_frame v after before f in
  wf v f' /\ kd f' = kd f /\ keys (slots f') = keys (slots f) /\ (kd f <> Top -> globs f' = globs f) /\
  (forall x w, gets x after = Some w -> gets x before <> Some w -> lk v (access v f') x = Some w /\ (own f x -> sees f' x = Some w)) /\
  (forall x, gets x after = gets x before -> lk v (access v f') x = lk v f x /\ (own f x -> sees f' x = sees f x)) /\
  (kd f = Top -> forall x, gets x after = None -> gets x before <> None -> global f' x = None).
Proof.
  intros Hw Hf Hn. cbn zeta.
  assert (Hacc : forall x, lk v (access v f) x = lk v f x).
  { intros x. unfold access. destruct (kd f) eqn:E, v; auto. unfold lk, view. prj. rewrite E. destruct Hw as (A & B & _). rewrite get_to_table by auto.
    destruct (gets x (slots f)) as [o|] eqn:Es; auto. symmetry. apply Hf; auto. }
  set (cs := changes after before). set (rs := removed after before).
  assert (Hmain : let f3 := fold_left (fun f x => drop v x f) rs (fold_left (fun f x => put v (fst x) (snd x) f) cs (access v f)) in
    let f' := save v f3 in
    wf v f' /\ kd f' = kd f /\ keys (slots f') = keys (slots f) /\ (kd f <> Top -> globs f' = globs f) /\
    (forall x w, gets x after = Some w -> gets x before <> Some w -> lk v (access v f') x = Some w /\ (own f x -> sees f' x = Some w)) /\
    (forall x, gets x after = gets x before -> lk v (access v f') x = lk v f x /\ (own f x -> sees f' x = sees f x)) /\
    (kd f = Top -> forall x, gets x after = None -> gets x before <> None -> global f' x = None)).
  { cbn zeta. destruct (keys_access v f) as (S0 & K0 & G0).
    destruct (puts_spec v cs (access v f) (wf_access v f Hw) (NoDup_changes after before Hn)) as (W1 & K1 & S1 & G1 & L1 & E1). cbn zeta in *.
    set (f2 := fold_left (fun f x => put v (fst x) (snd x) f) cs (access v f)) in *.
    destruct (drops_spec v rs f2 W1) as (W2 & K2 & S2 & G2 & L2 & T2). cbn zeta in *. set (f3 := fold_left (fun f x => drop v x f) rs f2) in *.
    destruct (save_same v f3) as (K3 & S3 & G3 & T3). assert (W3 : wf v (save v f3)) by (apply wf_save; auto).
    assert (Hk : kd f3 = kd f) by congruence. assert (Hs : keys (slots f3) = keys (slots f)) by congruence.
    assert (Hown : forall x, own f x -> own f3 x) by (intros x Hx; unfold own in *; rewrite Hk, Hs; auto).
    assert (Hfin : forall x, (forall w, lk v f3 x = Some w -> lk v (access v (save v f3)) x = Some w) /\
        (lk v f3 x = None -> sees f3 x = lk v f x -> lk v f x = None -> lk v (access v (save v f3)) x = None)).
    { intros x. destruct (kd f) eqn:E.
      - destruct (in_dec str_eq_dec x (keys (slots f))) as [Hi|Hi].
        + assert (Ho : own f3 x) by (apply Hown; unfold own; rewrite E; auto). destruct (sees_save v f3 x W2 Ho) as [A1 A2].
          assert (Hl : lk v (access v (save v f3)) x = sees (save v f3) x).
          { rewrite lk_own; [apply sees_access|apply wf_access; auto|apply fresh_access; auto|]. apply own_access. unfold own. rewrite K3, Hk, S3, Hs. auto. }
          rewrite Hl. split; auto. intros B1 B2 B3. rewrite A2 by auto. congruence.
        + assert (Hl : lk v (access v (save v f3)) x = lk v f3 x).
          { destruct v.
            - unfold lk, view, access. rewrite K3, Hk. prj. rewrite K3, Hk. destruct W3 as (X1 & X2 & _). rewrite get_to_table by auto. rewrite T3.
              replace (gets x (slots (save Old f3))) with (@None (option N)); auto. symmetry. apply (get_None _ str_eqb_spec). rewrite S3, Hs. auto.
            - rewrite access_new, save_new. auto. }
          rewrite Hl. split; auto.
      - assert (Hl : lk v (access v (save v f3)) x = lk v f3 x) by (unfold lk, view, access; rewrite K3, Hk; destruct v; rewrite K3, Hk, G3; auto). rewrite Hl. split; auto.
      - assert (Hl : lk v (access v (save v f3)) x = lk v f3 x) by (unfold lk, view, access; rewrite K3, Hk; destruct v; rewrite K3, Hk, T3; auto). rewrite Hl. split; auto. }
    split; auto. split; [congruence|]. split; [congruence|]. split; [intros X; rewrite G3, G2, G1 by congruence; auto|]. split; [|split].
    - intros x w Ha Hb. assert (Hc : gets x cs = Some w).
      { unfold cs. rewrite get_changes by auto. rewrite Ha. destruct (same (Some w) (gets x before)) eqn:Es; auto. apply same_spec in Es. congruence. }
      assert (Hl : lk v f3 x = Some w).
      { destruct (L2 x) as [-> _]; [intros X; apply In_removed in X; destruct X; congruence|]. rewrite L1, Hc. auto. }
      split; [apply Hfin; auto|]. intros Ho. apply (sees_save v f3 x W2 (Hown x Ho)). auto.
    - intros x He. assert (Hc : gets x cs = None).
      { unfold cs. rewrite get_changes by auto. destruct (gets x after) as [w|]; auto. rewrite <- He. replace (same (Some w) (Some w)) with true; auto.
        symmetry. apply same_spec. auto. }
      assert (Hr : ~ In x rs) by (intros X; apply In_removed in X; destruct X; congruence). destruct (L2 x Hr) as [B1 B2]. rewrite L1, Hc, Hacc in B1.
      rewrite E1, sees_access in B2 by auto. destruct (lk v f x) as [w|] eqn:El.
      + split; [apply Hfin; auto|]. intros Ho. destruct (sees_save v f3 x W2 (Hown x Ho)) as [A1 _]. rewrite (A1 w) by auto. rewrite <- El. apply lk_own; auto.
      + split.
        * destruct (kd f) eqn:Ek; [destruct (in_dec str_eq_dec x (keys (slots f))) as [Hi|Hi]|..].
          -- apply Hfin; auto. rewrite B2, El. assert (Ho : own f x) by (unfold own; rewrite Ek; auto). rewrite <- (lk_own v f x Hw Hf Ho). auto.
          -- apply Hfin; auto. rewrite B2, El. unfold sees. rewrite Ek. replace (gets x (slots f)) with (@None (option N)); auto.
             symmetry. apply (get_None _ str_eqb_spec). auto.
          -- apply Hfin; auto. rewrite B2, El. unfold lk, view in El. unfold sees. rewrite Ek in *. auto.
          -- apply Hfin; auto. rewrite B2, El. unfold lk, view in El. unfold sees. rewrite Ek in *. auto.
        * intros Ho. destruct (sees_save v f3 x W2 (Hown x Ho)) as [_ A2]. rewrite A2 by auto. auto.
    - intros Ht x Ha Hb. unfold global. rewrite G3. apply T2; [congruence|]. apply In_removed. auto. }
  unfold update_frame. fold cs rs. destruct cs as [|c cs'] eqn:Ec; [destruct rs as [|r rs'] eqn:Er|]; try exact Hmain.
  assert (Hno : forall x, gets x after = gets x before).
  { intros x. pose proof (get_changes after before x Hn) as H1. fold cs in H1. rewrite Ec in H1. cbn [get] in H1. destruct (gets x after) as [w|] eqn:Ea.
    - destruct (same (Some w) (gets x before)) eqn:Es; [apply same_spec in Es; auto|discriminate].
    - destruct (gets x before) as [w|] eqn:Eb; auto. assert (Hi : In x rs) by (apply In_removed; rewrite Ea, Eb; split; congruence). rewrite Er in Hi. destruct Hi. }
  split; auto. split; auto. split; auto. split; auto. split; [|split].
  - intros x w Ha Hb. rewrite Hno in Ha. congruence.
  - intros x _. split; auto.
  - intros _ x Ha Hb. rewrite Hno in Ha. congruence.
Qed.

(** The code ran and its effects are kept: statements in the console, also when they raise after some of them, or an expression which gives
    a value.  [after]: the namespace it left. *)
Definition kept (v : version) (is_exec : bool) (p : prog) (f : frame) (after : ns) : Prop :=
  is_expr p = negb is_exec /\ NoDup (keys after) /\ exists r, run p (namespace v f) = (after, r) /\ (is_exec = false -> r <> None).
Lemma evaluate_kept v is_exec p f after : kept v is_exec p f after -> fst (evaluate v is_exec p f) = update_frame v after (namespace v f) (access v f).
Proof.
  intros (A & B & r & C & D). unfold evaluate. rewrite C, A. destruct is_exec; cbn [negb fst]; auto. destruct r; auto. exfalso. apply D; auto.
Qed.
Lemma kept_spec v is_exec p f after : wf v f -> kept v is_exec p f after -> let f' := fst (evaluate v is_exec p f) in
  wf v f' /\ kd f' = kd f /\ keys (slots f') = keys (slots f) /\ (kd f <> Top -> globs f' = globs f) /\
  (forall x w, gets x after = Some w -> gets x (namespace v f) <> Some w -> lk v (access v f') x = Some w /\ (own f x -> sees f' x = Some w)) /\
  (forall x, gets x after = gets x (namespace v f) -> lk v (access v f') x = lk v (access v f) x /\ (own f x -> sees f' x = sees f x)) /\
  (kd f = Top -> forall x, gets x after = None -> gets x (namespace v f) <> None -> global f' x = None).
Proof.
  intros Hw Hk. cbn zeta. rewrite (evaluate_kept _ _ _ _ _ Hk). destruct Hk as (_ & Hn & _).
  destruct (update_spec v after (namespace v f) (access v f) (wf_access v f Hw) (fresh_access v f Hw) Hn) as (A & B & C & D & E & F & G). cbn zeta in *.
  destruct (keys_access v f) as (S & K & Gl). rewrite K in *. rewrite S in *. rewrite Gl in *. split; auto. split; auto. split; auto. split; auto. split; [|split; auto].
  - intros x w H1 H2. destruct (E x w H1 H2). split; auto. rewrite own_access in *. auto.
  - intros x H1. destruct (F x H1) as [F1 F2]. rewrite own_access, sees_access in F2. auto.
Qed.
Lemma namespace_own v f x w : wf v f -> own f x -> sees f x = Some w -> gets x (namespace v f) = Some w.
Proof.
  intros Hw Ho Hs. rewrite get_namespace by auto. rewrite lk_own, sees_access, Hs; auto; [apply wf_access; auto|apply fresh_access; auto|apply own_access; auto].
Qed.

(** What the code assigned to a variable is what the program sees in it, and the next variables it does not assign are as before; the
    globals do not change, unless they are the variables of the frame. *)
Theorem console_sees : forall v is_exec p f after, wf v f -> kept v is_exec p f after ->
  let f' := fst (evaluate v is_exec p f) in
  (forall x w, own f x -> get str_eqb x after = Some w -> (sees f x <> None \/ get str_eqb x (namespace v f) <> Some w) -> sees f' x = Some w) /\
  (forall x, own f x -> get str_eqb x after = get str_eqb x (namespace v f) -> sees f' x = sees f x) /\
  (kd f <> Top -> globs f' = globs f) /\ kd f' = kd f /\ keys (slots f') = keys (slots f) /\ wf v f'.
Proof.
  intros v is_exec p f after Hw Hk. cbn zeta. destruct (kept_spec v is_exec p f after Hw Hk) as (A & B & C & D & E & F & G). cbn zeta in *.
  split; [|split; [|auto]].
  - intros x w Ho Ha Hb. destruct (same (gets x (namespace v f)) (Some w)) eqn:Es.
    + apply same_spec in Es. destruct Hb as [Hb|Hb]; [|congruence]. destruct (F x ltac:(congruence)) as [_ F2]. rewrite F2 by auto.
      destruct (sees f x) as [u|] eqn:Eu; [|congruence]. rewrite (namespace_own v f x u Hw Ho Eu) in Es. auto.
    + apply E; auto. intros X. rewrite X in Es. destruct (same_spec (Some w) (Some w)) as [_ Y]. rewrite Y in Es; congruence.
  - intros x Ho He. apply F; auto.
Qed.

Lemma kept_next v is_exec p f after x : wf v f -> kept v is_exec p f after ->
  (get str_eqb x after <> None \/ get str_eqb x (namespace v f) = None) ->
  get str_eqb x (namespace v (fst (evaluate v is_exec p f))) = get str_eqb x after.
Proof.
  intros Hw Hk Hx. destruct (kept_spec v is_exec p f after Hw Hk) as (A & B & C & D & E & F & G). cbn zeta in *.
  set (f' := fst (evaluate v is_exec p f)) in *.
  assert (Hsame : gets x after = gets x (namespace v f) -> gets x (namespace v f') = gets x after).
  { intros He. rewrite He, !get_namespace by auto. destruct (F x He) as [F1 _]. rewrite F1.
    destruct (lk v (access v f) x) as [u|] eqn:El; auto. replace (global f' x) with (global f x); auto. unfold global.
    destruct (kd f) eqn:Ek; [rewrite D by congruence; auto| |rewrite D by congruence; auto].
    assert (X : forall g, kd g = Top -> lk v (access v g) x = gets x (globs g)).
    { intros g Hg. unfold lk, view, access. rewrite Hg. destruct v; rewrite Hg; auto. }
    rewrite <- (X f), <- (X f') by congruence. congruence. }
  destruct (gets x after) as [w|] eqn:Ea.
  - destruct (same (gets x (namespace v f)) (Some w)) eqn:Es.
    + apply same_spec in Es. apply Hsame. congruence.
    + rewrite get_namespace by auto. destruct (E x w Ea) as [-> _]; auto. intros X. rewrite X in Es. destruct (same_spec (Some w) (Some w)) as [_ Y]. rewrite Y in Es; congruence.
  - destruct Hx as [Hx|Hx]; [congruence|]. apply Hsame. congruence.
Qed.
(** The next evaluation finds each name as the code left it, whatever kind of variable it is. *)
Theorem console_next : forall v is_exec p f after x w, wf v f -> kept v is_exec p f after -> get str_eqb x after = Some w ->
  get str_eqb x (namespace v (fst (evaluate v is_exec p f))) = Some w.
Proof. intros v is_exec p f after x w Hw Hk Ha. rewrite (kept_next v is_exec p f after x); auto. left. congruence. Qed.

(** In a module the globals are exactly what the code left, deletions included; the name globals is the debugger's unless the module has
    it. *)
Theorem console_module : forall v is_exec p f after x, wf v f -> kd f = Top -> kept v is_exec p f after -> x <> lit "globals" ->
  global (fst (evaluate v is_exec p f)) x = get str_eqb x after.
Proof.
  intros v is_exec p f after x Hw Ht Hk Hx. destruct (kept_spec v is_exec p f after Hw Hk) as (A & B & C & D & E & F & G). cbn zeta in *.
  set (f' := fst (evaluate v is_exec p f)) in *.
  assert (Hn : gets x (namespace v f) = global f x).
  { rewrite get_namespace by auto. unfold lk, view, access. rewrite Ht. destruct (str_eqb_spec x (lit "globals")); [congruence|]. unfold global. destruct v; rewrite Ht; destruct (gets x (globs f)); auto. }
  assert (Hs : forall g, kd g = Top -> sees g x = global g x) by (intros g Hg; unfold sees; rewrite Hg; auto).
  assert (Ho : own f x) by (unfold own; rewrite Ht; auto). destruct (gets x after) as [w|] eqn:Ea.
  - destruct (same (gets x (namespace v f)) (Some w)) eqn:Es.
    + apply same_spec in Es. destruct (F x ltac:(congruence)) as [_ F2]. rewrite <- Hs, F2, Hs by (auto; congruence). congruence.
    + rewrite <- Hs by congruence. apply E; auto. intros X. rewrite X in Es. destruct (same_spec (Some w) (Some w)) as [_ Y]. rewrite Y in Es; congruence.
  - destruct (gets x (namespace v f)) as [u|] eqn:Eu; [apply G; auto; congruence|].
    destruct (F x ltac:(congruence)) as [_ F2]. rewrite <- Hs, F2, Hs by (auto; congruence). auto.
Qed.

(** An expression gives its value; what is not an expression, or raises, gives none and changes nothing. *)
Theorem console_expression : forall v p f, wf v f ->
  (is_expr p = true -> snd (evaluate v false p f) = snd (run p (namespace v f))) /\
  ((is_expr p = false \/ snd (run p (namespace v f)) = None) ->
     snd (evaluate v false p f) = None /\ (forall x, sees (fst (evaluate v false p f)) x = sees f x) /\ globs (fst (evaluate v false p f)) = globs f /\
     forall x, own f x -> get str_eqb x (namespace v (fst (evaluate v false p f))) = get str_eqb x (namespace v f)).
Proof.
  intros v p f Hw. destruct (keys_access v f) as (S & K & G). unfold evaluate. destruct (run p (namespace v f)) as [after r] eqn:E. cbn [fst snd]. split.
  - intros ->. destruct r; auto.
  - assert (Hall : forall x, own f x -> gets x (namespace v (access v f)) = gets x (namespace v f)).
    { intros x Ho. rewrite !get_namespace by (auto; apply wf_access; auto). unfold global. rewrite G.
      rewrite !lk_own; auto; try (apply fresh_access; auto; apply wf_access; auto); try (rewrite !own_access; auto); try (apply wf_access; auto).
      rewrite !sees_access. auto. apply wf_access; auto. }
    intros [-> | ->].
    + cbn [negb fst snd]. repeat split; auto. intros x. apply sees_access.
    + destruct (is_expr p); cbn [negb fst snd]; repeat split; auto; intros x; apply sees_access.
Qed.

(** Code which depends on the values of the names only, removes no name, and gives a value if it is an expression. *)
Definition decent (is_exec : bool) (p : prog) : Prop :=
  is_expr p = negb is_exec /\
  (forall d e, (forall x, get str_eqb x d = get str_eqb x e) -> forall x, get str_eqb x (fst (run p d)) = get str_eqb x (fst (run p e))) /\
  (forall d, NoDup (keys d) -> NoDup (keys (fst (run p d)))) /\
  (forall d x, get str_eqb x d <> None -> get str_eqb x (fst (run p d)) <> None) /\
  (is_exec = false -> forall d, snd (run p d) <> None).
(** One evaluation after the other is the same as running them one after the other in one namespace. *)
Theorem console_session : forall v is_exec ps f, wf v f -> Forall (decent is_exec) ps -> forall x,
  get str_eqb x (namespace v (session v is_exec ps f)) = get str_eqb x (fold_left (fun d p => fst (run p d)) ps (namespace v f)).
Proof.
  intros v is_exec ps. assert (H : forall f d, wf v f -> Forall (decent is_exec) ps -> (forall x, gets x (namespace v f) = gets x d) -> forall x,
    gets x (namespace v (session v is_exec ps f)) = gets x (fold_left (fun d p => fst (run p d)) ps d)).
  { induction ps as [|p ps IH]; intros f d Hw Hp Hd; [exact Hd|]. inversion Hp; subst. unfold session. cbn [fold_left].
    destruct H1 as (D1 & D2 & D3 & D4 & D5). destruct (run p (namespace v f)) as [after r] eqn:E.
    assert (Hk : kept v is_exec p f after).
    { split; auto. split; [replace after with (fst (run p (namespace v f))) by (rewrite E; auto); apply D3, NoDup_namespace|]. exists r. split; auto.
      intros X. specialize (D5 X (namespace v f)). rewrite E in D5. auto. }
    apply IH; auto.
    - destruct (kept_spec v is_exec p f after Hw Hk); auto.
    - intros x. rewrite (kept_next v is_exec p f after x Hw Hk).
      + rewrite <- (D2 (namespace v f) d Hd x), E. auto.
      + destruct (gets x (namespace v f)) as [u|] eqn:Eu; auto. left. replace after with (fst (run p (namespace v f))) by (rewrite E; auto). apply D4. congruence. }
  intros f Hw Hp. apply H; auto.
Qed.

(** * Findings *)
Definition const {W} (r : option N) : str -> ns -> ns -> W -> option N * W := fun _ _ _ w => (r, w).
Lemma const_steady W (text : str) f r : steady (@const W r) text f r.
Proof. intros l w _. exists w. reflexivity. Qed.
Definition ex_fun : frame := Frame Fun [(lit "a", Some 5%N); (lit "b", None)] [] [(lit "x", 7%N); (lit "b", 8%N)].
Definition ex_module : frame := Frame Top [] [] [(lit "x", 7%N); (lit "y", 8%N)].
Ltac nodup := repeat (constructor; [cbn; intuition discriminate|]); constructor.
Lemma ex_fun_wf v : wf v ex_fun.
Proof. repeat split; try (cbn; nodup). intros _ _ x _ []. Qed.
Lemma ex_module_wf v : wf v ex_module.
Proof. repeat split; try (cbn; nodup). intros _ _ x _ []. Qed.

(** A variable whose name starts with Globals is taken for the global with the rest of the name. *)
Theorem change_prefix_refuted : forall v, exists f name, wf v f /\ own f name /\
  (let '(f', _, r) := set_variable (W:=unit) (const (Some 9%N)) (fun _ => false) v f tt (Some Locals) name (lit "9") in
   sees f' name = sees f name /\ sees f name = Some 5%N /\ globs f' <> globs f).
Proof.
  intros v. exists (Frame Fun [(lit "Globals_x", Some 5%N)] [] [(lit "x", 7%N)]), (lit "Globals_x"). split; [|split; [left; reflexivity|]].
  - repeat split; try (cbn; nodup). intros _ _ x _ [].
  - destruct v; vm_compute; repeat split; discriminate.
Qed.
(** When the expression raises the answer has the old value: it is not told from a change to it. *)
Theorem change_failure_shown_refuted : forall v, exists f name text, wf v f /\ own f name /\ steady (W:=unit) (const None) text f None /\
  exists old, sees f name = Some old /\ snd (set_variable (W:=unit) (const None) (fun _ => false) v f tt (Some Locals) name text) = Some old.
Proof.
  intros v. exists ex_fun, (lit "a"), (lit "1/0"). split; [apply ex_fun_wf|]. split; [left; reflexivity|]. split; [apply const_steady|].
  exists 5%N. split; [reflexivity|]. destruct v; reflexivity.
Qed.
(** From Python 3.13 on the expression is evaluated twice, and the value given is the first one while the variable has the second one; a
    value which is given is not used. *)
Theorem change_twice_refuted : exists (means : str -> ns -> ns -> N -> option N * N) f name text, wf New f /\ own f name /\
  (let '(f', w', r) := change_attr means New f 20%N (Some Locals) name text None in w' = 22%N /\ r = Some 20%N /\ sees f' name = Some 21%N) /\
  (let '(f', w', r) := change_attr means New f 20%N (Some Locals) name text (Some 9%N) in r = Some 9%N /\ sees f' name = Some 20%N).
Proof.
  exists (fun _ _ _ w => (Some w, (w + 1)%N)), ex_fun, (lit "a"), (lit "next(it)"). split; [apply ex_fun_wf|]. split; [left; reflexivity|].
  split; vm_compute; auto.
Qed.
(** Up to Python 3.12 it is evaluated once. *)
Theorem change_once : forall W (means : str -> ns -> ns -> W -> option N * W) f w sc name text f' w' r, wf Old f -> plain_name name -> plain_text text -> sc <> Some Globals ->
  own f name -> change_attr means Old f w sc name text None = (f', w', Some r) ->
  exists l, (forall y, own f y -> get str_eqb y l = sees f y) /\ means text (globs f) l w = (Some r, w') /\ sees f' name = Some r.
Proof.
  intros W means f w sc name text f' w' r Hw Hn Ht Hsc Ho H. unfold change_attr in H. rewrite Hn, replace_plain in H by auto.
  replace (match sc with Some Globals => true | _ => false end) with false in H by (destruct sc as [[|]|]; congruence). cbn [orb] in H. cbv beta iota zeta in H.
  destruct (keys_access Old f) as (S & K & G). destruct (means text (globs (access Old f)) (view Old (access Old f)) w) as [[x|] w1] eqn:E; [|discriminate].
  injection H as <- <- Hr. assert (W1 : wf Old (access Old f)) by (apply wf_access; auto).
  set (g := access Old (access Old f)) in *. assert (Wg : wf Old g) by (apply wf_access; auto). assert (Fg : fresh Old g) by (apply fresh_access; auto).
  assert (Og : own g name) by (unfold g; rewrite !own_access; auto). set (h := save Old (put Old name x g)) in *. assert (Wh : wf Old h) by (apply wf_save, wf_put; auto).
  assert (Hs : sees h name = Some x) by (unfold h; rewrite put_sees by auto; destruct (str_eqb_spec name name); congruence).
  assert (Oh : own h name).
  { destruct (put_same Old name x g) as (K1 & S1 & _). destruct (save_same Old (put Old name x g)) as (K2 & S2 & _). fold h in K2, S2.
    unfold own in *. rewrite K2, K1, S2, S1. auto. }
  fold (lk Old (access Old h) name) in Hr. rewrite lk_own in Hr; [|apply wf_access; auto|apply fresh_access; auto|apply own_access; auto].
  rewrite sees_access in *. rewrite Hs in Hr. injection Hr as <-. exists (view Old (access Old f)). split; [|split; auto; rewrite <- G; auto].
  intros y Hy. fold (lk Old (access Old f) y). rewrite lk_own; [apply sees_access|auto|apply fresh_access; auto|apply own_access; auto].
Qed.
(** A variable which is grouped or hidden is changed, and the answer is that it failed. *)
Theorem change_hidden_refuted : forall v, exists f name hidden, wf v f /\ own f name /\
  (let '(f', _, r) := set_variable (W:=unit) (const (Some 9%N)) hidden v f tt (Some Locals) name (lit "9") in sees f' name = Some 9%N /\ r = None).
Proof.
  intros v. exists ex_fun, (lit "a"), (fun x => str_eqb x (lit "a")). split; [apply ex_fun_wf|]. split; [left; reflexivity|]. destruct v; vm_compute; auto.
Qed.
(** The mark of a line in the value is replaced, also inside a string. *)
Theorem change_line_refuted : forall v, exists (means : str -> ns -> ns -> unit -> option N * unit) f name text x, wf v f /\ own f name /\ plain_name name /\
  steady means text f (Some x) /\ sees (fst (fst (set_variable means (fun _ => false) v f tt (Some Locals) name text))) name <> Some x.
Proof.
  intros v. exists (fun t _ _ w => (Some (N.of_nat (length t)), w)), ex_fun, (lit "a"), (lit "'@LINE@'"), 8%N. split; [apply ex_fun_wf|].
  split; [left; reflexivity|]. split; [reflexivity|]. split; [intros l w _; exists w; reflexivity|]. destruct v; vm_compute; discriminate.
Qed.
(** A value with a tab: the part before it is taken for a name. *)
Theorem change_tab_refuted : exists value, read_change (fields [lit "t"; lit "f"; lit "FRAME"; lit "x" ++ 9%N :: value]) =
  Some (lit "t", lit "f", lit "FRAME", lit "x.'a", lit "b'").
Proof. exists (lit "'a" ++ 9%N :: lit "b'"). reflexivity. Qed.
(** The new item is equal to another one: the name which is given for it is that of no item. *)
Theorem change_set_refuted : exists l name new l' r, NoDup (map snd l) /\ change_item (fun _ => true) l name new = (l', Some r) /\ ~ In r (map fst l').
Proof.
  exists [(1, 10); (2, 20)]%N, 1%N, (3, 20)%N, [(2, 20)]%N, 3%N. split; [cbn; nodup|]. split; [reflexivity|]. cbn. intuition discriminate.
Qed.

(** Statements which remove a variable of a function: up to Python 3.12 nothing happens, later it has the value None. *)
Definition delete (x : str) : prog := Prog false (fun d => (del str_eqb x d, Some none)).
Theorem console_delete_refuted : exists f x after, (forall v, wf v f /\ own f x /\ kept v true (delete x) f after) /\ get str_eqb x after = None /\
  sees (fst (evaluate Old true (delete x) f)) x = sees f x /\ sees f x = Some 5%N /\ sees (fst (evaluate New true (delete x) f)) x = Some none.
Proof.
  exists ex_fun, (lit "a"), (del str_eqb (lit "a") (namespace Old ex_fun)). split; [|vm_compute; auto].
  intros v. split; [apply ex_fun_wf|]. split; [left; reflexivity|]. split; [reflexivity|]. split; [apply NoDup_keys_del, NoDup_namespace|].
  exists (Some none). split; [destruct v; reflexivity|discriminate].
Qed.
(** In the console an expression which assigns (a walrus) does not, while the same expression being watched does. *)
Definition walrus (x : str) (w : N) : prog := Prog true (fun d => (set str_eqb x w d, Some w)).
Theorem console_walrus_refuted : forall v, exists f x w, wf v f /\ own f x /\ sees (fst (evaluate v true (walrus x w) f)) x <> Some w /\
  sees (fst (evaluate v false (walrus x w) f)) x = Some w.
Proof.
  intros v. exists ex_fun, (lit "a"), 9%N. split; [apply ex_fun_wf|]. split; [left; reflexivity|]. destruct v; vm_compute; split; auto; discriminate.
Qed.
(** The assignment of a global (with or without the global statement, which the single namespace makes no difference to) in a function
    is seen by the next evaluations, and not by the program. *)
Definition assign (x : str) (w : N) : prog := Prog false (fun d => (set str_eqb x w d, Some none)).
Theorem console_global_refuted : forall v, exists f x w, wf v f /\ kd f = Fun /\ ~ own f x /\ global f x <> None /\
  (let f' := fst (evaluate v true (assign x w) f) in get str_eqb x (namespace v f') = Some w /\ global f' x = global f x /\ global f x <> Some w).
Proof.
  intros v. exists ex_fun, (lit "x"), 9%N. split; [apply ex_fun_wf|]. split; [reflexivity|].
  split; [intros H; cbn in H; intuition discriminate|]. split; [discriminate|]. destruct v; vm_compute; repeat split; discriminate.
Qed.
(** A variable which is not bound yet is assigned the object which the global of that name has: it stays unbound. *)
Theorem console_same_refuted : forall v, exists f x w, wf v f /\ own f x /\
  get str_eqb x (fst (run (assign x w) (namespace v f))) = Some w /\ sees (fst (evaluate v true (assign x w) f)) x = None.
Proof.
  intros v. exists ex_fun, (lit "b"), 8%N. split; [apply ex_fun_wf|]. split; [right; left; reflexivity|]. destruct v; vm_compute; auto.
Qed.

(** * The hypotheses can be met *)
Example ex_change : forall v, exists f' w' r, set_variable (W:=unit) (const (Some 9%N)) (fun _ => false) v ex_fun tt None (lit "b") (lit "9") = (f', w', r) /\
  only_changed ex_fun f' (lit "b") 9%N /\ wf v f' /\ ((fun _ : str => false) (lit "b") = false -> r = Some 9%N).
Proof.
  intros v. apply (change_variable unit (const (Some 9%N)) (fun _ => false)); [apply ex_fun_wf|right; left; reflexivity|discriminate|reflexivity| |apply const_steady].
  unfold plain_text. cbn. intuition discriminate.
Qed.
Example ex_change_values : map (fun v => let '(f, _, r) := set_variable (W:=unit) (const (Some 9%N)) (fun _ => false) v ex_fun tt None (lit "b") (lit "9") in (slots f, globs f, r)) [Old; New]
  = let r := ([(lit "a", Some 5%N); (lit "b", Some 9%N)], [(lit "x", 7%N); (lit "b", 8%N)], Some 9%N) in [r; r].
Proof. vm_compute. reflexivity. Qed.
Example ex_change_global : let '(f, _, r) := set_variable (W:=unit) (const (Some 9%N)) (fun _ => false) Old ex_fun tt (Some Globals) (lit "b") (lit "9") in
  slots f = slots ex_fun /\ globs f = [(lit "x", 7%N); (lit "b", 9%N)] /\ r = Some 9%N.
Proof. vm_compute. auto. Qed.
Example ex_change_read : read_change (fields [lit "pid_1"; lit "7"; lit "FRAME"; lit "a" ++ 9%N :: lit "b" ++ 9%N :: lit "1 + 2"]) =
  Some (lit "pid_1", lit "7", lit "FRAME", lit "a.b", lit "1 + 2").
Proof. reflexivity. Qed.
Example ex_change_set : change_item (fun _ => true) [(1, 10); (2, 20)]%N 1%N (3, 30)%N = ([(2, 20); (3, 30)]%N, Some 3%N).
Proof. reflexivity. Qed.
Example ex_kept : forall v, kept v true (assign (lit "a") 9%N) ex_fun (set str_eqb (lit "a") 9%N (namespace v ex_fun)).
Proof.
  intros v. split; [reflexivity|]. split; [apply (NoDup_keys_set _ str_eqb_spec), NoDup_namespace|]. exists (Some none). split; [reflexivity|discriminate].
Qed.
Example ex_kept_module : forall v, kept v true (delete (lit "x")) ex_module (del str_eqb (lit "x") (namespace v ex_module)).
Proof.
  intros v. split; [reflexivity|]. split; [apply NoDup_keys_del, NoDup_namespace|]. exists (Some none). split; [reflexivity|discriminate].
Qed.
Example ex_module_values : globs (fst (evaluate Old true (delete (lit "x")) ex_module)) = [(lit "y", 8%N)].
Proof. vm_compute. reflexivity. Qed.
Lemma assign_decent x w : decent true (assign x w).
Proof.
  split; [reflexivity|]. split; [|split; [|split]].
  - intros d e H y. cbn [run assign fst]. rewrite !(get_set _ str_eqb_spec), H. reflexivity.
  - intros d H. apply (NoDup_keys_set _ str_eqb_spec). auto.
  - intros d y H. cbn [run assign fst]. rewrite (get_set _ str_eqb_spec). destruct (str_eqb y x); [discriminate|auto].
  - discriminate.
Qed.
Definition copy (x y : str) : prog :=
  Prog false (fun d => match get str_eqb y d with Some w => (set str_eqb x w d, Some none) | None => (d, None) end).
Example ex_session : map (fun v => slots (session v true [assign (lit "t") 9%N; copy (lit "b") (lit "t"); copy (lit "a") (lit "x")] ex_fun)) [Old; New] =
  let r := [(lit "a", Some 7%N); (lit "b", Some 9%N)] in [r; r].
Proof. vm_compute. reflexivity. Qed.
Example ex_session_hyp : Forall (decent true) [assign (lit "t") 9%N; assign (lit "b") 3%N].
Proof. repeat constructor; apply assign_decent. Qed.

Print Assumptions change_variable.
Print Assumptions change_global.
Print Assumptions change_fails.
Print Assumptions change_once.
Print Assumptions change_read.
Print Assumptions change_set.
Print Assumptions change_prefix_refuted.
Print Assumptions change_failure_shown_refuted.
Print Assumptions change_twice_refuted.
Print Assumptions change_hidden_refuted.
Print Assumptions change_line_refuted.
Print Assumptions change_tab_refuted.
Print Assumptions change_set_refuted.
Print Assumptions console_sees.
Print Assumptions console_next.
Print Assumptions console_module.
Print Assumptions console_expression.
Print Assumptions console_session.
Print Assumptions console_delete_refuted.
Print Assumptions console_walrus_refuted.
Print Assumptions console_global_refuted.
Print Assumptions console_same_refuted.
