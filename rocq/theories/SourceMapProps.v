(** C29: with source mappings installed, a line inside a mapped cell is translated to the runtime file and back to
    the same file and line, and a line outside every cell is left alone. *)
From Coq Require Import List NArith ZArith Bool Lia Permutation Sorted.
From Verif Require Import Base Dict SourceMap.
Import ListNotations.

(** ** Specification *)
Definition inside (c : cell) (l : Z) : Prop := (line c <= l <= end_line c)%Z.
(** A mapping as a client sends it: cells from a line (not negative) to a line not before it, not overlapping, each
    with its own runtime source *)
Definition clean (m : list cell) : Prop :=
  (forall c, In c m -> 0 <= line c <= end_line c)%Z
  /\ (forall c c' l, In c m -> In c' m -> inside c l -> inside c' l -> c = c')
  /\ NoDup (map rsrc m).

(** What is installed: for a normalized file name, the file name and the cells *)
Definition table := str -> option (str * list cell).
(** A mapping is accepted if none of its cells is mapped from another file. *)
Definition accepted (T : table) (file : str) (m : list cell) : Prop :=
  forall n f' m' c c', T n = Some (f', m') -> In c m -> In c' m' -> rsrc c = rsrc c' -> f' = file.
Inductive installed (norm : str -> str) : list op -> table -> Prop :=
| inst_nil : installed norm [] (fun _ => None)
| inst_set : forall h T f m, installed norm h T -> f <> [] -> clean m -> accepted T f m ->
    installed norm (h ++ [Set_ f m]) (fun n => if str_eqb n (norm f) then Some (f, m) else T n)
| inst_refused : forall h T f m, installed norm h T -> f <> [] -> clean m -> ~ accepted T f m -> installed norm (h ++ [Set_ f m]) T
| inst_client : forall h T n l, installed norm h T -> installed norm (h ++ [ToClient n l]) T
| inst_has : forall h T n, installed norm h T -> installed norm (h ++ [HasEntry n]) T.

(** The histories of installing clean mappings and looking things up *)
Definition ordinary (o : op) : Prop :=
  match o with Set_ f m => f <> [] /\ clean m | ToClient _ _ | HasEntry _ => True | Store _ _ _ => False end.

(** ** Sorting *)
Lemma insert_perm e l : Permutation (insert e l) (e :: l).
Proof.
  induction l as [|x l IH]; [reflexivity|]. cbn [insert]. destruct (Z.ltb (line e) (line x)); [reflexivity|].
  rewrite IH. apply perm_swap.
Qed.
Lemma sorted_perm l : Permutation (sorted l) l.
Proof.
  unfold sorted. assert (G : forall l acc, Permutation (fold_left (fun acc e => insert e acc) l acc) (acc ++ l)).
  { clear. induction l as [|e l IH]; intro acc; cbn [fold_left]; [now rewrite app_nil_r|].
    rewrite IH, insert_perm. cbn [app]. apply Permutation_middle. }
  apply (G l []).
Qed.
Definition before (a b : cell) : Prop := (line a <= line b)%Z.
Lemma insert_sorted e l : StronglySorted before l -> StronglySorted before (insert e l).
Proof.
  induction 1 as [|x l S IH F]; cbn [insert]; [repeat constructor|].
  destruct (Z.ltb_spec (line e) (line x)).
  - constructor; [constructor; assumption|]. constructor; [unfold before; lia|].
    eapply Forall_impl; [|exact F]. unfold before. intros; lia.
  - constructor; [exact IH|]. eapply Permutation_Forall; [symmetry; apply insert_perm|].
    constructor; [unfold before; lia | exact F].
Qed.
Lemma sorted_sorted l : StronglySorted before (sorted l).
Proof.
  unfold sorted. assert (G : forall l acc, StronglySorted before acc -> StronglySorted before (fold_left (fun acc e => insert e acc) l acc)).
  { clear. induction l as [|e l IH]; intros acc H; cbn [fold_left]; [exact H|]. apply IH, insert_sorted, H. }
  apply G. constructor.
Qed.

Lemma contains_inside e l : contains_line e l = true <-> inside e l.
Proof. unfold contains_line, inside. rewrite andb_true_iff, !Z.leb_le. lia. Qed.

Lemma bisect_split p q l : Forall (fun e => line e <= l)%Z p -> Forall (fun e => l < line e)%Z q -> bisect (p ++ q) l = List.length p.
Proof.
  intros Hp Hq. induction Hp as [|e p He Hp IH]; cbn [app bisect List.length].
  - destruct Hq as [|e q He]; [reflexivity|]. cbn [bisect]. destruct (Z.leb_spec (line e) l); [lia | reflexivity].
  - destruct (Z.leb_spec (line e) l); [|lia]. rewrite IH. reflexivity.
Qed.

(** The choice of the cell *)
Definition pick (m : list cell) (l : Z) : option cell :=
  let i := bisect m l in
  let i := if Nat.leb (List.length m) i then Nat.pred i else i in
  match nth_error m (match i with O => O | S j => j end) with
  | Some e => if contains_line e l then Some e
              else match nth_error m i with
                   | Some e => if contains_line e l then Some e else None
                   | None => None
                   end
  | None => None
  end.
Lemma pick_in m l e : pick m l = Some e -> In e m /\ inside e l.
Proof.
  unfold pick. cbv zeta. generalize (if Nat.leb (List.length m) (bisect m l) then Nat.pred (bisect m l) else bisect m l). intro i.
  destruct (nth_error m (match i with O => O | S j => j end)) as [a|] eqn:E; [|discriminate].
  destruct (contains_line a l) eqn:C.
  - intro H. injection H as <-. split; [exact (nth_error_In _ _ E) | apply contains_inside, C].
  - destruct (nth_error m i) as [b|] eqn:E'; [|discriminate]. destruct (contains_line b l) eqn:C'; [|discriminate].
    intro H. injection H as <-. split; [exact (nth_error_In _ _ E') | apply contains_inside, C'].
Qed.
Lemma nth_middle {A} (p q : list A) x : nth_error (p ++ x :: q) (List.length p) = Some x.
Proof. induction p; [reflexivity | exact IHp]. Qed.
Lemma pick_found m l e : StronglySorted before m -> NoDup m ->
  (forall c c' l, In c m -> In c' m -> inside c l -> inside c' l -> c = c') -> (forall c, In c m -> line c <= end_line c)%Z ->
  In e m -> inside e l -> pick m l = Some e.
Proof.
  intros S ND D L He Hi. apply in_split in He. destruct He as (p & q & ->).
  assert (Hp : Forall (fun a => line a <= l)%Z p).
  { apply Forall_forall. intros a Ha. assert (before a e); [|unfold before, inside in *; lia].
    clear - S Ha. induction p as [|x p IH]; [destruct Ha|]. cbn [app] in S. inversion S as [|? ? S' F]; subst.
    destruct Ha as [-> | Ha]; [|apply IH; assumption]. rewrite Forall_forall in F. apply F. apply in_or_app. right. left. reflexivity. }
  assert (Hq : Forall (fun a => l < line a)%Z q).
  { apply Forall_forall. intros a Ha.
    assert (Hb : before e a).
    { clear - S Ha. induction p as [|x p IH]; cbn [app] in S; inversion S as [|? ? S' F]; subst; [|apply IH; assumption].
      rewrite Forall_forall in F. apply F, Ha. }
    destruct (Z.le_gt_cases (line a) l) as [X|X]; [|exact X]. exfalso.
    assert (Hin : In a (p ++ e :: q)) by (apply in_or_app; right; right; exact Ha).
    assert (E : e = a).
    { apply (D e a (line a)); [apply in_or_app; right; left; reflexivity | exact Hin | |].
      - unfold inside, before in *. lia.
      - unfold inside. specialize (L a Hin). lia. }
    subst a. apply NoDup_remove_2 in ND. apply ND. apply in_or_app. right. exact Ha. }
  assert (B : bisect (p ++ e :: q) l = Datatypes.S (List.length p)).
  { change (e :: q) with ([e] ++ q). rewrite app_assoc, bisect_split.
    - rewrite app_length. cbn. lia.
    - apply Forall_app. split; [exact Hp|]. constructor; [unfold inside in Hi; lia | constructor].
    - exact Hq. }
  unfold pick. cbv zeta. rewrite B. rewrite app_length. cbn [List.length].
  destruct (Nat.leb_spec (List.length p + Datatypes.S (List.length q)) (Datatypes.S (List.length p))) as [H|H].
  - cbn [Nat.pred]. destruct q; [|cbn in H; lia]. rewrite nth_middle.
    destruct (List.length p) as [|j] eqn:E.
    + destruct p; [|discriminate]. cbn [app nth_error]. rewrite (proj2 (contains_inside e l) Hi). reflexivity.
    + destruct (nth_error (p ++ [e]) j) as [a|] eqn:Ea.
      * destruct (contains_line a l) eqn:C; [|rewrite (proj2 (contains_inside e l) Hi); reflexivity].
        f_equal. apply (D a e l); [exact (nth_error_In _ _ Ea) | apply in_or_app; right; left; reflexivity | apply contains_inside, C | exact Hi].
      * apply nth_error_None in Ea. rewrite app_length in Ea. cbn in Ea. lia.
  - rewrite nth_middle, (proj2 (contains_inside e l) Hi). reflexivity.
Qed.

(** ** The state and the table *)
Section Proofs.
Context (norm : str -> str).
Notation exec := (exec norm).
Notation run := (run norm).

Definition relabel (f : str) (e : cell) : cell := Cell (line e) (end_line e) (rline e) (rsrc e) f.
Record inv (s : state) (T : table) : Prop := {
  i_nodup : NoDup (keys (to_server s));
  i_get : forall n, get str_eqb n (to_server s) = match T n with Some (f, m) => Some (sorted (map (relabel f) m)) | None => None end;
  i_T : forall n f m, T n = Some (f, m) -> n = norm f /\ f <> [] /\ clean m;
  i_cnodup : NoDup (keys (to_client s));
  i_client : forall rs f, get str_eqb rs (to_client s) = Some f <-> exists m, T (norm f) = Some (f, m) /\ In rs (map rsrc m);
  i_cache : forall n l a, get ckey_eqb (l, n) (cache s) = Some a -> a = compute_client s n l;
  i_has : forall n b, get str_eqb n (has_cache s) = Some b -> b = compute_has s n
}.

Lemma ckey_eqb_spec a b : reflect (a = b) (ckey_eqb a b).
Proof.
  destruct a as [i x], b as [j y]. unfold ckey_eqb. cbn [fst snd].
  destruct (Z.eqb_spec i j); [|right; congruence]. destruct (str_eqb_spec x y); [left | right]; congruence.
Qed.

Lemma inv_init : inv init (fun _ => None).
Proof.
  constructor; cbn; try constructor; try discriminate; try reflexivity.
  intros (m & H & _). discriminate.
Qed.

Lemma inv_unique s T : inv s T -> forall n n' f f' m m' rs, T n = Some (f, m) -> T n' = Some (f', m') ->
  In rs (map rsrc m) -> In rs (map rsrc m') -> n = n' /\ f = f' /\ m = m'.
Proof.
  intros I n n' f f' m m' rs H H' Hr Hr'.
  destruct (i_T _ _ I n f m H) as (En & _ & _). destruct (i_T _ _ I n' f' m' H') as (En' & _ & _).
  assert (G : get str_eqb rs (to_client s) = Some f) by (apply (i_client _ _ I); exists m; rewrite <- En; auto).
  assert (G' : get str_eqb rs (to_client s) = Some f') by (apply (i_client _ _ I); exists m'; rewrite <- En'; auto).
  assert (f = f') by congruence. subst f'. assert (E : n = n') by congruence. rewrite <- E, H in H'. injection H' as <-. auto.
Qed.

Lemma delete_all_ok l (d : list (str * str)) : NoDup (keys d) -> NoDup (map rsrc l) -> (forall e, In e l -> mem str_eqb (rsrc e) d = true) ->
  exists d', delete_all l d = (d', true) /\ NoDup (keys d')
    /\ forall k, get str_eqb k d' = if existsb (fun e => str_eqb k (rsrc e)) l then None else get str_eqb k d.
Proof.
  revert d. induction l as [|e l IH]; intros d N D H; cbn [delete_all].
  - exists d. auto.
  - rewrite (H e (or_introl eq_refl)). cbn [map] in D. inversion D as [|? ? Hn D']; subst.
    destruct (IH (del str_eqb (rsrc e) d)) as (d' & E & N' & G).
    + apply NoDup_keys_del, N.
    + exact D'.
    + intros e' He'. unfold mem. rewrite (get_del_other _ str_eqb_spec).
      * exact (H e' (or_intror He')).
      * intro E. apply Hn. rewrite E. apply in_map, He'.
    + exists d'. split; [exact E|]. split; [exact N'|]. intro k. rewrite G. cbn [existsb].
      destruct (existsb (fun e0 => str_eqb k (rsrc e0)) l); [rewrite orb_true_r; reflexivity|]. rewrite orb_false_r.
      rewrite (get_del _ str_eqb_spec) by exact N. reflexivity.
Qed.
Lemma set_all (f : str) l (d : list (str * str)) : NoDup (keys d) ->
  NoDup (keys (fold_left (fun d e => set str_eqb (rsrc e) f d) l d))
  /\ forall k, get str_eqb k (fold_left (fun d e => set str_eqb (rsrc e) f d) l d) =
       if existsb (fun e => str_eqb k (rsrc e)) l then Some f else get str_eqb k d.
Proof.
  revert d. induction l as [|e l IH]; intros d N; cbn [fold_left existsb]; [auto|].
  destruct (IH (set str_eqb (rsrc e) f d)) as [N' G]; [apply (NoDup_keys_set _ str_eqb_spec), N|].
  split; [exact N'|]. intro k. rewrite G, (get_set _ str_eqb_spec).
  destruct (existsb (fun e0 => str_eqb k (rsrc e0)) l); [rewrite orb_true_r; reflexivity|].
  rewrite orb_false_r. reflexivity.
Qed.
Lemma existsb_rsrc k l : existsb (fun e => str_eqb k (rsrc e)) l = true <-> In k (map rsrc l).
Proof.
  rewrite existsb_exists, in_map_iff. split; intros (e & A & B).
  - apply str_eqb_eq in B. exists e. split; [symmetry; exact B | exact A].
  - exists e. split; [exact B|]. rewrite A. apply str_eqb_refl.
Qed.
Lemma relabel_rsrc f m : map rsrc (map (relabel f) m) = map rsrc m.
Proof. rewrite map_map. reflexivity. Qed.
Lemma sorted_rsrc_in f m k : In k (map rsrc (sorted (map (relabel f) m))) <-> In k (map rsrc m).
Proof.
  assert (P : Permutation (map rsrc (sorted (map (relabel f) m))) (map rsrc m)).
  { rewrite <- (relabel_rsrc f m). apply Permutation_map, sorted_perm. }
  split; apply Permutation_in; [exact P | symmetry; exact P].
Qed.

Lemma set_step s T f m : inv s T -> f <> [] -> clean m ->
  (accepted T f m -> snd (set_mapping norm s f m) = Applied
     /\ inv (fst (set_mapping norm s f m)) (fun n => if str_eqb n (norm f) then Some (f, m) else T n))
  /\ (~ accepted T f m -> set_mapping norm s f m = (s, Conflict)).
Proof.
  intros I Hf Hm.
  assert (Conf : existsb (fun e => match get str_eqb (rsrc e) (to_client s) with
                       | Some g => negb (str_eqb g []) && negb (str_eqb g f)
                       | None => false
                       end) (map (relabel f) m) = true <-> ~ accepted T f m).
  { rewrite existsb_exists. split.
    - intros (e & He & C) A. apply in_map_iff in He. destruct He as (c & <- & Hc). cbn [relabel rsrc] in C.
      destruct (get str_eqb (rsrc c) (to_client s)) as [g|] eqn:G; [|discriminate].
      apply (i_client _ _ I) in G. destruct G as (m' & HT & Hr). apply in_map_iff in Hr. destruct Hr as (c' & E & Hc').
      assert (g = f) by (eapply A; [exact HT | exact Hc | exact Hc' | symmetry; exact E]). subst g.
      rewrite str_eqb_refl, andb_false_r in C. discriminate.
    - intro NA.
      assert (Dec : (exists c g, In c m /\ get str_eqb (rsrc c) (to_client s) = Some g /\ g <> f) \/
                    (forall c g, In c m -> get str_eqb (rsrc c) (to_client s) = Some g -> g = f)).
      { clear - m. induction m as [|c m IH]; [right; intros c g []|].
        destruct IH as [(c' & g & A & B)|IH]; [left; exists c', g; split; [right; exact A | exact B]|].
        destruct (get str_eqb (rsrc c) (to_client s)) as [g|] eqn:G.
        - destruct (str_eqb_spec g f) as [->|E].
          + right. intros c' g' [<- | H] G'; [congruence | eauto].
          + left. exists c, g. split; [left; reflexivity | auto].
        - right. intros c' g' [<- | H] G'; [congruence | eauto]. }
      destruct Dec as [(c & g & A & B & C)|D].
      + exists (relabel f c). split; [apply in_map, A|]. cbn [relabel rsrc]. rewrite B.
        apply (i_client _ _ I) in B. destruct B as (m' & HT & _). destruct (i_T _ _ I _ _ _ HT) as (_ & Hg & _).
        destruct (str_eqb_spec g []); [contradiction|]. destruct (str_eqb_spec g f); [contradiction | reflexivity].
      + exfalso. apply NA. intros n f' m' c c' HT Hc Hc' E. apply (D c f' Hc). rewrite E. apply (i_client _ _ I).
        destruct (i_T _ _ I _ _ _ HT) as (En & _ & _). exists m'. rewrite <- En. split; [exact HT | apply in_map, Hc']. }
  unfold set_mapping. cbv zeta. fold (relabel f). change (fun e => {| line := line e; end_line := end_line e; rline := rline e; rsrc := rsrc e; src := f |}) with (relabel f).
  split.
  2:{ intro NA. apply Conf in NA. rewrite NA. reflexivity. }
  intro A. destruct (existsb _ (map (relabel f) m)) eqn:Ex; [exfalso; apply (proj1 Conf eq_refl), A|].
  set (n := norm f).
  set (cur := match get str_eqb n (to_server s) with Some l => l | None => [] end).
  assert (Hcur : forall k, In k (map rsrc cur) <-> exists f0 m0, T n = Some (f0, m0) /\ In k (map rsrc m0)).
  { intro k. unfold cur. rewrite (i_get _ _ I n). destruct (T n) as [[f0 m0]|].
    - rewrite sorted_rsrc_in. split; [eauto|]. intros (f1 & m1 & E & H). injection E as <- <-. exact H.
    - split; [intros []|]. intros (f1 & m1 & E & _). discriminate. }
  destruct (delete_all_ok cur (to_client s)) as (d & Ed & Nd & Gd).
  - exact (i_cnodup _ _ I).
  - unfold cur. rewrite (i_get _ _ I n). destruct (T n) as [[f0 m0]|] eqn:ET; [|constructor].
    destruct (i_T _ _ I _ _ _ ET) as (_ & _ & _ & _ & ND).
    eapply Permutation_NoDup; [|exact ND]. rewrite <- (relabel_rsrc f0 m0). apply Permutation_map. symmetry. apply sorted_perm.
  - intros e He. pose proof (proj1 (Hcur (rsrc e)) (in_map rsrc _ _ He)) as (f0 & m0 & HT & Hr).
    unfold mem. replace (get str_eqb (rsrc e) (to_client s)) with (Some f0); [reflexivity|]. symmetry.
    apply (i_client _ _ I). destruct (i_T _ _ I _ _ _ HT) as (En & _ & _). exists m0. rewrite <- En. auto.
  - rewrite Ed. cbn [fst snd]. split; [reflexivity|].
    destruct (set_all f (map (relabel f) m) d Nd) as [Nd' Gd'].
    constructor; cbn [to_server to_client cache has_cache].
    + apply (NoDup_keys_set _ str_eqb_spec), (i_nodup _ _ I).
    + intro n'. rewrite (get_set _ str_eqb_spec). destruct (str_eqb n' n); [reflexivity | apply (i_get _ _ I)].
    + intros n' f' m' H. destruct (str_eqb_spec n' n) as [->|_].
      * injection H as <- <-. auto.
      * exact (i_T _ _ I _ _ _ H).
    + exact Nd'.
    + intros rs g. rewrite Gd', Gd.
      destruct (existsb (fun e => str_eqb rs (rsrc e)) (map (relabel f) m)) eqn:En.
      * apply existsb_rsrc in En. rewrite relabel_rsrc in En. split.
        -- intro E. injection E as <-. exists m. fold n. rewrite str_eqb_refl. auto.
        -- intros (m' & HT & Hr). f_equal. fold n in HT. destruct (str_eqb_spec (norm g) n) as [_|Hn]; [injection HT as <- <-; reflexivity|].
           exfalso. apply in_map_iff in En. destruct En as (c & Ec & Hc). apply in_map_iff in Hr. destruct Hr as (c' & Ec' & Hc').
           assert (g = f) by (eapply (A (norm g) g m' c c'); [exact HT | exact Hc | exact Hc' | congruence]). subst g. apply Hn. reflexivity.
      * assert (Hnew : ~ In rs (map rsrc m)).
        { intro X. rewrite <- (relabel_rsrc f m) in X. apply existsb_rsrc in X. congruence. }
        destruct (existsb (fun e => str_eqb rs (rsrc e)) cur) eqn:Ec.
        -- apply existsb_rsrc in Ec. apply Hcur in Ec. destruct Ec as (f0 & m0 & HT0 & Hr0).
           split; [discriminate|]. intros (m' & HT & Hr). exfalso. fold n in HT.
           destruct (str_eqb_spec (norm g) n) as [_|Hn]; [injection HT as <- <-; contradiction|].
           destruct (inv_unique s T I _ _ _ _ _ _ rs HT0 HT Hr0 Hr) as (E & _ & _). apply Hn. symmetry. exact E.
        -- assert (Hold : ~ In rs (map rsrc cur)) by (intro X; apply existsb_rsrc in X; congruence).
           rewrite (i_client _ _ I rs g). fold n. split; intros (m' & HT & Hr).
           ++ exists m'. destruct (str_eqb_spec (norm g) n) as [E|_]; [|auto].
              exfalso. apply Hold. apply Hcur. exists g, m'. rewrite <- E. auto.
           ++ destruct (str_eqb_spec (norm g) n) as [_|Hn]; [injection HT as <- <-; contradiction | eauto].
    + discriminate.
    + discriminate.
Qed.

Lemma client_step s T n l : inv s T -> inv (fst (map_to_client s n l)) T /\ snd (map_to_client s n l) = compute_client s n l.
Proof.
  intro I. unfold map_to_client. destruct (get ckey_eqb (l, n) (cache s)) as [a|] eqn:G.
  - split; [exact I | exact (i_cache _ _ I _ _ _ G)].
  - split; [|reflexivity]. destruct I. constructor; cbn [fst to_server to_client cache has_cache]; auto.
    intros n' l' a H. rewrite (get_set _ ckey_eqb_spec) in H. destruct (ckey_eqb_spec (l', n') (l, n)) as [E|_].
    + injection E as -> ->. injection H as <-. reflexivity.
    + exact (i_cache0 _ _ _ H).
Qed.
Lemma has_step s T n : inv s T -> inv (fst (has_mapping_entry s n)) T /\ snd (has_mapping_entry s n) = compute_has s n.
Proof.
  intro I. unfold has_mapping_entry. destruct (get str_eqb n (has_cache s)) as [a|] eqn:G.
  - split; [exact I | exact (i_has _ _ I _ _ G)].
  - split; [|reflexivity]. destruct I. constructor; cbn [fst to_server to_client cache has_cache]; auto.
    intros n' b H. rewrite (get_set _ str_eqb_spec) in H. destruct (str_eqb_spec n' n) as [->|_].
    + injection H as <-. reflexivity.
    + exact (i_has0 _ _ H).
Qed.

Lemma run_app h o : run (h ++ [o]) = exec (run h) o.
Proof. unfold SourceMap.run. rewrite fold_left_app. reflexivity. Qed.

Lemma installed_inv h T : installed norm h T -> inv (run h) T.
Proof.
  induction 1 as [|h T f m H IH Hf Hm A|h T f m H IH Hf Hm A|h T n l H IH|h T n H IH].
  - exact inv_init.
  - rewrite run_app. cbn [SourceMap.exec]. apply (set_step _ _ f m IH Hf Hm), A.
  - rewrite run_app. cbn [SourceMap.exec]. rewrite (proj2 (set_step _ _ f m IH Hf Hm) A). exact IH.
  - rewrite run_app. apply client_step, IH.
  - rewrite run_app. apply has_step, IH.
Qed.

(** Cells of the state *)
Lemma all_cells s T e : inv s T -> In e (flat_map snd (to_server s)) <->
  exists n f m c, T n = Some (f, m) /\ In c m /\ e = relabel f c.
Proof.
  intro I. rewrite in_flat_map. split.
  - intros ((n & l) & Hp & He). cbn [snd] in He. apply (In_get _ str_eqb_spec) in Hp; [|exact (i_nodup _ _ I)].
    rewrite (i_get _ _ I) in Hp. destruct (T n) as [[f m]|] eqn:HT; [|discriminate]. injection Hp as <-.
    apply (Permutation_in _ (sorted_perm _)) in He. apply in_map_iff in He. destruct He as (c & <- & Hc). eauto 7.
  - intros (n & f & m & c & HT & Hc & ->). exists (n, sorted (map (relabel f) m)). split.
    + apply (get_In _ str_eqb_spec). rewrite (i_get _ _ I), HT. reflexivity.
    + apply (Permutation_in _ (Permutation_sym (sorted_perm _))). apply in_map, Hc.
Qed.
Lemma rsrc_cell m c c' : NoDup (map rsrc m) -> In c m -> In c' m -> rsrc c = rsrc c' -> c = c'.
Proof.
  induction m as [|x m IH]; intros N H H' E; [destruct H|]. cbn [map] in N. inversion N as [|? ? Hx N']; subst.
  destruct H as [<- | H], H' as [<- | H']; auto.
  - exfalso. apply Hx. rewrite E. apply in_map, H'.
  - exfalso. apply Hx. rewrite <- E. apply in_map, H.
Qed.
Lemma compute_client_cell s T n f m c r : inv s T -> T n = Some (f, m) -> In c m -> contains_rline c r = true ->
  compute_client s (rsrc c) r = (f, (line c + (r - rline c))%Z, true).
Proof.
  intros I HT Hc Hr. unfold compute_client.
  destruct (find _ _) as [e|] eqn:E.
  - apply find_some in E. destruct E as [He E]. apply andb_prop in E. destruct E as [E _]. apply str_eqb_eq in E.
    apply (all_cells s T e I) in He. destruct He as (n' & f' & m' & c' & HT' & Hc' & ->). cbn [relabel rsrc] in E.
    destruct (inv_unique s T I _ _ _ _ _ _ (rsrc c) HT HT' (in_map rsrc _ _ Hc)) as (_ & <- & <-).
    { rewrite <- E. apply in_map, Hc'. }
    destruct (i_T _ _ I _ _ _ HT) as (_ & _ & _ & _ & ND).
    rewrite (rsrc_cell m c' c ND Hc' Hc E). reflexivity.
  - pose proof (find_none _ _ E (relabel f c)) as X. cbn [relabel rsrc] in X.
    rewrite str_eqb_refl in X. unfold contains_rline in X, Hr. cbn in X. cbv zeta in Hr. rewrite Hr in X.
    discriminate X. apply (all_cells s T _ I). eauto 7.
Qed.

Lemma map_to_server_eq s file l : map_to_server norm s file l =
  match get str_eqb (norm file) (to_server s) with
  | None => (file, l, false)
  | Some m => match pick m l with Some e => (rsrc e, (rline e + (l - line e))%Z, true) | None => (file, l, false) end
  end.
Proof.
  unfold map_to_server. destruct (get str_eqb (norm file) (to_server s)) as [[|e m]|]; try reflexivity.
Qed.
Lemma clean_relabel f m : clean m ->
  (forall c c' l, In c (sorted (map (relabel f) m)) -> In c' (sorted (map (relabel f) m)) -> inside c l -> inside c' l -> c = c')
  /\ (forall c, In c (sorted (map (relabel f) m)) -> line c <= end_line c)%Z /\ NoDup (sorted (map (relabel f) m)).
Proof.
  intros (A & B & C).
  assert (M : forall c, In c (sorted (map (relabel f) m)) -> exists c0, In c0 m /\ c = relabel f c0).
  { intros c H. apply (Permutation_in _ (sorted_perm _)) in H. apply in_map_iff in H. destruct H as (c0 & <- & H). eauto. }
  split; [|split].
  - intros c c' l H H' I I'. destruct (M c H) as (c0 & H0 & ->), (M c' H') as (c0' & H0' & ->).
    f_equal. eapply B; eassumption.
  - intros c H. destruct (M c H) as (c0 & H0 & ->). apply A in H0. cbn. lia.
  - apply (Permutation_NoDup (Permutation_sym (sorted_perm _))). apply (NoDup_map_inv rsrc). rewrite relabel_rsrc. exact C.
Qed.
End Proofs.

(** ** Theorems *)

(** A line inside an installed cell goes to the cell's runtime source, at the right distance from its first line,
    and comes back to the file and line; whatever was installed, replaced, refused and looked up before. *)
Theorem source_map_round_trip : forall norm h T file f m c l, installed norm h T ->
  T (norm file) = Some (f, m) -> In c m -> inside c l ->
  map_to_server norm (run norm h) file l = (rsrc c, (rline c + (l - line c))%Z, true)
  /\ snd (map_to_client (run norm h) (rsrc c) (rline c + (l - line c))) = (f, l, true)
  /\ snd (has_mapping_entry (run norm h) (rsrc c)) = true.
Proof.
  intros norm h T file f m c l H HT Hc Hi. pose proof (installed_inv norm h T H) as I.
  destruct (i_T _ _ _ I _ _ _ HT) as (_ & _ & Hm).
  split; [|split].
  - rewrite map_to_server_eq, (i_get _ _ _ I), HT. destruct (clean_relabel f m Hm) as (A & B & C).
    rewrite (pick_found _ l (relabel f c)); auto.
    + apply sorted_sorted.
    + apply (Permutation_in _ (Permutation_sym (sorted_perm _))). apply in_map, Hc.
  - rewrite (proj2 (client_step norm _ T _ _ I)). rewrite (compute_client_cell norm _ T _ f m c _ I HT Hc).
    + f_equal. f_equal. lia.
    + destruct Hm as (A & _ & _). specialize (A c Hc). unfold inside in Hi. unfold contains_rline. cbv zeta.
      rewrite andb_true_iff, !Z.leb_le. lia.
  - rewrite (proj2 (has_step norm _ T _ I)). unfold compute_has. apply existsb_exists. exists (relabel f c).
    split; [apply (all_cells norm _ T _ I); eauto 7 | cbn; apply str_eqb_refl].
Qed.

(** A line outside every cell of its file is left alone, and so is a line of a file that is no cell. *)
Theorem source_map_outside : forall norm h T file l, installed norm h T ->
  ((forall f m c, T (norm file) = Some (f, m) -> In c m -> ~ inside c l) ->
     map_to_server norm (run norm h) file l = (file, l, false))
  /\ ((forall n f m c, T n = Some (f, m) -> In c m -> rsrc c <> file) ->
     snd (map_to_client (run norm h) file l) = (file, l, false) /\ snd (has_mapping_entry (run norm h) file) = false).
Proof.
  intros norm h T file l H. pose proof (installed_inv norm h T H) as I. split.
  - intro N. rewrite map_to_server_eq, (i_get _ _ _ I). destruct (T (norm file)) as [[f m]|] eqn:HT; [|reflexivity].
    destruct (pick _ l) as [e|] eqn:P; [|reflexivity]. exfalso. apply pick_in in P. destruct P as [P Q].
    apply (Permutation_in _ (sorted_perm _)) in P. apply in_map_iff in P. destruct P as (c & <- & Hc).
    exact (N f m c eq_refl Hc Q).
  - intro N. rewrite (proj2 (client_step norm _ T _ _ I)), (proj2 (has_step norm _ T _ I)).
    assert (X : forall e, In e (flat_map snd (to_server (run norm h))) -> str_eqb (rsrc e) file = false).
    { intros e He. apply (all_cells norm _ T _ I) in He. destruct He as (n & f & m & c & HT & Hc & ->).
      destruct (str_eqb_spec (rsrc (relabel f c)) file) as [E|_]; [|reflexivity]. exfalso. exact (N n f m c HT Hc E). }
    split.
    + unfold compute_client. destruct (find _ _) as [e|] eqn:E; [|reflexivity]. apply find_some in E. destruct E as [He E].
      rewrite (X e He) in E. discriminate.
    + unfold compute_has. destruct (existsb _ _) eqn:E; [|reflexivity]. apply existsb_exists in E. destruct E as (e & He & E).
      rewrite (X e He) in E. discriminate.
Qed.

(** Every ordinary history installs something; each request is answered by success exactly when it is accepted, and
    a refused one changes nothing. *)
Theorem source_map_replies : forall norm h, Forall ordinary h -> (exists T, installed norm h T)
  /\ forall T f m, installed norm h T -> f <> [] -> clean m ->
      (accepted T f m -> snd (set_mapping norm (run norm h) f m) = Applied)
      /\ (~ accepted T f m -> set_mapping norm (run norm h) f m = (run norm h, Conflict)).
Proof.
  intros norm h F. split.
  - induction h as [|o h IH] using rev_ind; [eexists; constructor|]. apply Forall_app in F. destruct F as [F Fo].
    destruct (IH F) as [T H]. inversion Fo as [|? ? O _]; subst. destruct o as [f m|n l|n|n l a]; cbn in O.
    + destruct O as [Hf Hm].
      assert (D : accepted T f m \/ ~ accepted T f m).
      { pose proof (installed_inv norm h T H) as I. pose proof (set_step norm _ T f m I Hf Hm) as [A B].
        destruct (snd (set_mapping norm (run norm h) f m)) eqn:E.
        - assert (X : ~ ~ accepted T f m) by (intro X; rewrite (B X) in E; discriminate).
          left. intros n f' m' c c' HT Hc Hc' Er. destruct (str_eqb_spec f' f) as [->|N]; [reflexivity|].
          exfalso. apply X. intro A'. apply N. exact (A' n f' m' c c' HT Hc Hc' Er).
        - right. intro A'. destruct (A A') as [A1 _]. congruence.
        - right. intro A'. destruct (A A') as [A1 _]. congruence. }
      destruct D as [D|D]; eexists; [apply inst_set | apply inst_refused]; eassumption.
    + eexists. apply inst_client. exact H.
    + eexists. apply inst_has. exact H.
    + destruct O.
  - intros T f m H Hf Hm. pose proof (installed_inv norm h T H) as I.
    destruct (set_step norm _ T f m I Hf Hm) as [A B]. split; [intro X; apply A, X | exact B].
Qed.

(** ** What fails *)
Definition a_py : str := [97; 46; 112; 121]%N.
Definition b_py : str := [98; 46; 112; 121]%N.
Definition cell1 : str := [60; 99; 49; 62]%N.
Definition lower (s : str) : str := map (fun c => if N.leb 65 c && N.leb c 90 then (c + 32)%N else c) s.

(** A line of the runtime source after the end of its cell is translated too, to a client line outside the cell
    (the end of the range is computed with a sum instead of a difference). *)
Theorem source_map_after_end_refuted : exists norm h T f c r, installed norm h T /\ T (norm f) = Some (f, [c])
  /\ (r > rline c + (end_line c - line c))%Z
  /\ exists l, snd (map_to_client (run norm h) (rsrc c) r) = (f, l, true) /\ ~ inside c l.
Proof.
  exists (fun s => s), [Set_ a_py [Cell 10 12 1 cell1 []]]. exists (fun n => if str_eqb n a_py then Some (a_py, [Cell 10 12 1 cell1 []]) else None), a_py, (Cell 10 12 1 cell1 []), 8%Z.
  split; [|split; [|split]].
  - apply (inst_set (fun s => s) [] (fun _ => None)); [constructor | discriminate | |].
    + split; [|split].
      * intros c [<- | []]. cbn. lia.
      * intros c c' l [<- | []] [<- | []]. reflexivity.
      * repeat constructor. intros [].
    + intros n f' m' c c' X. discriminate.
  - reflexivity.
  - cbn. lia.
  - exists 17%Z. split; [vm_compute; reflexivity|]. unfold inside. cbn. lia.
Qed.
(** Two cells with the same runtime source (so the mapping is not clean): the second one is not translated back to
    its lines, and the next mapping of the file raises. *)
Theorem source_map_same_source_refuted : exists norm f m c l,
  In c m /\ inside c l /\ (forall c' l, In c' m -> inside c' l -> inside c l -> c' = c)
  /\ let s := run norm [Set_ f m] in
     map_to_server norm s f l = (rsrc c, (rline c + (l - line c))%Z, true)
     /\ snd (map_to_client s (rsrc c) (rline c + (l - line c))) <> (f, l, true)
     /\ snd (set_mapping norm s f m) = KeyError.
Proof.
  exists (fun s => s), a_py, [Cell 10 20 1 cell1 []; Cell 30 40 12 cell1 []], (Cell 30 40 12 cell1 []), 30%Z.
  split; [right; left; reflexivity|]. split; [unfold inside; cbn; lia|]. split.
  - intros c' l [<- | [<- | []]] A B; [|reflexivity]. unfold inside in *. cbn in *. lia.
  - cbv zeta. split; [vm_compute; reflexivity|]. split; [vm_compute; discriminate | vm_compute; reflexivity].
Qed.
(** On a system where case does not matter, sending a file's mapping again under a name with different case is
    refused. *)
Theorem source_map_case_refuted : exists norm f f' m, norm f = norm f'
  /\ snd (set_mapping norm (run norm [Set_ f m]) f' m) = Conflict.
Proof. exists lower, a_py, [65; 46; 112; 121]%N, [Cell 1 2 1 cell1 []]. split; vm_compute; reflexivity. Qed.
(** A thread which looked up a translation before a mapping was replaced may store it after: then the old answer is
    given. *)
Theorem source_map_race_refuted : exists norm h f m n l, Forall ordinary h /\ f <> [] /\ clean m
  /\ get ckey_eqb (l, n) (cache (run norm h)) = None
  /\ let s := run norm (h ++ [Set_ f m; Store n l (compute_client (run norm h) n l)]) in
     snd (map_to_client s n l) <> compute_client s n l.
Proof.
  exists (fun s => s), [], a_py, [Cell 1 2 1 cell1 []], cell1, 1%Z.
  split; [constructor|]. split; [discriminate|]. split; [split; [|split]|].
  - intros c [<- | []]. cbn. lia.
  - intros c c' l [<- | []] [<- | []]. reflexivity.
  - repeat constructor. intros [].
  - split; [reflexivity|]. cbv zeta. vm_compute. discriminate.
Qed.

(** ** Concrete cases *)
Definition cell2 : str := [60; 99; 50; 62]%N.
Definition ex_m : list cell := [Cell 7 9 1 cell2 []; Cell 1 4 3 cell1 []].
Example ex_clean : clean ex_m.
Proof.
  split; [|split].
  - intros c [<- | [<- | []]]; cbn; lia.
  - intros c c' l [<- | [<- | []]] [<- | [<- | []]]; unfold inside; cbn; intros; try reflexivity; lia.
  - repeat constructor; cbn; intuition discriminate.
Qed.
Example ex_installed : installed (fun s => s) [Set_ a_py ex_m; ToClient cell1 3%Z]
  (fun n => if str_eqb n a_py then Some (a_py, ex_m) else None).
Proof.
  apply (inst_client (fun s => s) [Set_ a_py ex_m]). apply (inst_set (fun s => s) [] (fun _ => None)); [constructor | discriminate | exact ex_clean |].
  intros n f' m' c c' X. discriminate.
Qed.
Example ex_lines : let s := run (fun s => s) [Set_ a_py ex_m; ToClient cell1 3%Z] in
  map_to_server (fun s => s) s a_py 8 = (cell2, 2%Z, true) /\ snd (map_to_client s cell2 2) = (a_py, 8%Z, true)
  /\ map_to_server (fun s => s) s a_py 5 = (a_py, 5%Z, false) /\ map_to_server (fun s => s) s a_py 1 = (cell1, 3%Z, true).
Proof. vm_compute. repeat split. Qed.
Example ex_refused : let s := run (fun s => s) [Set_ a_py ex_m] in snd (set_mapping (fun s => s) s b_py [Cell 1 1 1 cell1 []]) = Conflict.
Proof. vm_compute. reflexivity. Qed.

Print Assumptions source_map_round_trip.
Print Assumptions source_map_outside.
Print Assumptions source_map_replies.
Print Assumptions source_map_after_end_refuted.
Print Assumptions source_map_same_source_refuted.
Print Assumptions source_map_case_refuted.
Print Assumptions source_map_race_refuted.
