(** C30: a template breakpoint is reported on its own line when that line can stop, otherwise it is moved to the
    closest valid line before it, unless there is none or another breakpoint has that line: then it is invalid. *)
From Coq Require Import List NArith ZArith Bool Lia Sorted.
From Verif Require Import Dict LineValid.
Import ListNotations.

(** ** Specification *)
(** The line of a breakpoint which is set and not removed *)
Definition current (h : list op) (id : N) : option Z :=
  fold_left (fun acc o => match o with
                          | Add i l => if N.eqb i id then Some l else acc
                          | Remove i => if N.eqb i id then None else acc
                          | Render _ => acc
                          end) h None.
(** Different breakpoints are given different lines. *)
Definition own_lines (h : list op) : Prop := forall id id' l, In (Add id l) h -> In (Add id' l) h -> id = id'.
Definition edits (h : list op) : Prop := forall v, ~ In (Render v) h.
Definition closest (v : list Z) (l w : Z) : Prop :=
  In w v /\ (0 <= w < l)%Z /\ forall u, In u v -> (u < l)%Z -> (u <= w)%Z.
(** Where a breakpoint on a line belongs *)
Definition target (v : list Z) (l w : Z) : Prop := (In l v /\ w = l) \/ (~ In l v /\ closest v l w).
Definition of_id (id : N) (evs : list event) : list event := filter (fun e => N.eqb (fst (fst e)) id) evs.

(** ** Sorted lines *)
Lemma insert_in x l y : In y (insert x l) <-> y = x \/ In y l.
Proof.
  induction l as [|z l IH]; cbn [insert In]; [intuition|].
  destruct (Z.eqb_spec x z) as [->|]; [cbn [In]; intuition|].
  destruct (Z.ltb x z); cbn [In]; [|rewrite IH]; intuition.
Qed.
Lemma sorted_in v y : In y (sorted v) <-> In y v.
Proof.
  unfold sorted. assert (G : forall v acc, In y (fold_left (fun acc x => insert x acc) v acc) <-> In y acc \/ In y v).
  { clear. induction v as [|x v IH]; intro acc; cbn [fold_left In]; [intuition|]. rewrite IH, insert_in. intuition. }
  rewrite G. cbn [In]. tauto.
Qed.
Lemma insert_sorted x l : StronglySorted Z.lt l -> StronglySorted Z.lt (insert x l).
Proof.
  induction 1 as [|y l S IH F]; cbn [insert]; [repeat constructor|].
  destruct (Z.eqb_spec x y); [constructor; assumption|]. destruct (Z.ltb_spec x y).
  - constructor; [constructor; assumption|]. constructor; [lia|]. eapply Forall_impl; [|exact F]. cbn. lia.
  - constructor; [exact IH|]. rewrite Forall_forall in *. intros z Hz. apply insert_in in Hz. destruct Hz as [-> | Hz]; [lia | auto].
Qed.
Lemma sorted_sorted v : StronglySorted Z.lt (sorted v).
Proof.
  unfold sorted. assert (G : forall v acc, StronglySorted Z.lt acc -> StronglySorted Z.lt (fold_left (fun acc x => insert x acc) v acc)).
  { clear. induction v; intros acc H; cbn [fold_left]; [exact H|]. apply IHv, insert_sorted, H. }
  apply G. constructor.
Qed.
Lemma contains_in x l : contains x l = true <-> In x l.
Proof.
  unfold contains. rewrite existsb_exists. split; [intros (y & H & E); apply Z.eqb_eq in E; subst; exact H|].
  intro H. exists x. split; [exact H | apply Z.eqb_refl].
Qed.
Lemma lines_eqb_refl l : lines_eqb l l = true.
Proof. induction l; [reflexivity|]. cbn [lines_eqb]. rewrite Z.eqb_refl. exact IHl. Qed.
Lemma lines_eqb_eq a b : lines_eqb a b = true -> a = b.
Proof.
  revert b. induction a as [|x a IH]; intros [|y b] H; cbn [lines_eqb] in H; try discriminate; [reflexivity|].
  apply andb_prop in H. destruct H as [E H]. apply Z.eqb_eq in E. rewrite E, (IH b H). reflexivity.
Qed.
Lemma preceding_spec vs l : StronglySorted Z.lt vs ->
  (In (preceding vs l) vs /\ (preceding vs l < l)%Z /\ forall u, In u vs -> (u < l)%Z -> (u <= preceding vs l)%Z)
  \/ (preceding vs l = (-1)%Z /\ forall u, In u vs -> (l <= u)%Z).
Proof.
  intro S. unfold preceding. destruct (bisect_left vs l) as [|i] eqn:B.
  - right. split; [reflexivity|]. intros u Hu. destruct vs as [|y vs]; [destruct Hu|]. cbn [bisect_left] in B.
    destruct (Z.ltb_spec y l); [discriminate|]. inversion S as [|? ? _ F]; subst. rewrite Forall_forall in F.
    destruct Hu as [<- | Hu]; [exact H | specialize (F u Hu); lia].
  - left. revert i B. induction S as [|y vs S IH F]; intros i B; cbn [bisect_left] in B; [discriminate|].
    destruct (Z.ltb_spec y l) as [Hy|]; [|discriminate]. injection B as B. rewrite Forall_forall in F. destruct i as [|i].
    + cbn [nth]. split; [left; reflexivity|]. split; [exact Hy|]. intros u [<- | Hu] Hl; [lia|]. exfalso.
      destruct vs as [|z vs]; [destruct Hu|]. cbn [bisect_left] in B. destruct (Z.ltb_spec z l) as [|Hz]; [discriminate|].
      inversion S as [|? ? _ F']; subst. rewrite Forall_forall in F'. destruct Hu as [-> | Hu]; [lia | specialize (F' u Hu); lia].
    + cbn [nth]. destruct (IH i B) as (P & Q & R). split; [right; exact P|]. split; [exact Q|].
      intros u [<- | Hu] Hl; [specialize (F _ P); lia | auto].
Qed.
Lemma preceding_closest v l : (0 <= preceding (sorted v) l)%Z -> closest v l (preceding (sorted v) l).
Proof.
  intro H. destruct (preceding_spec (sorted v) l (sorted_sorted v)) as [(A & B & C)|[E _]]; [|lia].
  split; [apply sorted_in, A|]. split; [lia|]. intros u Hu. apply C. apply sorted_in, Hu.
Qed.
Lemma preceding_none v l w : (preceding (sorted v) l < 0)%Z -> ~ closest v l w.
Proof.
  intros H (A & B & _). destruct (preceding_spec (sorted v) l (sorted_sorted v)) as [(_ & _ & C)|[_ C]].
  - specialize (C w (proj2 (sorted_in v w) A)). lia.
  - specialize (C w (proj2 (sorted_in v w) A)). lia.
Qed.
Lemma closest_unique v l w w' : closest v l w -> closest v l w' -> w = w'.
Proof. intros (A & B & C) (A' & B' & C'). specialize (C w' A'). specialize (C' w A). lia. Qed.

(** ** Consolidation *)
Definition placed (o : list (N * bp)) : list (Z * N) := fold_left (fun d x => set Z.eqb (line (snd x)) (fst x) d) o [].
Lemma find_app {A} (f : A -> bool) a b : find f (a ++ b) = match find f a with Some x => Some x | None => find f b end.
Proof. induction a as [|x a IH]; [reflexivity|]. cbn [app find]. destruct (f x); [reflexivity | exact IH]. Qed.
Lemma placed_gen o : forall (d : list (Z * N)) l,
  get Z.eqb l (fold_left (fun d x => set Z.eqb (line (snd x)) (fst x) d) o d) =
  match find (fun x => Z.eqb l (line (snd x))) (rev o) with Some x => Some (fst x) | None => get Z.eqb l d end.
Proof.
  induction o as [|x o IH]; intros d l; [reflexivity|]. cbn [fold_left rev]. rewrite IH.
  rewrite find_app. destruct (find _ (rev o)); [reflexivity|]. cbn [find]. rewrite (get_set _ Z.eqb_spec).
  destruct (Z.eqb l (line (snd x))); reflexivity.
Qed.
Lemma placed_nodup o : NoDup (keys (placed o)).
Proof.
  unfold placed. assert (G : forall (d : list (Z * N)), NoDup (keys d) -> NoDup (keys (fold_left (fun d x => set Z.eqb (line (snd x)) (fst x) d) o d))).
  { induction o as [|x o IH]; intros d H; cbn [fold_left]; [exact H|]. apply IH. apply (NoDup_keys_set _ Z.eqb_spec), H. }
  apply G. constructor.
Qed.
(** Objects with lines of their own *)
Definition distinct (o : list (N * bp)) : Prop :=
  NoDup (keys o) /\ forall id id' b b', get N.eqb id o = Some b -> get N.eqb id' o = Some b' -> line b = line b' -> id = id'.
Lemma placed_get o l id : distinct o -> get Z.eqb l (placed o) = Some id <-> exists b, get N.eqb id o = Some b /\ line b = l.
Proof.
  intros [ND D]. unfold placed. rewrite placed_gen. destruct (find _ (rev o)) as [[i b]|] eqn:E.
  - apply find_some in E. destruct E as [Hin E]. apply in_rev in Hin. apply Z.eqb_eq in E. cbn [fst snd] in *.
    apply (In_get _ N.eqb_spec) in Hin; [|exact ND]. split.
    + intro H. injection H as <-. eauto.
    + intros (b' & H & L). f_equal. eapply D; [exact Hin | exact H | congruence].
  - cbn [get]. split; [discriminate|]. intros (b & H & L). exfalso. apply (get_In _ N.eqb_spec) in H.
    apply in_rev in H. pose proof (find_none _ _ E _ H) as X. cbn in X. rewrite L, Z.eqb_refl in X. discriminate.
Qed.

(** ** Breakpoints set before the template is rendered *)
Definition fresh (b : bp) : Prop := b = Bp (line b) Lazy (line b) None.
Lemma current_app h o id : current (h ++ [o]) id =
  match o with Add i l => if N.eqb i id then Some l else current h id | Remove i => if N.eqb i id then None else current h id | Render _ => current h id end.
Proof. unfold current. rewrite fold_left_app. destruct o; reflexivity. Qed.
Lemma run_app h o : run (h ++ [o]) = exec (run h) o.
Proof. unfold run. rewrite fold_left_app. reflexivity. Qed.
Lemma current_added h id l : current h id = Some l -> In (Add id l) h.
Proof.
  induction h as [|o h IH] using rev_ind; [discriminate|]. rewrite current_app, in_app_iff.
  destruct o as [i l'|i|v]; [| |auto].
  - destruct (N.eqb_spec i id) as [->|]; [|auto]. intro H. injection H as ->. right. left. reflexivity.
  - destruct (N.eqb_spec i id); [discriminate | auto].
Qed.
Lemma verify_one_line vs s x id : option_map line (get N.eqb id (objs (verify_one vs s x))) = option_map line (get N.eqb id (objs s))
  /\ keys (objs (verify_one vs s x)) = keys (objs s) /\ cached (verify_one vs s x) = cached s.
Proof.
  destruct x as [l i]. unfold verify_one. destruct (get N.eqb i (objs s)) as [b|] eqn:E; [|auto].
  assert (G : forall e t, option_map line (get N.eqb id (set N.eqb i (Bp (line b) e t (Some vs)) (objs s))) = option_map line (get N.eqb id (objs s))
     /\ keys (set N.eqb i (Bp (line b) e t (Some vs)) (objs s)) = keys (objs s)).
  { intros e t. rewrite (get_set _ N.eqb_spec), (keys_set _ N.eqb_spec). unfold mem. rewrite E.
    destruct (N.eqb_spec id i) as [->|]; [rewrite E|]; auto. }
  cbv zeta.
  repeat match goal with
         | |- context [if ?c then _ else _] => destruct c
         end; cbn [objs cached]; auto; split; try apply G; split; try reflexivity; apply G; exact NoError || exact l.
Qed.
Lemma fold_line vs items : forall s id, option_map line (get N.eqb id (objs (fold_left (verify_one vs) items s))) = option_map line (get N.eqb id (objs s))
  /\ keys (objs (fold_left (verify_one vs) items s)) = keys (objs s) /\ cached (fold_left (verify_one vs) items s) = cached s.
Proof.
  induction items as [|x items IH]; intros s id; cbn [fold_left]; [auto|].
  destruct (IH (verify_one vs s x) id) as (A & B & C). destruct (verify_one_line vs s x id) as (A' & B' & C').
  rewrite A, B, C. auto.
Qed.
Lemma consolidate_line s id : option_map line (get N.eqb id (objs (consolidate s))) = option_map line (get N.eqb id (objs s))
  /\ keys (objs (consolidate s)) = keys (objs s) /\ cached (consolidate s) = cached s.
Proof.
  unfold consolidate. cbv zeta. cbn [lines cached objs sent]. fold (placed (objs s)). destruct (placed (objs s)) as [|x r] eqn:E; [auto|].
  destruct (cached s) as [vs|] eqn:C; [|auto].
  unfold verify. cbn [lines]. destruct (fold_line vs (x :: r) {| objs := objs s; lines := x :: r; cached := Some vs; sent := sent s |} id) as (A & B & D).
  rewrite A, B, D. auto.
Qed.
(** The objects are the current breakpoints, after every history. *)
Lemma objs_current h : NoDup (keys (objs (run h))) /\ forall id, option_map line (get N.eqb id (objs (run h))) = current h id.
Proof.
  induction h as [|o h [ND IH]] using rev_ind; [split; [constructor | reflexivity]|].
  rewrite run_app. destruct o as [i l|i|v]; cbn [exec].
  - unfold add. split.
    + destruct (consolidate_line {| objs := set N.eqb i {| line := l; error := Lazy; tline := l; key := None |} (objs (run h)); lines := lines (run h); cached := cached (run h); sent := sent (run h) |} i) as (_ & B & _).
      rewrite B. cbn [objs]. apply (NoDup_keys_set _ N.eqb_spec), ND.
    + intro id. rewrite (proj1 (consolidate_line _ id)). cbn [objs]. rewrite (get_set _ N.eqb_spec), current_app, N.eqb_sym.
      destruct (N.eqb_spec i id); [reflexivity | apply IH].
  - unfold remove, mem. destruct (get N.eqb i (objs (run h))) as [b|] eqn:E.
    + split.
      * destruct (consolidate_line {| objs := del N.eqb i (objs (run h)); lines := lines (run h); cached := cached (run h); sent := sent (run h) |} i) as (_ & B & _).
        rewrite B. cbn [objs]. apply NoDup_keys_del, ND.
      * intro id. rewrite (proj1 (consolidate_line _ id)). cbn [objs]. rewrite (get_del _ N.eqb_spec) by exact ND.
        rewrite current_app, N.eqb_sym. destruct (N.eqb_spec i id); [reflexivity | apply IH].
    + split; [exact ND|]. intro id. rewrite current_app. destruct (N.eqb_spec i id) as [<-|]; [rewrite E; reflexivity | apply IH].
  - unfold render. destruct (lines (run h)) as [|x r] eqn:E.
    + split; [exact ND|]. intro id. rewrite current_app. apply IH.
    + unfold verify. cbn [lines]. split.
      * rewrite (proj1 (proj2 (fold_line _ _ _ 0%N))). exact ND.
      * intro id. rewrite (proj1 (fold_line _ _ _ id)), current_app. apply IH.
Qed.
Lemma objs_distinct h : own_lines h -> distinct (objs (run h)).
Proof.
  intro O. destruct (objs_current h) as [ND C]. split; [exact ND|]. intros id id' b b' H H' E.
  apply (O id id' (line b)); apply current_added; rewrite <- C; [rewrite H | rewrite H', E]; reflexivity.
Qed.
Lemma edits_run h : edits h -> cached (run h) = None /\ sent (run h) = [] /\ lines (run h) = placed (objs (run h))
  /\ forall id b, get N.eqb id (objs (run h)) = Some b -> fresh b.
Proof.
  induction h as [|o h IH] using rev_ind; intro E; [repeat split; discriminate|].
  assert (E' : edits h) by (intros v H; apply (E v), in_or_app; left; exact H). destruct (IH E') as (A & B & C & D).
  assert (G : forall o, cached (consolidate (State o (lines (run h)) (cached (run h)) (sent (run h)))) = None
     /\ sent (consolidate (State o (lines (run h)) (cached (run h)) (sent (run h)))) = []
     /\ lines (consolidate (State o (lines (run h)) (cached (run h)) (sent (run h)))) = placed o
     /\ objs (consolidate (State o (lines (run h)) (cached (run h)) (sent (run h)))) = o).
  { intro o'. unfold consolidate. cbv zeta. cbn [lines cached objs sent]. rewrite A, B. fold (placed o'). destruct (placed o'); auto. }
  rewrite run_app. destruct o as [i l|i|v]; cbn [exec].
  - unfold add. destruct (G (set N.eqb i (Bp l Lazy l None) (objs (run h)))) as (G1 & G2 & G3 & G4).
    rewrite G4. repeat split; auto. intros id b H. rewrite (get_set _ N.eqb_spec) in H. destruct (N.eqb_spec id i).
    + injection H as <-. reflexivity.
    + eapply D, H.
  - unfold remove. destruct (mem N.eqb i (objs (run h))); [|auto].
    destruct (G (del N.eqb i (objs (run h)))) as (G1 & G2 & G3 & G4). rewrite G4. repeat split; auto.
    intros id b H. rewrite (get_del _ N.eqb_spec) in H by exact (proj1 (objs_current h)). destruct (N.eqb id i); [discriminate | eapply D, H].
  - exfalso. apply (E v), in_or_app. right. left. reflexivity.
Qed.

(** ** One verification of fresh breakpoints *)
Section Fresh.
Context (v : list Z) (d0 : list (Z * N)).
Let vs := sorted v.
Context (NDk : NoDup (keys d0)) (NDv : NoDup (map snd d0)).

(** What has become of a breakpoint of the line that was verified *)
Definition settled (s : state) (l : Z) (id : N) : Prop := exists b w, get N.eqb id (objs s) = Some b
  /\ (forall x, get Z.eqb x (lines s) = Some id <-> x = w) /\ of_id id (sent s) = [(id, error b, tline b)] /\ key b = Some vs
  /\ ((target v l w /\ error b = NoError /\ tline b = w)
      \/ (~ In l v /\ w = l /\ error b = Invalid /\ tline b = l
          /\ forall u, closest v l u -> exists id', id' <> id /\ get Z.eqb u (lines s) = Some id')).
Record inv (s : state) (done rest : list (Z * N)) : Prop := {
  i_split : done ++ rest = d0;
  i_nodup : NoDup (keys (lines s));
  i_rest : forall l id, In (l, id) rest -> get N.eqb id (objs s) = Some (Bp l Lazy l None)
            /\ (forall x, get Z.eqb x (lines s) = Some id <-> x = l) /\ of_id id (sent s) = [];
  i_done : forall l id, In (l, id) done -> settled s l id;
  i_lines : forall x id, get Z.eqb x (lines s) = Some id -> exists l, In (l, id) d0 /\ (x = l \/ target v l x)
}.

Lemma of_id_app id a b : of_id id (a ++ b) = of_id id a ++ of_id id b.
Proof. apply filter_app. Qed.
Lemma in_split_ids done l id rest l' : done ++ (l, id) :: rest = d0 -> In (l', id) (done ++ rest) -> False.
Proof.
  intros E H. rewrite <- E, map_app in NDv. cbn [map snd] in NDv. apply NoDup_remove_2 in NDv. apply NDv.
  rewrite <- map_app. apply (in_map snd) in H. exact H.
Qed.

Lemma step s done rest l id : inv s done ((l, id) :: rest) -> inv (verify_one vs s (l, id)) (done ++ [(l, id)]) rest.
Proof.
  intros [Sp Nd Hr Hd Hl]. destruct (Hr l id (or_introl eq_refl)) as (Eo & Ex & Es).
  assert (Other : forall l' id', In (l', id') (done ++ rest) -> id' <> id).
  { intros l' id' H ->. exact (in_split_ids done l id rest l' Sp H). }
  assert (Sp' : (done ++ [(l, id)]) ++ rest = d0) by (rewrite <- app_assoc; exact Sp).
  assert (Hold : get Z.eqb l (lines s) = Some id) by (apply Ex; reflexivity).
  unfold verify_one. rewrite Eo. cbn [key error tline line code_eqb negb andb]. cbv zeta.
  destruct (contains l vs) eqn:Cl; cbn [negb].
  - (* a valid line *)
    assert (Hin : In l v) by (apply sorted_in, contains_in, Cl).
    constructor; cbn [objs lines sent cached]; auto.
    + intros l' id' H. assert (id' <> id) by (apply (Other l'), in_or_app; auto).
      destruct (Hr l' id' (or_intror H)) as (A & B & C). rewrite (get_set _ N.eqb_spec).
      destruct (N.eqb_spec id' id); [contradiction|]. split; [exact A|]. split; [exact B|].
      rewrite of_id_app, C. cbn. destruct (N.eqb_spec id id'); [congruence | reflexivity].
    + intros l' id' H. apply in_app_or in H. destruct H as [H|[H|[]]].
      * assert (id' <> id) by (apply (Other l'), in_or_app; auto).
        destruct (Hd l' id' H) as (b & w & A & B & C & D). exists b, w. cbn [objs lines sent].
        rewrite (get_set _ N.eqb_spec). destruct (N.eqb_spec id' id); [contradiction|]. split; [exact A|]. split; [exact B|].
        split; [|exact D]. rewrite of_id_app, C. cbn. destruct (N.eqb_spec id id'); [congruence | reflexivity].
      * injection H as <- <-. eexists. exists l. cbn [objs lines sent]. rewrite (get_set_same _ N.eqb_spec).
        split; [reflexivity|]. split; [exact Ex|]. split; [rewrite of_id_app, Es; cbn; rewrite N.eqb_refl; reflexivity|].
        split; [reflexivity|]. left. split; [left; auto | auto].
  - assert (Hn : ~ In l v) by (intro X; apply (proj2 (sorted_in v l)), contains_in in X; unfold vs in Cl; congruence).
    remember (preceding vs l) as nl eqn:Enl.
    destruct (Z.leb_spec 0 nl) as [Hnl|Hnl]; cbn [andb].
    + assert (Hc : closest v l nl) by (subst nl; apply preceding_closest, Hnl).
      assert (Hne : l <> nl) by (intro X; apply Hn; rewrite X; apply Hc).
      unfold mem. destruct (get Z.eqb nl (lines s)) as [id1|] eqn:Em; cbn [negb].
      * (* occupied *)
        assert (id1 <> id) by (intros ->; apply Ex in Em; congruence).
        constructor; cbn [objs lines sent cached]; auto.
        -- intros l' id' H'. assert (id' <> id) by (apply (Other l'), in_or_app; auto).
           destruct (Hr l' id' (or_intror H')) as (A & B & C). rewrite (get_set _ N.eqb_spec).
           destruct (N.eqb_spec id' id); [contradiction|]. split; [exact A|]. split; [exact B|].
           rewrite of_id_app, C. cbn. destruct (N.eqb_spec id id'); [congruence | reflexivity].
        -- intros l' id' H'. apply in_app_or in H'. destruct H' as [H'|[H'|[]]].
           ++ assert (id' <> id) by (apply (Other l'), in_or_app; auto).
              destruct (Hd l' id' H') as (b & w & A & B & C & D). exists b, w. cbn [objs lines sent].
              rewrite (get_set _ N.eqb_spec). destruct (N.eqb_spec id' id); [contradiction|]. split; [exact A|]. split; [exact B|].
              split; [|exact D]. rewrite of_id_app, C. cbn. destruct (N.eqb_spec id id'); [congruence | reflexivity].
           ++ injection H' as <- <-. eexists. exists l. cbn [objs lines sent]. rewrite (get_set_same _ N.eqb_spec).
              split; [reflexivity|]. split; [exact Ex|]. split; [rewrite of_id_app, Es; cbn; rewrite N.eqb_refl; reflexivity|].
              split; [reflexivity|]. right. cbn [error tline]. repeat split; auto.
              intros u Hu. rewrite (closest_unique _ _ _ _ Hu Hc). eauto.
      * (* moved *)
        destruct (Z.eqb_spec l nl) as [|_]; [contradiction|]. cbn [negb].
        assert (Gl : forall x, get Z.eqb x (set Z.eqb nl id (del Z.eqb l (lines s))) =
                      if Z.eqb x nl then Some id else if Z.eqb x l then None else get Z.eqb x (lines s)).
        { intro x. rewrite (get_set _ Z.eqb_spec), (get_del _ Z.eqb_spec) by exact Nd. reflexivity. }
        assert (Keep : forall x id', id' <> id -> get Z.eqb x (lines s) = Some id' ->
                        get Z.eqb x (set Z.eqb nl id (del Z.eqb l (lines s))) = Some id').
        { intros x id' N' H. rewrite Gl. destruct (Z.eqb_spec x nl) as [->|]; [congruence|].
          destruct (Z.eqb_spec x l) as [->|]; [congruence | exact H]. }
        assert (Same : forall x id', id' <> id -> get Z.eqb x (set Z.eqb nl id (del Z.eqb l (lines s))) = Some id' <-> get Z.eqb x (lines s) = Some id').
        { intros x id' N'. split; [|apply Keep, N']. rewrite Gl. destruct (Z.eqb_spec x nl); [congruence|].
          destruct (Z.eqb_spec x l); [discriminate | auto]. }
        constructor; cbn [objs lines sent cached]; auto.
        -- apply (NoDup_keys_set _ Z.eqb_spec), NoDup_keys_del, Nd.
        -- intros l' id' H'. assert (N' : id' <> id) by (apply (Other l'), in_or_app; auto).
           destruct (Hr l' id' (or_intror H')) as (A & B & C). rewrite (get_set _ N.eqb_spec).
           destruct (N.eqb_spec id' id); [contradiction|]. split; [exact A|]. split; [intro x; rewrite Same by exact N'; apply B|].
           rewrite of_id_app, C. cbn. destruct (N.eqb_spec id id'); [congruence | reflexivity].
        -- intros l' id' H'. apply in_app_or in H'. destruct H' as [H'|[H'|[]]].
           ++ assert (N' : id' <> id) by (apply (Other l'), in_or_app; auto).
              destruct (Hd l' id' H') as (b & w & A & B & C & D & F). exists b, w. cbn [objs lines sent].
              rewrite (get_set _ N.eqb_spec). destruct (N.eqb_spec id' id); [contradiction|]. split; [exact A|].
              split; [intro x; rewrite Same by exact N'; apply B|].
              split; [rewrite of_id_app, C; cbn; destruct (N.eqb_spec id id'); [congruence | reflexivity]|].
              split; [exact D|]. destruct F as [F|(F1 & F2 & F3 & F4 & F5)]; [left; exact F|].
              right. repeat split; auto. intros u Hu. destruct (F5 u Hu) as (i2 & G1 & G2).
              exists i2. split; [exact G1|]. rewrite Gl. destruct (Z.eqb_spec u nl) as [->|]; [congruence|].
              destruct (Z.eqb_spec u l) as [->|]; [|exact G2]. exfalso. apply Hn. apply Hu.
           ++ injection H' as <- <-. eexists. exists nl. cbn [objs lines sent]. rewrite (get_set_same _ N.eqb_spec).
              split; [reflexivity|]. split.
              { intro x. rewrite Gl. destruct (Z.eqb_spec x nl); [tauto|]. destruct (Z.eqb_spec x l) as [->|Hxl]; [split; congruence|].
                rewrite Ex. split; [congruence | contradiction]. }
              split; [rewrite of_id_app, Es; cbn; rewrite N.eqb_refl; reflexivity|].
              split; [reflexivity|]. left. split; [right; auto | auto].
        -- intros x id'. rewrite Gl. destruct (Z.eqb_spec x nl) as [->|].
           ++ intro H. injection H as <-. exists l. split; [rewrite <- Sp; apply in_or_app; right; left; reflexivity|].
              right. right. auto.
           ++ destruct (Z.eqb_spec x l); [discriminate | apply Hl].
    + (* no line before *)
      constructor; cbn [objs lines sent cached]; auto.
      * intros l' id' H'. assert (id' <> id) by (apply (Other l'), in_or_app; auto).
        destruct (Hr l' id' (or_intror H')) as (A & B & C). rewrite (get_set _ N.eqb_spec).
        destruct (N.eqb_spec id' id); [contradiction|]. split; [exact A|]. split; [exact B|].
        rewrite of_id_app, C. cbn. destruct (N.eqb_spec id id'); [congruence | reflexivity].
      * intros l' id' H'. apply in_app_or in H'. destruct H' as [H'|[H'|[]]].
        -- assert (id' <> id) by (apply (Other l'), in_or_app; auto).
           destruct (Hd l' id' H') as (b & w & A & B & C & D). exists b, w. cbn [objs lines sent].
           rewrite (get_set _ N.eqb_spec). destruct (N.eqb_spec id' id); [contradiction|]. split; [exact A|]. split; [exact B|].
           split; [|exact D]. rewrite of_id_app, C. cbn. destruct (N.eqb_spec id id'); [congruence | reflexivity].
        -- injection H' as <- <-. eexists. exists l. cbn [objs lines sent]. rewrite (get_set_same _ N.eqb_spec).
           split; [reflexivity|]. split; [exact Ex|]. split; [rewrite of_id_app, Es; cbn; rewrite N.eqb_refl; reflexivity|].
           split; [reflexivity|]. right. cbn [error tline]. repeat split; auto.
           intros u Hu. exfalso. subst nl; exact (preceding_none v l u Hnl Hu).
Qed.
Lemma steps rest : forall s done, inv s done rest -> inv (fold_left (verify_one vs) rest s) d0 [].
Proof.
  induction rest as [|[l id] rest IH]; intros s done H; cbn [fold_left].
  - pose proof (i_split _ _ _ H) as E. rewrite app_nil_r in E. rewrite E in H. exact H.
  - apply (IH _ (done ++ [(l, id)])), step, H.
Qed.
End Fresh.

(** ** Verification again *)
Lemma strongly_sorted_eq a b : StronglySorted Z.lt a -> StronglySorted Z.lt b -> (forall x, In x a <-> In x b) -> a = b.
Proof.
  intro S. revert b. induction S as [|x a S IH F]; intros b S' E.
  - destruct b as [|y b]; [reflexivity|]. destruct (proj2 (E y) (or_introl eq_refl)).
  - destruct S' as [|y b S' F'].
    + destruct (proj1 (E x) (or_introl eq_refl)).
    + rewrite Forall_forall in F, F'.
      assert (x = y).
      { destruct (proj1 (E x) (or_introl eq_refl)) as [->|H]; [reflexivity|]. destruct (proj2 (E y) (or_introl eq_refl)) as [->|H']; [reflexivity|].
        specialize (F _ H'). specialize (F' _ H). lia. }
      subst y. f_equal. apply IH; [exact S'|]. intro z. split; intro Hz.
      * destruct (proj1 (E z) (or_intror Hz)) as [<-|H]; [|exact H]. specialize (F _ Hz). lia.
      * destruct (proj2 (E z) (or_intror Hz)) as [<-|H]; [|exact H]. specialize (F' _ Hz). lia.
Qed.
Definition same_lines (v w : list Z) : Prop := forall x, In x v <-> In x w.
Lemma sorted_same v w : same_lines v w -> sorted v = sorted w.
Proof.
  intro E. apply strongly_sorted_eq; try apply sorted_sorted. intro x. rewrite !sorted_in. apply E.
Qed.

(** A breakpoint which has been verified for these lines *)
Definition verified (vs : list Z) (s : state) (id : N) : Prop := forall b, get N.eqb id (objs s) = Some b -> key b = Some vs.
Lemma verified_skip vs s x id : verified vs s id -> verify_one vs s (x, id) = s.
Proof.
  intro V. unfold verify_one. destruct (get N.eqb id (objs s)) as [b|] eqn:E; [|reflexivity].
  rewrite (V b E), lines_eqb_refl. reflexivity.
Qed.
Lemma verify_one_objs vs s x id id' : get N.eqb id' (objs (verify_one vs s (x, id))) = get N.eqb id' (objs s)
  \/ (id' = id /\ exists b e t, get N.eqb id' (objs s) = Some b /\ get N.eqb id' (objs (verify_one vs s (x, id))) = Some (Bp (line b) e t (Some vs))).
Proof.
  unfold verify_one. destruct (get N.eqb id (objs s)) as [b|] eqn:E; [|left; reflexivity]. cbv zeta.
  destruct (match key b with Some k => lines_eqb k vs | None => false end); [left; reflexivity|].
  assert (G : forall e t, get N.eqb id' (set N.eqb id (Bp (line b) e t (Some vs)) (objs s)) = get N.eqb id' (objs s)
     \/ (id' = id /\ exists b0 e0 t0, get N.eqb id' (objs s) = Some b0 /\ get N.eqb id' (set N.eqb id (Bp (line b) e t (Some vs)) (objs s)) = Some (Bp (line b0) e0 t0 (Some vs)))).
  { intros e t. rewrite (get_set _ N.eqb_spec). destruct (N.eqb_spec id' id) as [->|]; [|left; reflexivity].
    right. split; [reflexivity|]. exists b, e, t. auto. }
  repeat match goal with |- context [if ?c then _ else _] => destruct c end; cbn [objs]; apply G.
Qed.
Lemma verify_one_verified vs s x id : verified vs (verify_one vs s (x, id)) id.
Proof.
  unfold verified, verify_one. destruct (get N.eqb id (objs s)) as [b|] eqn:E; [|intros b H; congruence]. cbv zeta.
  destruct (match key b with Some k => lines_eqb k vs | None => false end) eqn:K.
  - intros b' H. assert (b' = b) by congruence. subst. destruct (key b); [|discriminate]. apply lines_eqb_eq in K. congruence.
  - assert (G : forall e t b', get N.eqb id (set N.eqb id (Bp (line b) e t (Some vs)) (objs s)) = Some b' -> key b' = Some vs).
    { intros e t b' H. rewrite (get_set_same _ N.eqb_spec) in H. injection H as <-. reflexivity. }
    repeat match goal with |- context [if ?c then _ else _] => destruct c end; cbn [objs]; apply G.
Qed.
Lemma verified_keeps vs s x id id' : verified vs s id' -> verified vs (verify_one vs s (x, id)) id'.
Proof.
  intros V b H. destruct (verify_one_objs vs s x id id') as [E|(-> & _)].
  - apply V. congruence.
  - exact (verify_one_verified vs s x id b H).
Qed.
Lemma verify_all vs items : forall s, Forall (fun i => verified vs (fold_left (verify_one vs) items s) (snd i)) items
  /\ (forall id, verified vs s id -> verified vs (fold_left (verify_one vs) items s) id)
  /\ (forall i, In i (lines (fold_left (verify_one vs) items s)) -> In i (lines s) \/ In (snd i) (map snd items)).
Proof.
  induction items as [|[x id] items IH]; intro s; cbn [fold_left]; [auto|].
  destruct (IH (verify_one vs s (x, id))) as (A & B & C). split; [|split].
  - constructor; [apply B, verify_one_verified | exact A].
  - intros id' H. apply B, verified_keeps, H.
  - intros i H. apply C in H. destruct H as [H|H]; [|right; right; exact H].
    unfold verify_one in H. destruct (get N.eqb id (objs s)) as [b|]; [|left; exact H]. cbv zeta in H.
    repeat match type of H with context [if ?c then _ else _] => destruct c end; cbn [lines] in H; auto.
    assert (S : forall (d : list (Z * N)) k (v : N) j, In j (set Z.eqb k v d) -> In j d \/ snd j = v).
    { clear. induction d as [|[k' v'] d IHd]; intros k v j H; cbn [set] in H.
      - destruct H as [<- | []]. right. reflexivity.
      - destruct (Z.eqb k k'); destruct H as [<- | H]; auto; [left; right; exact H | left; left; reflexivity|].
        destruct (IHd _ _ _ H); [left; right|right]; assumption. }
    apply S in H. destruct H as [H | ->]; [|right; left; reflexivity]. left. eapply del_incl, H.
Qed.
Lemma fold_skip vs items : forall s, (forall i, In i items -> verified vs s (snd i)) -> fold_left (verify_one vs) items s = s.
Proof.
  induction items as [|[x id] items IH]; intros s H; [reflexivity|]. cbn [fold_left].
  rewrite verified_skip by exact (H (x, id) (or_introl eq_refl)). apply IH. intros i Hi. apply H. right. exact Hi.
Qed.

(** ** The same lines all along *)
Section Same.
Context (v : list Z).
Let vs := sorted v.
Record kept (s : state) (rest : list (Z * N)) : Prop := {
  k_cached : cached s = None \/ cached s = Some vs;
  k_bp : forall id b, get N.eqb id (objs s) = Some b -> fresh b \/ (key b = Some vs /\
           (In (line b) v -> exists e, of_id id (sent s) = e ++ [(id, NoError, line b)]));
  k_own : forall id b, get N.eqb id (objs s) = Some b -> In (line b) v -> get Z.eqb (line b) (lines s) = Some id;
  k_lines : forall x id, get Z.eqb x (lines s) = Some id -> exists b, get N.eqb id (objs s) = Some b /\ (x = line b \/ key b = Some vs);
  k_nodup : NoDup (keys (lines s));
  k_rest : forall x id, In (x, id) rest -> exists b, get N.eqb id (objs s) = Some b /\ (x = line b \/ key b = Some vs)
}.
Lemma kept_step s x id rest : kept s ((x, id) :: rest) -> kept (verify_one vs s (x, id)) rest.
Proof.
  intros [Kc Kb Ko Kl Kn Kr].
  destruct (Kr x id (or_introl eq_refl)) as (b & Eb & Hx).
  assert (Kr' : forall x id, In (x, id) rest -> exists b, get N.eqb id (objs s) = Some b /\ (x = line b \/ key b = Some vs)) by (intros; apply Kr; right; assumption).
  destruct (Kb id b Eb) as [Fb|[Kbv _]].
  2:{ rewrite verified_skip; [constructor; auto|]. intros b' H. congruence. }
  destruct Hx as [->|Hx]; [|rewrite Fb in Hx; discriminate].
  remember (line b) as l eqn:El.
  assert (Upd : forall e t evs, (In l v -> e = NoError /\ evs = [(id, NoError, l)]) -> (forall ev, In ev evs -> fst (fst ev) = id) ->
     forall id' b', get N.eqb id' (set N.eqb id (Bp l e t (Some vs)) (objs s)) = Some b' ->
     fresh b' \/ (key b' = Some vs /\ (In (line b') v -> exists e0, of_id id' (sent s ++ evs) = e0 ++ [(id', NoError, line b')]))).
  { intros e t evs He Hev id' b' H. rewrite (get_set _ N.eqb_spec) in H. destruct (N.eqb_spec id' id) as [->|N'].
    - injection H as <-. right. split; [reflexivity|]. cbn [line]. intro Hin. destruct (He Hin) as [_ ->].
      exists (of_id id (sent s)). rewrite of_id_app. cbn. rewrite N.eqb_refl. reflexivity.
    - destruct (Kb id' b' H) as [F|[A B]]; [left; exact F | right]. split; [exact A|]. intro Hin.
      destruct (B Hin) as [e0 E0]. exists e0. rewrite of_id_app, E0.
      replace (of_id id' evs) with (@nil event); [apply app_nil_r|].
      clear - Hev N'. induction evs as [|ev evs IH]; [reflexivity|]. unfold of_id. cbn [filter].
      rewrite (Hev ev (or_introl eq_refl)). destruct (N.eqb_spec id id'); [congruence|]. apply IH. intros; apply Hev; right; assumption. }
  assert (Own : forall e t ls, (forall w i, In w v -> get Z.eqb w (lines s) = Some i -> get Z.eqb w ls = Some i) ->
     forall id' b', get N.eqb id' (set N.eqb id (Bp l e t (Some vs)) (objs s)) = Some b' -> In (line b') v -> get Z.eqb (line b') ls = Some id').
  { intros e t ls Hls id' b' H Hin. rewrite (get_set _ N.eqb_spec) in H. destruct (N.eqb_spec id' id) as [->|N'].
    - injection H as <-. cbn [line] in *. apply Hls; [exact Hin|]. rewrite El in *. apply Ko; assumption.
    - apply Hls; [exact Hin|]. apply Ko; assumption. }
  assert (Lin : forall e t x id', (exists b', get N.eqb id' (objs s) = Some b' /\ (x = line b' \/ key b' = Some vs)) ->
     exists b', get N.eqb id' (set N.eqb id (Bp l e t (Some vs)) (objs s)) = Some b' /\ (x = line b' \/ key b' = Some vs)).
  { intros e t x id' (b' & H & D). rewrite (get_set _ N.eqb_spec). destruct (N.eqb_spec id' id) as [->|]; [|eauto].
    eexists. split; [reflexivity|]. right. reflexivity. }
  assert (One : forall (e : code) (t : Z) (ev : event), In ev [(id, e, t)] -> fst (fst ev) = id) by (intros e t ev [<- | []]; reflexivity).
  unfold verify_one. rewrite Eb. rewrite Fb. cbn [key error tline line code_eqb negb andb]. rewrite <- El. cbv zeta.
  destruct (contains l vs) eqn:Cl; cbn [negb].
  - constructor; cbn [objs lines sent cached]; auto.
    + apply Upd; [auto | apply One].
    + apply Own. auto.
  - assert (Hn : ~ In l v) by (intro X; apply (proj2 (sorted_in v l)), contains_in in X; unfold vs in Cl; congruence).
    remember (preceding vs l) as nl eqn:Enl. destruct (Z.leb 0 nl && negb (mem Z.eqb nl (lines s))) eqn:M.
    + apply andb_prop in M. destruct M as [M1 M2]. unfold mem in M2. destruct (get Z.eqb nl (lines s)) eqn:Gn; [discriminate|].
      assert (Gl : forall x, get Z.eqb x (set Z.eqb nl id (del Z.eqb l (lines s))) =
                      if Z.eqb x nl then Some id else if Z.eqb x l then None else get Z.eqb x (lines s)).
      { intro x. rewrite (get_set _ Z.eqb_spec), (get_del _ Z.eqb_spec) by exact Kn. reflexivity. }
      destruct (Z.eqb_spec l nl) as [E|_]; cbn [negb].
      * constructor; cbn [objs lines sent cached]; auto.
        -- rewrite <- (app_nil_r (sent s)). apply Upd; [contradiction | intros ev []].
        -- apply Own. auto.
      * constructor; cbn [objs lines sent cached]; auto.
        -- apply Upd; [contradiction | apply One].
        -- apply Own. intros w i Hw H. rewrite Gl. destruct (Z.eqb_spec w nl) as [->|]; [congruence|].
           destruct (Z.eqb_spec w l) as [->|]; [contradiction | exact H].
        -- intros x id'. rewrite Gl. destruct (Z.eqb_spec x nl) as [->|].
           ++ intro H. injection H as <-. rewrite (get_set_same _ N.eqb_spec). eexists. split; [reflexivity|]. right. reflexivity.
           ++ destruct (Z.eqb x l); [discriminate|]. intro H. apply Lin, Kl, H.
        -- apply (NoDup_keys_set _ Z.eqb_spec), NoDup_keys_del, Kn.
    + constructor; cbn [objs lines sent cached]; auto.
      * apply Upd; [contradiction | apply One].
      * apply Own. auto.
Qed.
Lemma kept_fold rest : forall s, kept s rest -> kept (fold_left (verify_one vs) rest s) [].
Proof. induction rest as [|[x id] rest IH]; intros s H; [exact H|]. cbn [fold_left]. apply IH, kept_step, H. Qed.
Lemma kept_verify s : kept s [] -> kept (verify vs s) [].
Proof.
  intro K. unfold verify. apply kept_fold. destruct K as [Kc Kb Ko Kl Kn Kr]. constructor; auto.
  intros x id H. apply Kl. apply (In_get _ Z.eqb_spec); assumption.
Qed.
Lemma kept_consolidate o s : distinct o -> kept s [] ->
  (forall id b, get N.eqb id o = Some b -> fresh b \/ get N.eqb id (objs s) = Some b) ->
  kept (consolidate (State o (lines s) (cached s) (sent s))) [].
Proof.
  intros D [Kc Kb Ko Kl Kn Kr] H. unfold consolidate. cbv zeta. cbn [objs lines cached sent]. fold (placed o).
  assert (K : kept (State o (placed o) (cached s) (sent s)) []).
  { constructor; cbn [objs lines cached sent]; auto.
    - intros id b E. destruct (H id b E) as [F|F]; [left; exact F | apply Kb, F].
    - intros id b E _. apply placed_get; eauto.
    - intros x id E. apply placed_get in E; [|exact D]. destruct E as (b & E & L). exists b. auto.
    - apply placed_nodup.
    - intros x id []. }
  destruct (placed o) eqn:P; [exact K|]. destruct Kc as [Kc | Kc]; rewrite Kc in *; [exact K|]. apply kept_verify, K.
Qed.
Lemma kept_run h : own_lines h -> (forall w, In (Render w) h -> same_lines w v) -> kept (run h) [].
Proof.
  induction h as [|o h IH] using rev_ind; intros O R.
  - constructor; cbn; auto; try discriminate; [constructor | intros x id []].
  - assert (O' : own_lines h) by (intros i i' l A B; apply (O i i' l); apply in_or_app; left; assumption).
    assert (K : kept (run h) []) by (apply IH; [exact O' | intros w Hw; apply R, in_or_app; left; exact Hw]).
    pose proof (objs_distinct h O') as Dh. rewrite run_app.
    destruct o as [i l|i|w]; cbn [exec].
    + unfold add. apply kept_consolidate; [|exact K|].
      * split; [apply (NoDup_keys_set _ N.eqb_spec), Dh|].
        assert (C : forall id b, get N.eqb id (set N.eqb i (Bp l Lazy l None) (objs (run h))) = Some b -> In (Add id (line b)) (h ++ [Add i l])).
        { intros id b E. rewrite (get_set _ N.eqb_spec) in E. apply in_or_app. destruct (N.eqb_spec id i) as [->|].
          - injection E as <-. right. left. reflexivity.
          - left. apply current_added. rewrite <- (proj2 (objs_current h)), E. reflexivity. }
        intros id id' b b' E E' L. apply (O id id' (line b)); [apply C, E | rewrite L; apply C, E'].
      * intros id b E. rewrite (get_set _ N.eqb_spec) in E. destruct (N.eqb_spec id i); [|right; exact E].
        injection E as <-. left. reflexivity.
    + unfold remove. destruct (mem N.eqb i (objs (run h))); [|exact K].
      assert (S : forall id b, get N.eqb id (del N.eqb i (objs (run h))) = Some b -> get N.eqb id (objs (run h)) = Some b).
      { intros id b. rewrite (get_del _ N.eqb_spec) by apply Dh. destruct (N.eqb id i); [discriminate | auto]. }
      apply kept_consolidate; [|exact K|].
      * split; [apply NoDup_keys_del, Dh|]. intros id id' b b' E E'. apply (proj2 Dh); apply S; assumption.
      * intros id b E. right. apply S, E.
    + assert (E : sorted w = vs) by (apply sorted_same, R, in_or_app; right; left; reflexivity).
      unfold render. rewrite E. destruct (lines (run h)) eqn:L; [exact K|]. apply kept_verify. rewrite <- L.
      destruct K as [Kc Kb Ko Kl Kn Kr]. constructor; cbn [objs lines cached sent]; auto.
Qed.
End Same.

Lemma first_render h v : edits h -> own_lines h -> lines (run h) <> [] ->
  inv v (lines (run h)) (run (h ++ [Render v])) (lines (run h)) []
  /\ (forall x i, In (x, i) (lines (run h)) <-> current h i = Some x).
Proof.
  intros E O NE. destruct (edits_run h E) as (Ec & Es & El & Ef). pose proof (objs_distinct h O) as D.
  destruct (objs_current h) as [ND Cu].
  assert (Hd : forall x i, In (x, i) (lines (run h)) <-> exists b, get N.eqb i (objs (run h)) = Some b /\ line b = x).
  { intros x i. rewrite El. rewrite <- (placed_get _ x i D). split; [apply (In_get _ Z.eqb_spec), placed_nodup | apply (get_In _ Z.eqb_spec)]. }
  assert (I : inv v (lines (run h)) (State (objs (run h)) (lines (run h)) (Some (sorted v)) (sent (run h))) [] (lines (run h))).
  { constructor; cbn [objs lines sent cached]; auto.
    - rewrite El. apply placed_nodup.
    - intros x i H. apply Hd in H. destruct H as (b' & H & L). pose proof (Ef i b' H) as F. unfold fresh in F. rewrite L in F.
      split; [congruence|]. split; [|rewrite Es; reflexivity]. intro x'. rewrite El, (placed_get _ x' i D). split.
      + intros (b2 & H2 & L2). congruence.
      + intros ->. eauto.
    - intros x i [].
    - intros x i H. exists x. split; [apply (get_In _ Z.eqb_spec), H | left; reflexivity]. }
  assert (NDv : NoDup (map snd (lines (run h)))).
  { rewrite El. apply NoDup_nth_error. intros i j Hi H. rewrite !nth_error_map in H. rewrite map_length in Hi.
    destruct (nth_error (placed (objs (run h))) i) as [[x a]|] eqn:N1; [|apply nth_error_None in N1; lia].
    destruct (nth_error (placed (objs (run h))) j) as [[y c]|] eqn:N2; [|discriminate]. cbn in H. injection H as <-.
    pose proof (nth_error_In _ _ N1) as I1. pose proof (nth_error_In _ _ N2) as I2. rewrite <- El in I1, I2.
    apply Hd in I1, I2. destruct I1 as (b1 & B1 & L1), I2 as (b2 & B2 & L2). assert (Exy : x = y) by congruence. rewrite <- Exy in *.
    pose proof (placed_nodup (objs (run h))) as Np. rewrite NoDup_nth_error in Np. apply Np; unfold keys; rewrite ?map_length; [exact Hi|].
    rewrite !nth_error_map, N1, N2. reflexivity. }
  assert (Nk : NoDup (keys (lines (run h)))) by (rewrite El; apply placed_nodup).
  pose proof (steps v (lines (run h)) NDv (lines (run h)) _ [] I) as I'.
  assert (Rs : run (h ++ [Render v]) = fold_left (verify_one (sorted v)) (lines (run h)) (State (objs (run h)) (lines (run h)) (Some (sorted v)) (sent (run h)))).
  { rewrite run_app. cbn [exec]. unfold render. destruct (lines (run h)); [congruence | reflexivity]. }
  rewrite <- Rs in I'. split; [exact I'|]. intros x i. rewrite Hd, <- Cu. split.
  - intros (b & H & L). rewrite H, <- L. reflexivity.
  - destruct (get N.eqb i (objs (run h))) as [b|]; [|discriminate]. intro H. injection H as H. eauto.
Qed.

(** ** Theorems *)

(** Breakpoints set (and removed) before the template is rendered: when it is, each breakpoint is reported once, on
    its own line if that line can stop; else moved to the closest valid line before it; it is reported as invalid only
    if there is no such line or another breakpoint is there. The debugger then stops for it exactly there. *)
Theorem template_breakpoints_verified : forall h v id l, edits h -> own_lines h -> current h id = Some l ->
  let s := run (h ++ [Render v]) in
  exists w c, of_id id (sent s) = [(id, c, w)] /\ (forall x, stops s x = Some id <-> x = w)
    /\ ((c = NoError /\ target v l w)
        \/ (c = Invalid /\ w = l /\ ~ In l v /\ forall u, closest v l u -> exists id', id' <> id /\ stops s u = Some id')).
Proof.
  intros h v id l E O C s. assert (NE : lines (run h) <> []).
  { destruct (edits_run h E) as (_ & _ & El & _). rewrite El. destruct (objs_current h) as [_ Cu]. specialize (Cu id). rewrite C in Cu.
    destruct (get N.eqb id (objs (run h))) as [b|] eqn:G; [|discriminate]. intro X.
    assert (get Z.eqb (line b) (placed (objs (run h))) = Some id) by (apply placed_get; [apply objs_distinct, O | eauto]).
    rewrite X in *. discriminate. }
  destruct (first_render h v E O NE) as [I Hc].
  destruct (i_done _ _ _ _ _ I l id (proj2 (Hc l id) C)) as (b' & w & A & B & F & _ & G).
  fold s in A, B, F, G.
  destruct G as [(G1 & G2 & G3)|(G1 & G2 & G3 & G4 & G5)].
  - exists w, NoError. rewrite F, G2, G3. split; [reflexivity|]. split; [exact B|]. left. auto.
  - exists w, Invalid. rewrite F, G3, G4, G2. split; [reflexivity|]. split; [rewrite <- G2; exact B|]. right. auto.
Qed.

(** The valid lines where the debugger then stops do not depend on the order in which the breakpoints were set or
    are verified. *)
Theorem template_stop_lines : forall h v u, edits h -> own_lines h -> In u v ->
  (exists id, stops (run (h ++ [Render v])) u = Some id) <-> exists id l, current h id = Some l /\ target v l u.
Proof.
  intros h v u E O Hu. split.
  - intros (id & H).
    assert (NE : lines (run h) <> []).
    { intro X. rewrite run_app in H. cbn [exec] in H. unfold render in H. rewrite X in H. unfold stops in H. rewrite X in H. discriminate. }
    destruct (first_render h v E O NE) as [I Hc]. destruct (i_lines _ _ _ _ _ I u id H) as (l & Hl & D).
    exists id, l. split; [apply Hc, Hl|]. destruct D as [->|D]; [left; auto | exact D].
  - intros (id & l & C & Ht). destruct (template_breakpoints_verified h v id l E O C) as (w & c & _ & B & D).
    destruct D as [(_ & D)|(_ & -> & Hn & D)].
    + exists id. apply B. destruct Ht as [[A ->]|[A A']], D as [[F ->]|[F F']]; try contradiction; [reflexivity|].
      exact (closest_unique _ _ _ _ A' F').
    + destruct Ht as [[A _]|[_ A]]; [contradiction|]. destruct (D u A) as (id' & _ & G). eauto.
Qed.

(** Rendering the template again, with the same lines, reports and changes nothing. *)
Theorem template_verified_once : forall h v w, same_lines v w -> run (h ++ [Render v; Render w]) = run (h ++ [Render v]).
Proof.
  intros h v w S. change [Render v; Render w] with ([Render v] ++ [Render w]). rewrite app_assoc, !run_app. cbn [exec].
  destruct (lines (run h)) as [|i r] eqn:L.
  - unfold render at 2 3. rewrite L. unfold render. rewrite L. reflexivity.
  - assert (E : render (run h) v = verify (sorted v) (State (objs (run h)) (lines (run h)) (Some (sorted v)) (sent (run h))))
      by (unfold render; rewrite L; reflexivity).
    set (s1 := render (run h) v) in *.
    assert (V : forall j, In j (lines s1) -> verified (sorted v) s1 (snd j)).
    { intros j Hj. rewrite E in *. unfold verify in *. cbn [lines] in *.
      destruct (verify_all (sorted v) (lines (run h)) (State (objs (run h)) (lines (run h)) (Some (sorted v)) (sent (run h)))) as (A & _ & C).
      rewrite Forall_forall in A. apply C in Hj. cbn [lines] in Hj. destruct Hj as [Hj|Hj]; [exact (A j Hj)|].
      apply in_map_iff in Hj. destruct Hj as (j' & Ej & Hj). rewrite <- Ej. exact (A j' Hj). }
    assert (C : cached s1 = Some (sorted v)) by (rewrite E; unfold verify; apply fold_line; exact 0%N).
    unfold render. rewrite <- (sorted_same v w S). unfold verify. cbn [lines].
    destruct s1 as [o ls c sn]. cbn [objs lines cached sent] in *. subst c. destruct ls; [reflexivity|]. apply fold_skip, V.
Qed.

(** As long as the lines of the template do not change: a breakpoint on a valid line is found there after every
    history of setting and removing breakpoints and rendering, and once the template was rendered it has been reported as
    verified there. *)
Theorem template_valid_line_kept : forall h v id l, own_lines h -> (forall w, In (Render w) h -> same_lines w v) ->
  current h id = Some l -> In l v ->
  stops (run h) l = Some id
  /\ stops (run (h ++ [Render v])) l = Some id /\ exists evs, of_id id (sent (run (h ++ [Render v]))) = evs ++ [(id, NoError, l)].
Proof.
  intros h v id l O R C Hl.
  assert (G : forall h, own_lines h -> (forall w, In (Render w) h -> same_lines w v) -> current h id = Some l -> stops (run h) l = Some id).
  { clear h O R C. intros h O R C. pose proof (kept_run v h O R) as K. pose proof (proj2 (objs_current h) id) as Cu. rewrite C in Cu.
    destruct (get N.eqb id (objs (run h))) as [b|] eqn:E; [|discriminate]. injection Cu as <-. exact (k_own _ _ _ K id b E Hl). }
  assert (O' : own_lines (h ++ [Render v])).
  { intros i j x A B. apply in_app_or in A, B. destruct A as [A|[A|[]]], B as [B|[B|[]]]; try discriminate. exact (O i j x A B). }
  assert (R' : forall w, In (Render w) (h ++ [Render v]) -> same_lines w v).
  { intros w H. apply in_app_or in H. destruct H as [H|[H|[]]]; [exact (R w H)|]. injection H as <-. intro x. reflexivity. }
  assert (C' : current (h ++ [Render v]) id = Some l) by (rewrite current_app; exact C).
  split; [exact (G h O R C)|]. split; [exact (G _ O' R' C')|].
  pose proof (kept_run v _ O' R') as K. pose proof (proj2 (objs_current (h ++ [Render v])) id) as Cu. rewrite C' in Cu.
  destruct (get N.eqb id (objs (run (h ++ [Render v])))) as [b|] eqn:E; [|discriminate]. injection Cu as Cu.
  destruct (k_bp _ _ _ K id b E) as [F|[_ F]].
  - exfalso. pose proof (G h O R C) as S. unfold stops in S.
    rewrite run_app in E. cbn [exec] in E. unfold render in E. destruct (lines (run h)) as [|i r] eqn:L; [discriminate|]. rewrite <- L in E, S.
    unfold verify in E. cbn [lines] in E.
    destruct (verify_all (sorted v) (lines (run h)) (State (objs (run h)) (lines (run h)) (Some (sorted v)) (sent (run h)))) as (A & _ & _).
    rewrite Forall_forall in A. specialize (A (l, id) (get_In _ Z.eqb_spec _ _ _ S) b E). rewrite F in A. discriminate.
  - rewrite Cu in F. exact (F Hl).
Qed.

(** ** What fails *)

(** A breakpoint was moved and reported at its new line. Setting another breakpoint in the template puts it back on its
    old line, silently: the debugger never stops for it again. *)
Theorem template_moved_then_edit_refuted : exists h v id w, own_lines h /\ (forall u, In (Render u) h -> same_lines u v)
  /\ In w v /\ (exists evs, of_id id (sent (run h)) = evs ++ [(id, NoError, w)])
  /\ (exists l, current h id = Some l) /\ forall x, In x v -> stops (run (h ++ [Render v])) x <> Some id.
Proof.
  exists [Add 1 6; Render [4; 9]%Z; Add 2 9], [4; 9]%Z, 1%N, 4%Z.
  split. { intros i j l [A|[A|[A|[]]]] [B|[B|[B|[]]]]; congruence. }
  split. { intros u [A|[A|[A|[]]]]; try discriminate. injection A as <-. intro x. reflexivity. }
  split; [left; reflexivity|]. split; [exists []; vm_compute; reflexivity|]. split; [eexists; vm_compute; reflexivity|].
  intros x [<- | [<- | []]]; vm_compute; discriminate.
Qed.
(** The template changes: a breakpoint whose line could stop before is neither moved nor reported. *)
Theorem template_changed_refuted : exists h v w id l u, own_lines h /\ edits h /\ current h id = Some l /\ closest w l u
  /\ let s := run (h ++ [Render v; Render w]) in
     of_id id (sent s) = [(id, NoError, l)] /\ forall x, In x w -> stops s x = None.
Proof.
  exists [Add 1 6], [4; 6]%Z, [4]%Z, 1%N, 6%Z, 4%Z.
  split. { intros i j l [A|[]] [B|[]]; congruence. } split. { intros v [A|[]]; discriminate. }
  split; [reflexivity|]. split. { split; [left; reflexivity|]. split; [lia|]. intros u [<- | []]. lia. }
  split; [vm_compute; reflexivity|]. intros x [<- | []]. vm_compute. reflexivity.
Qed.
(** Which of two breakpoints is moved to a line, and which is invalid, depends on the order of the requests. *)
Theorem template_order_refuted : exists h h' v id, edits h /\ edits h' /\ own_lines h /\ (forall i, current h i = current h' i)
  /\ of_id id (sent (run (h ++ [Render v]))) <> of_id id (sent (run (h' ++ [Render v]))).
Proof.
  exists [Add 1 5; Add 2 6], [Add 2 6; Add 1 5], [4]%Z, 1%N.
  split. { intros v [A|[A|[]]]; discriminate. } split. { intros v [A|[A|[]]]; discriminate. }
  split. { intros i j l [A|[A|[]]] [B|[B|[]]]; congruence. }
  split; [|vm_compute; discriminate]. intro i. unfold current. cbn [fold_left].
  destruct (N.eqb_spec 1 i) as [<- |]; [reflexivity|]. destruct (N.eqb_spec 2 i); reflexivity.
Qed.

(** ** Concrete cases *)
Example ex_h : list op := [Add 1 6; Add 2 9; Add 3 2; Add 4 8; Remove 4; Add 4 7].
Example ex_edits : edits ex_h /\ own_lines ex_h /\ current ex_h 4 = Some 7%Z.
Proof.
  split; [|split; [|reflexivity]].
  - intros v H. cbn in H. intuition discriminate.
  - intros i j l A B. cbn in A, B. intuition congruence.
Qed.
Example ex_run : sent (run (ex_h ++ [Render [9; 4]%Z])) = [(1%N, NoError, 4%Z); (2%N, NoError, 9%Z); (3%N, Invalid, 2%Z); (4%N, Invalid, 7%Z)].
Proof. vm_compute. reflexivity. Qed.
Example ex_target : target [9; 4]%Z 6 4 /\ target [9; 4]%Z 9 9.
Proof.
  split; [right; split|left; split]; try reflexivity; [intros [A|[A|[]]]; discriminate | |left; reflexivity].
  split; [right; left; reflexivity|]. split; [lia|]. intros u [<- | [<- | []]]; lia.
Qed.
Example ex_kept : let h := [Add 1 6; Render [4; 9]%Z; Add 2 9; Add 3 10; Remove 3] in
  own_lines h /\ (forall w, In (Render w) h -> same_lines w [9; 4]%Z) /\ current h 2 = Some 9%Z.
Proof.
  split; [intros i j l A B; cbn in A, B; intuition congruence|]. split; [|reflexivity].
  intros w H. cbn in H. assert (E : w = [4; 9]%Z) by (intuition congruence). subst w. intro x. cbn. tauto.
Qed.

Print Assumptions template_breakpoints_verified.
Print Assumptions template_stop_lines.
Print Assumptions template_verified_once.
Print Assumptions template_valid_line_kept.
Print Assumptions template_moved_then_edit_refuted.
Print Assumptions template_changed_refuted.
Print Assumptions template_order_refuted.
