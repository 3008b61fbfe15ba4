(** Property C10: which files belong to the project. *)
From Coq Require Import List NArith ZArith Bool String Lia.
From Verif Require Import Base Roots.
Import ListNotations.

(** A root contains a file when the file is the root itself or lies below it. *)
Definition contains (absn : str -> str) (sl : N) (root file : str) : Prop :=
  absn file = absn root \/ exists rest, absn file = absn root ++ sl :: rest.

Definition has_start (p s : str) : Prop := exists r, s = p ++ r.

(** Project files: cells of IPython; otherwise no other "<...>" text, and either no project root was given
    and no library root contains the file, or some project root contains it that is longer than every
    library root containing it. *)
Definition in_project (absn : str -> str) (sl : N) (proj libs : list str) (file : str) : Prop :=
  has_start (lit "<ipython") file \/
  (~ has_start (lit "<") file /\
   (((forall r, In r proj -> r = []) /\ (forall l, In l libs -> l <> [] -> ~ contains absn sl l file)) \/
    (exists r, In r proj /\ r <> [] /\ contains absn sl r file /\
       forall l, In l libs -> l <> [] -> contains absn sl l file ->
         (List.length (absn l) < List.length (absn r))%nat))).

Lemma found_In absn sl roots f x :
  In x (found_in (absn f) (absn f ++ [sl]) (fix_roots absn sl roots)) <->
  exists r, In r roots /\ r <> [] /\ contains absn sl r f /\ x = absn r ++ [sl].
Proof.
  unfold found_in, fix_roots. rewrite filter_In, in_map_iff. split.
  - intros ((r & E & H) & K). apply filter_In in H. destruct H as [H Hn]. exists r. split; auto.
    split; [intros ->; discriminate|]. split; auto. subst x. apply andb_true_iff in K. destruct K as [_ K].
    apply orb_true_iff in K. destruct K as [K|K].
    + apply starts_with_spec in K. destruct K as (rest & K). right. exists rest. rewrite K, <- app_assoc. reflexivity.
    + apply str_eqb_eq in K. apply app_inj_tail in K. left. symmetry. apply K.
  - intros (r & H & Hn & Hc & ->). split.
    + exists r. split; auto. apply filter_In. split; auto. destruct r; [congruence|reflexivity].
    + apply andb_true_iff. split; [destruct (absn r); reflexivity|]. apply orb_true_iff. destruct Hc as [Hc|(rest & Hc)].
      * right. apply str_eqb_eq. now rewrite Hc.
      * left. apply starts_with_spec. exists rest. now rewrite Hc, <- app_assoc.
Qed.

Lemma max_len_spec l : l <> [] -> (exists x, In x l /\ List.length x = max_len l) /\ forall x, In x l -> (List.length x <= max_len l)%nat.
Proof.
  induction l as [|x l IH]; [congruence|]. intros _. destruct l as [|y l].
  - cbn. rewrite Nat.max_0_r. split; [exists x; auto|]. intros z [<-|[]]; auto.
  - destruct IH as ((z & Hz & Ez) & Hm); [discriminate|]. set (l' := y :: l) in *. cbn [max_len fold_right]. fold (max_len l'). split.
    + destruct (Nat.max_spec (List.length x) (max_len l')) as [[_ ->]|[_ ->]]; [exists z; cbn; auto|exists x; cbn; auto].
    + intros w [<-|Hw]; [lia|]. specialize (Hm w Hw). lia.
Qed.

Theorem project_roots_exact :
  forall absn sl proj libs file,
    in_project_roots absn sl (fix_roots absn sl proj) (fix_roots absn sl libs) file = true <->
    in_project absn sl proj libs file.
Proof.
  intros absn sl proj libs file. unfold in_project_roots, in_project.
  destruct (starts_with user_start file) eqn:Eu.
  { apply starts_with_spec in Eu. split; [intros _; left; exact Eu|auto]. }
  assert (Nu : ~ has_start (lit "<ipython") file).
  { intros K. apply starts_with_spec in K. unfold user_start in Eu. congruence. }
  destruct (starts_with library_start file) eqn:El.
  { apply starts_with_spec in El. split; [discriminate|]. intros [K|[K _]]; contradiction. }
  assert (Nl : ~ has_start (lit "<") file).
  { intros K. apply starts_with_spec in K. unfold library_start in El. congruence. }
  set (fp := found_in (absn file) (absn file ++ [sl]) (fix_roots absn sl proj)).
  set (fl := found_in (absn file) (absn file ++ [sl]) (fix_roots absn sl libs)).
  assert (Ip : forall x, In x fp <-> exists r, In r proj /\ r <> [] /\ contains absn sl r file /\ x = absn r ++ [sl]) by (intros; apply found_In).
  assert (Il : forall x, In x fl <-> exists r, In r libs /\ r <> [] /\ contains absn sl r file /\ x = absn r ++ [sl]) by (intros; apply found_In).
  assert (El0 : fl = [] <-> forall l, In l libs -> l <> [] -> ~ contains absn sl l file).
  { split.
    - intros E l Hl Hn Hc. assert (In (absn l ++ [sl]) fl) as K by (apply Il; eauto 6). rewrite E in K. destruct K.
    - intros H. destruct fl as [|x fl']; auto. destruct (proj1 (Il x) (or_introl eq_refl)) as (r & A & B & C & _). exfalso. eapply H; eauto. }
  destruct (fix_roots absn sl proj) as [|p0 pr] eqn:Ep.
  - assert (Hp : forall r, In r proj -> r = []).
    { intros r Hr. destruct r as [|c r]; auto. exfalso.
      assert (In (absn (c :: r) ++ [sl]) (fix_roots absn sl proj)) as K.
      { unfold fix_roots. apply in_map_iff. exists (c :: r). split; auto. apply filter_In. auto. }
      rewrite Ep in K. destruct K. }
    destruct fl as [|x fl'].
    + split; [intros _|auto]. right. split; [auto|]. left. split; [auto|]. now apply El0.
    + split; [discriminate|]. intros [K|[_ [[_ K]|(r & K & K2 & _)]]]; [contradiction| |].
      * apply El0 in K. discriminate.
      * apply Hp in K. contradiction.
  - assert (Hp : ~ forall r, In r proj -> r = []).
    { intros H. unfold fix_roots in Ep. replace (filter nonempty proj) with (@nil str) in Ep; [discriminate|].
      clear -H. symmetry. induction proj as [|r l IH]; auto. cbn. rewrite (H r) by now left. cbn. apply IH. intros. apply H. now right. }
    destruct fp as [|q fp'] eqn:Efp.
    + split; [discriminate|]. intros [K|[_ [[K _]|(r & K & K2 & K3 & _)]]]; try contradiction.
      assert (In (absn r ++ [sl]) []) as [] by (apply Ip; eauto 6).
    + destruct fl as [|x fl'] eqn:Efl.
      * split; [intros _|auto]. right. split; [auto|]. right.
        destruct (proj1 (Ip q) (or_introl eq_refl)) as (r & A & B & C & _). exists r. split; auto. split; auto. split; auto.
        intros l Hl Hn Hc. exfalso. now apply (proj1 El0 eq_refl l).
      * rewrite <- Efp, <- Efl in *. clear Ep.
        destruct (max_len_spec fp) as ((mp & Mp1 & Mp2) & Mp3); [rewrite Efp; discriminate|].
        destruct (max_len_spec fl) as ((ml & Ml1 & Ml2) & Ml3); [rewrite Efl; discriminate|].
        assert (G : (match fp with [] => false | _ :: _ => match fl with [] => true | _ :: _ => Nat.ltb (max_len fl) (max_len fp) end end)
                     = Nat.ltb (max_len fl) (max_len fp)) by now rewrite Efp, Efl.
        rewrite Nat.ltb_lt. split.
        -- intros H. right. split; auto. right. apply Ip in Mp1. destruct Mp1 as (r & A & B & C & E). exists r.
           split; auto. split; auto. split; auto. intros l Hl Hn Hc.
           assert (K : In (absn l ++ [sl]) fl) by (apply Il; eauto 6). apply Ml3 in K.
           subst mp. rewrite app_length in *. cbn in *. lia.
        -- intros [K|[_ [[K _]|(r & K & K2 & K3 & K4)]]]; try contradiction.
           apply Il in Ml1. destruct Ml1 as (l & A & B & C & E). specialize (K4 l A B C).
           assert (M : In (absn r ++ [sl]) fp) by (apply Ip; eauto 6). apply Mp3 in M.
           subst ml. rewrite app_length in *. cbn in *. lia.
Qed.
Print Assumptions project_roots_exact.

Definition same (s : str) : str := s.

Example project_roots_case :
  in_project_roots same 47 (fix_roots same 47 [lit "/prj"; lit "/env/lib/mine"]) (fix_roots same 47 [lit "/env/lib"]) (lit "/env/lib/mine/a.py") = true /\
  in_project_roots same 47 (fix_roots same 47 [lit "/prj"]) (fix_roots same 47 [lit "/prj/env"]) (lit "/prj/env/a.py") = false /\
  in_project_roots same 47 (fix_roots same 47 [lit "/prj"]) (fix_roots same 47 []) (lit "/prj2/a.py") = false.
Proof. vm_compute. auto. Qed.

(** Finding: the file system root as a project root contains no file: its stored form is "//". *)
Theorem project_root_slash_refuted :
  exists file, has_start (lit "/") file /\
    in_project_roots same 47 (fix_roots same 47 [lit "/"]) [] file = false.
Proof. exists (lit "/a.py"). split; [now exists (lit "a.py")|reflexivity]. Qed.
Print Assumptions project_root_slash_refuted.
