(** C23: source references. *)
From Coq Require Import String List NArith Bool Lia.
From Verif Require Import Base Dict SourceRef.
Import ListNotations.
Local Open Scope N_scope.

(** ** Specification *)

Definition no_setup (ops : list op) : Prop := forall f, ~ In (Setup f) ops.

(** The reference which a thread has taken and not stored yet. *)
Definition holds (p : pc) : option N :=
  match p with
  | Numbered _ _ r | Named _ r | LineNumbered _ r | FrameNumbered _ r => Some r
  | _ => None
  end.
Definition settled (s : state) (r : N) : Prop := forall t, holds (pcs s t) <> Some r.

(** A request for the source of [r] is answered from [x]. *)
Definition denotes (s : state) (r : N) (x : source) : Prop :=
  match x with
  | File f | Lines f => file_of s r = nonempty (Some f) /\ frame_of s r = None
  | Frame id => file_of s r = None /\ frame_of s r = Some id
  end.

(** ** Invariant *)

Definition pc_ok (s : state) (p : pc) : Prop :=
  match p with
  | Idle => True
  | Translated f c m | Cached f c m | Absent f c m => tr s f = (c, m)
  | Numbered f c r => fst (tr s f) = c /\ (if snd (tr s f) then r = 0 else In (r, File f) (handed s))
  | Named f r => r = 0 \/ In (r, File f) (handed s)
  | LineNumbered f r => In (r, Lines f) (handed s)
  | FrameNumbered id r => In (r, Frame id) (handed s)
  end.
Definition stored (s : state) (r : N) (x : source) : Prop :=
  match x with
  | File f => get N.eqb r (r2file s) = Some f
  | Lines f => get N.eqb r (r2line s) = Some f
  | Frame id => get N.eqb r (r2frame s) = Some id
  end.
Definition naming (p : pc) (c : str) : Prop :=
  match p with
  | Cached _ c' _ | Absent _ c' _ | Numbered _ c' _ => c' = c
  | _ => False
  end.

Record inv (s : state) : Prop := Inv {
  i_range : forall r x, In (r, x) (handed s) -> 1 <= r < next s;
  i_next : 1 <= next s;
  i_nodup : NoDup (map fst (handed s));
  i_pc : forall t, pc_ok s (pcs s t);
  i_file : forall r f, get N.eqb r (r2file s) = Some f -> r = 0 \/ In (r, File f) (handed s);
  i_line : forall r f, get N.eqb r (r2line s) = Some f -> In (r, Lines f) (handed s);
  i_frame : forall r id, get N.eqb r (r2frame s) = Some id -> In (r, Frame id) (handed s);
  i_stored : forall r x, In (r, x) (handed s) -> (exists t, holds (pcs s t) = Some r) \/ stored s r x;
  i_name : forall c r, get str_eqb c (c2r s) = Some r ->
    exists f, fst (tr s f) = c /\ (if snd (tr s f) then r = 0 else In (r, File f) (handed s));
  i_cache : forall f, In f (cache s) -> mem str_eqb (fst (tr s f)) (c2r s) = true \/
    exists t, naming (pcs s t) (fst (tr s f))
}.

Lemma handed_fun s r x y : inv s -> In (r, x) (handed s) -> In (r, y) (handed s) -> x = y.
Proof.
  intros I Hx Hy. pose proof (i_nodup _ I) as Hn. revert Hn Hx Hy.
  induction (handed s) as [|[k z] l IH]; cbn [map fst]; [contradiction|].
  intros Hn Hx Hy. apply NoDup_cons_iff in Hn. destruct Hn as [Hk Hn].
  destruct Hx as [E1|Hx], Hy as [E2|Hy].
  - congruence.
  - inversion E1; subst. exfalso. apply Hk. change r with (fst (r, y)). now apply in_map.
  - inversion E2; subst. exfalso. apply Hk. change r with (fst (r, x)). now apply in_map.
  - auto.
Qed.

Lemma setpc_same f t p : setpc f t p t = p.
Proof. unfold setpc. now rewrite N.eqb_refl. Qed.
Lemma setpc_other f t p u : u <> t -> setpc f t p u = f u.
Proof. unfold setpc. destruct (N.eqb_spec u t); congruence. Qed.

Lemma pc_ok_more s s' p : tr s' = tr s -> incl (handed s) (handed s') -> pc_ok s p -> pc_ok s' p.
Proof.
  intros Ht Hi. destruct p; cbn [pc_ok]; rewrite ?Ht; auto.
  - intros [? H]. split; auto. destruct (snd _); auto.
  - intros [?|H]; auto.
Qed.

(** A thread moves without touching the tables. *)
Lemma inv_goto s t p : inv s -> pc_ok s p ->
  (forall r, holds (pcs s t) = Some r -> holds p = Some r) ->
  (forall c, naming (pcs s t) c -> naming p c \/ mem str_eqb c (c2r s) = true) ->
  inv (goto s t p).
Proof.
  intros I Hp Hh Hn. destruct I. constructor; cbn [goto tr cache next r2file c2r r2line r2frame pcs handed]; auto.
  - intros u. destruct (N.eqb_spec u t) as [->|n].
    + rewrite setpc_same. exact Hp.
    + rewrite setpc_other by auto. apply i_pc0.
  - intros r x Hi. destruct (i_stored0 r x Hi) as [[u Hu]|Hs]; auto.
    left. destruct (N.eqb_spec u t) as [->|n].
    + exists t. rewrite setpc_same. auto.
    + exists u. now rewrite setpc_other.
  - intros f Hf. destruct (i_cache0 f Hf) as [Hm|[u Hu]]; auto.
    destruct (N.eqb_spec u t) as [->|n].
    + destruct (Hn _ Hu) as [H|H]; auto. right. exists t. now rewrite setpc_same.
    + right. exists u. now rewrite setpc_other.
Qed.

(** A thread takes the next number. *)
Lemma inv_number s t p x : inv s -> holds (pcs s t) = None ->
  holds (p (next s)) = Some (next s) ->
  (forall c, naming (pcs s t) c -> naming (p (next s)) c) ->
  (forall s', tr s' = tr s -> In (next s, x) (handed s') -> pc_ok s' (p (next s))) ->
  inv (number s t p x).
Proof.
  intros I Hh Hp Hn Hok. pose proof (i_next s I) as Hnx. destruct I.
  constructor; cbn [number tr cache next r2file c2r r2line r2frame pcs handed]; auto.
  - intros r y [H|H]; [inversion H; subst; lia|]. specialize (i_range0 r y H). lia.
  - lia.
  - cbn [map fst]. constructor; auto. intros H. apply in_map_iff in H. destruct H as ([r y] & Hr & H).
    cbn in Hr. subst. specialize (i_range0 _ _ H). lia.
  - intros u. destruct (N.eqb_spec u t) as [->|n].
    + rewrite setpc_same. apply Hok; auto. now left.
    + rewrite setpc_other by auto. apply (pc_ok_more s); cbn; auto. intros z; now right.
  - intros r f H. destruct (i_file0 r f H); auto. right. now right.
  - intros r f H. right. auto.
  - intros r f H. right. auto.
  - intros r y [H|H].
    + inversion H; subst. left. exists t. now rewrite setpc_same.
    + destruct (i_stored0 r y H) as [[u Hu]|Hs]; [left|right; exact Hs].
      exists u. rewrite setpc_other; auto. congruence.
  - intros c r H. destruct (i_name0 c r H) as (f & Hf & H1). exists f. split; auto.
    destruct (snd _); auto. now right.
  - intros f Hf. destruct (i_cache0 f Hf) as [Hm|[u Hu]]; auto.
    destruct (N.eqb_spec u t) as [->|n].
    + right. exists t. rewrite setpc_same. auto.
    + right. exists u. now rewrite setpc_other.
Qed.

Lemma inv_step s x : inv s -> (forall f, x <> Setup f) -> inv (step s x).
Proof.
  intros I Hx. destruct x as [t f|t f|t id|t|f]; cbn [step].
  - destruct (pcs s t) eqn:Hp; auto. destruct (existsb _ _); auto.
    apply inv_goto; auto.
    + cbn [pc_ok]. now destruct (tr s f).
    + rewrite Hp. discriminate.
    + rewrite Hp. contradiction.
  - destruct (pcs s t) eqn:Hp; auto. apply inv_number; auto; rewrite ?Hp; cbn; auto; contradiction.
  - destruct (pcs s t) eqn:Hp; auto. apply inv_number; auto; rewrite ?Hp; cbn; auto; contradiction.
  - pose proof (i_pc s I t) as Hok. destruct (pcs s t) eqn:Hp; auto; cbn [pc_ok] in Hok.
    + (* into the cache *)
      assert (G : inv (goto s t (Cached f c mapped))).
      { apply inv_goto; auto; rewrite Hp; cbn; [discriminate|contradiction]. }
      destruct G. constructor; cbn [goto tr cache next r2file c2r r2line r2frame pcs handed] in *; auto.
      intros g [<-|Hg]; auto. right. exists t. rewrite setpc_same, Hok. reflexivity.
    + destruct (mem str_eqb c (c2r s)) eqn:Hm.
      * apply inv_goto; cbn [pc_ok]; auto; rewrite Hp; cbn; [discriminate|]. intros c' <-. auto.
      * apply inv_goto; auto; rewrite Hp; cbn; [discriminate|]. intros c' <-. auto.
    + destruct mapped.
      * apply inv_goto; auto; try (rewrite Hp; cbn); auto; try discriminate.
        cbn [pc_ok]. rewrite Hok. cbn. auto.
      * apply inv_number; auto; rewrite ?Hp; cbn; auto.
        intros s' Ht Hi. rewrite Ht, Hok. cbn. auto.
    + (* the name gets the reference *)
      destruct Hok as [Hc Hr].
      destruct I. constructor; cbn [tr cache next r2file c2r r2line r2frame pcs handed]; auto.
      * intros u. destruct (N.eqb_spec u t) as [->|n].
        -- rewrite setpc_same. cbn [pc_ok]. destruct (snd (tr s f)); auto.
        -- rewrite setpc_other by auto. apply (pc_ok_more s); cbn; auto using incl_refl.
      * intros r' x Hi. destruct (i_stored0 r' x Hi) as [[u Hu]|Hs]; [left|right; exact Hs].
        destruct (N.eqb_spec u t) as [->|n].
        -- exists t. rewrite setpc_same. rewrite Hp in Hu. exact Hu.
        -- exists u. now rewrite setpc_other.
      * intros c' r'. rewrite (get_set _ str_eqb_spec). destruct (str_eqb_spec c' c) as [->|n]; auto.
        intros [= <-]. exists f. auto.
      * intros g Hg. unfold mem in *. rewrite (get_set _ str_eqb_spec).
        destruct (str_eqb_spec (fst (tr s g)) c) as [E|n]; auto.
        destruct (i_cache0 g Hg) as [Hm|[u Hu]]; auto. right.
        exists u. rewrite setpc_other; auto. intros ->. rewrite Hp in Hu. cbn in Hu. congruence.
    + (* the reference gets the file *)
      pose proof (handed_fun s) as Hfun. specialize (fun r x y => Hfun r x y I).
      destruct I. constructor; cbn [tr cache next r2file c2r r2line r2frame pcs handed]; auto.
      * intros u. destruct (N.eqb_spec u t) as [->|n].
        -- rewrite setpc_same. exact Logic.I.
        -- rewrite setpc_other by auto. apply (pc_ok_more s); cbn; auto using incl_refl.
      * intros r' g. rewrite (get_set _ N.eqb_spec). destruct (N.eqb_spec r' r) as [->|n]; auto.
        intros [= <-]. auto.
      * intros r' x Hi. destruct (N.eqb_spec r' r) as [->|n].
        -- right. destruct Hok as [-> |Hok]; [specialize (i_range0 _ _ Hi); lia|].
           rewrite (Hfun _ _ _ Hi Hok). cbn [stored r2file]. apply get_set_same. apply N.eqb_spec.
        -- destruct (i_stored0 r' x Hi) as [[u Hu]|Hs].
           ++ left. exists u. rewrite setpc_other; auto. intros ->. rewrite Hp in Hu. cbn in Hu. congruence.
           ++ right. destruct x; cbn [stored r2file r2line r2frame] in *; auto.
              rewrite get_set_other; auto using N.eqb_spec.
      * intros g Hg. destruct (i_cache0 g Hg) as [Hm|[u Hu]]; auto. right.
        exists u. rewrite setpc_other; auto. intros ->. rewrite Hp in Hu. exact Hu.
    + pose proof (handed_fun s) as Hfun. specialize (fun r x y => Hfun r x y I).
      destruct I. constructor; cbn [tr cache next r2file c2r r2line r2frame pcs handed]; auto.
      * intros u. destruct (N.eqb_spec u t) as [->|n].
        -- rewrite setpc_same. exact Logic.I.
        -- rewrite setpc_other by auto. apply (pc_ok_more s); cbn; auto using incl_refl.
      * intros r' g. rewrite (get_set _ N.eqb_spec). destruct (N.eqb_spec r' r) as [->|n]; auto.
        intros [= <-]. auto.
      * intros r' x Hi. destruct (N.eqb_spec r' r) as [->|n].
        -- right. rewrite (Hfun _ _ _ Hi Hok). cbn [stored r2line]. apply get_set_same. apply N.eqb_spec.
        -- destruct (i_stored0 r' x Hi) as [[u Hu]|Hs].
           ++ left. exists u. rewrite setpc_other; auto. intros ->. rewrite Hp in Hu. cbn in Hu. congruence.
           ++ right. destruct x; cbn [stored r2file r2line r2frame] in *; auto.
              rewrite get_set_other; auto using N.eqb_spec.
      * intros g Hg. destruct (i_cache0 g Hg) as [Hm|[u Hu]]; auto. right.
        exists u. rewrite setpc_other; auto. intros ->. rewrite Hp in Hu. exact Hu.
    + pose proof (handed_fun s) as Hfun. specialize (fun r x y => Hfun r x y I).
      destruct I. constructor; cbn [tr cache next r2file c2r r2line r2frame pcs handed]; auto.
      * intros u. destruct (N.eqb_spec u t) as [->|n].
        -- rewrite setpc_same. exact Logic.I.
        -- rewrite setpc_other by auto. apply (pc_ok_more s); cbn; auto using incl_refl.
      * intros r' g. rewrite (get_set _ N.eqb_spec). destruct (N.eqb_spec r' r) as [->|n]; auto.
        intros [= <-]. auto.
      * intros r' x Hi. destruct (N.eqb_spec r' r) as [->|n].
        -- right. rewrite (Hfun _ _ _ Hi Hok). cbn [stored r2frame]. apply get_set_same. apply N.eqb_spec.
        -- destruct (i_stored0 r' x Hi) as [[u Hu]|Hs].
           ++ left. exists u. rewrite setpc_other; auto. intros ->. rewrite Hp in Hu. cbn in Hu. congruence.
           ++ right. destruct x; cbn [stored r2file r2line r2frame] in *; auto.
              rewrite get_set_other; auto using N.eqb_spec.
      * intros g Hg. destruct (i_cache0 g Hg) as [Hm|[u Hu]]; auto. right.
        exists u. rewrite setpc_other; auto. intros ->. rewrite Hp in Hu. exact Hu.
  - exfalso. eapply Hx; reflexivity.
Qed.

Lemma inv_init f : inv (init f).
Proof.
  constructor; cbn; try contradiction; try discriminate; try lia; auto. constructor.
Qed.
Lemma inv_run f ops : no_setup ops -> inv (run (init f) ops).
Proof.
  intros H. unfold run. generalize (inv_init f). generalize (init f).
  induction ops as [|x ops IH]; intros s I; auto. cbn [fold_left]. apply IH.
  - intros g Hg. apply (H g). now right.
  - apply inv_step; auto. intros g ->. apply (H g). now left.
Qed.

Lemma tr_step s x : (forall f, x <> Setup f) -> tr (step s x) = tr s.
Proof.
  intros Hx. destruct x as [t f|t f|t id|t|f]; cbn [step].
  - destruct (pcs s t); auto. destruct (existsb _ _); auto.
  - destruct (pcs s t); auto.
  - destruct (pcs s t); auto.
  - destruct (pcs s t); auto.
    + destruct (mem str_eqb c (c2r s)); auto.
    + destruct mapped; auto.
  - exfalso. eapply Hx; reflexivity.
Qed.
Lemma tr_run f ops : no_setup ops -> tr (run (init f) ops) = f.
Proof.
  intros H. unfold run. assert (E : tr (init f) = f) by reflexivity. revert E. generalize (init f).
  induction ops as [|x ops IH]; intros s E; auto. cbn [fold_left]. apply IH.
  - intros g Hg. apply (H g). now right.
  - rewrite tr_step; auto. intros g ->. apply (H g). now left.
Qed.

(** ** Theorems *)

(** However the threads are interleaved, no reference is handed out twice, and none is 0 (which the
    client takes as "no reference"). *)
Theorem source_refs_distinct f ops : no_setup ops ->
  NoDup (map fst (handed (run (init f) ops))) /\ ~ In 0 (map fst (handed (run (init f) ops))).
Proof.
  intros H. pose proof (inv_run f ops H) as I. split; [apply I|].
  intros Hi. apply in_map_iff in Hi. destruct Hi as ([r x] & Hr & Hi). cbn in Hr. subst.
  apply (i_range _ I) in Hi. lia.
Qed.

(** Once stored, a reference denotes for ever what it was created for, whatever happens afterwards. *)
Theorem source_refs_denote f ops more r x : no_setup (ops ++ more) ->
  In (r, x) (handed (run (init f) ops)) -> settled (run (init f) (ops ++ more)) r ->
  denotes (run (init f) (ops ++ more)) r x.
Proof.
  intros H Hi Hs. pose proof (inv_run f _ H) as I.
  assert (Hi' : In (r, x) (handed (run (init f) (ops ++ more)))).
  { unfold run in *. rewrite fold_left_app. revert Hi. generalize (fold_left step ops (init f)). clear Hs I.
    assert (Hm : no_setup more) by (intros g Hg; apply (H g); apply in_app_iff; auto). clear H.
    induction more as [|y more IH]; intros s Hi; auto. cbn [fold_left]. apply IH.
    - intros g Hg. apply (Hm g). now right.
    - destruct y as [t g|t g|t id|t|g]; cbn [step].
      + destruct (pcs s t); auto. destruct (existsb _ _); auto.
      + destruct (pcs s t); auto. now right.
      + destruct (pcs s t); auto. now right.
      + destruct (pcs s t); auto.
        * destruct (mem str_eqb c (c2r s)); auto.
        * destruct mapped; auto. now right.
      + auto. }
  set (s := run (init f) (ops ++ more)) in *.
  pose proof (i_range _ I _ _ Hi') as Hr.
  destruct (i_stored _ I _ _ Hi') as [[t Ht]|St]; [now apply Hs in Ht|].
  assert (Hz : N.eqb r 0 = false) by (apply N.eqb_neq; lia).
  assert (F : forall g, get N.eqb r (r2file s) = Some g -> x = File g).
  { intros g Hg. destruct (i_file _ I _ _ Hg) as [->|Hg']; [lia|]. eapply handed_fun; eauto. }
  assert (L : forall g, get N.eqb r (r2line s) = Some g -> x = Lines g).
  { intros g Hg. apply (i_line _ I) in Hg. eapply handed_fun; eauto. }
  assert (M : forall g, get N.eqb r (r2frame s) = Some g -> x = Frame g).
  { intros g Hg. apply (i_frame _ I) in Hg. eapply handed_fun; eauto. }
  unfold denotes, file_of, frame_of. rewrite Hz.
  destruct (get N.eqb r (r2file s)) as [a|] eqn:A; [rewrite (F a eq_refl) in *|];
  (destruct (get N.eqb r (r2line s)) as [b|] eqn:B; [specialize (L b eq_refl); try discriminate L|]);
  (destruct (get N.eqb r (r2frame s)) as [d|] eqn:D; [specialize (M d eq_refl); try discriminate M|]).
  all: try (subst; try discriminate; cbn [stored] in St; try congruence).
  all: try (destruct x; cbn [stored] in St; congruence).
  - destruct a; auto.
  - split; auto.
  - auto.
Qed.

(** When no thread is in the middle of a call: a file name which was translated by a mapping has reference
    0, any other has a reference, and that reference denotes a file with this client name. *)
Theorem source_ref_of_name f ops g : no_setup ops ->
  (forall a b, fst (f a) = fst (f b) -> snd (f a) = snd (f b)) ->
  let s := run (init f) ops in
  (forall t, pcs s t = Idle) -> In g (cache s) ->
  if snd (f g) then reference s (fst (f g)) = 0
  else exists h, fst (f h) = fst (f g) /\ reference s (fst (f g)) <> 0 /\
                 denotes s (reference s (fst (f g))) (File h).
Proof.
  intros H Hc s Hidle Hg. pose proof (inv_run f ops H) as I. pose proof (tr_run f ops H) as Ht. fold s in I, Ht.
  destruct (i_cache _ I g Hg) as [Hm|[t Hu]].
  2: { rewrite Hidle in Hu. contradiction. }
  rewrite Ht in Hm. unfold mem, reference in *.
  destruct (get str_eqb (fst (f g)) (c2r s)) as [r|] eqn:G; [|discriminate].
  destruct (i_name _ I _ _ G) as (h & Hh & Hr). rewrite Ht in Hh, Hr.
  rewrite (Hc _ _ Hh) in Hr. destruct (snd (f g)); auto.
  exists h. split; auto. split.
  - apply (i_range _ I) in Hr. lia.
  - pose proof (source_refs_denote f ops [] r (File h)) as D. rewrite app_nil_r in D. apply D; auto.
    intros t. fold s. rewrite Hidle. discriminate.
Qed.

(** ** Examples and limits *)
Local Open Scope string_scope.
Local Open Scope list_scope.

Definition a_py := lit "/srv/a.py".
Definition plain : translation := fun f => (f, false).
Definition call (t : N) (x : op) : list op := [x; Step t; Step t; Step t; Step t; Step t].

Example ex_refs :
  let s := run (init plain) (call 1 (Map 1 a_py) ++ call 2 (NewFrame 2 77) ++ call 1 (NewLines 1 (lit "<x>"))) in
  handed s = [(3, Lines (lit "<x>")); (2, Frame 77); (1, File a_py)] /\
  reference s a_py = 1 /\ file_of s 1 = Some a_py /\ frame_of s 2 = Some 77 /\ file_of s 3 = Some (lit "<x>").
Proof. repeat split; reflexivity. Qed.

(** A thread which finds the translated name in the cache may not find its reference yet: it tells the
    client that there is none. *)
Theorem source_ref_race_refuted : exists ops, no_setup ops /\
  let s := run (init plain) ops in In a_py (cache s) /\ pcs s 2 = Idle /\ reference s (fst (plain a_py)) = 0.
Proof.
  exists [Map 1 a_py; Step 1; Map 2 a_py]. split.
  - intros f [H|[H|[H|[]]]]; discriminate.
  - repeat split; try reflexivity. now left.
Qed.

(** Setting new path mappings starts the numbers again but keeps the tables of frames and linecache
    entries: a new reference to a frame equals an old one and shows the old one's file. *)
Theorem source_ref_setup_refuted : exists f ops,
  let s := run (init f) ops in
  (forall t, pcs s t = Idle) /\
  handed s = [(1, Frame 77); (1, Lines a_py)] /\ ~ denotes s 1 (Frame 77).
Proof.
  exists plain, [NewLines 1 a_py; Step 1; Setup plain; NewFrame 1 77; Step 1].
  split; [|split].
  - intros t. cbn. unfold setpc. repeat (destruct (N.eqb t 1); auto).
  - reflexivity.
  - intros [H _]. discriminate.
Qed.

Print Assumptions source_refs_distinct.
Print Assumptions source_refs_denote.
Print Assumptions source_ref_of_name.
Print Assumptions source_ref_race_refuted.
Print Assumptions source_ref_setup_refuted.
