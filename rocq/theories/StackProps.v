(** C34: pages of a stack trace; C44: the stack shown for an exception; C45: columns. *)
From Coq Require Import List NArith ZArith Bool Lia Arith.
From Verif Require Import Base Dict Stack.
Import ListNotations.
Local Open Scope list_scope.

(** * C34 *)
(** ** Specification *)
(** A frame is shown unless it has no code or is the debugger's or, not being a plugin's, is filtered out. *)
Definition shown (a : attrs) : Prop := code a = true /\ internal a = false /\ (plugin a = true \/ filtered a = false).

(** ** Proofs *)
Lemma slice_nonneg {A} (l : list A) i j : (0 <= i)%Z -> (i <= j)%Z -> slice l i j = firstn (Z.to_nat (j - i)) (skipn (Z.to_nat i) l).
Proof.
  intros Hi Hj. unfold slice. cbv zeta. destruct (Z.ltb_spec i 0); [lia|]. destruct (Z.ltb_spec j 0); [lia|].
  set (n := List.length l). destruct (Z.le_gt_cases (Z.of_nat n) i) as [Hn|Hn].
  - rewrite !skipn_all2 by (fold n; lia). rewrite !firstn_nil. reflexivity.
  - rewrite (Z.min_l i) by lia. destruct (Z.le_gt_cases j (Z.of_nat n)) as [Hm|Hm]; [rewrite Z.min_l by lia; reflexivity|].
    rewrite Z.min_r by lia. rewrite !firstn_all2; [reflexivity| |]; rewrite skipn_length; fold n; lia.
Qed.
Lemma page_skip {A} (l : list A) s n : (0 <= s)%Z -> (0 < n)%Z -> fst (page l (Some s) (Some n)) = firstn (Z.to_nat n) (skipn (Z.to_nat s) l).
Proof.
  intros Hs Hn. cbn [page fst]. destruct (Z.eqb_spec n 0); [lia|]. destruct (Z.le_gt_cases (Z.of_nat (List.length l)) s) as [H|H].
  - rewrite (skipn_all2 l) by lia. rewrite firstn_nil. unfold slice. cbv zeta. destruct (Z.ltb_spec s 0); [lia|].
    rewrite (Z.min_r s) by lia. rewrite (skipn_all2 l) by lia. apply firstn_nil.
  - rewrite slice_nonneg by lia. destruct (Z.le_gt_cases (s + n) (Z.of_nat (List.length l))).
    + f_equal. lia.
    + rewrite !firstn_all2; [reflexivity| |]; rewrite skipn_length; lia.
Qed.

(** ** Theorems *)
(** A page has exactly the frames with the numbers asked for, and the total is always that of the whole stack. *)
Theorem page_frames : forall (A : Type) (l : list A) s n, (0 <= s)%Z -> (0 < n)%Z ->
  (forall i, nth_error (fst (page l (Some s) (Some n))) i = if Z.ltb (Z.of_nat i) n then nth_error l (Z.to_nat s + i) else None)
  /\ snd (page l (Some s) (Some n)) = List.length l.
Proof.
  intros A l s n Hs Hn. split; [|reflexivity]. intro i. rewrite page_skip by assumption.
  rewrite <- (firstn_skipn (Z.to_nat s) l) at 2. destruct (Z.ltb_spec (Z.of_nat i) n) as [H|H].
  - destruct (le_lt_dec (Z.to_nat s) (List.length l)) as [L|L].
    + rewrite nth_error_app2 by (rewrite firstn_length; lia). rewrite firstn_length, Nat.min_l by lia.
      replace (Z.to_nat s + i - Z.to_nat s) with i by lia. set (m := skipn (Z.to_nat s) l).
      rewrite <- (firstn_skipn (Z.to_nat n) m) at 2. destruct (le_lt_dec (List.length m) i) as [Q|Q].
      * transitivity (@None A); [|symmetry]; apply nth_error_None; rewrite ?firstn_skipn, ?firstn_length; lia.
      * rewrite nth_error_app1 by (rewrite firstn_length; lia). reflexivity.
    + rewrite (skipn_all2 l) by lia. rewrite firstn_nil. transitivity (@None A); [|symmetry]; apply nth_error_None.
      * cbn. lia.
      * rewrite app_nil_r, firstn_length. lia.
  - apply nth_error_None. rewrite firstn_length. lia.
Qed.
(** The pages one after the other, of any positive size, are the whole stack. *)
Theorem pages_together : forall (A : Type) (l : list A) n k, (0 < n)%Z -> (Z.of_nat (List.length l) <= Z.of_nat k * n)%Z ->
  concat (map (fun i => fst (page l (Some (Z.of_nat i * n)%Z) (Some n))) (seq 0 k)) = l /\ fst (page l None None) = l.
Proof.
  intros A l n k Hn Hk. split; [|reflexivity].
  assert (G : forall j, concat (map (fun i => fst (page l (Some (Z.of_nat i * n)%Z) (Some n))) (seq 0 j)) = firstn (j * Z.to_nat n) l).
  { induction j as [|j IH]; [reflexivity|]. rewrite seq_S, map_app, concat_app, IH. cbn [map concat plus]. rewrite app_nil_r.
    rewrite page_skip by lia. rewrite Z2Nat.inj_mul by lia. rewrite Nat2Z.id.
    replace (S j * Z.to_nat n) with (j * Z.to_nat n + Z.to_nat n) by lia. set (a := j * Z.to_nat n). set (b := Z.to_nat n).
    clear. revert l. induction a as [|a IH]; intro l; [reflexivity|]. destruct l as [|x l]; [rewrite !firstn_nil; reflexivity|].
    cbn. f_equal. apply IH. }
  rewrite G. apply firstn_all2. nia.
Qed.
(** The frames sent are the shown frames of the stack, in order, each with its line. *)
Theorem stack_frames_sent : forall fl, exists l,
  map (fun r => (rid r, rline r)) (sent_rows (visible fl [])) = map (fun f => (fid f, line_in fl f)) l
  /\ (forall f, In f l <-> In f (frames fl) /\ shown (fattrs f))
  /\ exists keep : frame -> bool, l = filter keep (frames fl).
Proof.
  intro fl. set (keep := fun f => code (fattrs f) && negb (internal (fattrs f)) && (plugin (fattrs f) || negb (filtered (fattrs f)))).
  exists (filter keep (frames fl)). split; [|split; [|exists keep; reflexivity]].
  - unfold visible. cbn [visible_chain]. rewrite app_nil_r. unfold visible1, sent_rows. set (lf := line_in fl). clearbody lf.
    induction (frames fl) as [|f l IH]; [reflexivity|]. cbn [flat_map filter]. unfold keep at 1.
    destruct (code (fattrs f)), (internal (fattrs f)); cbn [negb orb andb app filter rattrs]; auto.
    destruct (plugin (fattrs f) || negb (filtered (fattrs f))); cbn [map]; [f_equal|]; auto.
  - intro f. rewrite filter_In. unfold keep, shown. rewrite !andb_true_iff, orb_true_iff, !negb_true_iff. tauto.
Qed.
(** Without levels the starting frame is not taken into account. *)
Theorem page_start_refuted : exists (l : list N) s, (0 < s)%Z /\ fst (page l (Some s) None) <> skipn (Z.to_nat s) l.
Proof. exists [1; 2]%N, 1%Z. split; [lia | discriminate]. Qed.

(** * C44 *)
(** ** Specification *)
(** A traceback whose frames call each other, from [f] to [g] *)
Inductive calls : frame -> traceback -> frame -> Prop :=
| calls_one : forall f l, calls f [(f, l)] f
| calls_more : forall f l g r z, fback g = Some f -> calls g r z -> calls f ((f, l) :: r) z.
(** The exception an exception is shown to come from *)
Definition comes_from (h : heap) (e c : N) : Prop :=
  exists x, get N.eqb e h = Some x /\ (cause x = Some c \/ cause x = None /\ context x = Some c).

(** ** Proofs *)
Lemma from_frame_eq f : from_frame f = f :: callers f.
Proof. destruct f as [i l a [g|]]; reflexivity. Qed.
Lemma calls_nonempty f tb z : calls f tb z -> exists l r, tb = (f, l) :: r.
Proof. intro H. destruct H; eauto. Qed.
Lemma calls_stack f tb z : calls f tb z -> rev (map fst tb) ++ callers f = from_frame z.
Proof.
  induction 1 as [f l|f l g r z B H IH]; [cbn; symmetry; apply from_frame_eq|].
  cbn [map fst rev]. rewrite <- app_assoc. cbn [app]. rewrite <- IH. unfold callers at 2. rewrite B, <- from_frame_eq. reflexivity.
Qed.
Lemma calls_all f tb z : calls f tb z -> map fst (rev (all_frames tb)) = from_frame z.
Proof.
  intro H. rewrite <- (calls_stack f tb z H). destruct (calls_nonempty f tb z H) as (l & r & ->). cbn [all_frames].
  rewrite rev_app_distr, rev_involutive, map_app, map_rev, map_map. cbn [fst]. rewrite map_id. reflexivity.
Qed.
Lemma drop_until_spec want l : drop_until want l <> [] -> exists p x r, l = p ++ x :: r /\ drop_until want l = x :: r /\ want x = true
  /\ forall y, In y p -> want y = false.
Proof.
  induction l as [|y l IH]; [contradiction|]. cbn [drop_until]. destruct (want y) eqn:W.
  - intros _. exists [], y, l. repeat split; auto. intros _ [].
  - intro H. destruct (IH H) as (p & x & r & -> & E & X & Q). exists (y :: p), x, r. repeat split; auto.
    intros z [<-|Hz]; auto.
Qed.
Lemma drop_until_nil want l : drop_until want l = [] -> forall x, In x l -> want x = false.
Proof.
  induction l as [|y l IH]; intros H x []; cbn [drop_until] in H; destruct (want y) eqn:W; try discriminate; subst; auto.
Qed.
Lemma from_frame_suffix f : forall p x r, from_frame f = p ++ x :: r -> x :: r = from_frame x.
Proof.
  assert (G : forall l f, from_frame f = l -> forall p x r, l = p ++ x :: r -> x :: r = from_frame x).
  { induction l as [|y l IH]; intros f' E p x r S; [destruct p; discriminate|].
    destruct p as [|y' p].
    - injection S as <- <-. rewrite from_frame_eq in E. injection E as E1 E2. subst y. rewrite from_frame_eq. congruence.
    - injection S as <- S. rewrite from_frame_eq in E. injection E as E1 E2. unfold callers in E2.
      destruct (fback f') as [g|]; [|subst l; destruct p; discriminate]. exact (IH g E2 p x r S). }
  intros p x r E. exact (G _ f eq_refl p x r E).
Qed.
Lemma lines_fold (l : traceback) : NoDup (map (fun x => fid (fst x)) l) -> forall x, In x l ->
  get N.eqb (fid (fst x)) (fold_left (fun d y => set N.eqb (fid (fst y)) (snd y) d) l []) = Some (snd x).
Proof.
  assert (G : forall l d, NoDup (map (fun x => fid (fst x)) l) ->
    (forall x, In x l -> get N.eqb (fid (fst x)) (fold_left (fun d y => set N.eqb (fid (fst y)) (snd y) d) l d) = Some (snd x))
    /\ forall i, ~ In i (map (fun x : frame * Z => fid (fst x)) l) -> get N.eqb i (fold_left (fun d y => set N.eqb (fid (fst y)) (snd y) d) l d) = get N.eqb i d).
  { clear l. induction l as [|y l IH]; intros d N; [split; [intros _ [] | reflexivity]|]. cbn [map] in N. inversion N as [|? ? Hn N']; subst.
    cbn [fold_left]. destruct (IH (set N.eqb (fid (fst y)) (snd y) d) N') as [I1 I2]. split.
    - intros x [<-|Hx]; [|apply I1, Hx]. rewrite I2 by exact Hn. apply (get_set_same _ N.eqb_spec).
    - intros i Hi. cbn [map In] in Hi. rewrite I2 by tauto. apply (get_set_other _ N.eqb_spec). tauto. }
  intros N x Hx. exact (proj1 (G l [] N) x Hx).
Qed.
Lemma map_fid (l : traceback) : map (fun x => fid (fst x)) l = map fid (map fst l).
Proof. rewrite map_map. reflexivity. Qed.
Lemma NoDup_suffix {A} (p r : list A) : NoDup (p ++ r) -> NoDup r.
Proof. induction p; [auto|]. intro H. inversion H; auto. Qed.

(** What the list is, once the suffix is known *)
Lemma in_all f tb z g l : calls f tb z -> In (g, l) tb -> In (g, l) (rev (all_frames tb)).
Proof.
  intros H Hin. destruct (calls_nonempty f tb z H) as (l0 & r & ->). rewrite <- in_rev. cbn [all_frames]. apply in_app_iff. right. exact Hin.
Qed.
Lemma all_from f tb z x : calls f tb z -> In x (rev (all_frames tb)) -> In x tb \/ snd x = fline (fst x) /\ In (fst x) (callers f).
Proof.
  intros H Hin. destruct (calls_nonempty f tb z H) as (l0 & r & ->). rewrite <- in_rev in Hin. cbn [all_frames] in Hin.
  apply in_app_iff in Hin. destruct Hin as [Hin|Hin]; [right | left; exact Hin]. rewrite <- in_rev in Hin. apply in_map_iff in Hin.
  destruct Hin as (c & <- & Hc). auto.
Qed.

(** ** Theorems *)
(** For an exception whose traceback goes from [f] to [z], all frames different:
    - stopped at the frame [g] of the traceback, the stack of [g] is shown;
    - stopped as unhandled (no frame given), the stack of the frame which raised is shown;
    - stopped as user unhandled, likewise, whatever the frame;
    and every frame is shown with its line in the traceback, the callers outside of it with their current line. *)
Theorem exception_stack : forall f tb z g k, calls f tb z -> NoDup (map fid (from_frame z)) ->
  match g, k with Some g, (Handled | Unhandled) => exists l, In (g, l) tb | _, _ => True end ->
  let fl := from_traceback tb g k in
  frames fl = (match g, k with Some g, (Handled | Unhandled) => from_frame g | _, _ => from_frame z end)
  /\ (forall x l, In (x, l) tb -> In x (frames fl) -> line_in fl x = l)
  /\ (forall x, In x (frames fl) -> (forall l, ~ In (x, l) tb) -> line_in fl x = fline x).
Proof.
  intros f tb z g k C N Hg fl.
  set (want := fun x : frame * Z => match g with None => true | Some g => N.eqb (fid g) (fid (fst x)) || match k with UserUnhandled => true | _ => false end end).
  assert (E := calls_all f tb z C).
  assert (W : exists x, In x (rev (all_frames tb)) /\ want x = true).
  { destruct (calls_nonempty f tb z C) as (l0 & r & Et). destruct g as [g|].
    - destruct k; [destruct Hg as [l Hl] | | destruct Hg as [l Hl]].
      + exists (g, l). split; [apply (in_all f tb z); assumption|]. unfold want. cbn. rewrite N.eqb_refl. reflexivity.
      + exists (f, l0). split; [apply (in_all f tb z); [assumption|]; rewrite Et; left; reflexivity|]. unfold want. apply orb_true_r.
      + exists (g, l). split; [apply (in_all f tb z); assumption|]. unfold want. cbn. rewrite N.eqb_refl. reflexivity.
    - exists (f, l0). split; [apply (in_all f tb z); [assumption|]; rewrite Et; left; reflexivity | reflexivity]. }
  assert (NE : drop_until want (rev (all_frames tb)) <> []).
  { destruct W as (x & Hx & Wx). intro D. rewrite (drop_until_nil _ _ D x Hx) in Wx. discriminate. }
  destruct (drop_until_spec _ _ NE) as (p & x & r & S & D & X & Hp).
  assert (Efr : frames fl = map fst (x :: r)).
  { unfold fl, from_traceback. cbv zeta. fold want. rewrite D. destruct g; reflexivity. }
  assert (Eln : lineno_of fl = fold_left (fun d x => set N.eqb (fid (fst x)) (snd x) d) (x :: r) []).
  { unfold fl, from_traceback. cbv zeta. fold want. rewrite D. destruct g; reflexivity. }
  assert (Suf : map fst (x :: r) = from_frame (fst x)).
  { cbn [map]. apply (from_frame_suffix z (map fst p)). rewrite <- E, S, map_app. reflexivity. }
  assert (ND : NoDup (map (fun x => fid (fst x)) (x :: r))).
  { rewrite map_fid. apply (NoDup_suffix (map fid (map fst p))). rewrite <- map_app, <- map_app, <- S, E. exact N. }
  assert (Inz : forall y, In y (rev (all_frames tb)) -> In (fst y) (from_frame z)).
  { intros y Hy. rewrite <- E. apply in_map, Hy. }
  assert (Same : forall a b, In a (from_frame z) -> In b (from_frame z) -> fid a = fid b -> a = b).
  { clear -N. intros a b. revert N. induction (from_frame z) as [|y l IH]; [intros _ []|]. cbn [map]. intro N. inversion N as [|? ? Hn N']; subst.
    intros [<-|Ha] [<-|Hb] F; auto; exfalso; apply Hn; [rewrite F | rewrite <- F]; apply in_map; assumption. }
  assert (Lines : forall y l, In (y, l) (x :: r) -> line_in fl y = l).
  { intros y l Hy. unfold line_in. rewrite Eln. assert (Q := lines_fold (x :: r) ND (y, l) Hy).
    change (fid (fst (y, l))) with (fid y) in Q. rewrite Q. reflexivity. }
  (* two entries of the same frame are the same entry *)
  assert (Entry : forall y l l', In (y, l) (rev (all_frames tb)) -> In (y, l') (rev (all_frames tb)) -> l = l').
  { intros y l l' H1 H2. assert (N2 : NoDup (map fst (rev (all_frames tb)))) by (rewrite E; exact (NoDup_map_inv _ _ N)).
    revert N2 H1 H2. generalize (rev (all_frames tb)). clear. induction l0 as [|[a b] l0 IH]; [intros _ []|]. cbn [map fst]. intro N2. inversion N2 as [|? ? Hn N']; subst.
    intros [H1|H1] [H2|H2]; [congruence | | |auto].
    - injection H1 as -> ->. exfalso. apply Hn. apply (in_map fst) in H2. exact H2.
    - injection H2 as -> ->. exfalso. apply Hn. apply (in_map fst) in H1. exact H1. }
  split; [|split].
  - rewrite Efr, Suf. destruct g as [g|].
    + assert (Q : k <> UserUnhandled -> fst x = g).
      { intro Hk. assert (X' : fid g = fid (fst x)).
        { unfold want in X. destruct k; [|contradiction|]; rewrite orb_false_r in X; destruct (N.eqb_spec (fid g) (fid (fst x))); congruence. }
        symmetry. apply Same; [| |exact X'].
        - destruct k; [|contradiction|]; destruct Hg as [l Hl]; apply (Inz (g, l)), (in_all f tb z); assumption.
        - apply Inz. rewrite S. apply in_app_iff. right. left. reflexivity. }
      destruct k; try (rewrite Q by discriminate; reflexivity).
      assert (P : p = []).
      { destruct p as [|q p]; [reflexivity|]. specialize (Hp q (or_introl eq_refl)). unfold want in Hp. rewrite orb_true_r in Hp. discriminate. }
      subst p. cbn [app] in S. rewrite <- Suf, <- S, E. reflexivity.
    + assert (P : p = []) by (destruct p as [|q p]; [reflexivity|]; specialize (Hp q (or_introl eq_refl)); discriminate).
      subst p. cbn [app] in S. rewrite <- Suf, <- S, E. reflexivity.
  - intros y l Hy Hf. rewrite Efr in Hf. apply in_map_iff in Hf. destruct Hf as ([y' l'] & Ey & Hin). cbn [fst] in Ey. subst y'.
    rewrite (Lines y l' Hin). apply (Entry y).
    + rewrite S. apply in_app_iff. right. exact Hin.
    + apply (in_all f tb z); assumption.
  - intros y Hf Hno. rewrite Efr in Hf. apply in_map_iff in Hf. destruct Hf as ([y' l'] & Ey & Hin). cbn [fst] in Ey. subst y'.
    rewrite (Lines y l' Hin). assert (A : In (y, l') (rev (all_frames tb))) by (rewrite S; apply in_app_iff; right; exact Hin).
    destruct (all_from f tb z (y, l') C A) as [B|[B _]]; [exfalso; exact (Hno _ B) | exact B].
Qed.

(** The frame marked as the current one: for a user unhandled exception the given frame, for an unhandled one the
    outermost, otherwise none. *)
Theorem exception_current : forall f tb z g k r, calls f tb z -> NoDup (map fid (from_frame z)) -> (g = None -> k <> UserUnhandled) ->
  match g, k with Some g, (Handled | Unhandled) => exists l, In (g, l) tb | _, _ => True end ->
  In r (visible1 None (from_traceback tb g k)) ->
  (rcurrent r = true <-> match k with
                         | UserUnhandled => exists g', g = Some g' /\ rid r = fid g'
                         | Unhandled => exists o, In o (from_frame z) /\ fback o = None /\ rid r = fid o
                         | Handled => False
                         end).
Proof.
  intros f tb z g k r C N Hk Hg Hin. destruct (exception_stack f tb z g k C N Hg) as [Efr _]. cbv zeta in Efr.
  unfold visible1 in Hin. apply in_flat_map in Hin. destruct Hin as (x & Hx & Hr).
  destruct (negb (code (fattrs x)) || internal (fattrs x)); [destruct Hr|]. destruct Hr as [<-|[]]. cbn [rcurrent rid].
  destruct k.
  - cbn [from_traceback current]. split; [discriminate | intros []].
  - cbn [from_traceback current]. destruct g as [g|]; cbn [option_map]; [|exfalso; apply Hk; reflexivity]. destruct (N.eqb_spec (fid g) (fid x)) as [E|E].
    + split; [intros _; eauto | reflexivity].
    + split; [discriminate|]. intros (g' & X & Y). injection X as <-. congruence.
  - change (current (from_traceback tb g Unhandled)) with (option_map fid (last (map Some (frames (from_traceback tb g Unhandled))) None)).
    set (fr := frames (from_traceback tb g Unhandled)) in *.
    assert (S : exists y, fr = from_frame y /\ In y (from_frame z)).
    { destruct g as [g|]; [|exists z; split; [exact Efr | rewrite from_frame_eq; left; reflexivity]]. exists g. split; [exact Efr|].
      destruct Hg as [l Hl]. rewrite <- (calls_all f tb z C). apply (in_map fst _ (g, l)). apply (in_all f tb z); assumption. }
    destruct S as (y & Ey & Hy).
    assert (Last : forall w, exists o, last (map Some (from_frame w)) None = Some o /\ In o (from_frame w) /\ fback o = None).
    { clear. fix R 1. intros [i l a [b|]].
      - destruct (R b) as (o & E & I & B). exists o. cbn [from_frame]. repeat split; [|right; exact I | exact B].
        rewrite <- E. destruct b; reflexivity.
      - eexists. repeat split. left. reflexivity. }
    assert (Out : forall w o o', In o (from_frame w) -> In o' (from_frame w) -> fback o = None -> fback o' = None -> o = o').
    { clear. fix R 1. intros [i l a [b|]] o o'; cbn [from_frame].
      - intros [<-|H1] [<-|H2] B1 B2; try discriminate. exact (R b o o' H1 H2 B1 B2).
      - intros [<-|[]] [<-|[]] _ _. reflexivity. }
    destruct (Last y) as (o & E & I & B). rewrite Ey, E. cbn [option_map].
    assert (Iz : In o (from_frame z)).
    { apply in_split in Hy. destruct Hy as (p & q & Hp). assert (Q := from_frame_suffix z p y q Hp). rewrite Hp. apply in_app_iff. right. rewrite Q. exact I. }
    destruct (N.eqb_spec (fid o) (fid x)) as [Q|Q].
    + split; [intros _; exists o; auto | reflexivity].
    + split; [discriminate|]. intros (o' & H1 & H2 & H3). exfalso. apply Q. rewrite (Out z o o'); auto.
Qed.

Lemma chain_path h : forall fuel e memo fresh, In e memo ->
  let l := map fst (chain fuel h e memo fresh) in
  (forall i a b, nth_error (e :: l) i = Some a -> nth_error l i = Some b -> comes_from h a b)
  /\ (forall c, In c l -> ~ In c memo) /\ NoDup l.
Proof.
  induction fuel as [|n IH]; intros e memo fresh Hm l; unfold l; cbn [chain].
  { repeat split; [intros [|i] a b _ H; discriminate | intros c [] | constructor]. }
  destruct (next_exc h e) as [c|] eqn:E; [|repeat split; [intros [|i] a b _ H; discriminate | intros c [] | constructor]].
  destruct (existsb (N.eqb c) memo) eqn:X; [repeat split; [intros [|i] a b _ H; discriminate | intros d [] | constructor]|].
  assert (Nc : ~ In c memo).
  { intro H. assert (existsb (N.eqb c) memo = true) by (apply existsb_exists; exists c; split; [exact H | apply N.eqb_refl]). congruence. }
  cbn [map fst]. destruct (IH c (c :: memo) (fresh + N.of_nat (List.length (tb_at h c)))%N (or_introl eq_refl)) as (A & B & C).
  cbv zeta in *. repeat split.
  - intros [|i] a b Ha Hb.
    + cbn in Ha, Hb. injection Ha as <-. injection Hb as <-. unfold next_exc in E. destruct (get N.eqb e h) as [x|] eqn:G; [|discriminate].
      exists x. split; [exact G|]. destruct (cause x); [left; exact E | right; auto].
    + cbn in Ha, Hb. exact (A i a b Ha Hb).
  - intros d [<-|Hd]; [exact Nc|]. intro H. exact (B d Hd (or_intror H)).
  - constructor; [|exact C]. intro H. exact (B c H (or_introl eq_refl)).
Qed.
Lemma get_key (h : heap) e x : get N.eqb e h = Some x -> In e (keys h).
Proof. intro G. apply (get_In _ N.eqb_spec) in G. apply (in_map fst) in G. exact G. Qed.
(** The bound on the turns is never reached. *)
Lemma chain_end h : forall fuel e memo fresh, In e memo -> NoDup memo -> (forall x, In x memo -> x = e \/ In x (keys h)) ->
  List.length h + 2 <= fuel + List.length memo ->
  let l := map fst (chain fuel h e memo fresh) in
  forall c, comes_from h (last (e :: l) e) c -> In c memo \/ In c l.
Proof.
  induction fuel as [|n IH]; intros e memo fresh Hm ND Hk Hl l c Hc; unfold l in *.
  { exfalso. assert (Q : incl memo (e :: keys h)) by (intros x Hx; destruct (Hk x Hx); [left; auto | right; auto]).
    assert (L := NoDup_incl_length ND Q). cbn [List.length] in L. unfold keys in L. rewrite map_length in L. lia. }
  cbn [chain] in *. destruct (next_exc h e) as [c'|] eqn:E.
  - destruct (existsb (N.eqb c') memo) eqn:X.
    + cbn [map last] in Hc. left. destruct Hc as (x & G & Q). unfold next_exc in E. rewrite G in E.
      apply existsb_exists in X. destruct X as (y & Hy & Ey). destruct (N.eqb_spec c' y); [|discriminate]. subst y.
      destruct Q as [Q | [Q1 Q2]]; [rewrite Q in E | rewrite Q1, Q2 in E]; injection E as <-; exact Hy.
    + assert (Nc : ~ In c' memo).
      { intro H. assert (existsb (N.eqb c') memo = true) by (apply existsb_exists; exists c'; split; [exact H | apply N.eqb_refl]). congruence. }
      assert (Ke : In e (keys h)).
      { unfold next_exc in E. destruct (get N.eqb e h) as [x|] eqn:G; [|discriminate]. exact (get_key h e x G). }
      cbn [map fst] in *.
      destruct (IH c' (c' :: memo) (fresh + N.of_nat (List.length (tb_at h c')))%N) with (c := c) as [[->|H]|H].
      * left. reflexivity.
      * constructor; assumption.
      * intros x [->|Hx]; [left; reflexivity|]. right. destruct (Hk x Hx) as [->|]; assumption.
      * cbn [List.length]. lia.
      * match goal with |- comes_from h (last (c' :: ?t) c') c => replace (last (c' :: t) c') with (last (e :: c' :: t) e); [exact Hc|] end.
        generalize (map fst (chain n h c' (c' :: memo) (fresh + N.of_nat (List.length (tb_at h c'))))). intro t. cbn [last].
        destruct t as [|a t]; [reflexivity|]. clear. revert a. induction t as [|b t IH]; intro a; [reflexivity|]. exact (IH b).
      * right. left. reflexivity.
      * left. exact H.
      * right. right. exact H.
  - exfalso. cbn [map last] in Hc. destruct Hc as (x & G & Q). unfold next_exc in E. rewrite G in E.
    destruct Q as [Q | [Q1 Q2]]; [rewrite Q in E | rewrite Q1 in E]; congruence.
Qed.

(** The exceptions shown under an exception are those it comes from, one after the other, none twice, up to the first
    without one or with one already shown. *)
Theorem exception_chain : forall h e fresh, let l := map fst (chained h e fresh) in
  (forall i a b, nth_error (e :: l) i = Some a -> nth_error l i = Some b -> comes_from h a b)
  /\ NoDup (e :: l)
  /\ forall c, comes_from h (last (e :: l) e) c -> In c (e :: l).
Proof.
  intros h e fresh l. unfold l, chained. destruct (chain_path h (S (S (List.length h))) e [e] fresh (or_introl eq_refl)) as (A & B & C).
  cbv zeta in *. split; [exact A|]. split.
  - constructor; [|exact C]. intro H. exact (B e H (or_introl eq_refl)).
  - intros c Hc. destruct (chain_end h (S (S (List.length h))) e [e] fresh) with (c := c) as [[->|[]]|H].
    + left. reflexivity.
    + constructor; [intros [] | constructor].
    + intros x [->|[]]. left. reflexivity.
    + cbn [List.length]. lia.
    + exact Hc.
    + left. reflexivity.
    + right. exact H.
Qed.

Lemma chain_lists h : forall fuel e memo fresh c fl, In (c, fl) (chain fuel h e memo fresh) -> exists n, fl = from_cause n (tb_at h c).
Proof.
  induction fuel as [|n IH]; intros e memo fresh c fl; cbn [chain]; [intros []|].
  destruct (next_exc h e) as [d|]; [|intros []]. destruct (existsb (N.eqb d) memo); [intros []|].
  intros [H|H]; [injection H as <- <-; eauto | eapply IH, H].
Qed.
Lemma wrap_ids tb : forall n i, In i (map fid (wrap_all n tb)) -> (n <= i)%N.
Proof.
  induction tb as [|x tb IH]; intros n i; cbn [wrap_all map]; [intros []|]. intros [<-|H]; [cbn; lia|]. apply IH in H. lia.
Qed.
Lemma wrap_nodup tb : forall n, NoDup (map fid (wrap_all n tb)).
Proof.
  induction tb as [|x tb IH]; intro n; cbn [wrap_all map]; constructor; [|apply IH]. intro H. apply wrap_ids in H. cbn in H. lia.
Qed.
Lemma wrap_lines l : NoDup (map fid l) -> forall d f, In f l -> get N.eqb (fid f) (fold_left (fun d f => set N.eqb (fid f) (fline f) d) l d) = Some (fline f).
Proof.
  assert (G : forall l d, NoDup (map fid l) ->
    (forall f, In f l -> get N.eqb (fid f) (fold_left (fun d f => set N.eqb (fid f) (fline f) d) l d) = Some (fline f))
    /\ forall i, ~ In i (map fid l) -> get N.eqb i (fold_left (fun d f => set N.eqb (fid f) (fline f) d) l d) = get N.eqb i d).
  { clear l. induction l as [|y l IH]; intros d N; [split; [intros _ [] | reflexivity]|]. cbn [map] in N. inversion N as [|? ? Hn N']; subst.
    cbn [fold_left]. destruct (IH (set N.eqb (fid y) (fline y) d) N') as [I1 I2]. split.
    - intros f [<-|Hf]; [|apply I1, Hf]. rewrite I2 by exact Hn. apply (get_set_same _ N.eqb_spec).
    - intros i Hi. cbn [map In] in Hi. rewrite I2 by tauto. apply (get_set_other _ N.eqb_spec). tauto. }
  intros N d f Hf. exact (proj1 (G l d N) f Hf).
Qed.
(** The frames shown for such an exception are those of its traceback, outermost first, with the lines of the traceback
    even if a frame is there more than once. *)
Theorem exception_chain_frames : forall h e fresh c fl, In (c, fl) (chained h e fresh) ->
  exists keep : frame * Z -> bool, (forall x, keep x = true <-> shown (fattrs (fst x)))
    /\ map rline (sent_rows (visible1 (Some c) fl)) = map snd (filter keep (tb_at h c)).
Proof.
  intros h e fresh c fl H. destruct (chain_lists _ _ _ _ _ _ _ H) as [n ->]. clear H.
  exists (fun x => code (fattrs (fst x)) && negb (internal (fattrs (fst x))) && (plugin (fattrs (fst x)) || negb (filtered (fattrs (fst x))))). split.
  { intro x. unfold shown. rewrite !andb_true_iff, orb_true_iff, !negb_true_iff. tauto. }
  generalize (tb_at h c). intro tb. unfold visible1. cbn [from_cause frames current].
  assert (L : forall f, In f (wrap_all n tb) -> line_in (from_cause n tb) f = fline f).
  { intros f Hf. unfold line_in. cbn [from_cause lineno_of]. rewrite (wrap_lines _ (wrap_nodup tb n) [] f Hf). reflexivity. }
  revert L. generalize (line_in (from_cause n tb)). intros lf. revert n. induction tb as [|x tb IH]; intros n L; [reflexivity|].
  cbn [wrap_all flat_map filter wrap fattrs]. unfold sent_rows in *. rewrite filter_app, map_app, (IH (N.succ n)) by (intros f Hf; apply L; right; exact Hf).
  assert (Lx := L (wrap n x) (or_introl eq_refl)). unfold wrap in Lx. cbn [fline] in Lx.
  destruct (code (fattrs (fst x))), (internal (fattrs (fst x))); cbn [negb orb andb filter map app rattrs]; auto.
  destruct (plugin (fattrs (fst x)) || negb (filtered (fattrs (fst x)))); cbn [map app rline]; [|reflexivity].
  unfold wrap. rewrite Lx. reflexivity.
Qed.
(** When every such exception has a traceback, all of them are shown, after the main stack. *)
Theorem exception_all_shown : forall h e fresh fl, (forall c, In c (map fst (chained h e fresh)) -> tb_at h c <> []) ->
  visible fl (chained h e fresh) = visible1 None fl ++ concat (map (fun x => visible1 (Some (fst x)) (snd x)) (chained h e fresh)).
Proof.
  intros h e fresh fl H. unfold visible. f_equal.
  assert (Q : forall c f, In (c, f) (chained h e fresh) -> frames f <> []).
  { intros c f Hc. destruct (chain_lists _ _ _ _ _ _ _ Hc) as [n ->]. specialize (H c (in_map fst _ _ Hc)). destruct (tb_at h c); [contradiction | discriminate]. }
  clear H. induction (chained h e fresh) as [|[c f] l IH]; [reflexivity|]. cbn [visible_chain map concat fst snd].
  assert (Hf := Q c f (or_introl eq_refl)). destruct (frames f); [contradiction|]. rewrite IH; [reflexivity|].
  intros c' f' Hc. apply (Q c'). right. exact Hc.
Qed.

Definition plain : attrs := Attrs true false false false.
(** An exception raised "from None" still shows the one it hides. *)
Theorem exception_suppressed_refuted : exists h e c, (exists x, get N.eqb e h = Some x /\ suppress x = true /\ cause x = None)
  /\ In c (map fst (chained h e 100)).
Proof.
  exists [(1%N, Exc None (Some 2%N) true []); (2%N, Exc None None false [(Frame 9 4 plain None, 4%Z)])], 1%N, 2%N.
  split; [|left; reflexivity]. eexists. repeat split.
Qed.
(** A cause which was never raised hides what it comes from. *)
Theorem exception_cause_hidden_refuted : exists h e c fl, In c (map fst (chained h e 100)) /\ tb_at h c <> []
  /\ forall r, In r (visible fl (chained h e 100)) -> rexc r <> Some c.
Proof.
  exists [(1%N, Exc (Some 2%N) None true []); (2%N, Exc None (Some 3%N) false []); (3%N, Exc None None false [(Frame 9 4 plain None, 4%Z)])],
    1%N, 3%N, (FList [] [] None).
  split; [right; left; reflexivity|]. split; [discriminate|]. intros r [].
Qed.
(** If a frame is twice in the traceback (it raised the exception again), the line of its inner entry is not shown. *)
Theorem exception_reraised_refuted : exists f tb g l1 l2, tb = [(f, l1); (f, l2); g] /\ fback (fst g) = Some f /\ l1 <> l2
  /\ map (fun r => (rid r, rline r)) (visible1 None (from_traceback tb None Unhandled)) = [(fid (fst g), snd g); (fid f, l1); (fid f, l1)].
Proof.
  exists (Frame 1 7 plain None), [(Frame 1 7 plain None, 7%Z); (Frame 1 7 plain None, 5%Z); (Frame 2 3 plain (Some (Frame 1 7 plain None)), 3%Z)],
    (Frame 2 3 plain (Some (Frame 1 7 plain None)), 3%Z), 7%Z, 5%Z.
  repeat split. discriminate.
Qed.

(** * C45 *)
(** ** Specification *)
(** UTF-8 *)
Definition utf8 (c : N) : list N :=
  if N.ltb c 128 then [c]
  else if N.ltb c 2048 then [192 + c / 64; 128 + c mod 64]%N
  else if N.ltb c 65536 then [224 + c / 4096; 128 + (c / 64) mod 64; 128 + c mod 64]%N
  else [240 + c / 262144; 128 + (c / 4096) mod 64; 128 + (c / 64) mod 64; 128 + c mod 64]%N.
Definition bytes (s : str) : N := N.of_nat (List.length (flat_map utf8 s)).

(** ** Proofs *)
Lemma bytes_cons c s : bytes (c :: s) = (char_bytes c + bytes s)%N.
Proof.
  unfold bytes. cbn [flat_map]. rewrite app_length, Nat2N.inj_add. f_equal. unfold utf8, char_bytes.
  destruct (N.ltb_spec c 128), (N.leb_spec 128 c); try lia; destruct (N.leb_spec 2048 c), (N.leb_spec 65536 c); try lia;
  destruct (N.ltb_spec c 2048); try lia; destruct (N.ltb_spec c 65536); try lia; reflexivity.
Qed.
Lemma char_bytes_pos c : (0 < char_bytes c)%N.
Proof. unfold char_bytes. destruct (N.leb 65536 c), (N.leb 2048 c), (N.leb 128 c); lia. Qed.
Lemma char_offset_from_spec s : forall o b i, (b <= o)%N -> exists k, k <= List.length s /\ char_offset_from s o b i = (i + N.of_nat k)%N
  /\ (b + bytes (firstn k s) <= o)%N /\ (k < List.length s -> (o < b + bytes (firstn (S k) s))%N).
Proof.
  induction s as [|c s IH]; intros o b i Hb; cbn [char_offset_from].
  - exists 0. cbn [firstn List.length]. change (bytes []) with 0%N. repeat split; lia.
  - cbv zeta. destruct (N.ltb_spec o (b + char_bytes c)) as [H|H].
    + exists 0. cbn [firstn List.length]. repeat split; try lia.
      * change (bytes []) with 0%N. lia.
      * intros _. rewrite bytes_cons. change (bytes []) with 0%N. lia.
    + destruct (IH o (b + char_bytes c)%N (N.succ i) H) as (k & Hk & E & L & U). exists (S k). cbn [List.length]. repeat split.
      * lia.
      * rewrite E. lia.
      * cbn [firstn]. rewrite bytes_cons. lia.
      * intro Q. assert (Q' : k < List.length s) by lia. specialize (U Q'). change (firstn (S (S k)) (c :: s)) with (c :: firstn (S k) s). rewrite bytes_cons. lia.
Qed.
Lemma bytes_app a b : bytes (a ++ b) = (bytes a + bytes b)%N.
Proof. unfold bytes. rewrite flat_map_app, app_length. lia. Qed.
Lemma bytes_firstn_mono s a b : a < b -> b <= List.length s -> (bytes (firstn a s) < bytes (firstn b s))%N.
Proof.
  revert a b. induction s as [|c s IH]; intros a b H L; cbn [List.length] in L; [lia|].
  destruct b as [|b]; [lia|]. destruct a as [|a]; cbn [firstn]; rewrite !bytes_cons.
  - assert (P := char_bytes_pos c). change (bytes []) with 0%N. lia.
  - specialize (IH a b ltac:(lia) ltac:(lia)). lia.
Qed.

(** ** Theorems *)
(** The offset of a byte in the UTF-8 text of a line is turned into the number of its character; an offset after the end
    into the number of characters. *)
Theorem char_offset_correct : forall s o, s <> [] -> exists k, char_offset s (Some o) = N.of_nat k /\ k <= List.length s
  /\ (bytes (firstn k s) <= o)%N /\ (k < List.length s -> (o < bytes (firstn (S k) s))%N).
Proof.
  intros s o Hs. destruct (char_offset_from_spec s o 0 0 ltac:(lia)) as (k & Hk & E & L & U). exists k.
  destruct s as [|c s]; [contradiction|]. cbn [char_offset]. rewrite E. repeat split; [exact Hk | exact L | intro Q; specialize (U Q); lia].
Qed.
Lemma char_offset_start s k : s <> [] -> k <= List.length s -> char_offset s (Some (bytes (firstn k s))) = N.of_nat k.
Proof.
  intros Hs Hk. destruct (char_offset_correct s (bytes (firstn k s)) Hs) as (j & -> & Hj & L & U). f_equal.
  destruct (lt_eq_lt_dec j k) as [[Q|Q]|Q]; [|exact Q|].
  - exfalso. assert (W := U ltac:(lia)). destruct (Nat.eq_dec (S j) k) as [<-|]; [lia|].
    assert (M := bytes_firstn_mono s (S j) k ltac:(lia) Hk). lia.
  - exfalso. assert (M := bytes_firstn_mono s k j Q Hj). lia.
Qed.
Lemma firstn_firstn_skipn (s : str) a b : a + b <= List.length s -> firstn a s ++ firstn b (skipn a s) = firstn (a + b) s.
Proof.
  revert s. induction a as [|a IH]; intros s H; [reflexivity|]. destruct s as [|c s]; cbn [List.length] in H; [lia|].
  cbn [firstn skipn app plus]. f_equal. apply IH. lia.
Qed.
(** For code from character [i] to character [j] of a line, the reported columns are those characters, counted from 1; if
    the interesting part of that code is its characters from [a] to [b], these; for code on several lines only the start
    is reported. *)
Theorem columns_correct : forall anchors line i j n m, line <> [] -> i <= List.length line -> j <= List.length line ->
  (n <> m -> fst (columns anchors (Some (LineCol n m (bytes (firstn i line)) (bytes (firstn j line)))) line) = N.of_nat (i + 1)
     /\ snd (columns anchors (Some (LineCol n m (bytes (firstn i line)) (bytes (firstn j line)))) line) = None)
  /\ (n = m -> anchors (firstn (j - i) (skipn i line)) = None ->
      columns anchors (Some (LineCol n m (bytes (firstn i line)) (bytes (firstn j line)))) line = (N.of_nat (i + 1), Some (N.of_nat (j + 1))))
  /\ (forall a b, n = m -> i + a <= List.length line -> i + b <= List.length line ->
      anchors (firstn (j - i) (skipn i line)) = Some (bytes (firstn a (skipn i line)), bytes (firstn b (skipn i line))) ->
      columns anchors (Some (LineCol n m (bytes (firstn i line)) (bytes (firstn j line)))) line = (N.of_nat (i + a + 1), Some (N.of_nat (i + b + 1)))).
Proof.
  intros anchors line i j n m Hl Hi Hj.
  assert (Ei := char_offset_start line i Hl Hi). assert (Ej := char_offset_start line j Hl Hj).
  destruct line as [|c line]; [contradiction|]. set (s := c :: line) in *.
  change (columns anchors (Some (LineCol n m (bytes (firstn i s)) (bytes (firstn j s)))) s) with
    (let (c, e) := map_columns anchors (LineCol n m (bytes (firstn i s)) (bytes (firstn j s))) s in (c + 1, if Z.eqb n m then Some (e + 1) else None)%N).
  unfold map_columns. cbn [ln end_ln col end_col]. rewrite Ei, Ej, !Nat2N.id. split; [|split].
  - intro H. destruct (Z.eqb_spec n m); [contradiction|]. cbn [fst snd]. split; [lia | reflexivity].
  - intros -> A. rewrite Z.eqb_refl, A. repeat f_equal; lia.
  - intros a b -> Ha Hb A. rewrite Z.eqb_refl, A.
    rewrite (N.add_comm (bytes (firstn a (skipn i s)))), (N.add_comm (bytes (firstn b (skipn i s)))), <- !bytes_app, !firstn_firstn_skipn by assumption.
    rewrite !char_offset_start by assumption. repeat f_equal; lia.
Qed.
(** Columns count characters, not the UTF-16 units in which the protocol counts by default. *)
Definition utf16_units (c : N) : N := if N.ltb c 65536 then 1 else 2.
Theorem columns_utf16_refuted : exists line i n, i <= List.length line /\
  fst (columns (fun _ => None) (Some (LineCol n n (bytes (firstn i line)) (bytes line))) line)
  <> (1 + fold_left N.add (map utf16_units (firstn i line)) 0)%N.
Proof. exists [128512; 97]%N, 1, 1%Z. split; [cbn; lia|]. cbv. discriminate. Qed.

(** ** Concrete cases *)
Example ex_page : page [1; 2; 3; 4; 5]%N (Some 2%Z) (Some 2%Z) = ([3; 4]%N, 5) /\ page [1; 2; 3; 4; 5]%N (Some 4%Z) (Some 2%Z) = ([5]%N, 5).
Proof. split; reflexivity. Qed.
Definition ex_f1 : frame := Frame 1 10 plain None.
Definition ex_f2 : frame := Frame 2 20 plain (Some ex_f1).
Definition ex_f3 : frame := Frame 3 30 plain (Some ex_f2).
Example ex_calls : calls ex_f2 [(ex_f2, 21%Z); (ex_f3, 31%Z)] ex_f3 /\ NoDup (map fid (from_frame ex_f3))
  /\ map (fun r => (rid r, rline r)) (visible1 None (from_traceback [(ex_f2, 21%Z); (ex_f3, 31%Z)] None Unhandled)) = [(3%N, 31%Z); (2%N, 21%Z); (1%N, 10%Z)]
  /\ map (fun r => (rid r, rline r)) (visible1 None (from_traceback [(ex_f2, 21%Z); (ex_f3, 31%Z)] (Some ex_f2) Handled)) = [(2%N, 21%Z); (1%N, 10%Z)].
Proof.
  split; [apply calls_more with ex_f3; [reflexivity | apply calls_one]|]. split; [|split; reflexivity].
  cbn. repeat constructor; cbn; intuition lia.
Qed.
Example ex_chain : map fst (chained [(1%N, Exc (Some 2%N) None true []); (2%N, Exc None (Some 3%N) false [(ex_f1, 4%Z)]); (3%N, Exc None (Some 1%N) false [(ex_f1, 5%Z)])] 1 100) = [2; 3]%N.
Proof. reflexivity. Qed.
Example ex_columns : columns (fun _ => None) (Some (LineCol 3 3 2 5)) [228; 97; 98; 99]%N = (2%N, Some 5%N).
Proof. reflexivity. Qed.

Print Assumptions page_frames.
Print Assumptions pages_together.
Print Assumptions stack_frames_sent.
Print Assumptions page_start_refuted.
Print Assumptions exception_stack.
Print Assumptions exception_current.
Print Assumptions exception_chain.
Print Assumptions exception_chain_frames.
Print Assumptions exception_all_shown.
Print Assumptions exception_suppressed_refuted.
Print Assumptions exception_cause_hidden_refuted.
Print Assumptions exception_reraised_refuted.
Print Assumptions char_offset_correct.
Print Assumptions columns_correct.
Print Assumptions columns_utf16_refuted.
