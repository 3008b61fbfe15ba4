(** A path given in any case becomes the one on the disk (property C87). *)
From Coq Require Import String.
From Coq Require Import List NArith Bool Lia.
From Verif Require Import Base RunFile RunFileProps RealCase.
Import ListNotations.
Open Scope list_scope.

(** Specification.  A path: a drive (empty on the Mac), separators, names. *)
Fixpoint names_text (sep : N) (l : list str) : str := match l with [] => [] | n :: r => n ++ match r with [] => [] | _ => sep :: names_text sep r end end.
Definition path (sep : N) (d : str) (k : nat) (l : list str) : str := d ++ repeat sep k ++ names_text sep l.
Definition valid (sep : N) (n : str) : Prop := n <> [] /\ ~ In sep n.
(** The names are those of the disk: each is in the directory before it. *)
Definition real (sep : N) (disk : str -> listed) (d : str) (k : nat) (l : list str) : Prop :=
  forall a n b, l = a ++ n :: b -> exists c, disk (path sep d k a) = Listed c /\ In n c.
(** A disk: names are valid, and no two of a directory differ in case alone. *)
Definition good_disk (sep : N) (low : N -> N) (disk : str -> listed) : Prop :=
  forall p c, disk p = Listed c -> (forall n, In n c -> valid sep n) /\ (forall n m, In n c -> In m c -> map low n = map low m -> n = m).
(** Files may be added. *)
Definition grows (d1 d2 : str -> listed) : Prop := forall p c, d1 p = Listed c -> exists c2, d2 p = Listed c2 /\ incl c c2.
(** Case of characters *)
Definition good_case (sep : N) (low up : N -> N) : Prop :=
  (forall c, low (low c) = low c) /\ (forall c, low c = sep <-> c = sep) /\ (forall c, up (low c) = up c) /\ (forall c, up (up c) = up c).

Section Proofs.
  Variables (sep : N) (low up : N -> N).
  Hypothesis good : good_case sep low up.
  Notation lower := (RealCase.lower low).
  Notation valid := (valid sep).
  Notation path := (path sep).
  Notation names_text := (names_text sep).

  Lemma low_low c : low (low c) = low c. Proof. apply good. Qed.
  Lemma low_sep c : low c = sep <-> c = sep. Proof. apply good. Qed.
  Lemma low_of_sep : low sep = sep. Proof. now apply (proj2 (low_sep sep)). Qed.
  Lemma up_low c : up (low c) = up c. Proof. apply good. Qed.
  Lemma up_up c : up (up c) = up c. Proof. apply good. Qed.

  Lemma lower_lower s : lower (lower s) = lower s.
  Proof. unfold RealCase.lower. rewrite map_map. apply map_ext. apply low_low. Qed.
  Lemma lower_app a b : lower (a ++ b) = lower a ++ lower b. Proof. apply map_app. Qed.
  Lemma in_lower s : In sep (lower s) <-> In sep s.
  Proof.
    unfold RealCase.lower. rewrite in_map_iff. split.
    - intros (c & h & hc). apply (proj1 (low_sep c)) in h. now rewrite <- h.
    - intros h. exists sep. split; [apply low_of_sep|assumption].
  Qed.
  Lemma valid_lower n : valid n -> valid (lower n).
  Proof. intros [h1 h2]. split; [destruct n; [congruence|discriminate]|]. now rewrite in_lower. Qed.
  Lemma lower_seps k : lower (repeat sep k) = repeat sep k.
  Proof. induction k as [|k IH]; [reflexivity|]. cbn [repeat RealCase.lower map]. unfold RealCase.lower in IH. rewrite IH. f_equal. apply low_of_sep. Qed.
  Lemma lower_names l : lower (names_text l) = names_text (map lower l).
  Proof.
    induction l as [|n l IH]; [reflexivity|]. destruct l as [|m l].
    - cbn [RealCaseProps.names_text map]. rewrite !app_nil_r. reflexivity.
    - cbn [RealCaseProps.names_text map] in *. rewrite lower_app. f_equal. cbn [RealCase.lower map] in *. rewrite <- IH. f_equal. apply low_of_sep.
  Qed.
  Lemma lower_path d k l : lower (path d k l) = path (lower d) k (map lower l).
  Proof. unfold RealCaseProps.path. now rewrite !lower_app, lower_seps, lower_names. Qed.

  Lemma names_snoc l n : names_text (l ++ [n]) = match l with [] => n | _ => names_text l ++ sep :: n end.
  Proof.
    induction l as [|m l IH]; [cbn; now rewrite app_nil_r|]. cbn [app RealCaseProps.names_text] in *.
    destruct l as [|x l]; [cbn; now rewrite !app_nil_r|]. cbn [app] in *. rewrite IH. cbn [app]. rewrite <- app_assoc. reflexivity.
  Qed.
  Lemma names_end l : l <> [] -> Forall valid l -> exists r c, names_text l = r ++ [c] /\ c <> sep.
  Proof.
    intros h hv. destruct l as [|n l _] using rev_ind; [congruence|]. apply Forall_app in hv as [_ hv]. inversion hv as [|? ? [h1 h2] _]; subst.
    destruct n as [|c n _] using rev_ind; [congruence|].
    assert (hc : c <> sep) by (intros ->; apply h2; apply in_or_app; right; now left).
    rewrite names_snoc. destruct l as [|m l]; [now exists n, c|]. exists (names_text (m :: l) ++ sep :: n), c. split; [|assumption].
    rewrite <- app_assoc. reflexivity.
  Qed.

  Lemma ends_no r c : c <> sep -> ends_with [sep] (r ++ [c]) = false.
  Proof.
    intros h. destruct (ends_with [sep] (r ++ [c])) eqn:E; [|reflexivity]. apply ends_with_spec in E as (q & hq).
    apply app_inj_tail in hq as [_ hq]. congruence.
  Qed.
  Lemma ends_yes r : ends_with [sep] (r ++ [sep]) = true.
  Proof. apply ends_with_spec. now exists r. Qed.
  Lemma repeat_snoc (k : nat) : repeat sep (S k) = repeat sep k ++ [sep].
  Proof. induction k as [|k IH]; [reflexivity|]. cbn [repeat app] in *. now rewrite <- IH. Qed.

  Lemma join_path d k l n : 0 < k -> Forall valid l -> os_join sep (path d k l) n = path d k (l ++ [n]).
  Proof.
    intros hk hv. unfold RealCaseProps.path. rewrite names_snoc. destruct k as [|k]; [lia|]. unfold os_join.
    destruct l as [|m l].
    - cbn [RealCaseProps.names_text]. rewrite app_nil_r.
      assert (E : ends_with [sep] (d ++ repeat sep (S k)) = true) by (rewrite repeat_snoc, app_assoc; apply ends_yes).
      destruct (d ++ repeat sep (S k)) as [|x r] eqn:E2; [destruct d; discriminate|]. rewrite E, <- E2, <- app_assoc. reflexivity.
    - destruct (names_end (m :: l)) as (r & c & hr & hc); [discriminate|assumption|].
      assert (E : ends_with [sep] (d ++ repeat sep (S k) ++ names_text (m :: l)) = false) by (rewrite hr, !app_assoc; now apply ends_no).
      set (t := d ++ repeat sep (S k) ++ names_text (m :: l)) in *.
      assert (ht : t <> []) by (unfold t; destruct d; discriminate).
      destruct t as [|x r2] eqn:E2; [congruence|]. rewrite E, <- E2. unfold t. rewrite <- !app_assoc. reflexivity.
  Qed.

  (** A path can be read in one way. *)
  Lemma pieces_names l : l <> [] -> Forall valid l -> pieces sep (names_text l) = l.
  Proof.
    intros hn hv. induction hv as [|n l [h1 h2] hv IH]; [congruence|]. cbn [RealCaseProps.names_text]. destruct l as [|m l].
    - rewrite pieces_app; [reflexivity|assumption|now left].
    - rewrite pieces_app; [|assumption|right; now eexists]. rewrite IH; [reflexivity|discriminate].
  Qed.
  Lemma pieces_path d k l : ~ In sep d -> l <> [] -> Forall valid l -> pieces sep (path d (S k) l) = d :: repeat [] k ++ l.
  Proof.
    intros hd hl hv. unfold RealCaseProps.path. cbn [repeat app]. rewrite pieces_app; [|assumption|right; now eexists]. f_equal.
    induction k as [|k IH]; [now apply pieces_names|]. cbn [repeat app pieces]. rewrite N.eqb_refl, IH. reflexivity.
  Qed.
  Lemma pieces_root d k : ~ In sep d -> pieces sep (path d (S k) []) = d :: repeat [] (S k).
  Proof.
    intros hd. unfold RealCaseProps.path. cbn [RealCaseProps.names_text]. rewrite app_nil_r. cbn [repeat app].
    rewrite pieces_app; [|assumption|right; now eexists]. f_equal.
    induction k as [|k IH]; [reflexivity|]. cbn [repeat pieces] in *. rewrite N.eqb_refl, IH. reflexivity.
  Qed.
  Lemma blanks_inj (k k' : nat) (a b : list str) : Forall valid a -> Forall valid b ->
    repeat [] k ++ (match a with [] => [[]] | _ => a end) = repeat [] k' ++ (match b with [] => [[]] | _ => b end) -> k = k' /\ a = b.
  Proof.
    intros ha hb. revert k'. induction k as [|k IH]; intros [|k'] h; cbn [repeat app] in h.
    - split; [reflexivity|]. destruct a as [|x a], b as [|y b]; try congruence; injection h as e _; subst; [inversion hb as [|? ? [? _] _]|inversion ha as [|? ? [? _] _]]; congruence.
    - exfalso. destruct a as [|x a]; [|injection h as e _; subst; inversion ha as [|? ? [? _] _]; congruence].
      injection h as h. destruct k'; cbn [repeat app] in h; [destruct b; discriminate|discriminate].
    - exfalso. destruct b as [|x b]; [|injection h as e _; subst; inversion hb as [|? ? [? _] _]; congruence].
      injection h as h. destruct k; cbn [repeat app] in h; [destruct a; discriminate|discriminate].
    - injection h as h. destruct (IH k' h) as [-> ->]. auto.
  Qed.
  Lemma path_inj d d' k k' a b : ~ In sep d -> ~ In sep d' -> 0 < k -> 0 < k' -> Forall valid a -> Forall valid b ->
    path d k a = path d' k' b -> d = d' /\ k = k' /\ a = b.
  Proof.
    intros hd hd' hk hk' ha hb h. destruct k as [|k]; [lia|]. destruct k' as [|k']; [lia|].
    assert (hp : forall d k l, ~ In sep d -> Forall valid l -> pieces sep (path d (S k) l) = d :: repeat [] k ++ match l with [] => [[]] | _ => l end).
    { intros d0 k0 l h1 h2. destruct l as [|x l]; [rewrite pieces_root by assumption|apply pieces_path; [assumption|discriminate|assumption]].
      f_equal. clear. induction k0 as [|k0 IH]; [reflexivity|]. cbn [repeat app] in *. now rewrite <- IH. }
    assert (hq := f_equal (pieces sep) h). rewrite !hp in hq by assumption. injection hq as -> hq.
    apply blanks_inj in hq as [-> ->]; auto.
  Qed.

  (** On one disk two real paths which differ in case alone are the same. *)
  Definition drive_ok (d : str) : Prop := ~ In sep d /\ map up d = d.
  Lemma drive_inj d d' : drive_ok d -> drive_ok d' -> lower d = lower d' -> d = d'.
  Proof.
    intros [_ h1] [_ h2] h. assert (e : map up (lower d) = map up (lower d')) by now rewrite h.
    unfold RealCase.lower in e. rewrite !map_map in e. rewrite !(map_ext _ _ up_low) in e. congruence.
  Qed.
  Lemma real_valid disk d k l : good_disk sep low disk -> real sep disk d k l -> Forall valid l.
  Proof.
    intros hg hr. apply Forall_forall. intros n hn. apply in_split in hn as (a & b & ->). destruct (hr a n b eq_refl) as (c & hc & hi).
    now apply (proj1 (hg _ _ hc)).
  Qed.
  Lemma real_prefix disk d k a b : real sep disk d k (a ++ b) -> real sep disk d k a.
  Proof. intros h x n y ->. apply (h x n (y ++ b)). now rewrite <- app_assoc. Qed.
  Lemma real_unique disk d k a b : good_disk sep low disk -> real sep disk d k a -> real sep disk d k b -> map lower a = map lower b -> a = b.
  Proof.
    intros hg. revert b. induction a as [|n a IH] using rev_ind; intros b ha hb h.
    - destruct b; [reflexivity|discriminate].
    - destruct b as [|m b _] using rev_ind; [rewrite map_app in h; destruct (map lower a); discriminate|].
      rewrite !map_app in h. apply app_inj_tail in h as [h1 h2].
      assert (e : a = b) by (apply IH; [now apply real_prefix in ha|now apply real_prefix in hb|assumption]). subst b. f_equal.
      destruct (ha a n [] eq_refl) as (c & hc & hi), (hb a m [] eq_refl) as (c' & hc' & hi'). rewrite hc in hc'. injection hc' as <-.
      f_equal. now apply (proj2 (hg _ _ hc)).
  Qed.
  Lemma real_same disk d d' k k' a b : good_disk sep low disk -> drive_ok d -> drive_ok d' -> 0 < k -> 0 < k' ->
    real sep disk d k a -> real sep disk d' k' b -> lower (path d k a) = lower (path d' k' b) -> d = d' /\ k = k' /\ a = b.
  Proof.
    intros hg hd hd' hk hk' ha hb h. rewrite !lower_path in h.
    assert (va : Forall valid (map lower a)).
    { apply real_valid in ha; [|assumption]. rewrite Forall_map. eapply Forall_impl; [|exact ha]. apply valid_lower. }
    assert (vb : Forall valid (map lower b)).
    { apply real_valid in hb; [|assumption]. rewrite Forall_map. eapply Forall_impl; [|exact hb]. apply valid_lower. }
    apply path_inj in h as (h1 & h2 & h3); try assumption; [|rewrite in_lower; apply hd|rewrite in_lower; apply hd'].
    apply drive_inj in h1; [|assumption..]. subst. repeat split. now apply (real_unique disk d' k').
  Qed.

  (** The cache knows of the disk, maybe not all. *)
  Definition knows (disk : str -> listed) (c : cache) : Prop :=
    (forall k p v, In (k, p, v) (joined c) -> exists d m a n, drive_ok d /\ 0 < m /\ real sep disk d m (a ++ [n]) /\ k = lower (path d m a) /\ p = lower n /\ v = path d m (a ++ [n])) /\
    (forall k l, In (k, l) (contents c) -> exists d m a l2, drive_ok d /\ 0 < m /\ real sep disk d m a /\ k = lower (path d m a) /\ disk (path d m a) = Listed l2 /\ incl l l2).
  Definition exact (disk : str -> listed) (c : cache) : Prop :=
    forall k l d m a, In (k, l) (contents c) -> drive_ok d -> 0 < m -> real sep disk d m a -> k = lower (path d m a) -> disk (path d m a) = Listed l.

  Lemma get_joined_in k p l v : get_joined k p l = Some v -> In (k, p, v) l.
  Proof.
    induction l as [|[[k' p'] v'] l IH]; cbn [get_joined]; [discriminate|].
    destruct (str_eqb_spec k' k) as [->|]; cbn [andb]; [|intros h; right; auto].
    destruct (str_eqb_spec p' p) as [->|]; [|intros h; right; auto]. intros [= ->]. now left.
  Qed.
  Lemma get_contents_in k l v : get_contents k l = Some v -> In (k, v) l.
  Proof.
    induction l as [|[k' v'] l IH]; cbn [get_contents]; [discriminate|].
    destruct (str_eqb_spec k' k) as [->|]; [intros [= ->]; now left|intros h; right; auto].
  Qed.
  Lemma find_name_some p l n : find_name low p l = Some n -> In n l /\ lower n = p.
  Proof.
    induction l as [|m l IH]; cbn [find_name]; [discriminate|]. destruct (str_eqb_spec (lower m) p) as [h|h].
    - intros [= <-]. split; [now left|assumption].
    - intros hf. destruct (IH hf). split; [now right|assumption].
  Qed.
  Lemma find_name_none p l n : find_name low p l = None -> In n l -> lower n <> p.
  Proof.
    induction l as [|m l IH]; cbn [find_name]; [intros _ []|]. destruct (str_eqb_spec (lower m) p) as [h|h]; [discriminate|].
    intros hf [->|hi]; auto.
  Qed.

  Lemma real_snoc disk d m a n l : real sep disk d m a -> disk (path d m a) = Listed l -> In n l -> real sep disk d m (a ++ [n]).
  Proof.
    intros hr hl hn x y z h. destruct z as [|w z _] using rev_ind.
    - apply app_inj_tail in h as [<- <-]. now exists l.
    - replace (x ++ y :: z ++ [w]) with ((x ++ y :: z) ++ [w]) in h by (rewrite <- app_assoc; reflexivity). apply app_inj_tail in h as [h _]. now apply (hr x y z).
  Qed.

  Lemma knows_joined disk c d m a n : knows disk c -> drive_ok d -> 0 < m -> real sep disk d m (a ++ [n]) ->
    knows disk (Cache ((lower (path d m a), lower n, path d m (a ++ [n])) :: joined c) (contents c)).
  Proof.
    intros [h1 h2] hd hm hr. split; [|exact h2]. intros k p v [e|hi]; [injection e as <- <- <-; exists d, m, a, n; auto 10|now apply h1].
  Qed.
  Lemma knows_contents disk c d m a l : knows disk c -> drive_ok d -> 0 < m -> real sep disk d m a -> disk (path d m a) = Listed l ->
    knows disk (Cache (joined c) ((lower (path d m a), l) :: contents c)).
  Proof.
    intros [h1 h2] hd hm hr hl. split; [exact h1|]. intros k x [e|hi]; [injection e as <- <-; exists d, m, a, l; repeat split; auto; apply hd || apply incl_refl|now apply h2].
  Qed.

  (** The walk: it stays on the disk; if the names are there it arrives or finds that the cache is too old. *)
  Lemma walk disk parts : good_disk sep low disk -> forall c d m a, knows disk c -> drive_ok d -> 0 < m -> real sep disk d m a ->
    let r := resolve_listing sep low disk c (path d m a) parts in
    knows disk (fst r) /\ (exact disk c -> exact disk (fst r)) /\
    (forall b, real sep disk d m (a ++ b) -> map lower b = parts ->
       (snd r = Path (path d m (a ++ b)) \/ snd r = Missing) /\ (exact disk c -> snd r = Path (path d m (a ++ b)))).
  Proof.
    intros hg. induction parts as [|p rest IH]; intros c d m a hc hd hm hr; cbv zeta.
    - cbn [resolve_listing fst snd]. repeat split; auto; try apply hc.
      + destruct b; [|discriminate]. rewrite app_nil_r. now left.
      + intros _. destruct b; [|discriminate]. now rewrite app_nil_r.
    - cbn [resolve_listing].
      assert (hva : Forall valid a) by now apply real_valid in hr.
      assert (hstep : forall c' n, knows disk c' -> real sep disk d m (a ++ [n]) -> lower n = p -> (exact disk c -> exact disk c') ->
         let r := resolve_listing sep low disk c' (path d m (a ++ [n])) rest in
         knows disk (fst r) /\ (exact disk c -> exact disk (fst r)) /\
         (forall b, real sep disk d m (a ++ b) -> map lower b = p :: rest ->
            (snd r = Path (path d m (a ++ b)) \/ snd r = Missing) /\ (exact disk c -> snd r = Path (path d m (a ++ b))))).
      { intros c' n hc' hn hp he. destruct (IH c' d m (a ++ [n]) hc' hd hm hn) as (i1 & i2 & i3). cbv zeta. split; [exact i1|]. split; [auto|].
        intros b hb hmap. destruct b as [|n2 b]; [discriminate|]. injection hmap as hn2 hrest.
        assert (e : a ++ [n2] = a ++ [n]).
        { apply (real_unique disk d m); try assumption; [|rewrite !map_app; cbn [map]; congruence].
          apply (real_prefix disk d m (a ++ [n2]) b). now rewrite <- app_assoc. }
        apply app_inj_tail in e as [_ ->]. replace (a ++ n :: b) with ((a ++ [n]) ++ b) in * by (rewrite <- app_assoc; reflexivity).
        destruct (i3 b hb hrest) as [j1 j2]. split; [assumption|auto]. }
      destruct (get_joined (lower (path d m a)) p (joined c)) as [v|] eqn:E1.
      + apply get_joined_in in E1. destruct (proj1 hc _ _ _ E1) as (d' & m' & a' & n & hd' & hm' & hn & hk & hp & ->).
        assert (ha' : real sep disk d' m' a') by now apply real_prefix in hn.
        destruct (real_same disk d d' m m' a a' hg hd hd' hm hm' hr ha' hk) as (<- & <- & <-).
        apply hstep; auto.
      + assert (hdir : forall c' l, knows disk c' -> (exact disk c -> exact disk c') -> (forall l2, disk (path d m a) = Listed l2 -> incl l l2) ->
            (exists l2, disk (path d m a) = Listed l2) -> (exact disk c -> disk (path d m a) = Listed l) ->
            let r := match find_name low p l with
                     | Some n => resolve_listing sep low disk (Cache ((lower (path d m a), p, os_join sep (path d m a) n) :: joined c') (contents c')) (os_join sep (path d m a) n) rest
                     | None => (c', Missing) end in
            knows disk (fst r) /\ (exact disk c -> exact disk (fst r)) /\
            (forall b, real sep disk d m (a ++ b) -> map lower b = p :: rest ->
               (snd r = Path (path d m (a ++ b)) \/ snd r = Missing) /\ (exact disk c -> snd r = Path (path d m (a ++ b))))).
        { intros c' l hc' he hincl (l2 & hl2) hex. destruct (find_name low p l) as [n|] eqn:E3.
          - apply find_name_some in E3 as [hn hp]. rewrite join_path by assumption.
            assert (hrn : real sep disk d m (a ++ [n])) by (apply (real_snoc disk d m a n l2 hr hl2); now apply (hincl l2 hl2)).
            apply hstep; auto. rewrite <- hp. now apply knows_joined.
          - cbv zeta. cbn [fst snd]. split; [assumption|]. split; [assumption|]. intros b hb hmap. split; [now right|].
            intros hx. specialize (hex hx). destruct b as [|n b]; [discriminate|]. injection hmap as hn _.
            destruct (hb a n b eq_refl) as (l3 & hl3 & hin). rewrite hex in hl3. injection hl3 as <-. now apply (find_name_none p l n) in hin. }
        destruct (get_contents (lower (path d m a)) (contents c)) as [l|] eqn:E2.
        * apply get_contents_in in E2. destruct (proj2 hc _ _ E2) as (d' & m' & a' & l2 & hd' & hm' & hr' & hk & hl2 & hi).
          destruct (real_same disk d d' m m' a a' hg hd hd' hm hm' hr hr' hk) as (<- & <- & <-).
          apply hdir; auto.
          -- intros l3 h3. rewrite hl2 in h3. now injection h3 as <-.
          -- now exists l2.
          -- intros hx. now apply (hx (lower (path d m a)) l).
        * destruct (disk (path d m a)) as [l| |] eqn:E3.
          -- apply hdir; auto.
             ++ now apply knows_contents.
             ++ intros hx k x d' m' a' [e|hi] hd' hm' hr' hk; [|now apply (hx k x)]. injection e as <- <-.
                destruct (real_same disk d d' m m' a a' hg hd hd' hm hm' hr hr' hk) as (<- & <- & <-). assumption.
             ++ intros l2 [= <-]. apply incl_refl.
             ++ now exists l.
          -- cbn [fst snd]. split; [assumption|]. split; [auto|]. intros b hb hmap. destruct b as [|n b]; [discriminate|].
             destruct (hb a n b eq_refl) as (l3 & hl3 & _). rewrite E3 in hl3. discriminate.
          -- cbn [fst snd]. split; [assumption|]. split; [auto|]. intros b hb hmap. destruct b as [|n b]; [discriminate|].
             destruct (hb a n b eq_refl) as (l3 & hl3 & _). rewrite E3 in hl3. discriminate.
  Qed.

  Lemma knows_empty disk : knows disk empty.
  Proof. split; intros; contradiction. Qed.
  Lemma exact_empty disk : exact disk empty.
  Proof. intros k l d m a []. Qed.
  Lemma real_nil disk d m : real sep disk d m [].
  Proof. intros a n b h. destruct a; discriminate. Qed.

  Lemma parts_step disk c d m parts filename : good_disk sep low disk -> knows disk c -> drive_ok d -> 0 < m ->
    knows disk (fst (resolve_listing_parts sep low disk c (path d m []) parts filename)).
  Proof.
    intros hg hc hd hm. unfold resolve_listing_parts.
    assert (hx : knows disk (fst (match resolve_listing sep low disk c (path d m []) parts with
        | (c1, Path s) => (c1, Some s) | (c1, Refused) => (c1, Some filename)
        | (c1, Missing) => match resolve_listing sep low disk empty (path d m []) parts with
            | (c2, Path s) => (c2, Some s) | (c2, Missing) => (c2, Some filename) | (c2, Refused) => (c2, None) end end))).
    { destruct (walk disk parts hg c d m [] hc hd hm (real_nil _ _ _)) as (h1 & _).
      destruct (walk disk parts hg empty d m [] (knows_empty _) hd hm (real_nil _ _ _)) as (h2 & _).
      destruct (resolve_listing sep low disk c (path d m []) parts) as [c1 [s| |]]; try exact h1.
      destruct (resolve_listing sep low disk empty (path d m []) parts) as [c2 [s| |]]; exact h2. }
    destruct parts as [|[|x p] [|q r]]; try exact hx. exact hc.
  Qed.
  Lemma parts_found disk c d m b filename : good_disk sep low disk -> knows disk c -> drive_ok d -> 0 < m -> real sep disk d m b -> b <> [] ->
    snd (resolve_listing_parts sep low disk c (path d m []) (map lower b) filename) = Some (path d m b).
  Proof.
    intros hg hc hd hm hr hb. unfold resolve_listing_parts.
    assert (hx : snd (match resolve_listing sep low disk c (path d m []) (map lower b) with
        | (c1, Path s) => (c1, Some s) | (c1, Refused) => (c1, Some filename)
        | (c1, Missing) => match resolve_listing sep low disk empty (path d m []) (map lower b) with
            | (c2, Path s) => (c2, Some s) | (c2, Missing) => (c2, Some filename) | (c2, Refused) => (c2, None) end end) = Some (path d m b)).
    { destruct (walk disk (map lower b) hg c d m [] hc hd hm (real_nil _ _ _)) as (_ & _ & h1).
      destruct (walk disk (map lower b) hg empty d m [] (knows_empty _) hd hm (real_nil _ _ _)) as (_ & _ & h2).
      destruct (h1 b hr eq_refl) as [h1' _]. destruct (h2 b hr eq_refl) as [_ h2']. specialize (h2' (exact_empty _)). cbn [app] in h1', h2'.
      destruct (resolve_listing sep low disk c (path d m []) (map lower b)) as [c1 r1]. cbn [snd] in h1'. destruct h1' as [-> | ->]; [reflexivity|].
      destruct (resolve_listing sep low disk empty (path d m []) (map lower b)) as [c2 r2]. cbn [snd] in h2'. now subst r2. }
    assert (hv : Forall valid b) by now apply real_valid in hr.
    destruct b as [|n b]; [congruence|]. inversion hv as [|? ? [hn _] _]; subst. destruct n as [|x n]; [congruence|]. exact hx.
  Qed.

  (** Where the walk begins *)
  Lemma mac_start_path k found l : Forall valid l -> mac_start sep found (repeat [] k ++ l) = (found ++ repeat sep k, l).
  Proof.
    intros hv. revert found. induction k as [|k IH]; intros found; cbn [repeat app mac_start].
    - rewrite app_nil_r. destruct hv as [|n l [hn _] _]; [reflexivity|]. destruct n; [congruence|reflexivity].
    - rewrite IH, <- app_assoc. reflexivity.
  Qed.
  Lemma mac_parts k l : 0 < k -> Forall valid l -> l <> [] -> mac_start sep [] (pieces sep (lower (path [] k l))) = (path [] k [], map lower l).
  Proof.
    intros hk hv hl. destruct k as [|k]; [lia|]. rewrite lower_path. cbn [RealCase.lower map].
    assert (hv' : Forall valid (map lower l)) by (rewrite Forall_map; eapply Forall_impl; [|exact hv]; apply valid_lower).
    rewrite pieces_path; [|intros []|destruct l; [congruence|discriminate]|assumption].
    change ([] :: repeat [] k ++ map lower l) with (repeat (@nil N) (S k) ++ map lower l). rewrite mac_start_path by assumption.
    unfold RealCaseProps.path. cbn [RealCaseProps.names_text app]. now rewrite app_nil_r.
  Qed.
  Lemma windows_start_seps k d l : (forall x r, l = x :: r -> x <> sep) -> windows_start sep d (repeat sep k ++ l) = (d ++ repeat sep k, l).
  Proof.
    intros hl. revert d. induction k as [|k IH]; intros d; cbn [repeat app windows_start].
    - rewrite app_nil_r. destruct l as [|x r]; [reflexivity|]. cbn [windows_start]. destruct (N.eqb_spec x sep) as [->|]; [now destruct (hl sep r)|reflexivity].
    - rewrite N.eqb_refl, IH, <- app_assoc. reflexivity.
  Qed.
  Lemma names_begin l x r : Forall valid l -> names_text l = x :: r -> x <> sep.
  Proof.
    intros hv h. destruct hv as [|n l [h1 h2] _]; [discriminate|]. destruct n as [|y n]; [congruence|]. cbn in h. injection h as -> _.
    intros ->. apply h2. now left.
  Qed.
End Proofs.

(** * Theorems *)

(** What happened before: calls for any paths which begin with a drive and separators, on disks to which files were added only *)
Inductive asked := OnMac (exists_ : bool) (k : nat) (l : list str) | OnWindows (exists_ : bool) (d : str) (k : nat) (l : list str).
Definition ask (sep : N) (low up : N -> N) (disk : str -> listed) (c : cache) (q : asked) : cache * option str :=
  match q with
  | OnMac e k l => mac sep low disk e c (path sep [] k l)
  | OnWindows e d k l => windows sep low up disk e c d (repeat sep k ++ names_text sep l)
  end.
Definition well_asked (sep : N) (q : asked) : Prop :=
  match q with
  | OnMac _ k l => 0 < k /\ Forall (valid sep) l /\ l <> []
  | OnWindows _ d k l => 0 < k /\ Forall (valid sep) l /\ ~ In sep d
  end.
Inductive history (sep : N) (low up : N -> N) : (str -> listed) -> cache -> Prop :=
| start_ disk : good_disk sep low disk -> history sep low up disk empty
| asked_ disk c q : history sep low up disk c -> well_asked sep q -> history sep low up disk (fst (ask sep low up disk c q))
| grown disk disk' c : history sep low up disk c -> grows disk disk' -> good_disk sep low disk' -> history sep low up disk' c.

Lemma grows_real sep d1 d2 d k l : grows d1 d2 -> real sep d1 d k l -> real sep d2 d k l.
Proof. intros hg hr a n b h. destruct (hr a n b h) as (c & hc & hn). destruct (hg _ _ hc) as (c2 & h2 & hi). exists c2. auto. Qed.
Lemma grows_knows sep low up d1 d2 c : grows d1 d2 -> knows sep low up d1 c -> knows sep low up d2 c.
Proof.
  intros hg [h1 h2]. split.
  - intros k p v hi. destruct (h1 k p v hi) as (d & m & a & n & x1 & x2 & x3 & x4). exists d, m, a, n. split; [assumption|]. split; [assumption|].
    split; [now apply (grows_real sep d1 d2)|assumption].
  - intros k l hi. destruct (h2 k l hi) as (d & m & a & l2 & x1 & x2 & x3 & x4 & x5 & x6). destruct (hg _ _ x5) as (l3 & y1 & y2).
    exists d, m, a, l3. repeat split; try assumption; try apply x1; [now apply (grows_real sep d1 d2)|]. now apply (incl_tran x6).
Qed.
Lemma upper_drive sep low up d : good_case sep low up -> ~ In sep d -> (forall c, up c = sep -> c = sep) -> drive_ok sep up (map up d).
Proof.
  intros hc hd hu. split.
  - rewrite in_map_iff. intros (c & h & hi). apply hu in h. now subst.
  - rewrite map_map. apply map_ext. apply hc.
Qed.
Lemma windows_parts sep low up d k l : good_case sep low up -> Forall (valid sep) l -> l <> [] -> 0 < k ->
  windows_start sep (map up d) (repeat sep k ++ names_text sep l) = (path sep (map up d) k [], names_text sep l) /\
  pieces sep (RealCase.lower low (names_text sep l)) = map (RealCase.lower low) l.
Proof.
  intros hc hv hl hk. split.
  - rewrite (windows_start_seps sep); [unfold path; cbn [names_text]; now rewrite app_nil_r|]. intros x r h. now apply (names_begin sep l x r).
  - rewrite (lower_names sep low up hc). apply pieces_names; [destruct l; [congruence|discriminate]|]. rewrite Forall_map. eapply Forall_impl; [|exact hv].
    intros n. apply (valid_lower sep low up hc).
Qed.
Lemma history_knows sep low up disk c : good_case sep low up -> (forall x, up x = sep -> x = sep) -> history sep low up disk c ->
  good_disk sep low disk /\ knows sep low up disk c.
Proof.
  intros hc hu h. induction h as [disk hg|disk c q h [hg hk] hq|disk disk' c h [hg hk] hgr hg'].
  - split; [assumption|apply knows_empty].
  - split; [assumption|]. destruct q as [e k l|e d k l]; cbn [ask well_asked] in *.
    + destruct hq as (q1 & q2 & q3). unfold mac. destruct (starts_with _ _ || negb e); [exact hk|].
      rewrite (mac_parts sep low up hc) by assumption. apply parts_step; try assumption. split; [intros []|reflexivity].
    + destruct hq as (q1 & q2 & q3). unfold windows. destruct (starts_with _ _ || negb e); [exact hk|].
      rewrite (windows_start_seps sep) by (intros x r hx; now apply (names_begin sep l x r)).
      replace (map up d ++ repeat sep k) with (path sep (map up d) k []) by (unfold path; cbn [names_text]; now rewrite app_nil_r).
      apply parts_step; try assumption. now apply (upper_drive sep low up).
  - split; [assumption|]. now apply (grows_knows sep low up disk disk').
Qed.

(** A path in any case of a file which is on the disk becomes the path on the disk, whatever was asked before and whichever files were added
    since. *)
Theorem real_case_mac : forall sep low up disk c k l given, good_case sep low up -> (forall x, up x = sep -> x = sep) ->
  history sep low up disk c -> 0 < k -> l <> [] -> real sep disk [] k l -> map low given = map low (path sep [] k l) ->
  (forall r, given <> 60%N :: r) -> snd (mac sep low disk true c given) = Some (path sep [] k l).
Proof.
  intros sep low up disk c k l given hc hu hh hk hl hr hg hn. destruct (history_knows sep low up disk c hc hu hh) as [hd hkn].
  assert (hv : Forall (valid sep) l) by now apply (real_valid sep low disk [] k).
  unfold mac. destruct (starts_with [60%N] given) eqn:E; [apply starts_with_spec in E as (r & ->); now destruct (hn r)|]. cbn [orb negb].
  change (RealCase.lower low given) with (map low given). rewrite hg. change (map low (path sep [] k l)) with (RealCase.lower low (path sep [] k l)).
  rewrite (mac_parts sep low up hc) by assumption. apply (parts_found sep low up hc); try assumption. split; [intros []|reflexivity].
Qed.
Theorem real_case_windows : forall sep low up disk c d k l given_names, good_case sep low up -> (forall x, up x = sep -> x = sep) ->
  history sep low up disk c -> 0 < k -> l <> [] -> ~ In sep d -> real sep disk (map up d) k l ->
  Forall (valid sep) given_names -> map (map low) given_names = map (map low) l -> (forall r, d <> 60%N :: r) -> d <> [] ->
  snd (windows sep low up disk true c d (repeat sep k ++ names_text sep given_names)) = Some (path sep (map up d) k l).
Proof.
  intros sep low up disk c d k l gn hc hu hh hk hl hd hr hv hg hn hne. destruct (history_knows sep low up disk c hc hu hh) as [hgd hkn].
  unfold windows. destruct (starts_with [60%N] (d ++ repeat sep k ++ names_text sep gn)) eqn:E.
  { apply starts_with_spec in E as (r & E). destruct d as [|x d]; [congruence|]. cbn [app] in E. injection E as -> _. now destruct (hn d). }
  cbn [orb negb]. assert (hgn : gn <> []) by (intros ->; destruct l; [congruence|discriminate]).
  destruct (windows_parts sep low up d k gn hc hv hgn hk) as [-> ->].
  change (map (RealCase.lower low) gn) with (map (map low) gn). rewrite hg. change (map (map low) l) with (map (RealCase.lower low) l).
  apply (parts_found sep low up hc); try assumption. now apply (upper_drive sep low up).
Qed.

(** Other names are left as they are. *)
Theorem not_there_kept : forall sep low up disk c filename d rest,
  snd (mac sep low disk false c filename) = Some filename /\ snd (windows sep low up disk false c d rest) = Some (d ++ rest) /\
  fst (mac sep low disk false c filename) = c /\ fst (windows sep low up disk false c d rest) = c /\
  snd (mac sep low disk true c (60%N :: filename)) = Some (60%N :: filename) /\
  snd (windows sep low up disk true c (60%N :: d) rest) = Some (60%N :: d ++ rest) /\
  snd (windows sep low up disk true c [] (60%N :: filename)) = Some (60%N :: filename).
Proof.
  intros. unfold mac, windows. rewrite !orb_true_r. repeat split.
Qed.

(** Whatever the disk says, at any time, the answer is the path asked for but for its case. *)
Definition sound (sep : N) (low : N -> N) (c : cache) : Prop :=
  forall k p v, In (k, p, v) (joined c) -> exists r n, k = map low r /\ p = map low n /\ v = os_join sep r n.
Lemma low_join sep low up a b : good_case sep low up -> map low (os_join sep a b) = os_join sep (map low a) (map low b).
Proof.
  intros hc. unfold os_join. destruct a as [|x a]; [reflexivity|]. cbn [map].
  assert (E : ends_with [sep] (x :: a) = ends_with [sep] (low x :: map low a)).
  { change (low x :: map low a) with (map low (x :: a)). generalize (x :: a) as s. intros s. apply eq_true_iff_eq. rewrite !ends_with_spec. split.
    - intros (r & ->). exists (map low r). rewrite map_app. cbn [map]. do 2 f_equal. apply (low_of_sep sep low up hc).
    - intros (r & h). destruct s as [|y s _] using rev_ind; [destruct r; discriminate|]. rewrite map_app in h. apply app_inj_tail in h as [_ h].
      apply (proj1 (low_sep sep low up hc y)) in h. subst y. now exists s. }
  rewrite E. destruct (ends_with [sep] (low x :: map low a)).
  - change (map low ((x :: a) ++ b) = map low (x :: a) ++ map low b). apply map_app.
  - change (map low ((x :: a) ++ sep :: b) = map low (x :: a) ++ sep :: map low b). rewrite map_app. cbn [map]. do 2 f_equal. apply (low_of_sep sep low up hc).
Qed.
Lemma walk_sound sep low up disk parts : good_case sep low up -> Forall (fun p => map low p = p) parts -> forall c resolved, sound sep low c ->
  let r := resolve_listing sep low disk c resolved parts in
  sound sep low (fst r) /\ forall v, snd r = Path v -> map low v = fold_left (os_join sep) parts (map low resolved).
Proof.
  intros hc hp. induction hp as [|p parts hp _ IH]; intros c resolved hs; cbv zeta; cbn [resolve_listing fold_left].
  - split; [exact hs|]. now intros v [= ->].
  - destruct (get_joined (RealCase.lower low resolved) p (joined c)) as [v|] eqn:E1.
    + apply get_joined_in in E1. destruct (hs _ _ _ E1) as (r & n & h1 & h2 & ->).
      destruct (IH c (os_join sep r n) hs) as [i1 i2]. split; [exact i1|]. intros v hv. rewrite (i2 v hv), (low_join sep low up) by assumption.
      unfold RealCase.lower in h1. now rewrite <- h1, <- h2.
    + assert (hdir : forall c' l, sound sep low c' -> let r := match find_name low p l with
          | Some n => resolve_listing sep low disk (Cache ((RealCase.lower low resolved, p, os_join sep resolved n) :: joined c') (contents c')) (os_join sep resolved n) parts
          | None => (c', Missing) end in
          sound sep low (fst r) /\ forall v, snd r = Path v -> map low v = fold_left (os_join sep) parts (os_join sep (map low resolved) p)).
      { intros c' l hs'. destruct (find_name low p l) as [n|] eqn:E3; [|cbv zeta; split; [exact hs'|discriminate]].
        apply find_name_some in E3 as [_ hn]. unfold RealCase.lower in hn.
        destruct (IH (Cache ((RealCase.lower low resolved, p, os_join sep resolved n) :: joined c') (contents c')) (os_join sep resolved n)) as [i1 i2].
        { intros k q v [e|hi]; [injection e as <- <- <-; exists resolved, n; auto|now apply hs']. }
        cbv zeta. split; [exact i1|]. intros v hv. rewrite (i2 v hv), (low_join sep low up), hn by assumption. reflexivity. }
      destruct (get_contents _ _) as [l|]; [now apply hdir|]. destruct (disk resolved) as [l| |]; [now apply hdir| |]; (split; [exact hs|discriminate]).
Qed.
Lemma parts_same sep low up disk c d k l v filename : good_case sep low up -> sound sep low c -> 0 < k -> Forall (valid sep) l -> l <> [] ->
  map low filename = map low (path sep d k l) ->
  snd (resolve_listing_parts sep low disk c (path sep d k []) (map (RealCase.lower low) l) filename) = Some v -> map low v = map low (path sep d k l).
Proof.
    intros hc hs hk hv hl hf. unfold resolve_listing_parts.
    assert (hp : Forall (fun p => map low p = p) (map (RealCase.lower low) l)).
    { apply Forall_forall. intros p hp. apply in_map_iff in hp as (n & <- & _). apply (lower_lower sep low up hc). }
    assert (hfold : fold_left (os_join sep) (map (RealCase.lower low) l) (map low (path sep d k [])) = map low (path sep d k l)).
    { change (map low (path sep d k [])) with (RealCase.lower low (path sep d k [])). change (map low (path sep d k l)) with (RealCase.lower low (path sep d k l)).
      rewrite !(lower_path sep low up hc). cbn [map]. generalize (RealCase.lower low d) as e. intros e.
      assert (hv' : Forall (valid sep) (map (RealCase.lower low) l)).
      { rewrite Forall_map. eapply Forall_impl; [|exact hv]. intros n. apply (valid_lower sep low up hc). }
      assert (g : forall b a, Forall (valid sep) (a ++ b) -> fold_left (os_join sep) b (path sep e k a) = path sep e k (a ++ b)).
      { induction b as [|n b IH]; intros a ha; [now rewrite app_nil_r|]. cbn [fold_left]. rewrite join_path; [|assumption|now apply Forall_app in ha].
        rewrite IH; rewrite <- app_assoc; [reflexivity|assumption]. }
      now apply (g (map (RealCase.lower low) l) []). }
    assert (hx : snd (match resolve_listing sep low disk c (path sep d k []) (map (RealCase.lower low) l) with
        | (c1, Path s) => (c1, Some s) | (c1, Refused) => (c1, Some filename)
        | (c1, Missing) => match resolve_listing sep low disk empty (path sep d k []) (map (RealCase.lower low) l) with
            | (c2, Path s) => (c2, Some s) | (c2, Missing) => (c2, Some filename) | (c2, Refused) => (c2, None) end end) = Some v ->
          map low v = map low (path sep d k l)).
    { destruct (walk_sound sep low up disk _ hc hp c (path sep d k []) hs) as [_ h1].
      destruct (walk_sound sep low up disk _ hc hp empty (path sep d k [])) as [_ h2]; [intros ? ? ? []|].
      destruct (resolve_listing sep low disk c (path sep d k []) (map (RealCase.lower low) l)) as [c1 [s| |]]; cbn [snd] in *.
      - intros [= <-]. rewrite (h1 s eq_refl). exact hfold.
      - destruct (resolve_listing sep low disk empty (path sep d k []) (map (RealCase.lower low) l)) as [c2 [s| |]]; cbn [snd] in *.
        + intros [= <-]. rewrite (h2 s eq_refl). exact hfold.
        + intros [= <-]; exact hf.
        + discriminate.
      - intros [= <-]; exact hf. }
    destruct l as [|n l]; [congruence|]. inversion hv as [|? ? [hn _] _]; subst. destruct n as [|x n]; [congruence|]. exact hx.
Qed.

Theorem same_but_case : forall sep low up, good_case sep low up ->
  (forall disk c resolved parts filename, sound sep low c -> Forall (fun p => map low p = p) parts ->
     sound sep low (fst (resolve_listing_parts sep low disk c resolved parts filename))) /\
  (forall disk c k l v, sound sep low c -> 0 < k -> Forall (valid sep) l -> l <> [] ->
     snd (mac sep low disk true c (path sep [] k l)) = Some v -> map low v = map low (path sep [] k l)) /\
  (forall disk c d k l v, (forall x, low (up x) = low x) -> sound sep low c -> 0 < k -> Forall (valid sep) l -> l <> [] ->
     snd (windows sep low up disk true c d (repeat sep k ++ names_text sep l)) = Some v -> map low v = map low (path sep d k l)).
Proof.
  intros sep low up hc. split; [|split].
  - intros disk c resolved parts filename hs hp. unfold resolve_listing_parts.
    assert (hx : sound sep low (fst (match resolve_listing sep low disk c resolved parts with
        | (c1, Path s) => (c1, Some s) | (c1, Refused) => (c1, Some filename)
        | (c1, Missing) => match resolve_listing sep low disk empty resolved parts with
            | (c2, Path s) => (c2, Some s) | (c2, Missing) => (c2, Some filename) | (c2, Refused) => (c2, None) end end))).
    { destruct (walk_sound sep low up disk parts hc hp c resolved hs) as [h1 _].
      destruct (walk_sound sep low up disk parts hc hp empty resolved) as [h2 _]; [intros k p v []|].
      destruct (resolve_listing sep low disk c resolved parts) as [c1 [s| |]]; try exact h1.
      destruct (resolve_listing sep low disk empty resolved parts) as [c2 [s| |]]; exact h2. }
    destruct parts as [|[|x p] [|q r]]; try exact hx. exact hs.
  - intros disk c k l v hs hk hv hl. unfold mac. destruct (starts_with [60%N] (path sep [] k l)); [cbn [orb snd]; now intros [= <-]|]. cbn [orb negb].
    rewrite (mac_parts sep low up hc) by assumption. now apply (parts_same sep low up).
  - intros disk c d k l v hlu hs hk hv hl. unfold windows.
    assert (hlow : map low (path sep (map up d) k l) = map low (path sep d k l)).
    { unfold path. rewrite !map_app. f_equal. rewrite map_map. now apply map_ext. }
    destruct (starts_with [60%N] (d ++ repeat sep k ++ names_text sep l)); [cbn [orb snd]; now intros [= <-]|]. cbn [orb negb].
    destruct (windows_parts sep low up d k l hc hv hl hk) as [-> ->]. rewrite <- hlow. apply (parts_same sep low up); try assumption. now rewrite hlow.
Qed.

(** * What fails *)
Definition low_ (c : N) : N := if (65 <=? c)%N && (c <=? 90)%N then (c + 32)%N else c.
Definition up_ (c : N) : N := if (97 <=? c)%N && (c <=? 122)%N then (c - 32)%N else c.
(** The root of the Mac becomes two separators. *)
Theorem root_refuted : forall disk c, snd (mac 47 low_ disk true c [47%N]) = Some [47; 47]%N.
Proof. reflexivity. Qed.
(** A file whose name changes in case alone keeps its old name. *)
Theorem renamed_refuted : exists before now, before [47%N] = Listed [lit "a.py"%string] /\ now [47%N] = Listed [lit "A.py"%string] /\
  let c := fst (mac 47 low_ before true empty (lit "/a.py"%string)) in
  snd (mac 47 low_ now true c (lit "/A.py"%string)) = Some (lit "/a.py"%string).
Proof. exists (fun _ => Listed [lit "a.py"%string]), (fun _ => Listed [lit "A.py"%string]). repeat split. Qed.
(** A directory which may not be listed gives the path unchanged, but an error when the cache was too old. *)
Theorem refused_refuted : exists disk c, disk (lit "/d"%string) = Denied /\ disk [47%N] = Listed [lit "d"%string; lit "e"%string] /\
  snd (mac 47 low_ disk true empty (lit "/d/x"%string)) = Some (lit "/d/x"%string) /\
  snd (mac 47 low_ disk true c (lit "/d/x"%string)) = None /\ contents c = [([47%N], [lit "e"%string])].
Proof.
  exists (fun p => if str_eqb p [47%N] then Listed [lit "d"%string; lit "e"%string] else Denied), (Cache [] [([47%N], [lit "e"%string])]). repeat split.
Qed.

(** Examples *)
Lemma case_example : good_case 47 low_ up_ /\ forall x, up_ x = 47%N -> x = 47%N.
Proof.
  unfold good_case, low_, up_. split; [split; [|split; [|split]]|]; intros x;
    destruct (N.leb_spec 65 x), (N.leb_spec x 90), (N.leb_spec 97 x), (N.leb_spec x 122); cbn [andb];
    repeat (match goal with |- context [N.leb ?a ?b] => destruct (N.leb_spec a b) end; cbn [andb]); lia.
Qed.
Definition ex_disk (p : str) : listed :=
  if str_eqb p [47%N] then Listed [lit "Dir"%string] else if str_eqb p (lit "/Dir"%string) then Listed [lit "A.py"%string] else NotFound.
Example real_example : history 47 low_ up_ ex_disk empty /\ real 47 ex_disk [] 1 [lit "Dir"%string; lit "A.py"%string] /\
  snd (mac 47 low_ ex_disk true empty (lit "/dir/a.PY"%string)) = Some (lit "/Dir/A.py"%string).
Proof.
  assert (hin : forall n, existsb (N.eqb 47) n = false -> ~ In 47%N n).
  { intros n hf hi. assert (existsb (N.eqb 47) n = true) by (apply existsb_exists; exists 47%N; split; [assumption|reflexivity]). congruence. }
  split; [|split; [|reflexivity]].
  - constructor. intros p c. unfold ex_disk. destruct (str_eqb p [47%N]); [|destruct (str_eqb p (lit "/Dir"%string)); [|discriminate]]; intros [= <-];
      (split; [intros n [<-|[]]; split; [discriminate|now apply hin]|intros n m [<-|[]] [<-|[]] _; reflexivity]).
  - intros a n b h. destruct a as [|x [|y [|z a]]]; cbn [app] in h.
    + injection h as <- <-. exists [lit "Dir"%string]. split; [reflexivity|now left].
    + injection h as <- <- <-. exists [lit "A.py"%string]. split; [reflexivity|now left].
    + discriminate.
    + discriminate.
Qed.

(** The file is created after its directory was listed. *)
Example created_example :
  let before := fun p => if str_eqb p [47%N] then Listed [lit "Dir"%string] else if str_eqb p (lit "/Dir"%string) then Listed [] else NotFound in
  let c := fst (mac 47 low_ before true empty (lit "/dir/a.PY"%string)) in
  contents c = [(lit "/dir"%string, []); ([47%N], [lit "Dir"%string])] /\
  snd (mac 47 low_ before true empty (lit "/dir/a.PY"%string)) = Some (lit "/dir/a.PY"%string) /\
  snd (mac 47 low_ ex_disk true c (lit "/dir/a.PY"%string)) = Some (lit "/Dir/A.py"%string).
Proof. repeat split. Qed.
Example windows_example :
  let disk := fun p => if str_eqb p (lit "C:\"%string) then Listed [lit "Dir"%string] else if str_eqb p (lit "C:\Dir"%string) then Listed [lit "A.py"%string] else NotFound in
  snd (windows 92 low_ up_ disk true empty (lit "c:"%string) (lit "\dir\a.PY"%string)) = Some (lit "C:\Dir\A.py"%string).
Proof. reflexivity. Qed.
Example sound_example : sound 47 low_ (fst (mac 47 low_ ex_disk true empty (lit "/dir/a.PY"%string))) /\
  joined (fst (mac 47 low_ ex_disk true empty (lit "/dir/a.PY"%string))) <> [].
Proof.
  split; [|discriminate]. intros k p v [e|[e|[]]]; injection e as <- <- <-.
  - exists (lit "/Dir"%string), (lit "A.py"%string). repeat split.
  - exists [47%N], (lit "Dir"%string). repeat split.
Qed.

Print Assumptions real_case_mac.
Print Assumptions real_case_windows.
Print Assumptions not_there_kept.
Print Assumptions same_but_case.
Print Assumptions root_refuted.
Print Assumptions renamed_refuted.
Print Assumptions refused_refuted.
