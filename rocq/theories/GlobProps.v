(** Properties C09 and C41: path patterns and exclude rules. *)
From Coq Require Import List NArith ZArith Bool String Lia.
From Verif Require Import Base Glob GlobSpec.
Import ListNotations.

Lemma has_In c s : has c s = true <-> In c s.
Proof.
  unfold has. rewrite existsb_exists. split.
  - intros (x & H & E). apply N.eqb_eq in E. now subst.
  - intros H. exists c. split; auto. apply N.eqb_refl.
Qed.

Lemma Wild_star p s : Wild (star_c :: p) s -> exists x t, s = x ++ t /\ Wild p t.
Proof. intros H. inversion H; subst; eauto; congruence. Qed.

Lemma wild_spec p s : wild p s = true <-> Wild p s.
Proof.
  revert s. induction p as [|c p IH]; intros s.
  - cbn. destruct s; split; intros H; first [discriminate H|reflexivity|constructor|inversion H].
  - cbn [wild]. destruct (N.eqb_spec c star_c) as [->|Hc].
    + induction s as [|x s IHs].
      * rewrite orb_false_r, IH. split.
        -- intros H. apply (w_star [] p []). exact H.
        -- intros H. apply Wild_star in H. destruct H as (x & t & E & H). destruct x; [|discriminate]. cbn in E. now subst.
      * rewrite orb_true_iff, IHs, IH. split.
        -- intros [H|H]; [apply (w_star [] p (x :: s)); auto|].
           apply Wild_star in H. destruct H as (y & t & -> & H). apply (w_star (x :: y)). auto.
        -- intros H. apply Wild_star in H. destruct H as (y & t & E & H).
           destruct y as [|z y]; cbn in E; [left; now subst|]. right. inversion E; subst. now apply w_star.
    + destruct s as [|x s].
      * split; [discriminate|]. intros H. inversion H; congruence.
      * rewrite andb_true_iff, orb_true_iff, !N.eqb_eq, IH. split.
        -- intros [[->| ->] H]; [now constructor|].
           destruct (N.eq_dec x quest_c) as [->|]; [constructor; auto|now apply w_char].
        -- intros H. inversion H; subst; try congruence; auto.
Qed.

(** Without wildcards a pattern matches only itself. *)
Lemma wild_plain p s : ~ In star_c p -> ~ In quest_c p -> (Wild p s <-> p = s).
Proof.
  revert s. induction p as [|c p IH]; intros s H1 H2.
  - split; [intros H; now inversion H|intros <-; constructor].
  - split.
    + intros H. inversion H; subst; [exfalso; apply H1; now left|exfalso; apply H2; now left|].
      f_equal. apply IH; auto; intros K; [apply H1|apply H2]; now right.
    + intros <-. apply w_char; [intros ->; apply H1; now left|intros ->; apply H2; now left|].
      apply IH; auto; intros K; [apply H1|apply H2]; now right.
Qed.

Lemma tails_spec {A} (l y : list A) : In y (tails l) <-> y <> [] /\ exists x, l = x ++ y.
Proof.
  induction l as [|a l IH]; cbn [tails In].
  - split; [intros []|]. intros (H & x & E). destruct x, y; try discriminate. congruence.
  - rewrite IH. split.
    + intros [<-|(H & x & ->)]; [split; [discriminate|now exists []]|]. split; auto. now exists (a :: x).
    + intros (H & x & E). destruct x as [|b x]; cbn in E; [now left|]. inversion E; subst. right. split; auto. now exists x.
Qed.

Lemma Matches_nil P ps : Matches P ps [] -> ps = [].
Proof.
  assert (G : forall ps xs, Matches P ps xs -> xs = [] -> ps = []).
  { induction 1; intros E; try discriminate; auto.
    apply app_eq_nil in E. destruct E as [_ ->]. specialize (IHMatches eq_refl). discriminate. }
  intros H. eapply G; eauto.
Qed.

(** C09.  The component matcher agrees with the documented meaning. *)
Theorem glob_components :
  forall P ps xs, check_matches P ps xs = true <-> Matches P ps xs.
Proof.
  intros P. induction ps as [|p ps IH]; intros xs.
  - destruct xs; cbn; split; intros H; try discriminate; try constructor. inversion H.
  - destruct xs as [|x xs].
    + cbn. split; [discriminate|]. intros H. apply Matches_nil in H. discriminate.
    + cbn [check_matches]. destruct (has_magic (nc P p)) eqn:Em; cbn [negb].
      * destruct (str_eqb_spec (nc P p) dstar) as [Ed|Ed].
        -- destruct ps as [|q ps].
           ++ split; auto. intros _. now apply m_last.
           ++ rewrite orb_true_iff, existsb_exists. split.
              ** intros [(y & Hy & H)|H].
                 --- apply tails_spec in Hy. destruct Hy as (_ & z & E). rewrite E. apply m_deep; auto. now apply IH.
                 --- change (x :: xs) with ([x] ++ xs). apply m_deep; auto. now apply IH.
              ** intros H. inversion H; subst; [|congruence]. left. exists ys. split.
                 --- apply tails_spec. split; [|now exists xs0]. intros ->. apply Matches_nil in H5. discriminate.
                 --- now apply IH.
        -- assert (F : fnmatch P (nc P x) (nc P p) = true <-> Comp P p x).
           { unfold fnmatch, Comp. destruct (has brack_c (nc P p)) eqn:Eb.
             - apply has_In in Eb. split; [auto|]. intros [[K _]|[_ K]]; [contradiction|auto].
             - assert (~ In brack_c (nc P p)) by (intros K; apply has_In in K; congruence).
               rewrite wild_spec. split; [auto|]. intros [[_ K]|[K _]]; [auto|contradiction]. }
           destruct (fnmatch P (nc P x) (nc P p)); cbn [negb].
           ++ rewrite IH. split; intros H.
              ** apply m_one; auto. now apply F.
              ** inversion H; subst; try congruence; auto.
           ++ split; [discriminate|]. intros H. inversion H; subst; try congruence.
              assert (false = true) by now apply F. discriminate.
      * apply orb_false_iff in Em. destruct Em as [Em E3]. apply orb_false_iff in Em. destruct Em as [E1 E2].
        assert (N1 : ~ In star_c (nc P p)) by (intros K; apply has_In in K; congruence).
        assert (N2 : ~ In quest_c (nc P p)) by (intros K; apply has_In in K; congruence).
        assert (N3 : ~ In brack_c (nc P p)) by (intros K; apply has_In in K; congruence).
        assert (Ed : nc P p <> dstar) by (intros K; rewrite K in N1; apply N1; now left).
        assert (F : Comp P p x <-> nc P p = nc P x).
        { unfold Comp. rewrite wild_plain by auto. tauto. }
        destruct (str_eqb_spec (nc P p) (nc P x)) as [Ee|Ee]; cbn [negb].
        -- rewrite IH. split; intros H; [apply m_one; auto; now apply F|].
           inversion H; subst; try congruence; auto.
        -- split; [discriminate|]. intros H. inversion H; subst; try congruence.
           exfalso. apply Ee. now apply F.
Qed.
Print Assumptions glob_components.

Lemma split_on_plain c x r : ~ In c x ->
  split_on c (x ++ c :: r) = x :: split_on c r.
Proof.
  induction x as [|a x IH]; intros H; cbn [app split_on].
  - now rewrite N.eqb_refl.
  - destruct (N.eqb_spec a c) as [->|n]; [exfalso; apply H; now left|]. rewrite IH; auto. intros K. apply H. now right.
Qed.

Lemma split_on_one c x : ~ In c x -> split_on c x = [x].
Proof.
  induction x as [|a x IH]; intros H; cbn [split_on]; auto.
  destruct (N.eqb_spec a c) as [->|n]; [exfalso; apply H; now left|]. rewrite IH; auto. intros K. apply H. now right.
Qed.

Lemma split_on_join c l : l <> [] -> Forall (fun x => ~ In c x) l -> split_on c (join c l) = l.
Proof.
  intros Hn H. induction l as [|x l IH]; [congruence|]. inversion H; subst. destruct l as [|y l].
  - cbn [join]. now apply split_on_one.
  - cbn [join] in *. rewrite split_on_plain by auto. f_equal. apply IH; auto. discriminate.
Qed.

Lemma split_on_nonempty c s : split_on c s <> [].
Proof. destruct s as [|x s]; cbn; [discriminate|]. destruct (N.eqb x c); [discriminate|]. destruct (split_on c s); discriminate. Qed.

Lemma join_split_on c s : join c (split_on c s) = s.
Proof.
  induction s as [|x s IH]; cbn [split_on]; auto.
  pose proof (split_on_nonempty c s) as Hn. destruct (split_on c s) as [|h t]; [congruence|].
  destruct (N.eqb_spec x c) as [->|n].
  - transitivity (c :: join c (h :: t)); [reflexivity|now rewrite IH].
  - transitivity (x :: join c (h :: t)); [destruct t; reflexivity|now rewrite IH].
Qed.

Lemma replace_char_id a b s : ~ In a s -> replace_char a b s = s.
Proof.
  unfold replace_char. induction s as [|x s IH]; intros H; cbn; auto.
  destruct (N.eqb_spec x a) as [->|]; [exfalso; apply H; now left|]. f_equal. apply IH. intros K. apply H. now right.
Qed.

Lemma In_join a c l : In a (join c l) -> a = c \/ exists x, In x l /\ In a x.
Proof.
  induction l as [|x l IH]; cbn [join]; [intros []|]. destruct l as [|y l].
  - intros H. right. exists x. cbn. auto.
  - rewrite in_app_iff. intros [H|[H|H]].
    + right. exists x. cbn. auto.
    + auto.
    + destruct (IH H) as [E|(z & Hz & Ha)]; auto. right. exists z. cbn in *. auto.
Qed.

Lemma drop_lead P (lead : bool) l : comps_ok P l ->
  drop_empty_head (split_on (sep P) ((if lead then [sep P] else []) ++ join (sep P) l)) = l.
Proof.
  intros (F & x & r & -> & Hx).
  assert (S : split_on (sep P) (join (sep P) (x :: r)) = x :: r).
  { apply split_on_join; [discriminate|]. eapply Forall_impl; [|exact F]. cbn. tauto. }
  destruct lead; cbn [app].
  - change (sep P :: join (sep P) (x :: r)) with (([] : str) ++ sep P :: join (sep P) (x :: r)).
    rewrite split_on_plain by auto. rewrite S. reflexivity.
  - rewrite S. destruct x; [congruence|reflexivity].
Qed.

(** No text built from good components looks as if it started with a drive. *)
Lemma no_drive P (lead : bool) l : plat_ok P -> comps_ok P l -> ~ In 58%N ((if lead then [sep P] else []) ++ join (sep P) l).
Proof.
  intros (Hs & _) (F & _) H. apply in_app_iff in H. destruct H as [H|H].
  - destruct lead; [|destruct H]. destruct H as [H|[]]. congruence.
  - apply In_join in H. destruct H as [H|(x & Hx & Ha)]; [congruence|].
    rewrite Forall_forall in F. now apply (F x Hx).
Qed.

Lemma no_altsep P d lead l a : plat_ok P -> drive_ok P d -> comps_ok P l -> altsep P = Some a -> ~ In a (text P d lead l).
Proof.
  intros (Hs & Ha) Hd (F & _) Ea H. destruct (Ha a Ea) as [A1 A2]. unfold text in H. rewrite !in_app_iff in H.
  destruct H as [H|[H|H]].
  - destruct d as [d|]; [|destruct H]. destruct (Hd d eq_refl) as [_ Hda]. destruct H as [H|[H|[]]]; [|congruence]. now apply (Hda a Ea).
  - destruct lead; [|destruct H]. destruct H as [H|[]]. congruence.
  - apply In_join in H. destruct H as [H|(x & Hx & Hx2)]; [congruence|].
    rewrite Forall_forall in F. destruct (F x Hx) as (_ & K & _). now apply (K a Ea).
Qed.

(** C09.  On whole texts: drives compare without case, a pattern without drive matches on every drive, and a
    leading separator makes no difference; the rest is the meaning of the components. *)
Theorem glob_text :
  forall P d1 d2 l1 l2 xs ps, plat_ok P -> drive_ok P d1 -> drive_ok P d2 -> comps_ok P xs -> comps_ok P ps ->
    (d1 = None -> d2 = None) ->
    (glob_matches_path P (text P d1 l1 xs) (text P d2 l2 ps) = true <->
     drives_agree P d1 d2 /\ Matches P ps xs).
Proof.
  intros P d1 d2 l1 l2 xs ps HP Hd1 Hd2 Hx Hp Hd. unfold glob_matches_path.
  assert (E : match altsep P with
          | Some a => (replace_char a (sep P) (text P d2 l2 ps), replace_char a (sep P) (text P d1 l1 xs))
          | None => (text P d2 l2 ps, text P d1 l1 xs) end = (text P d2 l2 ps, text P d1 l1 xs)).
  { destruct (altsep P) as [a|] eqn:Ea; auto. rewrite !replace_char_id; auto; eapply no_altsep; eauto. }
  rewrite E. clear E.
  pose proof (no_drive P l1 xs HP Hx) as N1. pose proof (no_drive P l2 ps HP Hp) as N2.
  pose proof (drop_lead P l1 xs Hx) as D1. pose proof (drop_lead P l2 ps Hp) as D2.
  unfold text. destruct d1 as [d1|]; cbn [app].
  - cbn [N.eqb Pos.eqb]. destruct d2 as [d2|]; cbn [app].
    + cbn [N.eqb Pos.eqb drives_agree]. destruct (N.eqb_spec (lower P d1) (lower P d2)) as [Hl|Hl]; cbn [negb].
      * rewrite D1, D2, glob_components. tauto.
      * split; [discriminate|tauto].
    + set (t2 := (if l2 then [sep P] else []) ++ join (sep P) ps) in *.
      assert (G : match t2 with
                  | pd :: c :: r => if N.eqb c 58 then if negb (N.eqb (lower P d1) (lower P pd)) then false
                       else check_matches P (drop_empty_head (split_on (sep P) r)) (drop_empty_head (split_on (sep P) ((if l1 then [sep P] else []) ++ join (sep P) xs)))
                       else check_matches P (drop_empty_head (split_on (sep P) t2)) (drop_empty_head (split_on (sep P) ((if l1 then [sep P] else []) ++ join (sep P) xs)))
                  | _ => check_matches P (drop_empty_head (split_on (sep P) t2)) (drop_empty_head (split_on (sep P) ((if l1 then [sep P] else []) ++ join (sep P) xs)))
                  end = check_matches P ps xs).
      { rewrite D1, D2. destruct t2 as [|pd [|c r]]; auto. destruct (N.eqb_spec c 58) as [->|]; auto.
        exfalso. apply N2. cbn. auto. }
      rewrite G, glob_components. cbn [drives_agree]. tauto.
  - rewrite (Hd eq_refl). cbn [app drives_agree].
    set (t1 := (if l1 then [sep P] else []) ++ join (sep P) xs) in *.
    assert (G : match t1 with d :: c :: r => if N.eqb c 58 then (Some d, r) else (None, t1) | _ => (None, t1) end = (None, t1)).
    { destruct t1 as [|d [|c r]]; auto. destruct (N.eqb_spec c 58) as [->|]; auto. exfalso. apply N1. cbn. auto. }
    cbv zeta. change (list N) with str in *. rewrite G. rewrite D1, D2, glob_components. tauto.
Qed.
Print Assumptions glob_text.

Definition posix : plat := Plat (fun x => x) (fun c => c) 47 None (fun _ _ => false).
Definition low (c : N) : N := if (N.leb 65 c && N.leb c 90)%bool then (c + 32)%N else c.
Definition windows : plat := Plat (map low) low 92 (Some 47%N) (fun _ _ => false).

Example glob_case :
  glob_matches_path posix (lit "/home/me/src/a.py") (lit "**/src/*.py") = true /\
  glob_matches_path posix (lit "/home/me/src/x/a.py") (lit "**/src/*.py") = false /\
  glob_matches_path posix (lit "/home/me/src/x/a.py") (lit "/home/**") = true /\
  glob_matches_path windows (lit "C:\Src\A.PY") (lit "c:/src/*.py") = true /\
  text windows (Some 67%N) true [lit "Src"; lit "A.PY"] = lit "C:\Src\A.PY".
Proof. vm_compute. auto. Qed.

(** Finding: an excluded directory given as "dir/**" does not match the directory itself, and an absolute
    pattern also matches a relative path. *)
Theorem glob_directory_itself_refuted :
  exists P dir, glob_matches_path P (dir ++ lit "/x") (dir ++ lit "/**") = true /\
                glob_matches_path P dir (dir ++ lit "/**") = false.
Proof. exists posix, (lit "/home"). vm_compute. auto. Qed.
Print Assumptions glob_directory_itself_refuted.

Theorem glob_absolute_refuted :
  exists P rel pat, starts_with (lit "/") pat = true /\ starts_with (lit "/") rel = false /\ glob_matches_path P rel pat = true.
Proof. exists posix, (lit "a/b"), (lit "/a/*"). vm_compute. auto. Qed.
Print Assumptions glob_absolute_refuted.

(** ** C41: exclude rules *)

(** Module names are dotted; a module rule covers the module and everything below it. *)
Definition below (name module : str) : Prop :=
  exists rest, split_on 46 module = split_on 46 name ++ rest.

Lemma join_app c a b : a <> [] -> b <> [] -> join c (a ++ b) = join c a ++ c :: join c b.
Proof.
  intros Ha Hb. induction a as [|x a IH]; [congruence|]. destruct a as [|y a].
  - cbn [app]. destruct b; [congruence|]. reflexivity.
  - cbn [app join] in *. rewrite IH by discriminate. now rewrite <- app_assoc.
Qed.

Lemma split_on_app c a b : split_on c (a ++ c :: b) = split_on c a ++ split_on c b.
Proof.
  induction a as [|x a IH]; cbn [app split_on]; [now rewrite N.eqb_refl|].
  rewrite IH. destruct (N.eqb x c); [reflexivity|].
  destruct (split_on c a) eqn:E; [now apply split_on_nonempty in E|]. reflexivity.
Qed.

Lemma module_rule_spec P f m r : r_is_path r = false -> (rule_matches P f m r = true <-> below (r_name r) m).
Proof.
  intros Hp. unfold rule_matches, below. rewrite Hp, orb_true_iff, str_eqb_eq, starts_with_spec. split.
  - intros [<-|(rest & E)].
    + exists []. now rewrite app_nil_r.
    + exists (split_on 46 rest). rewrite E, <- app_assoc. apply split_on_app.
  - intros (rest & E). destruct rest as [|y rest].
    + left. rewrite app_nil_r in E. rewrite <- (join_split_on 46 m), E. symmetry. apply join_split_on.
    + right. exists (join 46 (y :: rest)).
      rewrite <- (join_split_on 46 m), E, join_app; [|apply split_on_nonempty|discriminate].
      rewrite join_split_on, <- app_assoc. reflexivity.
Qed.

(** C41.  The first rule that covers the file decides; a path rule covers what its pattern matches, a module
    rule the module and everything below it.  No rule covers it: no decision. *)
Definition covers (P : plat) (f m : str) (r : rule) : Prop :=
  (r_is_path r = true /\ glob_matches_path P f (r_name r) = true) \/ (r_is_path r = false /\ below (r_name r) m).

Lemma covers_spec P f m r : rule_matches P f m r = true <-> covers P f m r.
Proof.
  unfold covers. destruct (r_is_path r) eqn:E.
  - unfold rule_matches. rewrite E. intuition congruence.
  - rewrite module_rule_spec by auto. intuition congruence.
Qed.

Theorem exclude_first_rule :
  forall P rules f m e, exclude_by_filter P rules f m = Some e <->
    exists pre r post, rules = pre ++ r :: post /\ covers P f m r /\ r_exclude r = e /\ Forall (fun x => ~ covers P f m x) pre.
Proof.
  intros P rules f m e. induction rules as [|r rules IH]; cbn [exclude_by_filter].
  - split; [discriminate|]. intros (pre & x & post & E & _). destruct pre; discriminate.
  - destruct (rule_matches P f m r) eqn:Er.
    + apply covers_spec in Er. split.
      * intros H. inversion H; subst. exists [], r, rules. auto.
      * intros (pre & x & post & E & Hx & He & Hpre). destruct pre as [|y pre]; cbn in E; inversion E; subst; auto.
        inversion Hpre; subst. contradiction.
    + assert (Hn : ~ covers P f m r) by (intros K; apply covers_spec in K; congruence).
      rewrite IH. split.
      * intros (pre & x & post & -> & H1 & H2 & H3). exists (r :: pre), x, post. auto.
      * intros (pre & x & post & E & Hx & He & Hpre). destruct pre as [|y pre]; cbn in E; inversion E; subst; [contradiction|].
        inversion Hpre; subst. exists pre, x, post. auto.
Qed.
Print Assumptions exclude_first_rule.

Lemma exclude_none P rules f m : exclude_by_filter P rules f m = None <-> Forall (fun x => ~ covers P f m x) rules.
Proof.
  induction rules as [|r rules IH]; cbn [exclude_by_filter]; [split; auto|].
  destruct (rule_matches P f m r) eqn:Er.
  - split; [discriminate|]. intros H. inversion H; subst. apply covers_spec in Er. contradiction.
  - rewrite IH. split; intros H; [constructor; auto; intros K; apply covers_spec in K; congruence|now inversion H].
Qed.

(** Sorting by length. *)
Definition len (r : rule) : nat := List.length (r_name r).

Inductive desc : list rule -> Prop :=
| desc_nil : desc []
| desc_cons r l : Forall (fun x => (len x <= len r)%nat) l -> desc l -> desc (r :: l).

Lemma insert_In r l x : In x (insert_by_len r l) <-> x = r \/ In x l.
Proof.
  induction l as [|y l IH]; cbn [insert_by_len In]; [intuition congruence|].
  destruct (Nat.ltb _ _); cbn [In]; [intuition congruence|]. rewrite IH. intuition congruence.
Qed.

Lemma insert_desc r l : desc l -> desc (insert_by_len r l).
Proof.
  induction 1 as [|y l Hy Hl IH]; cbn [insert_by_len]; [repeat constructor|].
  destruct (Nat.ltb_spec (List.length (r_name y)) (List.length (r_name r))).
  - constructor; [|constructor; auto]. constructor; [unfold len; lia|].
    eapply Forall_impl; [|exact Hy]. unfold len. cbn. intros. lia.
  - constructor; auto. apply Forall_forall. intros x Hx. apply insert_In in Hx. destruct Hx as [->|Hx]; [unfold len; lia|].
    rewrite Forall_forall in Hy. auto.
Qed.

Lemma sort_desc l : desc (sort_by_len l) /\ forall x, In x (sort_by_len l) <-> In x l.
Proof.
  unfold sort_by_len.
  assert (G : forall acc, desc acc -> desc (fold_left (fun acc r => insert_by_len r acc) l acc) /\
     forall x, In x (fold_left (fun acc r => insert_by_len r acc) l acc) <-> In x acc \/ In x l).
  { induction l as [|r l IH]; intros acc Ha; cbn [fold_left].
    - split; auto. intros. cbn. tauto.
    - destruct (IH (insert_by_len r acc) (insert_desc r acc Ha)) as [G1 G2]. split; auto.
      intros x. rewrite G2, insert_In. cbn [In]. intuition congruence. }
  destruct (G [] desc_nil) as [G1 G2]. split; auto. intros x. rewrite G2. cbn. tauto.
Qed.

Lemma desc_first P f m l e : desc l -> exclude_by_filter P l f m = Some e ->
  exists r, In r l /\ covers P f m r /\ r_exclude r = e /\ forall r', In r' l -> covers P f m r' -> (len r' <= len r)%nat.
Proof.
  intros Hd H. apply exclude_first_rule in H. destruct H as (pre & r & post & -> & Hr & He & Hpre).
  exists r. split; [apply in_app_iff; right; now left|]. split; auto. split; auto.
  intros r' Hi Hc. apply in_app_iff in Hi. destruct Hi as [Hi|[<-|Hi]]; auto.
  - rewrite Forall_forall in Hpre. now apply Hpre in Hi.
  - clear -Hd Hi. induction pre as [|y pre IH]; cbn in Hd; inversion Hd; subst; auto. rewrite Forall_forall in H1. auto.
Qed.

Lemma exclude_app P a b f m : exclude_by_filter P (a ++ b) f m =
  match exclude_by_filter P a f m with Some e => Some e | None => exclude_by_filter P b f m end.
Proof. induction a as [|r a IH]; cbn [app exclude_by_filter]; auto. destruct (rule_matches P f m r); auto. Qed.

(** C41.  The rules given by the user: among the plain paths the longest one that covers the file decides
    (a directory stands for everything below it); if none does, the first covering glob in the order given;
    if none does either, the longest covering module name. *)
Definition plain_cover (P : plat) (isdir : str -> bool) (f p : str) : Prop :=
  is_glob p = false /\ glob_matches_path P f (dir_pattern isdir p) = true.
Definition glob_cover (P : plat) (f p : str) : Prop := is_glob p = true /\ glob_matches_path P f p = true.

Definition plain_of (isdir : str -> bool) (rules : list user_rule) : list rule :=
  flat_map (fun r => match r with
                     | PathRule p inc => if is_glob p then [] else [Rule (dir_pattern isdir p) (negb inc) true]
                     | _ => [] end) rules.
Definition globs_of (rules : list user_rule) : list rule :=
  flat_map (fun r => match r with PathRule p inc => if is_glob p then [Rule p (negb inc) true] else [] | _ => [] end) rules.
Definition mods_of (rules : list user_rule) : list rule :=
  flat_map (fun r => match r with ModuleRule m inc => [Rule m (negb inc) false] | _ => [] end) rules.

Lemma plain_In isdir rules x : In x (plain_of isdir rules) <->
  exists p inc, In (PathRule p inc) rules /\ is_glob p = false /\ x = Rule (dir_pattern isdir p) (negb inc) true.
Proof.
  unfold plain_of. rewrite in_flat_map. split.
  - intros ([p inc|m inc] & H & Hx); [|destruct Hx]. destruct (is_glob p) eqn:E; [destruct Hx|].
    destruct Hx as [<-|[]]. eauto 6.
  - intros (p & inc & H & E & ->). exists (PathRule p inc). rewrite E. cbn. auto.
Qed.

Lemma globs_In rules x : In x (globs_of rules) <->
  exists p inc, In (PathRule p inc) rules /\ is_glob p = true /\ x = Rule p (negb inc) true.
Proof.
  unfold globs_of. rewrite in_flat_map. split.
  - intros ([p inc|m inc] & H & Hx); [|destruct Hx]. destruct (is_glob p) eqn:E; [|destruct Hx].
    destruct Hx as [<-|[]]. eauto 6.
  - intros (p & inc & H & E & ->). exists (PathRule p inc). rewrite E. cbn. auto.
Qed.

Lemma mods_In rules x : In x (mods_of rules) <->
  exists m inc, In (ModuleRule m inc) rules /\ x = Rule m (negb inc) false.
Proof.
  unfold mods_of. rewrite in_flat_map. split.
  - intros ([p inc|m inc] & H & Hx); [destruct Hx|]. destruct Hx as [<-|[]]. eauto 6.
  - intros (m & inc & H & ->). exists (ModuleRule m inc). cbn. auto.
Qed.

Lemma covers_path P f m p e : covers P f m (Rule p e true) <-> glob_matches_path P f p = true.
Proof. unfold covers. cbn. intuition congruence. Qed.
Lemma covers_mod P f m n e : covers P f m (Rule n e false) <-> below n m.
Proof. unfold covers. cbn. intuition congruence. Qed.

(** The first element of the user's list whose pattern is a covering glob. *)
Lemma globs_first rules pre r post : globs_of rules = pre ++ r :: post ->
  exists rpre p inc rpost, rules = rpre ++ PathRule p inc :: rpost /\ is_glob p = true /\ r = Rule p (negb inc) true /\ globs_of rpre = pre.
Proof.
  revert pre. induction rules as [|u rules IH]; intros pre E; cbn in E; [destruct pre; discriminate|].
  destruct u as [p inc|n inc].
  - destruct (is_glob p) eqn:Eg; cbn in E.
    + destruct pre as [|y pre]; cbn in E; inversion E; subst.
      * exists [], p, inc, rules. auto.
      * fold (globs_of rules) in H1. destruct (IH pre H1) as (rp & q & i & ro & -> & A & B & C).
        exists (PathRule p inc :: rp), q, i, ro. cbn. rewrite Eg. fold (globs_of rp). rewrite C. auto.
    + destruct (IH pre E) as (rp & q & i & ro & -> & A & B & C).
      exists (PathRule p inc :: rp), q, i, ro. cbn. rewrite Eg. auto.
  - destruct (IH pre E) as (rp & q & i & ro & -> & A & B & C).
    exists (ModuleRule n inc :: rp), q, i, ro. auto.
Qed.

Theorem rules_decide :
  forall P isdir rules f m e, exclude_by_filter P (convert_rules isdir rules) f m = Some e ->
    (exists p inc, In (PathRule p inc) rules /\ plain_cover P isdir f p /\ e = negb inc /\
       forall p' inc', In (PathRule p' inc') rules -> plain_cover P isdir f p' ->
         (List.length (dir_pattern isdir p') <= List.length (dir_pattern isdir p))%nat) \/
    ((forall p inc, In (PathRule p inc) rules -> ~ plain_cover P isdir f p) /\
     exists rpre p inc rpost, rules = rpre ++ PathRule p inc :: rpost /\ glob_cover P f p /\ e = negb inc /\
       forall p' inc', In (PathRule p' inc') rpre -> ~ glob_cover P f p') \/
    ((forall p inc, In (PathRule p inc) rules -> ~ plain_cover P isdir f p /\ ~ glob_cover P f p) /\
     exists n inc, In (ModuleRule n inc) rules /\ below n m /\ e = negb inc /\
       forall n' inc', In (ModuleRule n' inc') rules -> below n' m -> (List.length n' <= List.length n)%nat).
Proof.
  intros P isdir rules f m e. unfold convert_rules.
  fold (plain_of isdir rules) (globs_of rules) (mods_of rules). rewrite !exclude_app.
  destruct (sort_desc (plain_of isdir rules)) as [D1 I1]. destruct (sort_desc (mods_of rules)) as [D3 I3].
  destruct (exclude_by_filter P (sort_by_len (plain_of isdir rules)) f m) as [e1|] eqn:E1.
  - intros H. inversion H; subst e1. left. destruct (desc_first _ _ _ _ _ D1 E1) as (r & Hr & Hc & He & Hm).
    apply I1, plain_In in Hr. destruct Hr as (p & inc & Hin & Hg & ->). exists p, inc. split; auto.
    apply covers_path in Hc. split; [split; auto|]. split; [auto|].
    intros p' inc' Hin' [Hg' Hc']. apply (Hm (Rule (dir_pattern isdir p') (negb inc') true)).
    + apply I1, plain_In. eauto 6.
    + now apply covers_path.
  - apply exclude_none in E1. rewrite Forall_forall in E1.
    assert (N1 : forall p inc, In (PathRule p inc) rules -> ~ plain_cover P isdir f p).
    { intros p inc Hin [Hg Hc]. apply (E1 (Rule (dir_pattern isdir p) (negb inc) true)).
      - apply I1, plain_In. eauto 6.
      - now apply covers_path. }
    destruct (exclude_by_filter P (globs_of rules) f m) as [e2|] eqn:E2.
    + intros H. inversion H; subst e2. right. left. split; auto.
      apply exclude_first_rule in E2. destruct E2 as (pre & r & post & Es & Hc & He & Hpre).
      destruct (globs_first _ _ _ _ Es) as (rpre & p & inc & rpost & -> & Hg & -> & Hrp).
      apply covers_path in Hc. exists rpre, p, inc, rpost. split; auto. split; [split; auto|]. split; auto.
      intros p' inc' Hin [Hg' Hc']. rewrite Forall_forall in Hpre.
      apply (Hpre (Rule p' (negb inc') true)); [|now apply covers_path].
      rewrite <- Hrp. apply globs_In. eauto 6.
    + apply exclude_none in E2. rewrite Forall_forall in E2. intros E3. right. right. split.
      * intros p inc Hin. split; [eauto|]. intros [Hg Hc]. apply (E2 (Rule p (negb inc) true)); [|now apply covers_path].
        apply globs_In. eauto 6.
      * destruct (desc_first _ _ _ _ _ D3 E3) as (r & Hr & Hc & He & Hm).
        apply I3, mods_In in Hr. destruct Hr as (n & inc & Hin & ->). apply covers_mod in Hc.
        exists n, inc. split; auto. split; auto. split; auto.
        intros n' inc' Hin' Hb. apply (Hm (Rule n' (negb inc') false)); [|now apply covers_mod].
        apply I3, mods_In. eauto.
Qed.
Print Assumptions rules_decide.

(** C41.  No decision exactly when no rule covers the file. *)
Theorem rules_none :
  forall P isdir rules f m, exclude_by_filter P (convert_rules isdir rules) f m = None <->
    (forall p inc, In (PathRule p inc) rules -> ~ plain_cover P isdir f p /\ ~ glob_cover P f p) /\
    (forall n inc, In (ModuleRule n inc) rules -> ~ below n m).
Proof.
  intros P isdir rules f m. rewrite exclude_none. unfold convert_rules.
  fold (plain_of isdir rules) (globs_of rules) (mods_of rules).
  destruct (sort_desc (plain_of isdir rules)) as [_ I1]. destruct (sort_desc (mods_of rules)) as [_ I3].
  rewrite Forall_forall. split.
  - intros H. split.
    + intros p inc Hin. split; intros [Hg Hc].
      * apply (H (Rule (dir_pattern isdir p) (negb inc) true)); [|now apply covers_path].
        apply in_app_iff. left. apply I1, plain_In. eauto 6.
      * apply (H (Rule p (negb inc) true)); [|now apply covers_path].
        apply in_app_iff. right. apply in_app_iff. left. apply globs_In. eauto 6.
    + intros n inc Hin Hb. apply (H (Rule n (negb inc) false)); [|now apply covers_mod].
      apply in_app_iff. right. apply in_app_iff. right. apply I3, mods_In. eauto.
  - intros [H1 H2] x Hx. apply in_app_iff in Hx. destruct Hx as [Hx|Hx].
    + apply I1, plain_In in Hx. destruct Hx as (p & inc & Hin & Hg & ->). rewrite covers_path. intros K.
      destruct (H1 p inc Hin) as [K1 _]. apply K1. split; auto.
    + apply in_app_iff in Hx. destruct Hx as [Hx|Hx].
      * apply globs_In in Hx. destruct Hx as (p & inc & Hin & Hg & ->). rewrite covers_path. intros K.
        destruct (H1 p inc Hin) as [_ K1]. apply K1. split; auto.
      * apply I3, mods_In in Hx. destruct Hx as (n & inc & Hin & ->). rewrite covers_mod. eauto.
Qed.
Print Assumptions rules_none.

Definition is_dir0 (p : str) : bool := str_eqb p (lit "/a") || str_eqb p (lit "/a/sub").

Example rules_case :
  exclude_by_filter posix (convert_rules is_dir0 [PathRule (lit "/a") false; PathRule (lit "/a/sub") true; ModuleRule (lit "x.y") false])
     (lit "/a/sub/m.py") [] = Some false /\
  exclude_by_filter posix (convert_rules is_dir0 [PathRule (lit "/a") false; PathRule (lit "/a/sub") true; ModuleRule (lit "x.y") false])
     (lit "/b/m.py") (lit "x.y.z") = Some true /\
  exclude_by_filter posix (convert_rules is_dir0 [PathRule (lit "/a") false; PathRule (lit "/a/sub") true; ModuleRule (lit "x.y") false])
     (lit "/b/m.py") (lit "x.yz") = None.
Proof. vm_compute. auto. Qed.

(** Finding: a rule for one file can lose against a rule for its directory, because the "**" added to the
    directory counts in the comparison of lengths. *)
Theorem rules_file_beats_directory_refuted :
  exists isdir d file, isdir d = true /\ isdir file = false /\ starts_with (d ++ lit "/") file = true /\
    exclude_by_filter posix (convert_rules isdir [PathRule file true; PathRule d false]) file [] = Some true.
Proof. exists is_dir0, (lit "/a"), (lit "/a/b"). vm_compute. auto. Qed.
Print Assumptions rules_file_beats_directory_refuted.

(** C41.  A rule for an existing directory covers exactly what lies below it. *)
Lemma replace_idem a b s : a <> b -> replace_char a b (replace_char a b s) = replace_char a b s.
Proof.
  intros H. unfold replace_char. induction s as [|x s IH]; cbn; auto. rewrite IH. f_equal.
  destruct (N.eqb_spec x a); [destruct (N.eqb_spec b a); congruence|]. destruct (N.eqb_spec x a); congruence.
Qed.

Lemma glob_replace P path pat a : altsep P = Some a -> a <> sep P ->
  glob_matches_path P path (replace_char a (sep P) pat) = glob_matches_path P path pat.
Proof. intros E H. unfold glob_matches_path. rewrite E, replace_idem by auto. reflexivity. Qed.

Lemma text_snoc P d l ps x : ps <> [] -> text P d l ps ++ sep P :: x = text P d l (ps ++ [x]).
Proof.
  intros H. unfold text. rewrite join_app by (auto; discriminate). cbn [join]. now rewrite <- !app_assoc.
Qed.

Lemma matches_below P ps xs : nc P dstar = dstar -> Forall (fun p => has_magic (nc P p) = false) ps ->
  (Matches P (ps ++ [dstar]) xs <-> exists ys rest, xs = ys ++ rest /\ rest <> [] /\ map (nc P) ys = map (nc P) ps).
Proof.
  intros Hd. revert xs. induction ps as [|p ps IH]; intros xs Hm; cbn [app].
  - split.
    + intros H. inversion H as [|p x r Hp| |p ps x r Hp]; subst; [|congruence]. exists [], (x :: r). split; auto. split; [discriminate|auto].
    + intros (ys & rest & -> & Hr & E). destruct ys; [|discriminate]. cbn. destruct rest; [congruence|]. now apply m_last.
  - inversion Hm as [|? ? M1 M2]; subst. specialize (IH) with (1 := M2).
    apply orb_false_iff in M1. destruct M1 as [M1 E3]. apply orb_false_iff in M1. destruct M1 as [E1 E2].
    assert (N1 : ~ In star_c (nc P p)) by (intros K; apply has_In in K; congruence).
    assert (N2 : ~ In quest_c (nc P p)) by (intros K; apply has_In in K; congruence).
    assert (N3 : ~ In brack_c (nc P p)) by (intros K; apply has_In in K; congruence).
    assert (Ed : nc P p <> dstar) by (intros K; rewrite K in N1; apply N1; now left).
    assert (F : forall x, Comp P p x <-> nc P p = nc P x) by (intros x; unfold Comp; rewrite wild_plain by auto; tauto).
    split.
    + intros H. inversion H as [|p' x r Hp|p' q ps' xs' ys Hp|p' ps' x r Hp Hc Hr]; subst; try congruence.
      apply IH in Hr. destruct Hr as (ys & rest & -> & Hr & E). exists (x :: ys), rest. split; auto. split; auto.
      cbn. rewrite E. f_equal. symmetry. now apply F.
    + intros (ys & rest & -> & Hr & E). destruct ys as [|x ys]; [discriminate|]. cbn in E. inversion E. cbn [app].
      apply m_one; auto; [now apply F|]. apply IH. eauto.
Qed.

Theorem directory_rule_below :
  forall P isdir d1 d2 l1 l2 xs ps, plat_ok P -> (sep P = 47%N \/ altsep P = Some 47%N) -> nc P dstar = dstar ->
    drive_ok P d1 -> drive_ok P d2 -> comps_ok P xs -> comps_ok P ps ->
    (d1 = None -> d2 = None) -> sep P <> star_c -> (forall a, altsep P = Some a -> a <> star_c) ->
    Forall (fun p => has_magic (nc P p) = false) ps ->
    isdir (text P d2 l2 ps) = true ->
    ends_with (lit "/") (text P d2 l2 ps) = false -> ends_with [92%N] (text P d2 l2 ps) = false ->
    (glob_matches_path P (text P d1 l1 xs) (dir_pattern isdir (text P d2 l2 ps)) = true <->
     drives_agree P d1 d2 /\
     exists ys rest, xs = ys ++ rest /\ rest <> [] /\ map (nc P) ys = map (nc P) ps).
Proof.
  intros P isdir d1 d2 l1 l2 xs ps HP Hsep Hn Hd1 Hd2 Hx Hp Hd Hs1 Hs2 Hm Hdir E1 E2.
  assert (Hne : ps <> []) by (destruct Hp as (_ & x & r & -> & _); discriminate).
  assert (Hp2 : comps_ok P (ps ++ [dstar])).
  { destruct Hp as (F & x & r & -> & H0). split; [|exists x, (r ++ [dstar]); auto].
    apply Forall_app. split; auto. constructor; auto. split; [|split].
    - intros [K|[K|[]]]; congruence.
    - intros a Ha [K|[K|[]]]; now apply (Hs2 a Ha).
    - intros [K|[K|[]]]; discriminate. }
  rewrite <- (matches_below P ps xs Hn Hm). rewrite <- (glob_text P d1 d2 l1 l2 xs (ps ++ [dstar])) by auto.
  rewrite <- text_snoc by auto. unfold dir_pattern. rewrite Hdir, E1, E2. cbn [negb andb]. rewrite <- app_assoc.
  change (lit "/" ++ dstar) with (47%N :: dstar).
  destruct Hsep as [<-|Ha]; [reflexivity|].
  destruct HP as [Hp1 HP2]. destruct (HP2 _ Ha) as [Hne1 Hne2].
  rewrite <- (glob_replace P _ (text P d2 l2 ps ++ 47%N :: dstar) 47 Ha Hne1).
  replace (replace_char 47 (sep P) (text P d2 l2 ps ++ 47%N :: dstar)) with (text P d2 l2 ps ++ sep P :: dstar); [reflexivity|].
  unfold replace_char. rewrite map_app. cbn [map]. rewrite N.eqb_refl. cbn [N.eqb Pos.eqb star_c dstar map].
  fold (replace_char 47 (sep P) (text P d2 l2 ps)). rewrite replace_char_id; auto.
  apply no_altsep; auto. split; auto.
Qed.
Print Assumptions directory_rule_below.

Example directory_rule_case :
  text posix None true [lit "home"; lit "me"] = lit "/home/me" /\
  dir_pattern (fun _ => true) (lit "/home/me") = lit "/home/me/**" /\
  glob_matches_path posix (lit "/home/me/a/b.py") (dir_pattern (fun _ => true) (lit "/home/me")) = true /\
  glob_matches_path posix (lit "/home/me2/b.py") (dir_pattern (fun _ => true) (lit "/home/me")) = false /\
  glob_matches_path windows (lit "C:\Src\A.PY") (dir_pattern (fun _ => true) (lit "c:\src")) = true.
Proof. vm_compute. auto. Qed.
