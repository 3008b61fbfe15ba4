(** Property C52: every change of a watched file is reported once, and nothing else is. *)
From Coq Require Import String.
From Coq Require Import List NArith ZArith Bool Lia Permutation.
From Verif Require Import Base Dict Glob Watch.
Import ListNotations.
Open Scope list_scope.

(** * Specification *)

(** The file [p] with status [s] is found below the directory [d], which is at depth [k]: through directories which are
    accepted, not deeper than the maximum. *)
Inductive found (cf : config) : node -> str -> nat -> str -> stat -> Prop :=
| found_here l d k n s : In (n, File s) l -> acc_file cf (join d n) = true -> found cf (Dir l) d k (join d n) s
| found_below l d k n l' p s :
    In (n, Dir l') l -> acc_dir cf (join d n) = true -> k < max_level cf ->
    found cf (Dir l') (join d n) (S k) p s -> found cf (Dir l) d k p s.
Definition present (cf : config) (rs : roots) (p : str) (s : stat) : Prop :=
  exists r, In r rs /\ found cf (snd r) (fst r) 0 p s.

(** Names: not empty, without a slash, different in one directory. *)
Definition name (n : str) : Prop := n <> [] /\ ~ In slash n.
Inductive tree : node -> Prop :=
| tree_file s : tree (File s)
| tree_gone : tree Gone
| tree_dir l : NoDup (map fst l) -> Forall (fun p => name (fst p)) l -> Forall (fun p => tree (snd p)) l -> tree (Dir l).
(** A path without a slash at the end. *)
Definition clean (d : str) : Prop := d <> [] /\ ends_with [slash] d = false.

(** No entry which cannot be examined has an accepted name. *)
Inductive readable (cf : config) : node -> str -> Prop :=
| readable_file s d : readable cf (File s) d
| readable_gone d : acc_file cf d = false -> readable cf Gone d
| readable_dir l d : Forall (fun p => readable cf (snd p) (join d (fst p))) l -> readable cf (Dir l) d.

(** No watched path is inside another. *)
Definition apart (rs : roots) : Prop :=
  NoDup (map fst rs) /\ forall r r' x, In r rs -> In r' rs -> fst r' <> fst r ++ slash :: x.

(** What is said of a path in a report. *)
Definition about (p : str) (cs : list change) : list change :=
  filter (fun c => match c with Added q | Modified q | Deleted q => str_eqb p q end) cs.

(** What is to be said, when there was the status [a] and there is [b]. *)
Definition diff (p : str) (a b : option stat) : list change :=
  match a, b with
  | None, None => []
  | None, Some _ => [Added p]
  | Some _, None => [Deleted p]
  | Some x, Some y => if stat_eqb x y then [] else [Modified p]
  end.
(** What there is at the path [p]. *)
Definition at_path (cf : config) (rs : roots) (p : str) (o : option stat) : Prop :=
  match o with Some s => present cf rs p s | None => forall s, ~ present cf rs p s end.
(** What can be watched: distinct paths, none inside another, and trees which can be read. *)
Definition watchable (cf : config) (rs : roots) : Prop :=
  apart rs /\ Forall (fun r => clean (fst r) /\ tree (snd r) /\ readable cf (snd r) (fst r)) rs.

(** ** Induction over trees *)
Lemma node_ind' (P : node -> Prop) :
  (forall s, P (File s)) -> P Gone -> (forall l, Forall (fun p => P (snd p)) l -> P (Dir l)) -> forall n, P n.
Proof.
  intros H1 H2 H3. fix IH 1. intros [s| |l]; [apply H1 | apply H2 | apply H3].
  induction l as [|p l IHl]; constructor; auto.
Qed.

(** * The files looked at, in order *)
Fixpoint walk (cf : config) (n : node) (d : str) (level : nat) (sn : list str) {struct n} : list (str * stat) * list str :=
  if str_mem d sn || Nat.ltb (max_level cf) level then ([], sn) else
  match n with
  | Dir l =>
      (fix go (l : list (str * node)) (sn : list str) {struct l} : list (str * stat) * list str :=
         match l with
         | [] => ([], sn)
         | (name, c) :: r =>
             let p := join d name in
             match c with
             | Dir _ => if acc_dir cf p
                        then let (f1, sn1) := walk cf c p (S level) sn in let (f2, sn2) := go r sn1 in (f1 ++ f2, sn2)
                        else go r sn
             | File s => let (f2, sn2) := go r sn in ((if acc_file cf p then [(p, s)] else []) ++ f2, sn2)
             | Gone => if acc_file cf p then ([], sn) else go r sn
             end
         end) l (d :: sn)
  | _ => ([], d :: sn)
  end.
Fixpoint walk_list (cf : config) (d : str) (level : nat) (l : list (str * node)) (sn : list str) {struct l}
  : list (str * stat) * list str :=
  match l with
  | [] => ([], sn)
  | (name, c) :: r =>
      let p := join d name in
      match c with
      | Dir _ => if acc_dir cf p
                 then let (f1, sn1) := walk cf c p (S level) sn in let (f2, sn2) := walk_list cf d level r sn1 in (f1 ++ f2, sn2)
                 else walk_list cf d level r sn
      | File s => let (f2, sn2) := walk_list cf d level r sn in ((if acc_file cf p then [(p, s)] else []) ++ f2, sn2)
      | Gone => if acc_file cf p then ([], sn) else walk_list cf d level r sn
      end
  end.
Lemma walk_dir cf l d level sn :
  walk cf (Dir l) d level sn
  = if str_mem d sn || Nat.ltb (max_level cf) level then ([], sn) else walk_list cf d level l (d :: sn).
Proof.
  cbn [walk]. destruct (_ || _); auto. generalize (d :: sn). induction l as [|[n c] l IH]; intros s0; cbn [walk_list]; auto.
  cbn zeta. destruct c; rewrite ?IH; auto.
  destruct (acc_dir cf (join d n)); rewrite ?IH; auto. destruct (walk cf (Dir l0) (join d n) (S level) s0). rewrite IH. auto.
Qed.
Fixpoint scan_list (cf : config) (d : str) (level : nat) (l : list (str * node)) (v : visit) {struct l} : visit :=
  match l with
  | [] => v
  | (name, c) :: r =>
      let p := join d name in
      match c with
      | Dir _ => scan_list cf d level r (if acc_dir cf p then check_dir cf c p (S level) v else v)
      | File s => scan_list cf d level r (if acc_file cf p then record p s v else v)
      | Gone => if acc_file cf p then v else scan_list cf d level r v
      end
  end.
Lemma check_dir_dir cf l d level v :
  check_dir cf (Dir l) d level v
  = if str_mem d (seen v) || Nat.ltb (max_level cf) level then v else scan_list cf d level l (see d v).
Proof.
  cbn [check_dir]. destruct (_ || _); auto. generalize (see d v). induction l as [|[n c] l IH]; intros s0; cbn [scan_list]; auto.
  cbn zeta. destruct c; rewrite ?IH; auto.
Qed.

Definition noted (fs : list (str * stat)) (v : visit) : visit := fold_left (fun v p => record (fst p) (snd p) v) fs v.
Definition with_seen (sn : list str) (v : visit) : visit := Visit sn (files v) (old v) (changes v).
Lemma noted_seen fs v : seen (noted fs v) = seen v.
Proof. unfold noted. revert v. induction fs as [|p fs IH]; intros v; cbn [fold_left]; auto. rewrite IH. reflexivity. Qed.
Lemma noted_with_seen sn fs v : noted fs (with_seen sn v) = with_seen sn (noted fs v).
Proof. unfold noted. revert v. induction fs as [|p fs IH]; intros v; cbn [fold_left]; auto. rewrite <- IH. reflexivity. Qed.
Lemma noted_app a b v : noted (a ++ b) v = noted b (noted a v).
Proof. apply fold_left_app. Qed.
Lemma with_seen_same v : with_seen (seen v) v = v.
Proof. destruct v; reflexivity. Qed.

(** The scan notes the files of the walk. *)
Lemma check_walk cf n : forall d level v,
  check_dir cf n d level v = with_seen (snd (walk cf n d level (seen v))) (noted (fst (walk cf n d level (seen v))) v).
Proof.
  induction n as [s| |l IH] using node_ind'; intros d level v.
  - cbn [check_dir walk]. destruct (_ || _); [cbn; rewrite with_seen_same|]; reflexivity.
  - cbn [check_dir walk]. destruct (_ || _); [cbn; rewrite with_seen_same|]; reflexivity.
  - rewrite check_dir_dir, walk_dir. destruct (_ || _); [cbn; rewrite with_seen_same; reflexivity|].
    assert (Hl : forall v, scan_list cf d level l v
                 = with_seen (snd (walk_list cf d level l (seen v))) (noted (fst (walk_list cf d level l (seen v))) v)).
    { clear v. induction IH as [|[n c] l Hc Hl IHl]; intros v; cbn [scan_list walk_list].
      - cbn. rewrite with_seen_same. reflexivity.
      - cbn zeta. destruct c as [s| |l'].
        + rewrite IHl. destruct (acc_file cf (join d n)); cbn [seen record];
          destruct (walk_list cf d level l (seen v)) as [f2 sn2]; reflexivity.
        + destruct (acc_file cf (join d n)); [cbn; rewrite with_seen_same; reflexivity | apply IHl].
        + destruct (acc_dir cf (join d n)); [|apply IHl]. cbn [snd] in Hc. rewrite IHl, Hc.
          destruct (walk cf (Dir l') (join d n) (S level) (seen v)) as [f1 sn1]. cbn [fst snd seen with_seen].
          destruct (walk_list cf d level l sn1) as [f2 sn2]. cbn [fst snd].
          rewrite noted_app, noted_with_seen. reflexivity. }
    rewrite (Hl (see d v)). cbn [seen see].
    replace (see d v) with (with_seen (d :: seen v) v) by reflexivity. rewrite noted_with_seen. reflexivity.
Qed.

Fixpoint walk_roots (cf : config) (rs : roots) (sn : list str) : list (str * stat) * list str :=
  match rs with
  | [] => ([], sn)
  | r :: rs => let (f1, sn1) := walk cf (snd r) (fst r) 0 sn in let (f2, sn2) := walk_roots cf rs sn1 in (f1 ++ f2, sn2)
  end.
Lemma check_walk_roots cf rs : forall v,
  check_roots cf rs v = with_seen (snd (walk_roots cf rs (seen v))) (noted (fst (walk_roots cf rs (seen v))) v).
Proof.
  unfold check_roots. induction rs as [|r rs IH]; intros v; cbn [fold_left walk_roots].
  - cbn. rewrite with_seen_same. reflexivity.
  - rewrite IH, check_walk. destruct (walk cf (snd r) (fst r) 0 (seen v)) as [f1 sn1]. cbn [fst snd seen with_seen].
    destruct (walk_roots cf rs sn1) as [f2 sn2]. cbn [fst snd]. rewrite noted_app, noted_with_seen. reflexivity.
Qed.

(** * Paths *)
Lemma ends_slash d : ends_with [slash] d = true <-> exists x, d = x ++ [slash].
Proof.
  unfold ends_with. cbn [rev app]. destruct d as [|c d] using rev_ind.
  - cbn. split; [discriminate | intros [x H]; destruct x; discriminate].
  - rewrite rev_app_distr. cbn [rev app starts_with]. rewrite andb_true_r, N.eqb_eq. split.
    + intros <-. exists d. reflexivity.
    + intros [x H]. apply app_inj_tail in H. destruct H; congruence.
Qed.
Lemma join_clean d n : clean d -> join d n = d ++ slash :: n.
Proof. intros [H1 H2]. unfold join. destruct d; [congruence|]. rewrite H2. reflexivity. Qed.
Lemma clean_join d n : clean d -> name n -> clean (join d n).
Proof.
  intros Hd [Hn1 Hn2]. rewrite join_clean by auto. split; [destruct d; discriminate|].
  destruct (ends_with [slash] (d ++ slash :: n)) eqn:E; auto. apply ends_slash in E. destruct E as [x E].
  destruct n as [|c n] using rev_ind; [congruence|]. rewrite app_comm_cons, app_assoc in E. apply app_inj_tail in E.
  destruct E as [_ ->]. exfalso. apply Hn2. apply in_or_app. right. left. reflexivity.
Qed.
Lemma last_slash a b n m : ~ In slash n -> ~ In slash m -> a ++ slash :: n = b ++ slash :: m -> a = b /\ n = m.
Proof.
  revert m. induction n as [|c n IH] using rev_ind; intros m Hn Hm E.
  - destruct m as [|k m] using rev_ind.
    + apply app_inj_tail in E. destruct E; auto.
    + rewrite app_comm_cons, app_assoc in E. apply app_inj_tail in E. destruct E as [_ E].
      exfalso. apply Hm. apply in_or_app. right. left. auto.
  - destruct m as [|k m] using rev_ind.
    + rewrite app_comm_cons, app_assoc in E. apply app_inj_tail in E. destruct E as [_ E].
      exfalso. apply Hn. apply in_or_app. right. left. auto.
    + rewrite !app_comm_cons, !app_assoc in E. apply app_inj_tail in E. destruct E as [E ->].
      destruct (IH m) as [-> ->]; auto; intros H; [apply Hn | apply Hm]; apply in_or_app; auto.
Qed.

Definition under (d x : str) : Prop := x = d \/ exists r, x = d ++ slash :: r.
Lemma under_trans a b c : under a b -> under b c -> under a c.
Proof.
  intros [-> | [r ->]] [-> | [r' ->]]; unfold under; eauto. right. exists (r ++ slash :: r'). rewrite <- app_assoc. reflexivity.
Qed.
Lemma under_join d n : clean d -> under d (join d n).
Proof. intros H. rewrite join_clean by auto. right. eauto. Qed.
Lemma under_comparable a b x : under a x -> under b x -> under a b \/ under b a.
Proof.
  intros Ha Hb.
  assert (H : exists s t, a ++ s = b ++ t /\ (s = [] \/ exists r, s = slash :: r) /\ (t = [] \/ exists r, t = slash :: r)).
  { destruct Ha as [-> | [r ->]], Hb as [E | [r' E]].
    - exists [], []. rewrite !app_nil_r. auto.
    - exists [], (slash :: r'). rewrite app_nil_r. split; [exact E|]. split; eauto.
    - exists (slash :: r), []. rewrite app_nil_r. split; [exact E|]. split; eauto.
    - exists (slash :: r), (slash :: r'). split; [exact E|]. split; eauto. }
  destruct H as (s & t & E & Hs & Ht). apply app_eq_app in E. destruct E as [l [[-> ->] | [-> ->]]].
  - right. destruct l as [|c l]; [left; apply app_nil_r|]. right. exists l.
    destruct Ht as [Ht | [r Ht]]; [discriminate|]. injection Ht as -> _. reflexivity.
  - left. destruct l as [|c l]; [left; apply app_nil_r|]. right. exists l.
    destruct Hs as [Hs | [r Hs]]; [discriminate|]. injection Hs as -> _. reflexivity.
Qed.
(** Nothing is below two entries of a directory. *)
Lemma under_entries d n m x : clean d -> ~ In slash n -> ~ In slash m -> under (join d n) x -> under (join d m) x -> n = m.
Proof.
  intros Hd Hn Hm Hx Hy. rewrite !join_clean in * by auto.
  assert (Hno : forall n m, ~ In slash n -> ~ In slash m -> under (d ++ slash :: n) (d ++ slash :: m) -> n = m).
  { intros n0 m0 Hn0 Hm0 [E | [r E]].
    - apply app_inv_head in E. injection E. auto.
    - rewrite <- app_assoc in E. apply app_inv_head in E. cbn [app] in E. injection E as ->. exfalso. apply Hm0.
      apply in_or_app. right. left. reflexivity. }
  destruct (under_comparable _ _ _ Hx Hy) as [H | H]; [apply Hno in H | apply Hno in H]; auto.
Qed.
Lemma not_under_join d n : clean d -> ~ under (join d n) d.
Proof.
  intros Hd. rewrite join_clean by auto. intros [E | [r E]]; apply (f_equal (@List.length N)) in E;
  rewrite ?app_length in E; cbn [List.length] in E; rewrite ?app_length in E; cbn [List.length] in E; lia.
Qed.
Lemma str_mem_In d l : str_mem d l = true <-> In d l.
Proof.
  unfold str_mem. rewrite existsb_exists. split.
  - intros (x & H & E). apply str_eqb_eq in E. subst. auto.
  - intros H. exists d. split; auto. apply str_eqb_eq. reflexivity.
Qed.

(** * No file is looked at twice *)
Lemma walk_nodup cf n : forall d level sn, tree n -> clean d ->
  incl sn (snd (walk cf n d level sn))
  /\ (forall p, In p (map fst (fst (walk cf n d level sn))) ->
        exists x m, p = x ++ slash :: m /\ ~ In slash m /\ In x (snd (walk cf n d level sn)) /\ ~ In x sn)
  /\ NoDup (map fst (fst (walk cf n d level sn))).
Proof.
  induction n as [s| |l IH] using node_ind'; intros d level sn Ht Hd.
  - cbn [walk]. destruct (_ || _); cbn [fst snd map]; (split; [|split; [intros p []|constructor]]).
    + apply incl_refl. + apply incl_tl, incl_refl.
  - cbn [walk]. destruct (_ || _); cbn [fst snd map]; (split; [|split; [intros p []|constructor]]).
    + apply incl_refl. + apply incl_tl, incl_refl.
  - rewrite walk_dir. destruct (str_mem d sn || _) eqn:Em; [cbn [fst snd map]; split; [apply incl_refl | split; [intros p []|constructor]]|].
    apply orb_false_iff in Em. destruct Em as [Em _].
    assert (Hnd : ~ In d sn) by (rewrite <- str_mem_In, Em; discriminate). clear Em.
    inversion Ht as [| |l' Hnames Hname Htrees]; subst.
    assert (Hl : forall sn, In d sn ->
      incl sn (snd (walk_list cf d level l sn))
      /\ (forall p, In p (map fst (fst (walk_list cf d level l sn))) ->
            exists x m, p = x ++ slash :: m /\ ~ In slash m /\ In x (snd (walk_list cf d level l sn))
                        /\ (x = d /\ In m (map fst l) \/ ~ In x sn))
      /\ NoDup (map fst (fst (walk_list cf d level l sn)))).
    { clear sn Hnd Ht. induction IH as [|[n c] l Hc Hl IHl]; intros sn Hsn; cbn [walk_list].
      - cbn [fst snd map]. split; [apply incl_refl | split; [intros p []|constructor]].
      - inversion Hnames as [|? ? Hn1 Hn2]; subst. inversion Hname as [|? ? Hm1 Hm2]; subst.
        inversion Htrees as [|? ? Ht1 Ht2]; subst. cbn [fst snd] in *. specialize (IHl Hn2 Hm2 Ht2). cbn zeta.
        assert (Hweak : forall sn p, (exists x m, p = x ++ slash :: m /\ ~ In slash m /\ In x (snd (walk_list cf d level l sn))
                        /\ (x = d /\ In m (map fst l) \/ ~ In x sn)) ->
                      exists x m, p = x ++ slash :: m /\ ~ In slash m /\ In x (snd (walk_list cf d level l sn))
                        /\ (x = d /\ In m (map fst ((n, c) :: l)) \/ ~ In x sn)).
        { intros sn0 p (x & m & A & B & C & D). exists x, m. repeat split; auto. cbn [map]. destruct D as [[D1 D2] | D]; [left; split; auto; right; auto | auto]. }
        destruct c as [s| |l'].
        + specialize (IHl sn Hsn). specialize (Hweak sn). destruct (walk_list cf d level l sn) as [f2 sn2]. cbn [fst snd] in *.
          destruct IHl as (I1 & I2 & I3). split; auto.
          destruct (acc_file cf (join d n)); cbn [app map fst]; [|split; auto].
          split.
          * intros p [<- | Hp]; auto. exists d, n. rewrite join_clean by auto. destruct Hm1.
            repeat split; auto. left. split; auto. left. reflexivity.
          * constructor; auto. intros Hin. destruct (I2 _ Hin) as (x & m & E & Hm & _ & D).
            rewrite join_clean in E by auto. destruct Hm1 as [_ Hm1]. apply last_slash in E; auto. destruct E as [<- <-].
            destruct D as [[_ D] | D]; auto.
        + destruct (acc_file cf (join d n)).
          * cbn [fst snd map]. split; [apply incl_refl | split; [intros p []|constructor]].
          * destruct (IHl sn Hsn) as (I1 & I2 & I3). split; auto.
        + destruct (acc_dir cf (join d n)); [|destruct (IHl sn Hsn) as (I1 & I2 & I3); split; auto].
          specialize (Hc (join d n) (S level) sn Ht1 (clean_join d n Hd Hm1)).
          destruct (walk cf (Dir l') (join d n) (S level) sn) as [f1 sn1]. cbn [fst snd] in Hc. destruct Hc as (C1 & C2 & C3).
          specialize (IHl sn1 (C1 _ Hsn)). specialize (Hweak sn1).
          destruct (walk_list cf d level l sn1) as [f2 sn2]. cbn [fst snd] in *. destruct IHl as (I1 & I2 & I3).
          split; [eapply incl_tran; eauto|]. rewrite map_app. split.
          * intros p Hp. apply in_app_iff in Hp. destruct Hp as [Hp | Hp].
            -- destruct (C2 p Hp) as (x & m & A & B & C & D). exists x, m. repeat split; auto.
            -- destruct (Hweak p (I2 p Hp)) as (x & m & A & B & C & D). exists x, m. repeat split; auto.
               destruct D as [D | D]; auto.
          * revert C2 C3. generalize (map fst f1) as ps. induction ps as [|p ps IHp]; intros C2 C3; cbn [app]; auto.
            inversion C3; subst. constructor; [|apply IHp; auto; intros q Hq; apply C2; right; auto].
            intros Hin. apply in_app_iff in Hin. destruct Hin as [Hin | Hin]; auto.
            destruct (C2 p (or_introl eq_refl)) as (x & m & A & B & C & D).
            destruct (I2 p Hin) as (y & k & A' & B' & C' & D'). rewrite A in A'. apply last_slash in A'; auto.
            destruct A' as [<- <-]. destruct D' as [[-> _] | D']; auto. }
    destruct (Hl (d :: sn) (or_introl eq_refl)) as (L1 & L2 & L3). split; [intros x Hx; apply L1; right; auto|].
    split; auto. intros p Hp. destruct (L2 p Hp) as (x & m & A & B & C & D). exists x, m. repeat split; auto.
    destruct D as [[-> _] | D]; auto. intros Hx. apply D. right. auto.
Qed.

Lemma walk_roots_nodup cf rs : forall sn,
  Forall (fun r => clean (fst r) /\ tree (snd r)) rs ->
  (forall p, In p (map fst (fst (walk_roots cf rs sn))) -> exists x m, p = x ++ slash :: m /\ ~ In slash m /\ ~ In x sn)
  /\ NoDup (map fst (fst (walk_roots cf rs sn))).
Proof.
  induction rs as [|r rs IH]; intros sn Hf; cbn [walk_roots]; [split; [intros p []|constructor]|].
  inversion Hf as [|? ? [Hc Ht] Hf']; subst.
  destruct (walk_nodup cf (snd r) (fst r) 0 sn Ht Hc) as (W1 & W2 & W3).
  destruct (walk cf (snd r) (fst r) 0 sn) as [f1 sn1]. cbn [fst snd] in *.
  destruct (IH sn1 Hf') as [R1 R2]. destruct (walk_roots cf rs sn1) as [f2 sn2]. cbn [fst snd] in *. rewrite map_app. split.
  - intros p Hp. apply in_app_iff in Hp. destruct Hp as [Hp | Hp].
    + destruct (W2 p Hp) as (x & m & A & B & C & D). eauto.
    + destruct (R1 p Hp) as (x & m & A & B & C). exists x, m. repeat split; auto.
  - revert W2 W3. generalize (map fst f1) as ps. induction ps as [|p ps IHp]; intros W2 W3; cbn [app]; auto.
    inversion W3; subst. constructor; [|apply IHp; auto; intros q Hq; apply W2; right; auto].
    intros Hin. apply in_app_iff in Hin. destruct Hin as [Hin | Hin]; auto.
    destruct (W2 p (or_introl eq_refl)) as (x & m & A & B & C & D).
    destruct (R1 p Hin) as (y & k & A' & B' & C'). rewrite A in A'. apply last_slash in A'; auto.
    destruct A' as [<- <-]. auto.
Qed.

(** * Every file is looked at *)
Lemma walk_found cf n : forall d level sn, tree n -> clean d -> readable cf n d -> level <= max_level cf ->
  (forall x, In x sn -> ~ under d x) ->
  (forall p s, In (p, s) (fst (walk cf n d level sn)) <-> found cf n d level p s)
  /\ (forall x, In x (snd (walk cf n d level sn)) -> In x sn \/ under d x).
Proof.
  induction n as [s| |l IH] using node_ind'; intros d level sn Ht Hd Hr Hlev Hsn.
  - cbn [walk]. destruct (_ || _); cbn [fst snd]; (split; [split; [intros []|intros H; inversion H]|]); auto.
    intros x [<- | Hx]; auto. right. left. auto.
  - cbn [walk]. destruct (_ || _); cbn [fst snd]; (split; [split; [intros []|intros H; inversion H]|]); auto.
    intros x [<- | Hx]; auto. right. left. auto.
  - rewrite walk_dir. assert (Em : str_mem d sn = false).
    { destruct (str_mem d sn) eqn:E; auto. apply str_mem_In in E. exfalso. apply (Hsn d E). left. auto. }
    assert (El : Nat.ltb (max_level cf) level = false) by (apply Nat.ltb_ge; auto).
    rewrite Em, El. cbn [orb]. clear Em El.
    inversion Ht as [| |l' Hnames Hname Htrees]; subst. inversion Hr as [| |l' d' Hread]; subst.
    assert (Hl : forall sn, (forall n c x, In (n, c) l -> In x sn -> ~ under (join d n) x) ->
      (forall p s, In (p, s) (fst (walk_list cf d level l sn)) <->
         (exists n, In (n, File s) l /\ acc_file cf (join d n) = true /\ p = join d n)
         \/ (exists n l', In (n, Dir l') l /\ acc_dir cf (join d n) = true /\ level < max_level cf
                          /\ found cf (Dir l') (join d n) (S level) p s))
      /\ (forall x, In x (snd (walk_list cf d level l sn)) -> In x sn \/ under d x)).
    { clear sn Hsn Ht Hr. induction IH as [|[n c] l Hc Hl IHl]; intros sn Hsn; cbn [walk_list].
      - cbn [fst snd]. split; auto. intros p s. split; [intros []|]. intros [(n & [] & _) | (n & l' & [] & _)].
      - inversion Hnames as [|? ? Hn1 Hn2]; subst. inversion Hname as [|? ? Hm1 Hm2]; subst.
        inversion Htrees as [|? ? Ht1 Ht2]; subst. inversion Hread as [|? ? Hr1 Hr2]; subst. cbn [fst snd] in *.
        specialize (IHl Hn2 Hm2 Ht2 Hr2). cbn zeta. destruct c as [s0| |l'].
        + destruct (IHl sn) as [I1 I2]; [intros n0 c0 x Hi; apply (Hsn n0 c0); right; auto|].
          destruct (walk_list cf d level l sn) as [f2 sn2]. cbn [fst snd] in *. split; auto.
          intros p s. rewrite in_app_iff, I1. split.
          * intros [H | [(m & A & B & C) | (m & l' & A & B & C & D)]].
            -- destruct (acc_file cf (join d n)) eqn:Ea; [|destruct H]. destruct H as [H | []]. injection H as <- <-.
               left. exists n. split; [left; auto|]. auto.
            -- left. exists m. split; [right; auto|]. auto.
            -- right. exists m, l'. split; [right; auto|]. auto.
          * intros [(m & [A | A] & B & C) | (m & l' & [A | A] & B & C & D)].
            -- injection A as <- <-. rewrite B. left. left. congruence.
            -- right. left. eauto.
            -- discriminate.
            -- right. right. eauto 6.
        + inversion Hr1 as [|? Hg|]; subst. rewrite Hg.
          destruct (IHl sn) as [I1 I2]; [intros n0 c0 x Hi; apply (Hsn n0 c0); right; auto|]. split; auto.
          intros p s. rewrite I1. split.
          * intros [(m & A & B & C) | (m & l' & A & B & C & D)].
            -- left. exists m. split; [right; auto|]. auto.
            -- right. exists m, l'. split; [right; auto|]. auto.
          * intros [(m & [A | A] & B & C) | (m & l' & [A | A] & B & C & D)]; try discriminate; [left; eauto | right; eauto 6].
        + destruct (acc_dir cf (join d n)) eqn:Ea.
          * assert (Hw : (forall p s, In (p, s) (fst (walk cf (Dir l') (join d n) (S level) sn)) <->
                            level < max_level cf /\ found cf (Dir l') (join d n) (S level) p s)
                         /\ (forall x, In x (snd (walk cf (Dir l') (join d n) (S level) sn)) -> In x sn \/ under (join d n) x)).
            { destruct (le_lt_dec (S level) (max_level cf)) as [Hle | Hgt].
              - destruct (Hc (join d n) (S level) sn Ht1 (clean_join d n Hd Hm1) Hr1 Hle) as [W1 W2];
                  [intros x; apply (Hsn n (Dir l')); left; auto|].
                split; auto. intros p s. rewrite W1. split; [split; auto; lia | intros [_ H]; auto].
              - rewrite walk_dir. replace (Nat.ltb (max_level cf) (S level)) with true by (symmetry; apply Nat.ltb_lt; lia).
                rewrite orb_true_r. cbn [fst snd]. split; auto. intros p s. split; [intros [] | intros [H _]; lia]. }
            destruct (walk cf (Dir l') (join d n) (S level) sn) as [f1 sn1]. cbn [fst snd] in Hw. destruct Hw as [W1 W2].
            destruct (IHl sn1) as [I1 I2].
            { intros n0 c0 x Hi Hx. destruct (W2 x Hx) as [Hx0 | Hx0]; [apply (Hsn n0 c0); auto; right; auto|].
              intros Hu. assert (n = n0).
              { eapply (under_entries d n n0 x); eauto; [apply Hm1|]. rewrite Forall_forall in Hm2. apply (Hm2 _ Hi). }
              subst n0. apply Hn1. apply in_map_iff. exists (n, c0). auto. }
            destruct (walk_list cf d level l sn1) as [f2 sn2]. cbn [fst snd] in *. split.
            -- intros p s. rewrite in_app_iff, W1, I1. split.
               ++ intros [[H1 H2] | [(m & A & B & C) | (m & l0 & A & B & C & D)]].
                  ** right. exists n, l'. split; [left; auto|]. auto.
                  ** left. exists m. split; [right; auto|]. auto.
                  ** right. exists m, l0. split; [right; auto|]. auto.
               ++ intros [(m & [A | A] & B & C) | (m & l0 & [A | A] & B & C & D)].
                  ** discriminate.
                  ** right. left. eauto.
                  ** injection A as <- <-. left. auto.
                  ** right. right. eauto 6.
            -- intros x Hx. destruct (I2 x Hx) as [H | H]; auto. destruct (W2 x H) as [H' | H']; auto.
               right. eapply under_trans; [apply under_join; exact Hd | exact H'].
          * destruct (IHl sn) as [I1 I2]; [intros n0 c0 x Hi; apply (Hsn n0 c0); right; auto|]. split; auto.
            intros p s. rewrite I1. split.
            -- intros [(m & A & B & C) | (m & l0 & A & B & C & D)].
               ++ left. exists m. split; [right; auto|]. auto.
               ++ right. exists m, l0. split; [right; auto|]. auto.
            -- intros [(m & [A | A] & B & C) | (m & l0 & [A | A] & B & C & D)]; try discriminate; [left; eauto | | right; eauto 6].
               injection A as <- <-. congruence. }
    destruct (Hl (d :: sn)) as [L1 L2].
    { intros n c x Hi [<- | Hx]; [apply not_under_join; auto|]. intros Hu. apply (Hsn x Hx).
      eapply under_trans; [apply under_join; exact Hd | exact Hu]. }
    split.
    + intros p s. rewrite L1. split.
      * intros [(n & A & B & ->) | (n & l' & A & B & C & D)]; [constructor; auto | econstructor; eauto].
      * intros H. inversion H; subst; [left; eauto | right; eauto 6].
    + intros x Hx. destruct (L2 x Hx) as [[<- | H] | H]; auto. right. left. auto.
Qed.

Lemma walk_roots_found cf rs : forall sn, watchable cf rs ->
  (forall r x, In r rs -> In x sn -> ~ under (fst r) x) ->
  forall p s, In (p, s) (fst (walk_roots cf rs sn)) <-> present cf rs p s.
Proof.
  induction rs as [|r rs IH]; intros sn [[Hn Ha] Hw] Hsn p s; cbn [walk_roots].
  - cbn [fst]. split; [intros [] | intros (r & [] & _)].
  - inversion Hw as [|? ? (Hc & Ht & Hr) Hw']; subst. inversion Hn as [|? ? Hn1 Hn2]; subst.
    destruct (walk_found cf (snd r) (fst r) 0 sn Ht Hc Hr (Nat.le_0_l _)) as [W1 W2];
      [intros x; apply (Hsn r); left; auto|].
    destruct (walk cf (snd r) (fst r) 0 sn) as [f1 sn1]. cbn [fst snd] in *.
    specialize (IH sn1). destruct (walk_roots cf rs sn1) as [f2 sn2]. cbn [fst snd] in *. rewrite in_app_iff, W1, IH.
    + unfold present. split.
      * intros [H | (r' & H1 & H2)]; [exists r; split; [left; auto | auto] | exists r'; split; [right; auto | auto]].
      * intros (r' & [<- | H1] & H2); eauto.
    + split; auto. split; auto. intros r1 r2 x H1 H2. apply Ha; right; auto.
    + intros r' x Hi Hx Hu. destruct (W2 x Hx) as [H | H]; [apply (Hsn r' x); auto; right; auto|].
      assert (Hne : fst r <> fst r') by (intros E; apply Hn1; rewrite E; apply in_map; auto).
      destruct (under_comparable _ _ _ H Hu) as [[E | [y E]] | [E | [y E]]]; try congruence.
      * apply (Ha r r' y); [left; auto | right; auto | exact E].
      * apply (Ha r' r y); [right; auto | left; auto | exact E].
Qed.

(** * What a round reports *)
Lemma eqb_sp : forall a b : str, reflect (a = b) (str_eqb a b).
Proof. intros a b. destruct (str_eqb a b) eqn:E; constructor; [apply str_eqb_eq; auto | intros ->]. assert (str_eqb b b = true) by (apply str_eqb_eq; auto). congruence. Qed.
Lemma stat_eqb_eq a b : stat_eqb a b = true <-> a = b.
Proof.
  unfold stat_eqb. destruct a as [a1 a2], b as [b1 b2]. cbn [fst snd]. rewrite andb_true_iff, !Z.eqb_eq. split.
  - intros [-> ->]. reflexivity.
  - intros H. injection H. auto.
Qed.
Lemma about_app p a b : about p (a ++ b) = about p a ++ about p b.
Proof. unfold about. rewrite filter_app. reflexivity. Qed.

Lemma noted_table fs : forall v, NoDup (map fst fs) -> NoDup (keys (old v)) -> NoDup (keys (files v)) ->
  NoDup (keys (files (noted fs v))) /\ NoDup (keys (old (noted fs v)))
  /\ (forall p, get str_eqb p (files (noted fs v)) = match get str_eqb p fs with Some s => Some s | None => get str_eqb p (files v) end)
  /\ (forall p, get str_eqb p (old (noted fs v)) = match get str_eqb p fs with Some s => None | None => get str_eqb p (old v) end)
  /\ (forall p, about p (changes (noted fs v)) = about p (changes v)
        ++ match get str_eqb p fs with Some s => diff p (get str_eqb p (old v)) (Some s) | None => [] end).
Proof.
  induction fs as [|[q s] fs IH]; intros v Hfs Ho Hf.
  - cbn. repeat split; auto. intros p. rewrite app_nil_r. reflexivity.
  - inversion Hfs as [|? ? H1 H2]; subst. change (noted ((q, s) :: fs) v) with (noted fs (record q s v)).
    destruct (IH (record q s v)) as (A & B & C & D & E); auto.
    { cbn [record old]. apply NoDup_keys_del; auto. }
    { cbn [record files]. apply (NoDup_keys_set _ eqb_sp). auto. }
    assert (Hq : get str_eqb q fs = None) by (apply (get_None _ eqb_sp); exact H1).
    split; auto. split; auto. split; [|split].
    + intros p. rewrite C. cbn [record files get]. rewrite (get_set _ eqb_sp). destruct (eqb_sp p q) as [->|]; [rewrite Hq|]; auto.
    + intros p. rewrite D. cbn [record old get]. rewrite (get_del _ eqb_sp) by auto. destruct (eqb_sp p q) as [->|]; [rewrite Hq|]; auto.
    + intros p. rewrite E. cbn [record changes old get]. rewrite (get_del _ eqb_sp) by auto.
      destruct (eqb_sp p q) as [->|Hne].
      * rewrite Hq, app_nil_r. destruct (get str_eqb q (old v)) as [s'|]; cbn [diff];
        [destruct (stat_eqb s' s); [rewrite app_nil_r; auto|]|]; rewrite about_app; f_equal; unfold about; cbn [filter];
        destruct (eqb_sp q q); congruence.
      * f_equal. assert (Hp : forall c cs, (c = Added q \/ c = Modified q) -> about p (cs ++ [c]) = about p cs).
        { intros c cs [-> | ->]; rewrite about_app; unfold about; cbn [filter]; destruct (eqb_sp p q); try congruence; apply app_nil_r. }
        destruct (get str_eqb q (old v)) as [s'|]; [destruct (stat_eqb s' s)|]; auto.
Qed.

Lemma about_deleted p (t : list (str * stat)) : NoDup (keys t) ->
  about p (map (fun x => Deleted (fst x)) t) = diff p (get str_eqb p t) None.
Proof.
  induction t as [|[q s] t IH]; intros H; [reflexivity|]. inversion H as [|? ? H1 H2]; subst.
  cbn [map fst get]. change (about p (?c :: ?l)) with (about p ([c] ++ l)). rewrite about_app, IH by auto.
  unfold about. cbn [filter]. destruct (eqb_sp p q) as [->|]; auto.
  assert (Hq : get str_eqb q t = None) by (apply (get_None _ eqb_sp); exact H1). rewrite Hq. reflexivity.
Qed.

(** Whatever is watched (paths may be inside each other, some may not be read): a round reports the difference of the two
    tables of files. *)
Lemma scan_diff cf t rs : Forall (fun r => clean (fst r) /\ tree (snd r)) rs -> NoDup (keys t) ->
  NoDup (keys (fst (scan cf t rs)))
  /\ (forall p s, In (p, s) (fst (walk_roots cf rs [])) <-> get str_eqb p (fst (scan cf t rs)) = Some s)
  /\ (forall p, about p (snd (scan cf t rs)) = diff p (get str_eqb p t) (get str_eqb p (fst (scan cf t rs)))).
Proof.
  intros Hw Ht. unfold scan. rewrite check_walk_roots. cbn zeta. cbn [seen].
  destruct (walk_roots_nodup cf rs [] Hw) as [_ Hn]. destruct (walk_roots cf rs []) as [fs sn]. cbn [fst snd] in *.
  destruct (noted_table fs (Visit [] [] t []) Hn Ht (NoDup_nil _)) as (A & B & C & D & E).
  cbn [with_seen files old changes] in *. split; auto. split.
  - intros p s. rewrite C. cbn [get]. split.
    + intros H. rewrite (In_get _ eqb_sp _ _ _ Hn H). reflexivity.
    + intros H. apply (get_In _ eqb_sp). destruct (get str_eqb p fs); congruence.
  - intros p. rewrite about_app, E, about_deleted, D, C by auto. cbn [get about filter app].
    destruct (get str_eqb p fs); cbn [diff]; rewrite ?app_nil_r; auto.
Qed.

(** The table which set_tracked_paths makes. *)
Lemma by_len_perm r l : Permutation (by_len r l) (r :: l).
Proof.
  induction l as [|x l IH]; cbn [by_len]; auto. destruct (Nat.ltb _ _); auto.
  rewrite IH. apply perm_swap.
Qed.
Lemma sorted_perm rs : Permutation (sorted rs) rs.
Proof.
  unfold sorted. assert (H : forall rs a, Permutation (fold_left (fun a r => by_len r a) rs a) (a ++ rs)).
  { clear rs. induction rs as [|r rs IH]; intros a; cbn [fold_left]; [rewrite app_nil_r; auto|].
    rewrite IH, by_len_perm. apply (Permutation_middle a rs r). }
  apply H.
Qed.
Lemma watchable_perm cf rs rs' : Permutation rs rs' -> watchable cf rs -> watchable cf rs'.
Proof.
  intros P [[H1 H2] H3]. split; [split|].
  - eapply Permutation_NoDup; [apply Permutation_map; exact P | exact H1].
  - intros r r' x A B. apply Permutation_sym in P. apply H2; eapply Permutation_in; eauto.
  - eapply Permutation_Forall; eauto.
Qed.
Lemma present_perm cf rs rs' p s : Permutation rs rs' -> present cf rs p s -> present cf rs' p s.
Proof. intros P (r & A & B). exists r. split; auto. eapply Permutation_in; eauto. Qed.
Lemma watchable_clean cf rs : watchable cf rs -> Forall (fun r => clean (fst r) /\ tree (snd r)) rs.
Proof. intros [_ H]. eapply Forall_impl; [|exact H]. intros r (A & B & _). auto. Qed.

Definition lists (cf : config) (rs : roots) (t : list (str * stat)) : Prop :=
  NoDup (keys t) /\ forall p s, get str_eqb p t = Some s <-> present cf rs p s.
Lemma track_scan cf rs : track cf rs = fst (scan cf [] (sorted rs)).
Proof. reflexivity. Qed.
Lemma scan_lists cf t rs : watchable cf rs -> NoDup (keys t) -> lists cf rs (fst (scan cf t rs)).
Proof.
  intros Hw Ht. destruct (scan_diff cf t rs (watchable_clean _ _ Hw) Ht) as (A & B & _). split; auto.
  intros p s. rewrite <- B. apply walk_roots_found; auto.
Qed.
Lemma track_lists cf rs : watchable cf rs -> lists cf rs (track cf rs).
Proof.
  intros Hw. rewrite track_scan. destruct (scan_lists cf [] (sorted rs)) as [A B]; [|constructor|].
  { eapply watchable_perm; [apply Permutation_sym, sorted_perm | exact Hw]. }
  split; auto. intros p s. rewrite B. split; apply present_perm; [|apply Permutation_sym]; apply sorted_perm.
Qed.
Lemma lists_at cf rs t p o : lists cf rs t -> at_path cf rs p o -> get str_eqb p t = o.
Proof.
  intros [_ H] Ho. destruct o as [s|]; cbn in Ho; [apply H; auto|].
  destruct (get str_eqb p t) as [s|] eqn:E; auto. apply H in E. exfalso. apply (Ho s E).
Qed.
Lemma at_path_dec cf rs p : watchable cf rs -> exists o, at_path cf rs p o.
Proof.
  intros Hw. destruct (track_lists cf rs Hw) as [_ H]. exists (get str_eqb p (track cf rs)).
  destruct (get str_eqb p (track cf rs)) as [s|] eqn:E; cbn.
  - apply H. auto.
  - intros s Hs. apply H in Hs. congruence.
Qed.

(** * Theorems *)

(** Each round reports of each path what changed since the round before (the first: since the paths were set), once. *)
Lemma rounds_exact cf : forall rss r0 t i prev cur cs p a b,
  lists cf r0 t -> Forall (watchable cf) rss ->
  nth_error (r0 :: rss) i = Some prev -> nth_error rss i = Some cur -> nth_error (rounds cf t rss) i = Some cs ->
  at_path cf prev p a -> at_path cf cur p b -> about p cs = diff p a b.
Proof.
  induction rss as [|rs rss IH]; intros r0 t i prev cur cs p a b Hl Hw Hp Hc Hr Ha Hb; [destruct i; discriminate|].
  inversion Hw as [|? ? Hw1 Hw2]; subst. cbn [rounds] in Hr.
  destruct (scan_diff cf t rs (watchable_clean _ _ Hw1) (proj1 Hl)) as (_ & _ & Hd).
  pose proof (scan_lists cf t rs Hw1 (proj1 Hl)) as Hl'. destruct (scan cf t rs) as [t' cs']. cbn [fst snd] in *.
  destruct i as [|i]; cbn [nth_error] in *.
  - injection Hp as <-. injection Hc as <-. injection Hr as <-. rewrite Hd.
    rewrite (lists_at _ _ _ _ _ Hl Ha), (lists_at _ _ _ _ _ Hl' Hb). reflexivity.
  - eapply (IH rs t' i); eauto.
Qed.
Theorem watch_exact cf r0 rss i prev cur cs p a b :
  watchable cf r0 -> Forall (watchable cf) rss ->
  nth_error (r0 :: rss) i = Some prev -> nth_error rss i = Some cur ->
  nth_error (rounds cf (track cf r0) rss) i = Some cs ->
  at_path cf prev p a -> at_path cf cur p b ->
  about p cs = diff p a b.
Proof. intros. eapply rounds_exact; eauto. apply track_lists. auto. Qed.

(** There is a report for every round, and something is or is not at every path. *)
Theorem watch_total cf r0 rss : watchable cf r0 -> Forall (watchable cf) rss ->
  List.length (rounds cf (track cf r0) rss) = List.length rss
  /\ forall rs p, In rs (r0 :: rss) -> exists o, at_path cf rs p o.
Proof.
  intros H0 Hs. split.
  - generalize (track cf r0) as t. clear. induction rss as [|rs rss IH]; intros t; cbn [rounds]; auto.
    destruct (scan cf t rs). cbn [List.length]. rewrite IH. reflexivity.
  - intros rs p [<- | H]; apply at_path_dec; auto. rewrite Forall_forall in Hs. auto.
Qed.

(** Whoever follows the reports from the first listing knows which files there are. *)
Fixpoint follow (p : str) (b : bool) (cs : list change) : bool :=
  match cs with
  | [] => b
  | Added q :: r => follow p (if str_eqb p q then true else b) r
  | Deleted q :: r => follow p (if str_eqb p q then false else b) r
  | Modified q :: r => follow p b r
  end.
Definition is_some {A} (o : option A) : bool := match o with Some _ => true | None => false end.
Lemma follow_about p cs : forall b, follow p b cs = follow p b (about p cs).
Proof.
  induction cs as [|c cs IH]; intros b; auto. unfold about in *. cbn [filter].
  destruct c as [q|q|q]; destruct (str_eqb p q) eqn:E; cbn [follow]; rewrite ?E; auto.
Qed.
Lemma follow_app p a b : forall x, follow p x (a ++ b) = follow p (follow p x a) b.
Proof. induction a as [|[q|q|q] a IH]; intros x; cbn [app follow]; auto. Qed.
Lemma last_cons {A} (x : A) l d : last (x :: l) d = last l x.
Proof. revert x d. induction l as [|y l IH]; intros x d; auto. change (last (x :: y :: l) d) with (last (y :: l) d). rewrite !IH. reflexivity. Qed.
Theorem watch_follow cf r0 rss p a b :
  watchable cf r0 -> Forall (watchable cf) rss ->
  at_path cf r0 p a -> at_path cf (last rss r0) p b ->
  follow p (is_some a) (concat (rounds cf (track cf r0) rss)) = is_some b.
Proof.
  intros H0 Hs Ha Hb. assert (Hl : lists cf r0 (track cf r0)) by (apply track_lists; auto). revert Hl.
  generalize (track cf r0) as t. clear H0. revert r0 a Ha Hb.
  induction rss as [|rs rss IH]; intros r0 a Ha Hb t Hl; cbn [rounds].
  - cbn [concat follow last] in *. rewrite <- (lists_at _ _ _ _ _ Hl Ha), <- (lists_at _ _ _ _ _ Hl Hb). reflexivity.
  - inversion Hs as [|? ? Hw1 Hw2]; subst.
    destruct (scan_diff cf t rs (watchable_clean _ _ Hw1) (proj1 Hl)) as (_ & _ & Hd). specialize (Hd p).
    pose proof (scan_lists cf t rs Hw1 (proj1 Hl)) as Hl'. destruct (scan cf t rs) as [t' cs']. cbn [fst snd] in *.
    destruct (at_path_dec cf rs p Hw1) as [o Ho]. rewrite (lists_at _ _ _ _ _ Hl Ha), (lists_at _ _ _ _ _ Hl' Ho) in Hd.
    cbn [concat]. rewrite follow_app, (follow_about p cs'), Hd.
    replace (follow p (is_some a) (diff p a o)) with (is_some o).
    + apply (IH Hw2 rs); auto. rewrite last_cons in Hb. exact Hb.
    + destruct a as [x|], o as [y|]; cbn [diff is_some]; [destruct (stat_eqb x y); reflexivity| | |reflexivity];
        cbn [follow]; destruct (eqb_sp p p); congruence.
Qed.

(** The code of a file is reloaded once for each round in which its status differs from the round before, and for no other
    file. *)
Lemma reloads_about p cs : count_occ str_eq_dec (reloads cs) p = count_occ str_eq_dec (reloads (about p cs)) p.
Proof.
  induction cs as [|c cs IH]; auto. unfold about, reloads in *. cbn [flat_map filter].
  destruct c as [q|q|q]; destruct (eqb_sp p q) as [->|Hne]; cbn [flat_map app]; auto.
  - cbn [count_occ]. destruct (str_eq_dec q q); congruence.
  - cbn [count_occ]. destruct (str_eq_dec q p); congruence.
Qed.
Theorem watch_reload cf r0 rss i prev cur cs p :
  watchable cf r0 -> Forall (watchable cf) rss ->
  nth_error (r0 :: rss) i = Some prev -> nth_error rss i = Some cur ->
  nth_error (rounds cf (track cf r0) rss) i = Some cs ->
  (In p (reloads cs) <-> exists s s', present cf prev p s /\ present cf cur p s' /\ s <> s')
  /\ NoDup (reloads cs).
Proof.
  intros H0 Hs Hp Hc Hr.
  assert (Hwp : watchable cf prev).
  { apply nth_error_In in Hp. destruct Hp as [<- | Hp]; auto. rewrite Forall_forall in Hs. auto. }
  assert (Hwc : watchable cf cur) by (apply nth_error_In in Hc; rewrite Forall_forall in Hs; auto).
  assert (Hq : forall q, exists a b, at_path cf prev q a /\ at_path cf cur q b
             /\ count_occ str_eq_dec (reloads cs) q = match a, b with Some x, Some y => if stat_eqb x y then 0 else 1 | _, _ => 0 end).
  { intros q. destruct (at_path_dec cf prev q Hwp) as [a Ha]. destruct (at_path_dec cf cur q Hwc) as [b Hb].
    exists a, b. split; auto. split; auto. rewrite reloads_about, (watch_exact cf r0 rss i prev cur cs q a b); auto.
    destruct a as [x|], b as [y|]; cbn [diff]; auto. destruct (stat_eqb x y); auto. cbn.
    destruct (str_eq_dec q q); congruence. }
  split.
  - rewrite (count_occ_In str_eq_dec). destruct (Hq p) as (a & b & Ha & Hb & ->). split.
    + intros H. destruct a as [x|]; [|lia]. destruct b as [y|]; [|lia]. exists x, y. split; auto. split; auto.
      intros ->. assert (stat_eqb y y = true) by (apply stat_eqb_eq; auto). rewrite H1 in H. lia.
    + intros (s & s' & A & B & Hne). destruct (track_lists cf prev Hwp) as [N1 T1]. destruct (track_lists cf cur Hwc) as [N2 T2].
      pose proof (lists_at cf prev _ p a (track_lists cf prev Hwp) Ha) as E1.
      pose proof (lists_at cf cur _ p b (track_lists cf cur Hwc) Hb) as E2.
      apply T1 in A. apply T2 in B. rewrite E1 in A. rewrite E2 in B. subst a b.
      destruct (stat_eqb s s') eqn:E; [apply stat_eqb_eq in E; congruence | lia].
  - apply (NoDup_count_occ str_eq_dec). intros q. destruct (Hq q) as (a & b & _ & _ & ->).
    destruct a as [x|], b as [y|]; auto. destruct (stat_eqb x y); auto.
Qed.

(** Also when paths are inside each other or cannot be read, a path is reported at most once in a round. *)
Theorem watch_at_most_once cf r0 rss cs p :
  Forall (fun rs => Forall (fun r => clean (fst r) /\ tree (snd r)) rs) (r0 :: rss) ->
  In cs (rounds cf (track cf r0) rss) -> List.length (about p cs) <= 1.
Proof.
  intros Hf. inversion Hf as [|? ? H0 Hs]; subst.
  assert (Ht : NoDup (keys (track cf r0))).
  { rewrite track_scan. apply scan_diff; [|constructor]. eapply Permutation_Forall; [apply Permutation_sym, sorted_perm | exact H0]. }
  revert Ht. generalize (track cf r0) as t. clear H0 Hf. induction Hs as [|rs rss Hr Hs IH]; intros t Ht; cbn [rounds]; [intros []|].
  destruct (scan_diff cf t rs Hr Ht) as (A & _ & C). destruct (scan cf t rs) as [t' cs']. cbn [fst snd] in *.
  intros [<- | H]; [|eapply IH; eauto]. rewrite C.
  destruct (get str_eqb p t) as [x|], (get str_eqb p t') as [y|]; cbn [diff]; [destruct (stat_eqb x y)| | |]; cbn; lia.
Qed.

(** If nothing changes, nothing is reported, whatever is watched, if each round looks at the paths in one order. *)
Theorem watch_quiet cf t rs : Forall (fun r => clean (fst r) /\ tree (snd r)) rs -> NoDup (keys t) ->
  snd (scan cf (fst (scan cf t rs)) rs) = [].
Proof.
  intros Hw Ht. destruct (scan_diff cf t rs Hw Ht) as (A & B & _). destruct (scan_diff cf (fst (scan cf t rs)) rs Hw A) as (A' & B' & C').
  destruct (snd (scan cf (fst (scan cf t rs)) rs)) as [|c cs] eqn:E; auto. exfalso.
  set (p := match c with Added q | Modified q | Deleted q => q end).
  specialize (C' p). assert (Hg : get str_eqb p (fst (scan cf (fst (scan cf t rs)) rs)) = get str_eqb p (fst (scan cf t rs))).
  { destruct (get str_eqb p (fst (scan cf t rs))) as [s|] eqn:E1.
    - apply B'. apply B. auto.
    - destruct (get str_eqb p (fst (scan cf (fst (scan cf t rs)) rs))) as [s|] eqn:E2; auto. apply B' in E2. apply B in E2. congruence. }
  rewrite Hg in C'. assert (H : diff p (get str_eqb p (fst (scan cf t rs))) (get str_eqb p (fst (scan cf t rs))) = []).
  { destruct (get str_eqb p _) as [s|]; cbn [diff]; auto. replace (stat_eqb s s) with true; auto. symmetry. apply stat_eqb_eq. auto. }
  rewrite H in C'. unfold about in C'. cbn [filter] in C'. unfold p in C'.
  destruct c as [q|q|q]; destruct (eqb_sp q q); congruence.
Qed.
(** * Findings *)

(** A link to nothing whose name is accepted hides the entries listed after it: a file which did not change is reported as
    deleted. *)
Definition py (p : str) : bool := ends_with (lit ".py") p.
Definition cf_py : config := Config (fun _ => true) py 10.
Theorem watch_dangling_refuted :
  exists cf r0 r1 p s, apart r0 /\ apart r1 /\ Forall (fun r => clean (fst r) /\ tree (snd r)) (r0 ++ r1)
    /\ present cf r0 p s /\ present cf r1 p s /\ rounds cf (track cf r0) [r1] = [[Deleted p]].
Proof.
  exists cf_py, [(lit "/a", Dir [(lit "b.py", File (1, 2)%Z)])], [(lit "/a", Dir [(lit "a.py", Gone); (lit "b.py", File (1, 2)%Z)])],
    (lit "/a/b.py"), (1, 2)%Z.
  assert (Hap : forall n, apart [(lit "/a", n)]).
  { intros n. split; [repeat constructor; intros [] |]. intros r r' x [<- | []] [<- | []] E. apply (f_equal (@List.length N)) in E.
    rewrite app_length in E. cbn [fst List.length] in E. lia. }
  split; [apply Hap|]. split; [apply Hap|]. split; [|split; [|split; [|vm_compute; reflexivity]]].
  - assert (Hna : name (lit "a.py")) by (split; [discriminate | vm_compute; intuition discriminate]).
    assert (Hnb : name (lit "b.py")) by (split; [discriminate | vm_compute; intuition discriminate]).
    constructor; [|constructor; [|constructor]]; (split; [split; [discriminate | vm_compute; reflexivity]|]); cbn [snd]; constructor.
    + repeat constructor. intros [].
    + repeat constructor; apply Hnb.
    + repeat constructor.
    + constructor; [intros [H | []]; discriminate H | repeat constructor; intros []].
    + repeat constructor; try apply Hna; apply Hnb.
    + repeat constructor.
  - eexists. split; [left; reflexivity|]. cbn [fst snd]. change (lit "/a/b.py") with (join (lit "/a") (lit "b.py")).
    apply found_here; [left; reflexivity | vm_compute; reflexivity].
  - eexists. split; [left; reflexivity|]. cbn [fst snd]. change (lit "/a/b.py") with (join (lit "/a") (lit "b.py")).
    apply found_here; [right; left; reflexivity | vm_compute; reflexivity].
Qed.

(** Paths inside each other: the first listing begins with the longest, so that each is followed to the maximum depth; a
    round has the order of a set.  A file too deep for the outer path is then reported as deleted, although nothing
    changed. *)
Fixpoint nest (k : nat) (n : node) : node := match k with 0 => n | S k => Dir [(lit "d", nest k n)] end.
Definition leaf : node := Dir [(lit "f.py", File (1, 2)%Z)].
Theorem watch_nested_refuted :
  exists cf rs p, (exists s, present cf rs p s)
    /\ rounds cf (track cf rs) [sorted rs; sorted rs] = [[]; []]
    /\ rounds cf (track cf rs) [rs; rs] = [[Deleted p]; []]
    /\ rounds cf (track cf rs) [rs; sorted rs] = [[Deleted p]; [Added p]].
Proof.
  set (inner := (lit "/a/d", nest 10 leaf)). set (outer := (lit "/a", nest 11 leaf)).
  exists cf_py, [outer; inner], (lit "/a/d/d/d/d/d/d/d/d/d/d/d/f.py").
  split; [|split; [vm_compute; reflexivity | split; vm_compute; reflexivity]].
  exists (1, 2)%Z, inner. split; [right; left; reflexivity|]. unfold inner. cbn [fst snd].
  do 10 (eapply found_below; [left; reflexivity | vm_compute; reflexivity | vm_compute; lia|]).
  change (lit "/a/d/d/d/d/d/d/d/d/d/d/d/f.py") with (join (lit "/a/d/d/d/d/d/d/d/d/d/d/d") (lit "f.py")).
  apply found_here; [left; reflexivity | vm_compute; reflexivity].
Qed.

(** One directory watched under two spellings: every file is reported as added in every round, and a changed one as
    modified and added. *)
Theorem watch_spelling_refuted :
  exists cf rs p, track cf rs = [(p, (1, 2)%Z)]
    /\ rounds cf (track cf rs) [rs; rs; rs] = [[Added p]; [Added p]; [Added p]].
Proof.
  exists cf_py, [(lit "/a", leaf); (lit "/a/", leaf)], (lit "/a/f.py"). split; vm_compute; reflexivity.
Qed.

(** * Auto reload: only files which an include pattern matches are reloaded, whatever the exclude patterns are. *)
Lemma found_accepted cf n d k p s : found cf n d k p s -> acc_file cf p = true.
Proof. induction 1; auto. Qed.
Theorem watch_auto_reload P include exclude r0 rss i cs p :
  let cf := auto_reload P include exclude in
  watchable cf r0 -> Forall (watchable cf) rss -> nth_error (rounds cf (track cf r0) rss) i = Some cs ->
  In p (reloads cs) -> exists pat, In pat include /\ glob_matches_path P p pat = true.
Proof.
  intros cf H0 Hs Hr Hin.
  assert (Hi : i < List.length rss).
  { rewrite <- (proj1 (watch_total cf r0 rss H0 Hs)). apply nth_error_Some. congruence. }
  destruct (nth_error rss i) as [cur|] eqn:Ec; [|apply nth_error_None in Ec; lia].
  destruct (nth_error (r0 :: rss) i) as [prev|] eqn:Ep; [|apply nth_error_None in Ep; cbn [List.length] in Ep; lia].
  destruct (watch_reload cf r0 rss i prev cur cs p H0 Hs Ep Ec Hr) as [H _]. apply H in Hin.
  destruct Hin as (s & s' & _ & (r & _ & Hf) & _). apply found_accepted in Hf. cbn [auto_reload acc_file cf] in Hf.
  unfold cf in Hf. cbn [auto_reload acc_file] in Hf. destruct (existsb (glob_matches_path P p) include) eqn:E.
  - apply existsb_exists in E. exact E.
  - destruct (existsb (glob_matches_path P p) exclude); discriminate.
Qed.

(** * Examples *)
Definition ex0 : roots := [(lit "/w", Dir [(lit "a.py", File (1, 10)%Z); (lit "n.txt", File (1, 1)%Z); (lit "sub", Dir [(lit "b.py", File (2, 20)%Z)])]); (lit "/wx", Gone)].
Definition ex1 : roots := [(lit "/wx", Dir [(lit "c.py", File (5, 5)%Z)]); (lit "/w", Dir [(lit "sub", Dir [(lit "b.py", File (3, 20)%Z)]); (lit "n.txt", File (9, 9)%Z)])].
Ltac names := repeat (constructor; [first [split; [discriminate | vm_compute; intuition discriminate] | idtac]|]); try constructor.
Lemma ex_watchable : watchable cf_py ex0 /\ watchable cf_py ex1.
Proof.
  assert (A : forall a b, clean a -> clean b -> forall n m, a <> b -> (forall x, b <> a ++ slash :: x) -> (forall x, a <> b ++ slash :: x) -> apart [(a, n); (b, m)]).
  { intros a b _ _ n m Hne H1 H2. split.
    - cbn [map fst]. constructor; [intros [E | []]; congruence | repeat constructor; intros []].
    - intros r r' x [<- | [<- | []]] [<- | [<- | []]]; cbn [fst]; auto; intros E; apply (f_equal (@List.length N)) in E;
      rewrite app_length in E; cbn [List.length] in E; lia. }
  assert (Cw : clean (lit "/w")) by (split; [discriminate | vm_compute; reflexivity]).
  assert (Cx : clean (lit "/wx")) by (split; [discriminate | vm_compute; reflexivity]).
  assert (Nw : lit "/w" <> lit "/wx") by discriminate.
  assert (N1 : forall x, lit "/wx" <> lit "/w" ++ slash :: x) by (intros x E; discriminate E).
  assert (N2 : forall x, lit "/w" <> lit "/wx" ++ slash :: x) by (intros x E; discriminate E).
  split; (split; [apply A; auto|]); constructor; [| constructor; [|constructor] | |constructor; [|constructor]]; (split; [first [exact Cw | exact Cx]|]); cbn [fst snd].
  - split.
    + constructor; [cbn [map fst]; repeat (constructor; [vm_compute; intuition discriminate|]); constructor| names |].
      repeat constructor; try (vm_compute; intuition discriminate).
    + repeat constructor.
  - split; constructor. vm_compute. reflexivity.
  - split.
    + constructor; [repeat constructor; intros [] | names | repeat constructor].
    + repeat constructor.
  - split.
    + constructor; [cbn [map fst]; repeat (constructor; [vm_compute; intuition discriminate|]); constructor| names |].
      repeat constructor; try (vm_compute; intuition discriminate).
    + repeat constructor.
Qed.
Example ex_rounds : rounds cf_py (track cf_py ex0) [ex1; ex1]
  = [[Added (lit "/wx/c.py"); Modified (lit "/w/sub/b.py"); Deleted (lit "/w/a.py")]; []].
Proof. vm_compute. reflexivity. Qed.
Example ex_reloads : map reloads (rounds cf_py (track cf_py ex0) [ex1; ex1]) = [[lit "/w/sub/b.py"]; []].
Proof. vm_compute. reflexivity. Qed.

Print Assumptions watch_exact.
Print Assumptions watch_total.
Print Assumptions watch_follow.
Print Assumptions watch_reload.
Print Assumptions watch_at_most_once.
Print Assumptions watch_quiet.
Print Assumptions watch_auto_reload.
Print Assumptions watch_dangling_refuted.
Print Assumptions watch_nested_refuted.
Print Assumptions watch_spelling_refuted.
