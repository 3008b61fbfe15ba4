(** Exceptions are ignored exactly at the lines marked in the present source and at those asked for. *)
From Coq Require Import String.
From Coq Require Import List Bool Arith Lia NArith ZArith.
From Verif Require Import Base Glob GlobProps PatchArgs PatchArgsProps IgnoreExc.
Import ListNotations.
Open Scope nat_scope.
Open Scope list_scope.

(** ** Specification *)

Notation files := (nat -> option (nat * list str)).

(** The text of a line, without its end, has a number sign and later the tag. *)
Definition marked (l : str) : Prop := exists a b c, l = a ++ lit "#" ++ b ++ lit "@IgnoreException" ++ c.
Definition one_line (l : str) : Prop := exists x, (l = x \/ l = x ++ [10%N]) /\ ~ In 10%N x.

(** The file as last written. *)
Definition present (f : files) (h : list op) (k : nat) (o : option (nat * list str)) : Prop :=
  (exists h1 h2, h = h1 ++ Write k o :: h2 /\ (forall o', ~ In (Write k o') h2)) \/
  ((forall o', ~ In (Write k o') h) /\ o = f k).

(** The line [n] of the source of a file, which is what its loader gives where there is no file. *)
Definition source_line (w : world) (f : files) (h : list op) (k : nat) (n : N) (l : str) : Prop :=
  exists o ls, present f h k o /\ (match o with Some (_, x) => ls = x | None => loader w k = Some ls end) /\
  (1 <= n)%N /\ nth_error ls (N.to_nat (n - 1)) = Some l.

(** What the client sends to have exceptions ignored at lines of files. *)
Record ask := Ask { a_replace : bool; entries : list (str * N) }.
Definition bars : str := lit "||".
Definition entry_text (e : str * N) : str := fst e ++ lit "|" ++ dec (snd e).
Fixpoint joined (l : list str) : str := match l with [] => [] | [x] => x | x :: r => x ++ bars ++ joined r end.
Definition text_of (a : ask) : str := (if a_replace a then lit "REPLACE:" else []) ++ joined (map entry_text (entries a)).
Definition wf_ask (a : ask) : Prop :=
  forall name n, In (name, n) (entries a) -> ~ In 124%N name /\ forall r, name <> lit "REPLACE:" ++ r.

(** Asked for, of a file which exists, and not replaced since. *)
Definition asked (w : world) (f : files) (h : list op) (k : nat) (n : N) : Prop :=
  exists h1 a h2 name, h = h1 ++ IgnoreAt (text_of a) :: h2 /\ wf_ask a /\ In (name, n) (entries a) /\ canon w (abs_of w name) = k /\
  f k <> None /\ forall r, ~ In (IgnoreAt (lit "REPLACE:" ++ r)) h2.

Definition spared (w : world) (f : files) (h : list op) (p : nat * N) : Prop :=
  asked w f h (canon w (fst p)) (snd p) \/ exists l, source_line w f h (canon w (fst p)) (snd p) l /\ marked l.

Definition switched_off (h : list op) : Prop := exists h1 h2, h = h1 ++ Enable false :: h2 /\ ~ In (Enable true) h2.

(** Files are neither created nor deleted, and each change gives another size or time of change than all before. *)
Definition used (f : files) (h : list op) (k m : nat) : Prop :=
  (exists ls, f k = Some (m, ls)) \/ exists ls, In (Write k (Some (m, ls))) h.
Definition legal (w : world) (f : files) (h : list op) : Prop :=
  (forall h1 k o h2, h = h1 ++ Write k o :: h2 -> f k <> None /\ exists m ls, o = Some (m, ls) /\ ~ used f h1 k m /\ Forall one_line ls) /\
  (forall t, In (IgnoreAt t) h -> exists a, t = text_of a /\ wf_ask a) /\
  (forall k m ls, f k = Some (m, ls) -> Forall one_line ls) /\ (forall k ls, loader w k = Some ls -> Forall one_line ls).

(** ** Proofs *)

Lemma onat_eqb_eq a b : onat_eqb a b = true <-> a = b.
Proof.
  destruct a, b; cbn; try (split; congruence). rewrite Nat.eqb_eq. split; congruence.
Qed.

Lemma upd_same {V} (f : nat -> V) k v : upd f k v k = v.
Proof. unfold upd. now rewrite Nat.eqb_refl. Qed.
Lemma upd_other {V} (f : nat -> V) k v x : x <> k -> upd f k v x = f x.
Proof. unfold upd. intros H. apply Nat.eqb_neq in H. now rewrite H. Qed.

Lemma before_newline_plain s : ~ In 10%N s -> before_newline s = s.
Proof.
  induction s as [|c s IH]; intros H; [reflexivity|]. cbn [before_newline]. destruct (N.eqb_spec c 10) as [-> | NE].
  - destruct H. left. reflexivity.
  - rewrite IH; auto. intros I. apply H. right. exact I.
Qed.
Lemma before_newline_end s : ~ In 10%N s -> before_newline (s ++ [10%N]) = s.
Proof.
  induction s as [|c s IH]; intros H; [reflexivity|]. cbn [app before_newline]. destruct (N.eqb_spec c 10) as [-> | NE].
  - destruct H. left. reflexivity.
  - rewrite IH; auto. intros I. apply H. right. exact I.
Qed.

Lemma marked_cons c l : c <> 35%N -> (marked (c :: l) <-> marked l).
Proof.
  intros NE. unfold marked. split; intros (a & b & d & E).
  - destruct a as [|x a]; [exfalso; apply NE; change (lit "#") with [35%N] in E; cbn [app] in E; congruence|].
    cbn [app] in E. injection E as _ E. exists a, b, d. exact E.
  - exists (c :: a), b, d. rewrite E. reflexivity.
Qed.

Lemma marked_sign l : marked (35%N :: l) <-> exists b c, l = b ++ lit "@IgnoreException" ++ c.
Proof.
  split.
  - intros (a & b & c & E). change (lit "#") with [35%N] in E. destruct a as [|x a].
    + cbn [app] in E. injection E as E. exists b, c. exact E.
    + cbn [app] in E. injection E as _ E. exists (a ++ [35%N] ++ b), c. rewrite E, <- !app_assoc. reflexivity.
  - intros (b & c & ->). exists [], b, c. reflexivity.
Qed.

Lemma tagged_plain x : ~ In 10%N x -> (tagged x = true <-> marked x).
Proof.
  induction x as [|c x IH]; intros H; cbn [tagged].
  - split; [discriminate|]. intros ([|? ?] & b & d & E); discriminate.
  - assert (H' : ~ In 10%N x) by (intros I; apply H; right; exact I).
    destruct (N.eqb_spec c 35) as [-> | NE].
    + rewrite before_newline_plain, contains_spec, marked_sign by exact H'. reflexivity.
    + rewrite (IH H'), marked_cons by exact NE. reflexivity.
Qed.

Lemma tag_char c : In c (lit "@IgnoreException") -> c <> 10%N.
Proof. intros H ->. assert (E : existsb (N.eqb 10) (lit "@IgnoreException") = true) by (apply existsb_exists; exists 10%N; auto). discriminate E. Qed.

Lemma marked_end x : marked (x ++ [10%N]) <-> marked x.
Proof.
  split.
  - intros (a & b & c & E). destruct c as [|z c _] using rev_ind.
    + exfalso. rewrite app_nil_r in E. change (lit "@IgnoreException") with (lit "@IgnoreExceptio" ++ [110%N]) in E.
      rewrite !app_assoc in E. apply app_inj_tail in E. destruct E. discriminate.
    + rewrite !app_assoc in E. apply app_inj_tail in E. destruct E as [-> _]. exists a, b, c. rewrite <- !app_assoc. reflexivity.
  - intros (a & b & c & ->). exists a, b, (c ++ [10%N]). rewrite <- !app_assoc. reflexivity.
Qed.

Lemma tagged_end x : ~ In 10%N x -> tagged (x ++ [10%N]) = tagged x.
Proof.
  induction x as [|c x IH]; intros H; [reflexivity|]. cbn [app tagged].
  assert (H' : ~ In 10%N x) by (intros I; apply H; right; exact I).
  rewrite before_newline_end, before_newline_plain, IH by exact H'. reflexivity.
Qed.

Lemma tagged_spec l : one_line l -> (tagged l = true <-> marked l).
Proof.
  intros (x & [-> | ->] & H); [apply tagged_plain; exact H|]. rewrite tagged_end, marked_end by exact H. apply tagged_plain. exact H.
Qed.

(** The source lines in a state. *)
Definition src (w : world) (st : state) (k : nat) : list str :=
  match fs st k with Some (_, ls) => ls | None => match loader w k with Some ls => ls | None => [] end end.
Definition curr (st : state) (k : nat) : option nat := option_map fst (fs st k).
Definition lastst (st : state) (a : nat) : option nat := match stats st a with Some s => s | None => None end.

Record Inv (w : world) (f : files) (h : list op) (st : state) : Prop := {
  i_exists : forall k, fs st k = None <-> f k = None;
  i_fs : forall k m ls, fs st k = Some (m, ls) -> used f h k m;
  i_stats : forall a m, stats st a = Some (Some m) -> used f h (canon w a) m;
  i_lc : forall a m ls, lc st a = Some (Some m, ls) -> used f h (canon w a) m /\ (forall ls', fs st (canon w a) = Some (m, ls') -> ls' = ls);
  i_lcn : forall a ls, lc st a = Some (None, ls) -> fs st (canon w a) = None /\ loader w (canon w a) = Some ls;
  i_fresh : forall a, lastst st a = curr st (canon w a) -> forall e ls, lc st a = Some (e, ls) -> e = curr st (canon w a);
  i_ign : forall a, lastst st a = curr st (canon w a) -> forall n b, ignored st (canon w a) n = Some b -> b = tagged (line_of (src w st (canon w a)) n)
}.

Lemma used_mono f h o k m : used f h k m -> used f (h ++ [o]) k m.
Proof. intros [H | [ls H]]; [left; exact H|]. right. exists ls. apply in_or_app. auto. Qed.

Lemma getlines_src w f h st a : Inv w f h st -> lastst st a = curr st (canon w a) -> fst (getlines w st a) = src w st (canon w a).
Proof.
  intros I L. unfold getlines, src. destruct (lc st a) as [[e ls]|] eqn:E.
  - cbn [fst]. pose proof (i_fresh _ _ _ _ I a L e ls E) as F. destruct e as [m|].
    + unfold curr in F. destruct (fs st (canon w a)) as [[m' ls']|] eqn:X; [|discriminate]. cbn in F. injection F as ->.
      destruct (i_lc _ _ _ _ I a m' ls E) as [_ Y]. symmetry. apply Y. exact X.
    + destruct (i_lcn _ _ _ _ I a ls E) as [-> ->]. reflexivity.
  - destruct (fs st (canon w a)) as [[m ls]|]; [reflexivity|]. destruct (loader w (canon w a)); reflexivity.
Qed.

(** Reading or checking lines keeps the invariant. *)
Lemma inv_read w f h st a : Inv w f h st -> Inv w f h (set_lc st (snd (getlines w st a))).
Proof.
  intros I. unfold getlines. destruct (lc st a) as [[e ls]|] eqn:E; [destruct st; exact I|].
  destruct (fs st (canon w a)) as [[m ls]|] eqn:X; [|destruct (loader w (canon w a)) as [ls|] eqn:Y]; cbn [snd].
  - destruct I. split; cbn [set_lc fs lc ignored stats]; auto.
    + intros a' m' ls' H. destruct (Nat.eq_dec a' a) as [-> | NE]; [rewrite upd_same in H | rewrite upd_other in H by exact NE; eauto].
      injection H as <- <-. split; [eauto|]. intros ls' H. rewrite X in H. congruence.
    + intros a' ls' H. destruct (Nat.eq_dec a' a) as [-> | NE]; [rewrite upd_same in H; discriminate | rewrite upd_other in H by exact NE; eauto].
    + intros a' L e ls' H. destruct (Nat.eq_dec a' a) as [-> | NE].
      * rewrite upd_same in H. injection H as <- <-. unfold curr. cbn [set_lc fs]. rewrite X. reflexivity.
      * rewrite upd_other in H by exact NE. exact (i_fresh0 a' L e ls' H).
  - destruct I. split; cbn [set_lc fs lc ignored stats]; auto.
    + intros a' m' ls' H. destruct (Nat.eq_dec a' a) as [-> | NE]; [rewrite upd_same in H; discriminate | rewrite upd_other in H by exact NE; eauto].
    + intros a' ls' H. destruct (Nat.eq_dec a' a) as [-> | NE]; [rewrite upd_same in H; injection H as <-; auto | rewrite upd_other in H by exact NE; eauto].
    + intros a' L e ls' H. destruct (Nat.eq_dec a' a) as [-> | NE].
      * rewrite upd_same in H. injection H as <- <-. unfold curr. cbn [set_lc fs]. rewrite X. reflexivity.
      * rewrite upd_other in H by exact NE. exact (i_fresh0 a' L e ls' H).
  - destruct st; exact I.
Qed.

Lemma checkcache_sub w st a a' e ls : checkcache w st a a' = Some (e, ls) -> lc st a' = Some (e, ls).
Proof.
  unfold checkcache. destruct (lc st a) as [[[m|] x]|]; auto. destruct (onat_eqb _ _); auto.
  destruct (Nat.eq_dec a' a) as [-> | NE]; [rewrite upd_same; discriminate | rewrite upd_other by exact NE; auto].
Qed.

Lemma checkcache_fresh w f h st a e ls : Inv w f h st -> checkcache w st a a = Some (e, ls) -> e = curr st (canon w a).
Proof.
  intros I. unfold checkcache. destruct (lc st a) as [[[m|] x]|] eqn:E.
  - destruct (onat_eqb (option_map fst (fs st (canon w a))) (Some m)) eqn:O; [|rewrite upd_same; discriminate].
    rewrite E. intros H. injection H as <- <-. apply onat_eqb_eq in O. unfold curr. auto.
  - rewrite E. intros H. injection H as <- <-. destruct (i_lcn _ _ _ _ I a x E) as [X _]. unfold curr. rewrite X. reflexivity.
  - rewrite E. discriminate.
Qed.

Lemma inv_check w f h st a : Inv w f h st -> Inv w f h (set_lc st (checkcache w st a)).
Proof.
  intros I. pose proof (checkcache_sub w st a) as C. destruct I. split; cbn [set_lc fs lc ignored stats]; auto.
  intros a' L e ls H. apply C in H. exact (i_fresh0 a' L e ls H).
Qed.

(** One line of the traceback. *)
Definition expected (w : world) (st : state) (a : nat) (n : Z) : bool :=
  match user st (canon w a) n with Some b => b | None => tagged (line_of (src w st (canon w a)) n) end.

Lemma check_ok w f h st a n : Inv w f h st ->
  fst (check w st a n) = expected w st a n /\ Inv w f h (snd (check w st a n)) /\
  fs (snd (check w st a n)) = fs st /\ user (snd (check w st a n)) = user st /\ enabled (snd (check w st a n)) = enabled st.
Proof.
  intros I. unfold check. fold (lastst st a). fold (curr st (canon w a)).
  set (st1 := if onat_eqb (lastst st a) (curr st (canon w a)) then st else _).
  assert (H : Inv w f h st1 /\ fs st1 = fs st /\ user st1 = user st /\ enabled st1 = enabled st /\ lastst st1 a = curr st1 (canon w a)).
  { subst st1. destruct (onat_eqb (lastst st a) (curr st (canon w a))) eqn:O.
    - apply onat_eqb_eq in O. auto.
    - split; [|cbn [fs user enabled]; repeat split; unfold lastst, curr; cbn [stats fs]; rewrite upd_same; reflexivity].
      split; cbn [fs lc ignored stats user enabled].
      + apply (i_exists _ _ _ _ I).
      + apply (i_fs _ _ _ _ I).
      + intros a' m H. destruct (Nat.eq_dec a' a) as [-> | NE].
        * rewrite upd_same in H. injection H as H. unfold curr in H. destruct (fs st (canon w a)) as [[m' ls]|] eqn:X; [|discriminate].
          injection H as <-. exact (i_fs _ _ _ _ I _ _ _ X).
        * rewrite upd_other in H by exact NE. exact (i_stats _ _ _ _ I a' m H).
      + intros a' m ls H. apply checkcache_sub in H. exact (i_lc _ _ _ _ I a' m ls H).
      + intros a' ls H. apply checkcache_sub in H. exact (i_lcn _ _ _ _ I a' ls H).
      + intros a' L e ls H. unfold curr in *. cbn [fs] in *. destruct (Nat.eq_dec a' a) as [-> | NE].
        * exact (checkcache_fresh w f h st a e ls I H).
        * apply checkcache_sub in H. refine (i_fresh _ _ _ _ I a' _ e ls H). unfold lastst in *. cbn [stats] in L. rewrite upd_other in L by exact NE. exact L.
      + intros a' L n' b H. destruct (Nat.eq_dec (canon w a') (canon w a)) as [E | NE].
        * rewrite E, upd_same in H. discriminate.
        * rewrite upd_other in H by exact NE. unfold src. cbn [fs]. refine (i_ign _ _ _ _ I a' _ n' b H).
          unfold lastst in *. cbn [stats] in L. unfold curr in *. cbn [fs] in L. rewrite upd_other in L; [exact L|]. intros ->. auto. }
  clearbody st1. destruct H as (I1 & F1 & U1 & E1 & L1).
  assert (X : expected w st a n = expected w st1 a n) by (unfold expected, src; rewrite F1, U1; reflexivity). rewrite X. unfold expected.
  destruct (user st1 (canon w a) n) as [b|] eqn:U; [cbn; auto|].
  destruct (ignored st1 (canon w a) n) as [b|] eqn:G.
  - cbn [fst snd]. split; [|auto]. exact (i_ign _ _ _ _ I1 a L1 n b G).
  - pose proof (getlines_src w f h st1 a I1 L1) as S. pose proof (inv_read w f h st1 a I1) as R.
    destruct (getlines w st1 a) as [ls c]. cbn [fst snd] in *. subst ls. split; [reflexivity|]. split; [|auto].
    destruct R. split; cbn [set_lc fs lc ignored stats] in *; auto.
    intros a' L n' b H. destruct (Nat.eq_dec (canon w a') (canon w a)) as [E | NE].
    + rewrite E, upd_same in H. unfold zupd in H. destruct (Z.eqb_spec n' n) as [-> | NZ].
      * injection H as <-. rewrite E. reflexivity.
      * rewrite <- E in H. exact (i_ign0 a' L n' b H).
    + rewrite upd_other in H by exact NE. exact (i_ign0 a' L n' b H).
Qed.

Lemma handle_ok w f h st p q : Inv w f h st ->
  fst (handle w st p q) = (negb (enabled st) || negb (expected w st (fst p) (snd p)) && negb (expected w st (fst q) (snd q))) /\
  Inv w f h (snd (handle w st p q)) /\ fs (snd (handle w st p q)) = fs st /\ user (snd (handle w st p q)) = user st /\
  enabled (snd (handle w st p q)) = enabled st.
Proof.
  intros I. unfold handle. destruct (enabled st) eqn:E; [|cbn; auto].
  destruct (check_ok w f h st (fst p) (snd p) I) as (A & I1 & F1 & U1 & E1). destruct (check w st (fst p) (snd p)) as [b st1].
  cbn [fst snd] in *. subst b. destruct (expected w st (fst p) (snd p)) eqn:X; [cbn; rewrite E in E1; auto|].
  destruct (check_ok w f h st1 (fst q) (snd q) I1) as (B & I2 & F2 & U2 & E2). destruct (check w st1 (fst q) (snd q)) as [b st2].
  cbn [fst snd] in *. subst b. assert (Y : expected w st1 (fst q) (snd q) = expected w st (fst q) (snd q)) by (unfold expected, src; rewrite F1, U1; reflexivity).
  rewrite Y. split; [reflexivity|]. split; [exact I2|]. rewrite F2, U2, E2, F1, U1, E1. auto.
Qed.

Lemma inv_mono w f h o st : Inv w f h st -> Inv w f (h ++ [o]) st.
Proof.
  intros []. split; auto.
  - intros k m ls H. apply used_mono. eauto.
  - intros a m H. apply used_mono. eauto.
  - intros a m ls H. destruct (i_lc0 a m ls H). split; [apply used_mono|]; auto.
Qed.

Lemma ignore_each_keeps w parts : forall st, let st' := ignore_each w st parts in
  fs st' = fs st /\ lc st' = lc st /\ ignored st' = ignored st /\ stats st' = stats st /\ enabled st' = enabled st.
Proof.
  induction parts as [|p parts IH]; intros st; cbn [ignore_each]; [auto|].
  destruct (split_on 124%N p) as [|x [|y [|z l]]]; auto.
  destruct (fs st (canon w (abs_of w x))); [|apply IH]. destruct (py_int y); [|auto].
  specialize (IH (set_user st (upd (user st) (canon w (abs_of w x)) (zupd (user st (canon w (abs_of w x))) z (Some true))))). exact IH.
Qed.

Lemma ignore_at_keeps w t st : let st' := ignore_at w st t in
  fs st' = fs st /\ lc st' = lc st /\ ignored st' = ignored st /\ stats st' = stats st /\ enabled st' = enabled st.
Proof.
  unfold ignore_at. destruct (starts_with (lit "REPLACE:") t).
  - destruct (skipn 8 t); [cbn; auto|]. match goal with |- context [ignore_each w ?s ?p] => destruct (ignore_each_keeps w p s) as (A & B & C & D & E) end.
    cbn [fs lc ignored stats enabled set_user] in *. auto.
  - destruct t; [cbn; auto|]. apply ignore_each_keeps.
Qed.

Lemma inv_ignore w f h st t : Inv w f h st -> Inv w f h (ignore_at w st t).
Proof.
  intros I. destruct (ignore_at_keeps w t st) as (A & B & C & D & _). destruct I.
  split; unfold lastst, curr, src in *; rewrite ?A, ?B, ?C, ?D; auto.
Qed.

Lemma run_snoc w f h o : run w f (h ++ [o]) = step w (run w f h) o.
Proof. unfold run. rewrite fold_left_app. reflexivity. Qed.

Lemma legal_prefix w f h o : legal w f (h ++ [o]) -> legal w f h.
Proof.
  intros (A & B & C). split; [|split; [|exact C]].
  - intros h1 k x h2 E. apply (A h1 k x (h2 ++ [o])). rewrite E, <- app_assoc. reflexivity.
  - intros t I. apply B. apply in_or_app. auto.
Qed.

Lemma run_inv w f h : legal w f h -> Inv w f h (run w f h).
Proof.
  induction h as [|o h IH] using rev_ind; intros L.
  - split; cbn; try discriminate; try tauto. intros k m ls H. left. exists ls. exact H.
  - rewrite run_snoc. specialize (IH (legal_prefix _ _ _ _ L)). set (st := run w f h) in *. clearbody st. destruct o as [k o|a|a|t|b|p q]; cbn [step].
    + destruct L as [L _]. destruct (L h k o [] eq_refl) as (X & m & ls & -> & NU & _). destruct IH.
      assert (NL : forall a, canon w a = k -> lastst st a <> Some m).
      { intros a <- E. unfold lastst in E. destruct (stats st a) as [s|] eqn:S; [subst s|discriminate]. exact (NU (i_stats0 a m S)). }
      split; cbn [fs lc ignored stats].
      * intros k'. destruct (Nat.eq_dec k' k) as [-> | NE]; [rewrite upd_same; split; congruence|rewrite upd_other by exact NE; apply i_exists0].
      * intros k' m' ls' H. destruct (Nat.eq_dec k' k) as [-> | NE].
        -- rewrite upd_same in H. injection H as <- <-. right. exists ls. apply in_or_app. right. left. reflexivity.
        -- rewrite upd_other in H by exact NE. apply used_mono. eauto.
      * intros a m' H. apply used_mono. eauto.
      * intros a m' ls' H. destruct (i_lc0 a m' ls' H) as [U Y]. split; [apply used_mono; exact U|]. intros ls'' Z.
        destruct (Nat.eq_dec (canon w a) k) as [E | NE].
        -- rewrite E, upd_same in Z. injection Z as <- <-. rewrite E in U. destruct (NU U).
        -- rewrite upd_other in Z by exact NE. auto.
      * intros a ls' H. destruct (i_lcn0 a ls' H) as [U Y]. split; [|exact Y]. destruct (Nat.eq_dec (canon w a) k) as [E | NE].
        -- rewrite E in U. apply i_exists0 in U. congruence.
        -- rewrite upd_other by exact NE. exact U.
      * intros a La e ls' H. unfold curr in *. cbn [fs] in *. destruct (Nat.eq_dec (canon w a) k) as [E | NE].
        -- rewrite E, upd_same in La. destruct (NL a E La).
        -- rewrite upd_other in La |- * by exact NE. exact (i_fresh0 a La e ls' H).
      * intros a La n b H. unfold curr, src in *. cbn [fs] in *. destruct (Nat.eq_dec (canon w a) k) as [E | NE].
        -- rewrite E, upd_same in La. destruct (NL a E La).
        -- rewrite upd_other in La |- * by exact NE. exact (i_ign0 a La n b H).
    + apply inv_mono, inv_read, IH.
    + apply inv_mono, inv_check, IH.
    + apply inv_mono, inv_ignore, IH.
    + apply inv_mono. destruct IH. split; auto.
    + apply inv_mono. apply (handle_ok w f h st p q IH).
Qed.

(** What the history says of the files. *)
Lemma run_fs w f h k : legal w f h -> present f h k (fs (run w f h) k).
Proof.
  induction h as [|o h IH] using rev_ind; intros L; [right; split; [intros o []|reflexivity]|].
  pose proof (legal_prefix _ _ _ _ L) as L'. specialize (IH L'). pose proof (run_inv w f h L') as I. rewrite run_snoc.
  assert (K : (forall o', o <> Write k o') -> forall x, present f h k x -> present f (h ++ [o]) k x).
  { intros NW x [(h1 & h2 & -> & H) | [H E]].
    - left. exists h1, (h2 ++ [o]). split; [rewrite <- app_assoc; reflexivity|]. intros o' J. apply in_app_or in J.
      destruct J as [J | [J | []]]; [exact (H o' J) | exact (NW o' J)].
    - right. split; [|exact E]. intros o' J. apply in_app_or in J. destruct J as [J | [J | []]]; [exact (H o' J) | exact (NW o' J)]. }
  destruct o as [k' o|a|a|t|b|p q]; cbn [step].
  - cbn [fs]. destruct (Nat.eq_dec k k') as [<- | NE].
    + rewrite upd_same. left. exists h, []. split; [reflexivity|]. intros o' [].
    + rewrite upd_other by exact NE. apply K; [congruence|exact IH].
  - apply K; [congruence|exact IH].
  - apply K; [congruence|exact IH].
  - destruct (ignore_at_keeps w t (run w f h)) as (-> & _). apply K; [congruence|exact IH].
  - apply K; [congruence|exact IH].
  - destruct (handle_ok w f h (run w f h) p q I) as (_ & _ & -> & _). apply K; [congruence|exact IH].
Qed.

Lemma present_fun f h k o o' : present f h k o -> present f h k o' -> o = o'.
Proof.
  intros [(h1 & h2 & E & H) | [H E]] [(g1 & g2 & E' & H') | [H' E']].
  - rewrite E in E'. clear E. revert g1 E'. induction h1 as [|x h1 IH]; intros [|y g1] E; cbn [app] in E.
    + congruence.
    + injection E as _ E. exfalso. apply (H o'). rewrite E. apply in_or_app. right. left. reflexivity.
    + injection E as _ E. exfalso. apply (H' o). rewrite <- E. apply in_or_app. right. left. reflexivity.
    + injection E as _ E. eauto.
  - exfalso. apply (H' o). rewrite E. apply in_or_app. right. left. reflexivity.
  - exfalso. apply (H o'). rewrite E'. apply in_or_app. right. left. reflexivity.
  - congruence.
Qed.

Lemma run_enabled w f h : legal w f h -> (enabled (run w f h) = false <-> switched_off h).
Proof.
  induction h as [|o h IH] using rev_ind; intros L.
  - split; [discriminate|]. intros (h1 & h2 & E & _). destruct h1; discriminate.
  - pose proof (legal_prefix _ _ _ _ L) as L'. specialize (IH L'). pose proof (run_inv w f h L') as I. rewrite run_snoc.
    assert (K : (forall b, o <> Enable b) -> switched_off (h ++ [o]) <-> switched_off h).
    { intros NE. split.
      - intros (h1 & h2 & E & H). destruct h2 as [|x h2 _] using rev_ind.
        + apply app_inj_tail in E. destruct E as [_ E]. destruct (NE false E).
        + rewrite app_comm_cons, app_assoc in E. apply app_inj_tail in E. destruct E as [-> _]. exists h1, h2. split; [reflexivity|].
          intros J. apply H. apply in_or_app. auto.
      - intros (h1 & h2 & -> & H). exists h1, (h2 ++ [o]). split; [rewrite <- app_assoc; reflexivity|]. intros J. apply in_app_or in J.
        destruct J as [J | [J | []]]; [exact (H J) | exact (NE true J)]. }
    destruct o as [k' o|a|a|t|b|p q]; cbn [step].
    + cbn [enabled]. rewrite K by congruence. exact IH.
    + cbn [enabled set_lc]. rewrite K by congruence. exact IH.
    + cbn [enabled set_lc]. rewrite K by congruence. exact IH.
    + destruct (ignore_at_keeps w t (run w f h)) as (_ & _ & _ & _ & ->). rewrite K by congruence. exact IH.
    + cbn [enabled]. destruct b.
      * split; [discriminate|]. intros (h1 & h2 & E & H). exfalso. destruct h2 as [|x h2 _] using rev_ind.
        -- apply app_inj_tail in E. destruct E as [_ E]. discriminate.
        -- rewrite app_comm_cons, app_assoc in E. apply app_inj_tail in E. destruct E as [_ <-]. apply H. apply in_or_app. right. left. reflexivity.
      * split; [|reflexivity]. intros _. exists h, []. split; [reflexivity|]. intros [].
    + destruct (handle_ok w f h (run w f h) p q I) as (_ & _ & _ & _ & ->). rewrite K by congruence. exact IH.
Qed.

(** The text of the client. *)
Lemma split_bars_plain x : forall cur, ~ In 124%N x -> split_bars x cur = [rev cur ++ x].
Proof.
  induction x as [|c x IH]; intros cur H; cbn [split_bars]; [rewrite app_nil_r; reflexivity|].
  assert (C : (c =? 124)%N = false) by (apply N.eqb_neq; intros ->; apply H; left; reflexivity). rewrite C. cbn [andb].
  destruct x as [|d x]; [reflexivity|]. rewrite IH by (intros J; apply H; right; exact J). cbn [rev]. rewrite <- app_assoc. reflexivity.
Qed.

Lemma dec_no_bar n : ~ In 124%N (dec n).
Proof.
  intros H. pose proof (dec_digits n) as D. rewrite Forall_forall in D. specialize (D _ H). discriminate D.
Qed.

Lemma split_bars_skip x : forall y cur, ~ In 124%N x -> split_bars (x ++ y) cur = split_bars y (rev x ++ cur).
Proof.
  induction x as [|c x IH]; intros y cur H; [reflexivity|]. cbn [app split_bars rev].
  assert (C : (c =? 124)%N = false) by (apply N.eqb_neq; intros ->; apply H; left; reflexivity). rewrite C. cbn [andb].
  destruct (x ++ y) as [|d r] eqn:E.
  - apply app_eq_nil in E. destruct E as [-> ->]. reflexivity.
  - rewrite <- E, IH by (intros J; apply H; right; exact J). rewrite <- app_assoc. reflexivity.
Qed.

Lemma split_bars_entry name n y cur : ~ In 124%N name ->
  split_bars (entry_text (name, n) ++ y) cur = split_bars y (rev (entry_text (name, n)) ++ cur).
Proof.
  intros H. unfold entry_text. cbn [fst snd]. rewrite <- app_assoc, (split_bars_skip name) by exact H.
  change (lit "|") with [124%N]. destruct (dec_head n) as (c & r & E & D). pose proof (dec_no_bar n) as B. rewrite E in B |- *.
  assert (C : (c =? 124)%N = false) by (apply N.eqb_neq; intros ->; apply B; left; reflexivity).
  transitivity (split_bars ((c :: r) ++ y) (124%N :: rev name ++ cur)).
  - cbn [app split_bars]. rewrite C, andb_false_r. cbn [app]. reflexivity.
  - rewrite split_bars_skip by exact B. f_equal. rewrite !rev_app_distr. cbn [rev app]. rewrite <- !app_assoc. reflexivity.
Qed.

Lemma split_joined es : es <> [] -> (forall name n, In (name, n) es -> ~ In 124%N name) ->
  split_bars (joined (map entry_text es)) [] = map entry_text es.
Proof.
  induction es as [|[name n] es IH]; intros NE H; [congruence|]. cbn [map joined].
  assert (B : ~ In 124%N name) by (apply (H name n); left; reflexivity).
  destruct es as [|e es].
  - cbn [map]. rewrite <- (app_nil_r (entry_text (name, n))) at 1. rewrite split_bars_entry by exact B. cbn [split_bars].
    rewrite app_nil_r, rev_involutive. reflexivity.
  - cbn [map]. rewrite split_bars_entry, app_nil_r by exact B. change bars with [124%N; 124%N].
    cbn [app split_bars]. replace ((124 =? 124)%N && (124 =? 124)%N) with true by reflexivity.
    rewrite rev_involutive. f_equal. apply IH; [discriminate|]. intros name' n' I. apply (H name' n'). right. exact I.
Qed.

Lemma entry_split name n : ~ In 124%N name -> split_on 124%N (entry_text (name, n)) = [name; dec n].
Proof.
  intros H. unfold entry_text. cbn [fst snd]. change (lit "|") with [124%N]. cbn [app].
  rewrite split_on_app, (split_on_one _ name H), (split_on_one _ (dec n) (dec_no_bar n)). reflexivity.
Qed.

Definition no_false (st : state) : Prop := forall k n, user st k n <> Some false.

Lemma ignore_entries w es : forall st, (forall name n, In (name, n) es -> ~ In 124%N name) -> no_false st ->
  no_false (ignore_each w st (map entry_text es)) /\
  forall k n, user (ignore_each w st (map entry_text es)) k n = Some true <->
  (user st k n = Some true \/ exists name m, In (name, m) es /\ canon w (abs_of w name) = k /\ fs st k <> None /\ n = Z.of_N m).
Proof.
  induction es as [|[name m] es IH]; intros st H NF; cbn [map ignore_each].
  - split; [exact NF|]. intros k n. split; [auto|]. intros [U | (a & b & [] & _)]. exact U.
  - assert (B : ~ In 124%N name) by (apply (H name m); left; reflexivity).
    assert (H' : forall name n, In (name, n) es -> ~ In 124%N name) by (intros a b I; apply (H a b); right; exact I).
    rewrite (entry_split name m B), py_int_dec0. destruct (fs st (canon w (abs_of w name))) as [x|] eqn:X.
    + set (st' := set_user st (upd (user st) (canon w (abs_of w name)) (zupd (user st (canon w (abs_of w name))) (Z.of_N m) (Some true)))).
      assert (U : forall k n, user st' k n = if (k =? canon w (abs_of w name)) && (n =? Z.of_N m)%Z then Some true else user st k n).
      { intros k n. cbn [st' set_user user]. unfold upd, zupd. destruct (Nat.eqb_spec k (canon w (abs_of w name))) as [-> | NE]; [|reflexivity].
        destruct (n =? Z.of_N m)%Z; reflexivity. }
      assert (NF' : no_false st') by (intros k n; rewrite U; destruct (_ && _); [discriminate | apply NF]).
      destruct (IH st' H' NF') as [A C]. split; [exact A|]. intros k n. rewrite C, U. cbn [st' set_user fs].
      destruct ((k =? canon w (abs_of w name)) && (n =? Z.of_N m)%Z) eqn:T.
      * apply andb_true_iff in T. destruct T as [T1 T2]. apply Nat.eqb_eq in T1. apply Z.eqb_eq in T2. split; [intros _|auto].
        right. exists name, m. subst k n. repeat split; [left; reflexivity|congruence].
      * split; intros [V | (a & b & I & J & K & L)]; auto.
        -- right. exists a, b. repeat split; auto. right. exact I.
        -- destruct I as [I | I]; [|right; exists a, b; auto]. exfalso. injection I as <- <-. subst k n. rewrite Nat.eqb_refl, Z.eqb_refl in T. discriminate.
    + destruct (IH st H' NF) as [A C]. split; [exact A|]. intros k n. rewrite C. split; intros [V | (a & b & I & J & K & L)]; auto.
      * right. exists a, b. repeat split; auto. right. exact I.
      * destruct I as [I | I]; [|right; exists a, b; auto]. injection I as <- <-. subst k. congruence.
Qed.

Lemma prefix_before (c : N) x r : forall p a, ~ In c p -> a ++ c :: x = p ++ r -> exists r', a = p ++ r'.
Proof.
  induction p as [|y p IH]; intros a H E; [exists a; reflexivity|]. destruct a as [|z a]; cbn [app] in E.
  - injection E as -> _. destruct H. left. reflexivity.
  - injection E as -> E. destruct (IH a (fun I => H (or_intror I)) E) as [r' ->]. exists r'. reflexivity.
Qed.

Lemma joined_head name n es : exists x, joined (map entry_text ((name, n) :: es)) = name ++ 124%N :: x.
Proof.
  cbn [map joined]. destruct (map entry_text es) as [|y l]; unfold entry_text; cbn [fst snd]; change (lit "|") with [124%N]; eexists.
  - reflexivity.
  - rewrite <- !app_assoc. reflexivity.
Qed.

Lemma text_replace a : wf_ask a -> starts_with (lit "REPLACE:") (text_of a) = a_replace a.
Proof.
  intros W. unfold text_of. destruct (a_replace a).
  - apply starts_with_spec. exists (joined (map entry_text (entries a))). reflexivity.
  - cbn [app]. destruct (starts_with (lit "REPLACE:") (joined (map entry_text (entries a)))) eqn:S; [exfalso|reflexivity].
    apply starts_with_spec in S. destruct S as [r S]. unfold wf_ask in W. destruct (entries a) as [|[name n] es]; [discriminate|].
    destruct (W name n (or_introl eq_refl)) as [B R].
    assert (X : exists x, joined (map entry_text ((name, n) :: es)) = name ++ 124%N :: x) by apply joined_head.
    destruct X as [x X]. rewrite X in S.
    destruct (prefix_before 124%N x r (lit "REPLACE:") name) as [r' E]; [|exact S|exact (R r' E)].
    intros I. assert (Y : existsb (N.eqb 124) (lit "REPLACE:") = true) by (apply existsb_exists; exists 124%N; auto). discriminate Y.
Qed.

Lemma ignore_at_user w st a : wf_ask a -> no_false st ->
  no_false (ignore_at w st (text_of a)) /\
  forall k n, user (ignore_at w st (text_of a)) k n = Some true <->
  ((a_replace a = false /\ user st k n = Some true) \/ exists name m, In (name, m) (entries a) /\ canon w (abs_of w name) = k /\ fs st k <> None /\ n = Z.of_N m).
Proof.
  intros W NF. unfold ignore_at. rewrite (text_replace a W).
  set (st1 := if a_replace a then set_user st (fun _ _ => None) else st).
  replace (if a_replace a then skipn 8 (text_of a) else text_of a) with (joined (map entry_text (entries a)))
    by (unfold text_of; destruct (a_replace a); reflexivity).
  assert (N1 : no_false st1) by (subst st1; destruct (a_replace a); [intros k n; discriminate | exact NF]).
  assert (F1 : fs st1 = fs st) by (subst st1; destruct (a_replace a); reflexivity).
  assert (U1 : forall k n, user st1 k n = Some true <-> a_replace a = false /\ user st k n = Some true).
  { intros k n. subst st1. destruct (a_replace a); cbn [set_user user]; split; try tauto; try discriminate. intros [? _]; discriminate. }
  assert (B : forall name n, In (name, n) (entries a) -> ~ In 124%N name) by (intros name n I; apply (W name n I)).
  clearbody st1. destruct (entries a) as [|e es] eqn:E.
  - cbn [map joined]. split; [exact N1|]. intros k n. rewrite U1. split; [auto|]. intros [V | (x & y & [] & _)]. exact V.
  - assert (J : joined (map entry_text (e :: es)) <> []).
    { destruct e as [name n]. destruct (joined_head name n es) as [x X]. rewrite X. destruct name; discriminate. }
    destruct (joined (map entry_text (e :: es))) as [|c t] eqn:Q; [congruence|]. rewrite <- Q.
    rewrite split_joined by (auto; discriminate).
    destruct (ignore_entries w (e :: es) st1 B N1) as [X Y]. split; [exact X|]. intros k n. rewrite Y, U1, F1. reflexivity.
Qed.

Lemma run_user w f h : legal w f h -> no_false (run w f h) /\
  forall k n, user (run w f h) k (Z.of_N n) = Some true <-> asked w f h k n.
Proof.
  induction h as [|o h IH] using rev_ind; intros L.
  - split; [intros k n; discriminate|]. intros k n. split; [discriminate|]. intros (h1 & a & h2 & name & E & _). destruct h1; discriminate.
  - pose proof (legal_prefix _ _ _ _ L) as L'. destruct (IH L') as [NF U]. pose proof (run_inv w f h L') as I. rewrite run_snoc.
    assert (K : (forall t, o <> IgnoreAt t) -> forall k n, asked w f (h ++ [o]) k n <-> asked w f h k n).
    { intros NE k n. split.
      - intros (h1 & a & h2 & name & E & W & J & C & X & H). destruct h2 as [|x h2 _] using rev_ind.
        + apply app_inj_tail in E. destruct E as [_ E]. destruct (NE _ E).
        + rewrite app_comm_cons, app_assoc in E. apply app_inj_tail in E. destruct E as [-> _]. exists h1, a, h2, name. refine (conj eq_refl (conj W (conj J (conj C (conj X _))))).
          intros r Q. apply (H r). apply in_or_app. auto.
      - intros (h1 & a & h2 & name & -> & W & J & C & X & H). exists h1, a, (h2 ++ [o]), name. rewrite <- app_assoc. refine (conj eq_refl (conj W (conj J (conj C (conj X _))))).
        intros r Q. apply in_app_or in Q. destruct Q as [Q | [Q | []]]; [exact (H r Q) | exact (NE _ Q)]. }
    destruct o as [k' o|a|a|t|b|p q]; cbn [step].
    + split; [exact NF|]. intros k n. rewrite K by congruence. apply U.
    + split; [exact NF|]. intros k n. rewrite K by congruence. apply U.
    + split; [exact NF|]. intros k n. rewrite K by congruence. apply U.
    + destruct L as (_ & L2 & _). destruct (L2 t) as (a & -> & W); [apply in_or_app; right; left; reflexivity|].
      destruct (ignore_at_user w (run w f h) a W NF) as [A B]. split; [exact A|]. intros k n. rewrite B, U. split.
      * intros [[R (h1 & a' & h2 & name & -> & W' & J & C & X & H)] | (name & m & J & C & X & E)].
        -- exists h1, a', (h2 ++ [IgnoreAt (text_of a)]), name. rewrite <- app_assoc. refine (conj eq_refl (conj W' (conj J (conj C (conj X _))))). intros r Q. apply in_app_or in Q.
           destruct Q as [Q | [Q | []]]; [exact (H r Q)|]. injection Q as Q. pose proof (text_replace a W) as T.
           assert (T' : starts_with (lit "REPLACE:") (text_of a) = true) by (apply starts_with_spec; exists r; exact Q). congruence.
        -- exists h, a, [], name. apply N2Z.inj in E. subst m. refine (conj eq_refl (conj W (conj J (conj C (conj _ (fun r Q => Q)))))).
           intros Z. apply X. apply (i_exists _ _ _ _ I). exact Z.
      * intros (h1 & a' & h2 & name & E & W' & J & C & X & H). destruct h2 as [|x h2 _] using rev_ind.
        -- apply app_inj_tail in E. destruct E as [_ E]. injection E as E. right.
           assert (SE : entries a = entries a').
           { pose proof (text_replace a W) as T1. pose proof (text_replace a' W') as T2. rewrite E in T1.
             assert (T : a_replace a = a_replace a') by congruence.
             assert (J' : joined (map entry_text (entries a)) = joined (map entry_text (entries a'))).
             { unfold text_of in E. rewrite T in E. destruct (a_replace a'); [apply app_inv_head in E|]; exact E. }
             assert (S : forall b, wf_ask b -> joined (map entry_text (entries b)) = [] -> entries b = []).
             { intros b _ Z. destruct (entries b) as [|[nm v] l]; [reflexivity|]. exfalso. destruct (joined_head nm v l) as [x XX].
               rewrite XX in Z. destruct nm; discriminate. }
             assert (B1 : forall name n, In (name, n) (entries a) -> ~ In 124%N name) by (intros x y Q; apply (W x y Q)).
             assert (B2 : forall name n, In (name, n) (entries a') -> ~ In 124%N name) by (intros x y Q; apply (W' x y Q)).
             assert (M : map entry_text (entries a) = map entry_text (entries a')).
             { destruct (entries a) as [|e1 l1] eqn:E1.
               - cbn [map joined] in J'. rewrite (S a' W' (eq_sym J')). reflexivity.
               - assert (Z : entries a' <> []) by (intros Z; rewrite Z in J; destruct J).
                 rewrite <- (split_joined (e1 :: l1)), J', split_joined; auto. discriminate. }
             revert M B1 B2. clear. generalize (entries a) (entries a'). induction l as [|[x1 y1] l IH]; intros [|[x2 y2] l2] M B1 B2; try discriminate; [reflexivity|].
             cbn [map] in M. injection M as M1 M2.
             pose proof (entry_split x1 y1 (B1 x1 y1 (or_introl eq_refl))) as P1. pose proof (entry_split x2 y2 (B2 x2 y2 (or_introl eq_refl))) as P2.
             assert (S1 : [x1; dec y1] = [x2; dec y2]) by (etransitivity; [symmetry; exact P1|]; etransitivity; [|exact P2]; exact (f_equal (split_on 124%N) M1)).
             injection S1 as S0 S1. subst x2.
             assert (D : Some (Z.of_N y1) = Some (Z.of_N y2)) by (rewrite <- !py_int_dec0, S1; reflexivity). injection D as D. apply N2Z.inj in D. subst y2.
             f_equal. apply IH; [exact M2| |]; intros nm v Q; [apply (B1 nm v) | apply (B2 nm v)]; right; exact Q. }
           exists name, n. rewrite SE. repeat split; auto. intros Z. apply X. apply (i_exists _ _ _ _ I). exact Z.
        -- rewrite app_comm_cons, app_assoc in E. apply app_inj_tail in E. destruct E as [-> <-]. left. split.
           ++ destruct (a_replace a) eqn:R; [exfalso|reflexivity]. apply (H (joined (map entry_text (entries a)))). apply in_or_app. right. left.
              unfold text_of. rewrite R. reflexivity.
           ++ exists h1, a', h2, name. refine (conj eq_refl (conj W' (conj J (conj C (conj X _))))). intros r Q. apply (H r). apply in_or_app. auto.
    + split; [exact NF|]. intros k n. rewrite K by congruence. apply U.
    + destruct (handle_ok w f h (run w f h) p q I) as (_ & _ & _ & UE & _). unfold no_false. rewrite UE. split; [exact NF|].
      intros k n. rewrite K by congruence. apply U.
Qed.

Lemma run_lines w f h k m ls : legal w f h -> fs (run w f h) k = Some (m, ls) -> Forall one_line ls.
Proof.
  intros L E. pose proof (run_fs w f h k L) as P. rewrite E in P. destruct L as (L1 & _ & L3 & _).
  destruct P as [(h1 & h2 & H & _) | [_ H]].
  - destruct (L1 _ _ _ _ H) as (_ & m' & ls' & Q & _ & F). injection Q as <- <-. exact F.
  - exact (L3 k m ls (eq_sym H)).
Qed.

Lemma line_of_spec ls n l : l <> [] -> (line_of ls (Z.of_N n) = l <-> (1 <= n)%N /\ nth_error ls (N.to_nat (n - 1)) = Some l).
Proof.
  intros NE. unfold line_of. destruct (Z.leb_spec 1 (Z.of_N n)) as [H | H].
  - replace (Z.to_nat (Z.of_N n - 1)) with (N.to_nat (n - 1)) by lia. split.
    + intros E. split; [lia|]. destruct (nth_error ls (N.to_nat (n - 1))) as [x|] eqn:X.
      * pose proof (nth_error_nth _ _ ([] : str) X) as Q. unfold str in *. congruence.
      * apply nth_error_None in X. pose proof (nth_overflow ls ([] : str) X) as Q. unfold str in *. congruence.
    + intros [_ E]. apply nth_error_nth. exact E.
  - split; [congruence|]. intros [Q _]. lia.
Qed.

Lemma expected_spared w f h a n : legal w f h -> (expected w (run w f h) a (Z.of_N n) = true <-> spared w f h (a, n)).
Proof.
  intros L. destruct (run_user w f h L) as [NF U]. unfold expected, spared. cbn [fst snd].
  assert (S : tagged (line_of (src w (run w f h) (canon w a)) (Z.of_N n)) = true <-> exists l, source_line w f h (canon w a) n l /\ marked l).
  { pose proof (run_fs w f h (canon w a) L) as P. set (ls := src w (run w f h) (canon w a)).
    assert (OL : Forall one_line ls).
    { subst ls. unfold src. destruct (fs (run w f h) (canon w a)) as [[m x]|] eqn:E; [exact (run_lines w f h _ m x L E)|].
      destruct (loader w (canon w a)) as [x|] eqn:Y; [|constructor]. destruct L as (_ & _ & _ & L4). exact (L4 _ _ Y). }
    assert (O1 : forall l, nth_error ls (N.to_nat (n - 1)) = Some l -> one_line l).
    { intros l E. apply nth_error_In in E. rewrite Forall_forall in OL. exact (OL l E). }
    split.
    - intros T. set (l := line_of ls (Z.of_N n)) in *. assert (NE : l <> []) by (intros Z; rewrite Z in T; discriminate).
      destruct (proj1 (line_of_spec ls n l NE) eq_refl) as [N1 E]. exists l. split; [|apply tagged_spec; [exact (O1 l E) | exact T]].
      exists (fs (run w f h) (canon w a)), ls. split; [exact P|]. split; [|auto]. subst ls. unfold src in *.
      destruct (fs (run w f h) (canon w a)) as [[m x]|]; [reflexivity|]. destruct (loader w (canon w a)); [reflexivity|].
      destruct (N.to_nat (n - 1)); discriminate.
    - intros (l & (o & ls' & P' & S & N1 & E) & M). pose proof (present_fun _ _ _ _ _ P P') as <-.
      assert (Q : ls' = ls). { subst ls. unfold src. destruct (fs (run w f h) (canon w a)) as [[m x]|]; [auto|]. rewrite S. reflexivity. }
      subst ls'. assert (NE : l <> []) by (intros ->; destruct M as ([|? ?] & b & c & Z); discriminate).
      rewrite (proj2 (line_of_spec ls n l NE) (conj N1 E)). apply tagged_spec; [exact (O1 l E) | exact M]. }
  destruct (user (run w f h) (canon w a) (Z.of_N n)) as [b|] eqn:E.
  - destruct b; [|destruct (NF _ _ E)]. split; [intros _; left; apply U; exact E|reflexivity].
  - rewrite S. split; [auto|]. intros [A | A]; [apply U in A; congruence | exact A].
Qed.

(** ** Theorems *)

(** The debugger stops at an exception unless one of the two lines is asked for or marked in the present source. *)
Theorem stops_exact w f h a1 n1 a2 n2 : legal w f h ->
  (stops w f h (a1, Z.of_N n1) (a2, Z.of_N n2) = true <->
   switched_off h \/ (~ spared w f h (a1, n1) /\ ~ spared w f h (a2, n2))).
Proof.
  intros L. unfold stops. destruct (handle_ok w f h (run w f h) (a1, Z.of_N n1) (a2, Z.of_N n2) (run_inv w f h L)) as (-> & _). cbn [fst snd].
  rewrite orb_true_iff, andb_true_iff, !negb_true_iff, (run_enabled w f h L), <- (expected_spared w f h a1 n1 L), <- (expected_spared w f h a2 n2 L).
  rewrite !not_true_iff_false. reflexivity.
Qed.

(** What is asked for stays so until it is replaced, whatever happens to the files. *)
Theorem asked_kept w f h1 h2 a1 n1 a2 n2 : legal w f (h1 ++ h2) -> asked w f h1 (canon w a1) n1 \/ asked w f h1 (canon w a2) n2 ->
  (forall r, ~ In (IgnoreAt (lit "REPLACE:" ++ r)) h2) -> ~ switched_off (h1 ++ h2) ->
  stops w f (h1 ++ h2) (a1, Z.of_N n1) (a2, Z.of_N n2) = false.
Proof.
  intros L A R O.
  assert (K : forall k n, asked w f h1 k n -> asked w f (h1 ++ h2) k n).
  { intros k n (g1 & a & g2 & name & -> & W & J & C & X & H). exists g1, a, (g2 ++ h2), name. rewrite <- app_assoc.
    refine (conj eq_refl (conj W (conj J (conj C (conj X _))))). intros r Q. apply in_app_or in Q. destruct Q as [Q | Q]; [exact (H r Q) | exact (R r Q)]. }
  apply not_true_iff_false. rewrite (stops_exact w f (h1 ++ h2) a1 n1 a2 n2 L). intros [S | [S1 S2]]; [exact (O S)|].
  destruct A as [A | A]; [apply S1 | apply S2]; left; apply K; exact A.
Qed.

(** ** Examples and what does not hold *)

(** The names 0 and 10 are of the file 0; the file 1 does not exist. *)
Definition w0 : world := World (fun a => if a =? 10 then 0 else a) (fun s => if str_eqb s (lit "a.py") then 0 else 1)
  (fun k => if k =? 1 then Some [lit "y() # @IgnoreException"] else None).
Definition f0 : files := fun k => if k =? 0 then Some (5, [lit "x()"; lit "z() # see @IgnoreException"]) else None.
Definition changed : list op := [Exc (0, 2%Z) (0, 1%Z); Write 0 (Some (6, [lit "z() # @IgnoreException"; lit "x()"]))].

Example stops_case : stops w0 f0 [] (0, 1%Z) (0, 1%Z) = true /\ stops w0 f0 [] (0, 2%Z) (0, 1%Z) = false /\
  stops w0 f0 changed (0, 2%Z) (0, 2%Z) = true /\ stops w0 f0 changed (0, 2%Z) (10, 1%Z) = false /\ stops w0 f0 [] (1, 1%Z) (0, 1%Z) = false.
Proof. repeat split. Qed.

Example asked_case : let h := [IgnoreAt (lit "a.py|1||b.py|7"); IgnoreAt (lit "a.py|4")] in
  map (fun n => stops w0 f0 h (0, n) (0, n)) [1; 4; 7]%Z = [false; false; true] /\
  map (fun n => stops w0 f0 (h ++ [IgnoreAt (lit "REPLACE:a.py|7")]) (0, n) (0, n)) [1; 4; 7]%Z = [true; true; false].
Proof. split; reflexivity. Qed.

Example legal_case : legal w0 f0 (changed ++ [IgnoreAt (lit "a.py|1||b.py|7"); Enable false]).
Proof.
  assert (OL : forall l, existsb (N.eqb 10) l = false -> one_line l).
  { intros l E. exists l. split; [auto|]. intros I. assert (existsb (N.eqb 10) l = true) by (apply existsb_exists; exists 10%N; auto). congruence. }
  split; [|split; [|split]].
  - intros h1 k o h2 E. unfold changed in E. cbn [app] in E. destruct h1 as [|o1 h1]; [discriminate|]. injection E as <- E.
    destruct h1 as [|o2 h1].
    + injection E as <- <- E. split; [discriminate|]. eexists _, _. split; [reflexivity|]. split.
      * intros [[ls U] | [ls [U | []]]]; discriminate.
      * repeat constructor; apply OL; reflexivity.
    + injection E as <- E. destruct h1 as [|o3 h1]; [discriminate|]. injection E as <- E. destruct h1 as [|o4 h1]; [discriminate|].
      injection E as <- E. destruct h1; discriminate.
  - intros t [E | [E | [E | [E | []]]]]; try discriminate. injection E as <-.
    exists (Ask false [(lit "a.py", 1%N); (lit "b.py", 7%N)]). split; [reflexivity|]. intros name n [E | [E | []]]; injection E as <- <-; split; try discriminate.
    + intros I. assert (existsb (N.eqb 124) (lit "a.py") = true) by (apply existsb_exists; exists 124%N; auto). discriminate.
    + intros I. assert (existsb (N.eqb 124) (lit "b.py") = true) by (apply existsb_exists; exists 124%N; auto). discriminate.
  - intros k m ls E. unfold f0 in E. destruct (k =? 0); [|discriminate]. injection E as <- <-. repeat constructor; apply OL; reflexivity.
  - intros k ls E. cbn in E. destruct (k =? 1); [|discriminate]. injection E as <-. repeat constructor; apply OL; reflexivity.
Qed.

(** A text of the program is taken for a comment. *)
Theorem text_marked_refuted : stops w0 (fun _ => Some (1, [lit "f('#', '@IgnoreException')"])) [] (0, 1%Z) (0, 1%Z) = false.
Proof. reflexivity. Qed.

(** A change which keeps the size and the time of the file is not seen. *)
Theorem same_time_refuted : exists h, stops w0 f0 h (0, 1%Z) (0, 1%Z) = true /\ stops w0 (fs (run w0 f0 h)) [] (0, 1%Z) (0, 1%Z) = false.
Proof. exists [Exc (0, 1%Z) (0, 1%Z); Write 0 (Some (5, [lit "z() # @IgnoreException"]))]. split; reflexivity. Qed.

(** The lines of a file which has been deleted are still ignored when it is met under another name. *)
Theorem deleted_refuted : exists h, stops w0 f0 h (10, 2%Z) (10, 2%Z) = false /\ stops w0 (fs (run w0 f0 h)) [] (10, 2%Z) (10, 2%Z) = true.
Proof. exists [Exc (0, 2%Z) (0, 2%Z); Write 0 None]. split; reflexivity. Qed.

(** A file which is put back as it was, and which has two names, keeps the lines of the version in between. *)
Theorem restored_refuted : exists h, fs (run w0 f0 h) 0 = f0 0 /\ stops w0 f0 h (10, 1%Z) (10, 1%Z) = false /\ stops w0 f0 [] (10, 1%Z) (10, 1%Z) = true.
Proof.
  exists [Exc (10, 1%Z) (10, 1%Z); Write 0 (Some (6, [lit "z() # @IgnoreException"])); Exc (0, 1%Z) (0, 1%Z); Write 0 (f0 0)].
  repeat split.
Qed.

(** Where other code has read the source from a loader, a file created later is not read. *)
Theorem created_refuted : exists h, stops w0 f0 h (1, 1%Z) (1, 1%Z) = false /\ stops w0 (fs (run w0 f0 h)) [] (1, 1%Z) (1, 1%Z) = true.
Proof. exists [ReadLines 1; Write 1 (Some (3, [lit "x()"]))]. split; reflexivity. Qed.

(** A line of a file which does not exist yet is asked for in vain; a vertical bar in a name ends the command. *)
Theorem asked_early_refuted : stops w0 f0 [IgnoreAt (lit "b.py|7"); Write 1 (Some (3, []))] (1, 7%Z) (1, 7%Z) = true /\
  stops w0 f0 [Write 1 (Some (3, [])); IgnoreAt (lit "b.py|7")] (1, 7%Z) (1, 7%Z) = false.
Proof. split; reflexivity. Qed.
Theorem bar_refuted : stops w0 f0 [IgnoreAt (lit "x|y.py|3||a.py|1")] (0, 1%Z) (0, 1%Z) = true /\
  stops w0 f0 [IgnoreAt (lit "a.py|1||x|y.py|3")] (0, 1%Z) (0, 1%Z) = false.
Proof. split; reflexivity. Qed.

Print Assumptions stops_exact.
Print Assumptions asked_kept.
Print Assumptions text_marked_refuted.
Print Assumptions same_time_refuted.
Print Assumptions deleted_refuted.
Print Assumptions restored_refuted.
Print Assumptions created_refuted.
Print Assumptions asked_early_refuted.
Print Assumptions bar_refuted.
