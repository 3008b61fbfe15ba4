(** C24: quoting arguments for a Windows command line and splitting it again. *)
From Coq Require Import String List NArith Bool Lia Arith.
From Verif Require Import Base WinArgs.
Import ListNotations.

(** ** Specification *)

(** Arguments which survive: not ending in a backslash and a newline. *)
Definition plain_end (a : str) : Prop := ~ exists w, a = w ++ [bs; nl].
(** An argument that is written without quotes and ends in a backslash. *)
Definition bare_backslash (a : str) : Prop :=
  (exists w, a = w ++ [bs]) /\ (forall c, In c a -> c <> sp /\ c <> dq /\ c <> tab /\ c <> nl /\ c <> vt).

(** ** Facts *)

Lemma bss_app n m : bss (n + m) = bss n ++ bss m.
Proof. apply repeat_app. Qed.
Lemma bss_snoc n : bss n ++ [bs] = bs :: bss n.
Proof. unfold bss. induction n; cbn [repeat app]; congruence. Qed.
Lemma bss_cons_app n r : bss n ++ bs :: r = bss (S n) ++ r.
Proof. change (bs :: r) with ([bs] ++ r). now rewrite app_assoc, bss_snoc. Qed.

Lemma chars_bss m k b r n l : chars (St m k b r) (bss n ++ l) = chars (St m (n + k) b r) l.
Proof.
  revert k; induction n; intros k; [reflexivity|].
  unfold bss in *. cbn [repeat app chars].
  change (char (St m k b r) bs _) with (St m (S k) b r).
  rewrite IHn. now rewrite <- plus_n_Sm.
Qed.

Lemma char_next s c x y : c <> dq -> char s c x = char s c y.
Proof.
  intros H. unfold char. destruct (N.eqb c bs); auto. apply N.eqb_neq in H. rewrite !H, !andb_false_r.
  destruct (md _); auto.
Qed.

(** *** Arguments in quotes *)

(** Both substitutions together *)
Fixpoint q (a : str) (n : nat) : str :=
  match a with
  | [] => bss (2 * n)
  | c :: r =>
      if N.eqb c bs then q r (S n)
      else if N.eqb c dq then bss (2 * n + 1) ++ dq :: q r 0
      else bss n ++ c :: q r 0
  end.

Lemma dbl_bss n t k : dbl_end (bss n ++ t) k = dbl_end t (n + k).
Proof.
  revert k; induction n; intros k; [reflexivity|]. unfold bss in *. cbn [repeat app dbl_end].
  rewrite N.eqb_refl, IHn. now rewrite <- plus_n_Sm.
Qed.
Lemma esc_cons_ne r n : r <> [] -> esc_quotes r n <> [].
Proof.
  revert n; induction r as [|c r IH]; intros n; [congruence|]. intros _. cbn [esc_quotes].
  destruct (N.eqb c bs).
  - destruct r; [discriminate|]. apply IH. discriminate.
  - destruct (N.eqb c dq); intros H; apply app_eq_nil in H; destruct H; discriminate.
Qed.

Lemma quote_q a n : (~ exists w, bss n ++ a = w ++ [bs; nl]) -> dbl_end (esc_quotes a n) 0 = q a n.
Proof.
  revert n; induction a as [|c r IH]; intros n Hok.
  - cbn [esc_quotes q]. rewrite <- (app_nil_r (bss n)), dbl_bss. cbn [dbl_end]. f_equal. lia.
  - cbn [esc_quotes q]. destruct (N.eqb_spec c bs) as [->|nb].
    + apply IH. now rewrite <- bss_cons_app.
    + destruct (N.eqb_spec c dq) as [->|nd].
      * rewrite dbl_bss. cbn [dbl_end]. change (N.eqb dq bs) with false. change (N.eqb dq nl) with false. cbn [andb].
        rewrite IH. { do 2 f_equal. lia. }
        intros [w Hw]. apply Hok. exists (bss n ++ dq :: w). cbn [bss repeat app] in Hw. rewrite Hw.
        now rewrite <- app_assoc.
      * rewrite dbl_bss. cbn [dbl_end]. apply N.eqb_neq in nb. rewrite nb. apply N.eqb_neq in nb.
        assert (IH0 : dbl_end (esc_quotes r 0) 0 = q r 0).
        { apply IH. intros [w Hw]. apply Hok. exists (bss n ++ c :: w). cbn [bss repeat app] in Hw. rewrite Hw.
          now rewrite <- app_assoc. }
        destruct (N.eqb_spec c nl) as [->|nn]; cbn [andb].
        2: { rewrite IH0. do 2 f_equal. lia. }
        destruct r as [|d r].
        -- cbn [esc_quotes bss repeat]. destruct n.
           ++ reflexivity.
           ++ exfalso. apply Hok. exists (bss n). rewrite <- bss_cons_app. reflexivity.
        -- destruct (esc_quotes (d :: r) 0) eqn:Ee.
           ++ exfalso. revert Ee. apply esc_cons_ne. discriminate.
           ++ rewrite IH0. do 2 f_equal. lia.
Qed.

(** What follows an argument: nothing, or a space. *)
Definition after (l : str) : Prop := l = [] \/ exists r, l = sp :: r.

Lemma odd_2n n : Nat.odd (2 * n) = false.
Proof. rewrite <- Nat.negb_even. rewrite (proj2 (Nat.even_spec (2 * n))); auto. exists n; reflexivity. Qed.
Lemma odd_2n1 n : Nat.odd (2 * n + 1) = true.
Proof. apply Nat.odd_spec. exists n; reflexivity. Qed.
Lemma div2_2n n : Nat.div2 (2 * n) = n.
Proof. apply Nat.div2_double. Qed.
Lemma div2_2n1 n : Nat.div2 (2 * n + 1) = n.
Proof. replace (2 * n + 1) with (S (2 * n)) by lia. apply Nat.div2_succ_double. Qed.

Lemma char_close n b r next : next <> Some dq ->
  char (St InQuote (2 * n) b r) dq next = St Arg 0 (b ++ bss n) r.
Proof.
  intros Hn. unfold char. change (N.eqb dq bs) with false. cbn [bk]. rewrite odd_2n. cbn [andb].
  pose proof (div2_2n n) as Hd. rewrite N.eqb_refl. destruct (2 * n) as [|k].
  - change (Nat.div2 0) with 0 in Hd. subst n. cbn [md bk buf res bss repeat]. rewrite app_nil_r.
    destruct next as [c|]; auto. destruct (N.eqb_spec c dq); [congruence|reflexivity].
  - cbn [md bk buf res]. rewrite Hd, app_nil_r.
    destruct next as [c|]; auto. destruct (N.eqb_spec c dq); [congruence|reflexivity].
Qed.
Lemma char_escaped n b r next :
  char (St InQuote (2 * n + 1) b r) dq next = St InQuote 0 (b ++ bss n ++ [dq]) r.
Proof.
  unfold char. change (N.eqb dq bs) with false. cbn [bk md buf res]. rewrite odd_2n1, N.eqb_refl. cbn [andb].
  pose proof (div2_2n1 n) as Hd. replace (2 * n + 1) with (S (2 * n)) in * by lia. now rewrite Hd.
Qed.
Lemma char_in_quote n b r c next : c <> bs -> c <> dq ->
  char (St InQuote n b r) c next = St InQuote 0 (b ++ bss n ++ [c]) r.
Proof.
  intros Hb Hd. unfold char. apply N.eqb_neq in Hb, Hd. rewrite Hb, Hd, andb_false_r. cbn [bk md buf res].
  destruct n; cbn [md bk buf res]; [reflexivity|]. now rewrite app_assoc.
Qed.

Lemma chars_q a : forall n b r l, after l ->
  chars (St InQuote 0 b r) (q a n ++ dq :: l) = chars (St Arg 0 (b ++ bss n ++ a) r) l.
Proof.
  induction a as [|c a IH]; intros n b r l Hl; cbn [q].
  - rewrite chars_bss. cbn [chars]. rewrite Nat.add_0_r, char_close, app_nil_r; auto.
    destruct Hl as [-> |[l' ->]]; discriminate.
  - destruct (N.eqb_spec c bs) as [->|nb].
    + rewrite IH by auto. now rewrite bss_cons_app.
    + destruct (N.eqb_spec c dq) as [->|nd].
      * rewrite <- app_assoc. rewrite chars_bss, Nat.add_0_r. cbn [app chars]. rewrite char_escaped.
        rewrite IH by auto. cbn [bss repeat app]. now rewrite <- !app_assoc.
      * rewrite <- app_assoc. rewrite chars_bss, Nat.add_0_r. cbn [app chars]. rewrite char_in_quote by auto.
        rewrite IH by auto. cbn [bss repeat app]. now rewrite <- !app_assoc.
Qed.

(** *** Arguments without quotes *)
Lemma not_special c : special c = false -> c <> sp /\ c <> dq /\ c <> tab /\ c <> nl /\ c <> vt.
Proof.
  unfold special. cbn [existsb]. rewrite !orb_false_iff, !N.eqb_neq. tauto.
Qed.
Lemma char_plain m k b r c next : c <> bs -> special c = false -> m <> InQuote ->
  char (St m k b r) c next = St Arg 0 (b ++ bss k ++ [c]) r.
Proof.
  intros Hb Hs Hm. apply not_special in Hs. destruct Hs as (H1 & H2 & H3 & _).
  unfold char. apply N.eqb_neq in Hb, H1, H2, H3. rewrite Hb, H1, H2, H3, andb_false_r. cbn [bk md buf res orb].
  destruct m; try congruence; destruct k; cbn [md bk buf res]; first [reflexivity | rewrite ?app_assoc; reflexivity].
Qed.
Lemma chars_plain a : forall m k b r l, existsb special a = false -> m <> InQuote -> (m = Default -> b = []) ->
  exists m' k' b', chars (St m k b r) (a ++ l) = chars (St m' k' b' r) l /\
    b' ++ bss k' = b ++ bss k ++ a /\ m' <> InQuote /\ (m' = Default -> b' = []) /\
    (k' <> 0 -> k <> 0 \/ exists w, a = w ++ [bs]).
Proof.
  induction a as [|c a IH]; intros m k b r l Hs Hm Hd.
  - exists m, k, b. rewrite app_nil_r. auto 7.
  - cbn [existsb] in Hs. apply orb_false_iff in Hs. destruct Hs as [Hc Hs].
    cbn [app chars]. destruct (N.eqb_spec c bs) as [->|nb].
    + change (char (St m k b r) bs _) with (St m (S k) b r).
      destruct (IH m (S k) b r l Hs Hm Hd) as (m' & k' & b' & E & Hb & Hm' & Hd' & Hk).
      exists m', k', b'. rewrite E, Hb, bss_cons_app. repeat split; auto.
      intros Hk'. destruct (list_eq_dec N.eq_dec a []) as [->|na].
      * right. now exists [].
      * destruct a as [|x a]; [congruence|]. destruct (exists_last na) as (w & y & Hw).
        destruct (N.eq_dec y bs) as [->|ny].
        -- right. exists (bs :: w). now rewrite Hw.
        -- exfalso. (* the last character is not a backslash *)
           clear IH. assert (L : exists z, b' ++ bss k' = z ++ [y]).
           { rewrite Hb, Hw. exists (b ++ bss (S k) ++ w). now rewrite !app_assoc. }
           destruct L as [z L]. destruct k' as [|k']; [congruence|].
           unfold bss in L. cbn [repeat] in L. rewrite <- bss_snoc in L. fold (bss k') in L.
           rewrite app_assoc in L. apply app_inj_tail in L. destruct L. congruence.
    + rewrite char_plain by auto.
      destruct (IH Arg 0 (b ++ bss k ++ [c]) r l Hs) as (m' & k' & b' & E & Hb & Hm' & Hd' & Hk); try discriminate.
      exists m', k', b'. rewrite E, Hb. repeat split; auto.
      * cbn [bss repeat app]. now rewrite <- !app_assoc.
      * intros Hk'. destruct (Hk Hk') as [?|[w ->]]; [congruence|]. right. now exists (c :: w).
Qed.

(** *** One argument *)
Lemma char_space m k b r next : m <> InQuote -> b ++ bss k <> [] \/ m = Arg -> (m = Default -> b = []) ->
  char (St m k b r) sp next = St Default 0 [] (r ++ [b ++ bss k]).
Proof.
  intros Hm Hne Hd. unfold char. change (N.eqb sp bs) with false. change (N.eqb sp dq) with false.
  rewrite andb_false_r. cbn [bk md buf res]. change (N.eqb sp sp || N.eqb sp tab) with true.
  destruct m; try congruence; destruct k; cbn [md bk buf res]; rewrite ?app_nil_r; try reflexivity.
  rewrite Hd in Hne by auto. destruct Hne as [H|H]; [now cbn in H|discriminate].
Qed.

Lemma one_arg a r l : after l -> plain_end a -> (l = [] -> ~ bare_backslash a) ->
  exists m k b, chars (St Default 0 [] r) (quote_arg a ++ l) = chars (St m k b r) l /\
    m <> InQuote /\ (b ++ bss k <> [] \/ m = Arg) /\ (m = Default -> b = []) /\ b ++ bss k = a /\ (l = [] -> k = 0).
Proof.
  intros Hl Hp Hb. unfold quote_arg.
  destruct (negb (match a with [] => true | _ => false end) && negb (existsb special a)) eqn:C.
  - apply andb_true_iff in C. destruct C as [C1 C2]. apply negb_true_iff in C1, C2.
    destruct (chars_plain a Default 0 [] r l C2) as (m & k & b & E & H & Hm & Hd & Hk); try discriminate; auto.
    exists m, k, b. cbn [bss repeat app] in H. repeat split; auto.
    + left. rewrite H. intros ->. discriminate.
    + intros ->. destruct k; auto. exfalso. destruct Hk as [?|W]; try congruence.
      apply Hb; auto. split; auto. intros c Hc. apply not_special.
      destruct (special c) eqn:Hs; auto. exfalso.
      assert (existsb special a = true) by (apply existsb_exists; eauto). congruence.
  - exists Arg, 0, a. rewrite quote_q by exact Hp. cbn [app chars].
    change (char (St Default 0 [] r) dq _) with (St InQuote 0 [] r).
    rewrite <- app_assoc. cbn [app]. rewrite chars_q by auto. cbn [bss repeat app].
    rewrite app_nil_r. repeat split; auto; discriminate.
Qed.

(** ** Theorem *)

Fixpoint last_ok (args : list str) : Prop :=
  match args with
  | [] => True
  | [a] => ~ bare_backslash a
  | _ :: r => last_ok r
  end.

Theorem win_args_round_trip args :
  Forall plain_end args -> last_ok args ->
  to_args (join (map quote_arg args)) = args.
Proof.
  intros Hp Hl. unfold to_args.
  enough (G : forall r, finish (chars (St Default 0 [] r) (join (map quote_arg args))) = r ++ args) by apply G.
  induction Hp as [|a args Ha Hp IH]; intros r.
  - cbn. now rewrite app_nil_r.
  - destruct args as [|a' args].
    + cbn [map join]. rewrite <- (app_nil_r (quote_arg a)).
      destruct (one_arg a r [] (or_introl eq_refl) Ha) as (m & k & b & E & Hm & Hne & Hd & Hb & Hk); auto.
      rewrite E. cbn [chars]. rewrite (Hk eq_refl) in *. cbn [bss repeat] in *. rewrite app_nil_r in *. subst b.
      unfold finish. cbn [buf md res]. destruct a; auto. destruct m; auto.
      destruct Hne; congruence.
    + cbn [map join]. change (match map quote_arg args with [] => quote_arg a' | _ :: _ => _ end)
        with (join (map quote_arg (a' :: args))).
      destruct (one_arg a r (sp :: join (map quote_arg (a' :: args)))) as (m & k & b & E & Hm & Hne & Hd & Hb & Hk); auto.
      * right. eexists; reflexivity.
      * discriminate.
      * rewrite E. cbn [chars]. rewrite char_space by auto. rewrite Hb.
        rewrite IH by exact Hl. now rewrite <- app_assoc.
Qed.

(** ** Examples and limits *)
Local Open Scope string_scope.
Local Open Scope list_scope.

(** python, an empty argument, quotes, backslashes and blanks *)
Example ex_args :
  let args := [lit "python"; []; [dq; bs; dq; sp; bs; bs]; lit "C:\My Dir\"; lit "C:\x"] in
  to_args (join (map quote_arg args)) = args.
Proof. reflexivity. Qed.
Example ex_args_hyp : Forall plain_end [lit "python"; lit "C:\My Dir\"] /\ last_ok [lit "python"; lit "C:\My Dir\"].
Proof.
  split.
  - repeat constructor; intros [w H]; apply (f_equal (@rev N)) in H; rewrite rev_app_distr in H; discriminate.
  - intros [_ H]. destruct (H 32%N) as [H' _]; [vm_compute; tauto|]. now apply H'.
Qed.

(** A last argument ending in a backslash, written without quotes, loses it. *)
Theorem win_args_backslash_refuted : exists args, to_args (join (map quote_arg args)) <> args.
Proof. exists [lit "dir"; lit "C:\"]. discriminate. Qed.

(** An argument ending in a backslash and a newline gets a second backslash. *)
Theorem win_args_newline_refuted : exists a, to_args (join (map quote_arg [a; lit "x"])) = [bs :: a; lit "x"].
Proof. exists [bs; nl]. reflexivity. Qed.

Print Assumptions win_args_round_trip.
Print Assumptions win_args_backslash_refuted.
Print Assumptions win_args_newline_refuted.
