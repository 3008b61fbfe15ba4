(** Properties C07 and C20: hit counts and hit conditions. *)
From Coq Require DecimalFacts DecimalN.
From Coq Require Import List NArith ZArith Bool String Lia.
From Verif Require Import Base HitCond.
Import ListNotations.

(** ** C07 *)

(** Specification: 1, 2, ..., n. *)
Fixpoint ordinals (n : nat) : list N :=
  match n with O => [] | S k => ordinals k ++ [N.of_nat (S k)] end.

Definition hinv (s : hstate) : Prop :=
  map snd (log s) = ordinals (List.length (log s)) /\
  (forall t, ph s t <> Idle <-> owner s = Some t) /\
  match owner s with
  | None => count s = N.of_nat (List.length (log s))
  | Some t => match ph s t with
              | Idle => False
              | Locked => count s = N.of_nat (List.length (log s))
              | Read v => v = N.of_nat (List.length (log s))
              | Written => count s = N.of_nat (S (List.length (log s)))
              | Evaluated => count s = N.of_nat (List.length (log s))
              end
  end.

Lemma set_ph_same f t p : set_ph f t p t = p.
Proof. unfold set_ph. now rewrite Nat.eqb_refl. Qed.

Lemma set_ph_other f t p t' : t' <> t -> set_ph f t p t' = f t'.
Proof. unfold set_ph. intros H. apply Nat.eqb_neq in H. now rewrite H. Qed.

Lemma hinv_step s t : hinv s -> hinv (hstep s t).
Proof.
  intros (H1 & H2 & H3). unfold hstep. destruct (ph s t) eqn:Et.
  - destruct (owner s) as [o|] eqn:Eo.
    + unfold hinv. rewrite Eo. auto.
    + unfold hinv; cbn [owner count ph log]. rewrite set_ph_same. split; auto. split; auto.
      intros t'. destruct (Nat.eq_dec t' t) as [->|n]; [rewrite set_ph_same; split; congruence|].
      rewrite set_ph_other by auto. rewrite H2. split; congruence.
  - assert (Eo : owner s = Some t) by (apply H2; congruence).
    rewrite Eo, Et in H3. unfold hinv; cbn [owner count ph log]. rewrite Eo, set_ph_same. split; auto. split; auto.
    intros t'. destruct (Nat.eq_dec t' t) as [->|n]; [rewrite set_ph_same; split; congruence|].
    rewrite set_ph_other by auto. rewrite H2, Eo. tauto.
  - assert (Eo : owner s = Some t) by (apply H2; congruence).
    rewrite Eo, Et in H3. unfold hinv; cbn [owner count ph log]. rewrite Eo, set_ph_same. split; auto. split.
    + intros t'. destruct (Nat.eq_dec t' t) as [->|n]; [rewrite set_ph_same; split; congruence|].
      rewrite set_ph_other by auto. rewrite H2, Eo. tauto.
    + lia.
  - assert (Eo : owner s = Some t) by (apply H2; congruence).
    rewrite Eo, Et in H3. unfold hinv; cbn [owner count ph log]. rewrite Eo, set_ph_same. split; [|split].
    + rewrite map_app, app_length. cbn [map snd List.length]. rewrite Nat.add_comm. cbn [plus ordinals].
      now rewrite H1, H3.
    + intros t'. destruct (Nat.eq_dec t' t) as [->|n]; [rewrite set_ph_same; split; congruence|].
      rewrite set_ph_other by auto. rewrite H2, Eo. tauto.
    + rewrite app_length. cbn [List.length]. rewrite Nat.add_comm. exact H3.
  - assert (Eo : owner s = Some t) by (apply H2; congruence).
    rewrite Eo, Et in H3. unfold hinv; cbn [owner count ph log]. split; auto. split; auto.
    intros t'. destruct (Nat.eq_dec t' t) as [->|n]; [rewrite set_ph_same; split; congruence|].
    rewrite set_ph_other by auto. rewrite H2, Eo. split; congruence.
Qed.

Lemma hinv_run sched : hinv (hrun sched).
Proof.
  unfold hrun. assert (G : forall s, hinv s -> hinv (fold_left hstep sched s)).
  { induction sched; intros s Hs; cbn [fold_left]; auto. apply IHsched. now apply hinv_step. }
  apply G. repeat split; cbn; congruence.
Qed.

(** C07.  Under every interleaving of the threads' steps, the successive hits are evaluated with the
    numbers 1, 2, 3, ... *)
Theorem hit_ordinals :
  forall sched, map snd (log (hrun sched)) = ordinals (List.length (log (hrun sched))).
Proof. intros. apply hinv_run. Qed.
Print Assumptions hit_ordinals.

Lemma ordinals_nth n k : (k < n)%nat -> nth_error (ordinals n) k = Some (N.of_nat (S k)).
Proof.
  induction n as [|n IH]; intros H; [lia|]. cbn [ordinals].
  assert (L : List.length (ordinals n) = n) by (clear; induction n; cbn [ordinals]; auto; rewrite app_length; simpl; lia).
  destruct (Nat.eq_dec k n) as [->|Hne].
  - rewrite nth_error_app2 by lia. rewrite L, Nat.sub_diag. reflexivity.
  - rewrite nth_error_app1 by lia. apply IH. lia.
Qed.

(** C07.  The k-th evaluation (counting from 0) sees exactly k+1, whichever thread it is; so for every n
    there is at most one hit with number n, and there is one as soon as n hits happened. *)
Theorem hit_number_exact :
  forall sched k t n, nth_error (log (hrun sched)) k = Some (t, n) -> n = N.of_nat (S k).
Proof.
  intros sched k t n H. pose proof (hit_ordinals sched) as E.
  assert (Hk : (k < List.length (log (hrun sched)))%nat) by (apply nth_error_Some; congruence).
  pose proof (map_nth_error snd _ _ H) as M. rewrite E, ordinals_nth in M by auto. cbn [snd] in M. congruence.
Qed.
Print Assumptions hit_number_exact.

Lemma ordinals_count n k :
  count_occ N.eq_dec (ordinals n) k = if (N.leb 1 k && N.leb k (N.of_nat n))%bool then 1 else 0.
Proof.
  induction n as [|n IH]; [cbn; destruct (N.leb_spec 1 k), (N.leb_spec k 0); cbn; lia|].
  cbn [ordinals]. rewrite count_occ_app, IH. cbn [count_occ].
  destruct (N.eq_dec (N.of_nat (S n)) k); destruct (N.leb_spec 1 k), (N.leb_spec k (N.of_nat n)), (N.leb_spec k (N.of_nat (S n)));
    cbn [andb]; lia.
Qed.

(** C07.  For every number n, exactly one hit is evaluated with n once n hits were evaluated (and none
    before): a condition "hit count equals n" stops exactly once. *)
Theorem hit_once :
  forall sched n, (1 <= n)%N ->
    count_occ N.eq_dec (map snd (log (hrun sched))) n
    = if N.leb n (N.of_nat (List.length (log (hrun sched)))) then 1 else 0.
Proof.
  intros sched n Hn. rewrite hit_ordinals, ordinals_count. apply N.leb_le in Hn. now rewrite Hn.
Qed.
Print Assumptions hit_once.

Lemma five_steps s t : ph s t = Idle -> owner s = None ->
  let s' := fold_left hstep [t; t; t; t; t] s in
  log s' = log s ++ [(t, count s + 1)%N] /\ owner s' = None.
Proof.
  intros Ht Ho. cbn [fold_left].
  assert (E1 : hstep s t = H (Some t) (count s) (set_ph (ph s) t Locked) (log s)) by (unfold hstep; now rewrite Ht, Ho).
  rewrite E1.
  assert (E2 : forall o c f l, hstep (H o c (set_ph f t Locked) l) t = H o c (set_ph (set_ph f t Locked) t (Read c)) l)
    by (intros; unfold hstep; cbn [ph]; now rewrite set_ph_same).
  assert (E3 : forall o c f l v, hstep (H o c (set_ph f t (Read v)) l) t = H o (v + 1) (set_ph (set_ph f t (Read v)) t Written) l)
    by (intros; unfold hstep; cbn [ph]; now rewrite set_ph_same).
  assert (E4 : forall o c f l, hstep (H o c (set_ph f t Written) l) t
                = H o c (set_ph (set_ph f t Written) t Evaluated) (l ++ [(t, c)]))
    by (intros; unfold hstep; cbn [ph]; now rewrite set_ph_same).
  assert (E5 : forall o c f l, hstep (H o c (set_ph f t Evaluated) l) t
                = H None c (set_ph (set_ph f t Evaluated) t Idle) l)
    by (intros; unfold hstep; cbn [ph]; now rewrite set_ph_same).
  rewrite E2, E3, E4, E5. cbn [log owner]. auto.
Qed.

(** C07.  No deadlock: when no thread holds the lock, the next thread to hit gets the next number in five
    steps and leaves the lock free. *)
Theorem hit_progress :
  forall sched t, owner (hrun sched) = None ->
    log (hrun (sched ++ [t; t; t; t; t])) = log (hrun sched) ++ [(t, N.of_nat (S (List.length (log (hrun sched)))))]
    /\ owner (hrun (sched ++ [t; t; t; t; t])) = None.
Proof.
  intros sched t Ho. pose proof (hinv_run sched) as (H1 & H2 & H3). rewrite Ho in H3.
  assert (Ht : ph (hrun sched) t = Idle).
  { destruct (ph (hrun sched) t) eqn:E; auto; exfalso;
      assert (K : owner (hrun sched) = Some t) by (apply H2; congruence); congruence. }
  destruct (five_steps _ _ Ht Ho) as [A B].
  assert (R : hrun (sched ++ [t; t; t; t; t]) = fold_left hstep [t; t; t; t; t] (hrun sched))
    by (unfold hrun; now rewrite fold_left_app).
  rewrite R. split; [|exact B]. rewrite A. do 3 f_equal. lia.
Qed.

(** C07.  A thread holding the lock is always able to release it: from any reachable state some schedule
    frees the lock. *)
Theorem hit_lock_released :
  forall sched, exists more, owner (hrun (sched ++ more)) = None.
Proof.
  intros sched. pose proof (hinv_run sched) as (H1 & H2 & H3).
  destruct (owner (hrun sched)) as [t|] eqn:Eo; [|exists []; now rewrite app_nil_r].
  assert (G : forall n s, match ph s t with Idle => False | Evaluated => n = 1 | Written => n = 2 | Read _ => n = 3 | Locked => n = 4 end ->
              owner (fold_left hstep (repeat t n) s) = None).
  { induction n as [|n IH]; intros s Hs; [destruct (ph s t); lia|].
    cbn [repeat fold_left]. destruct (ph s t) eqn:Ep; try contradiction.
    - apply IH. unfold hstep. rewrite Ep. cbn [ph]. rewrite set_ph_same. lia.
    - apply IH. unfold hstep. rewrite Ep. cbn [ph]. rewrite set_ph_same. lia.
    - apply IH. unfold hstep. rewrite Ep. cbn [ph]. rewrite set_ph_same. lia.
    - assert (n = 0) by lia. subst n. cbn. unfold hstep. now rewrite Ep. }
  assert (R : forall more, hrun (sched ++ more) = fold_left hstep more (hrun sched))
    by (intros; unfold hrun; now rewrite fold_left_app).
  destruct (ph (hrun sched) t) eqn:Ep; [contradiction|exists (repeat t 4)|exists (repeat t 3)|exists (repeat t 2)|exists (repeat t 1)];
    rewrite R; apply G; now rewrite Ep.
Qed.
Print Assumptions hit_lock_released.
Print Assumptions hit_progress.

Example hit_case : log (hrun [1; 2; 1; 2; 1; 1; 2; 1; 2; 2; 2; 2; 3]%nat) = [(1%nat, 1%N); (2%nat, 2%N)].
Proof. reflexivity. Qed.

(** ** C20 *)

(** Specification: what the user types and what it means. *)
Inductive hit_spec := Plain (n : N) | Oper (c : cmp) (n : N) | Every (n : N).

Definition op_text (c : cmp) : str :=
  match c with
  | CEq => lit "==" | CLt => lit "<" | CLe => lit "<=" | CGt => lit ">" | CGe => lit ">="
  end.

(** [w]: blanks between the operator and the number. *)
Definition text (h : hit_spec) (w : str) : str :=
  match h with
  | Plain n => dec n
  | Oper c n => op_text c ++ w ++ dec n
  | Every n => lit "%" ++ w ++ dec n
  end.

Definition meaning (h : hit_spec) (k : N) : Prop :=
  match h with
  | Plain n => k = n
  | Oper CEq n => k = n
  | Oper CLt n => (k < n)%N
  | Oper CLe n => (k <= n)%N
  | Oper CGt n => (n < k)%N
  | Oper CGe n => (n <= k)%N
  | Every n => n <> 0%N /\ (exists m, k = m * n)%N
  end.

Definition blank (c : N) : Prop := c = 32%N \/ c = 9%N.
Definition ws (c : N) : Prop := is_ws c = true.

(** *** Proofs *)
Lemma strip_mid w1 w2 m : Forall ws w1 -> Forall ws w2 ->
  (forall c r, m = c :: r -> is_ws c = false) -> (forall r c, m = r ++ [c] -> is_ws c = false) ->
  m <> [] -> strip (w1 ++ m ++ w2) = m.
Proof.
  intros H1 H2 Ha Hb Hm. unfold strip. rewrite lstrip_app_ws by exact H1.
  rewrite lstrip_nows.
  2:{ intros c r E. destruct m as [|x m]; [congruence|]. inversion E; subst. eapply Ha. reflexivity. }
  unfold rstrip. rewrite rev_app_distr. rewrite lstrip_app_ws by (now apply Forall_rev).
  rewrite lstrip_nows; [apply rev_involutive|]. intros c r E.
  apply (Hb (rev r) c). rewrite <- (rev_involutive m), E. reflexivity.
Qed.

Lemma dec_last n : forall r c, dec n = r ++ [c] -> is_ws c = false.
Proof.
  intros r c E. apply digit_not_ws. pose proof (dec_digits n) as H. rewrite E in H.
  apply Forall_app in H. destruct H as [_ H]. now inversion H.
Qed.

Lemma dec_leading n r : dec n = 48%N :: r -> r = [] /\ n = 0%N.
Proof.
  unfold dec. intros E.
  assert (U : Decimal.unorm (N.to_uint n) = N.to_uint n).
  { rewrite <- DecimalN.Unsigned.to_of, DecimalN.Unsigned.of_to. reflexivity. }
  destruct (N.to_uint n) as [|u|u|u|u|u|u|u|u|u|u] eqn:Eu; try discriminate.
  unfold Decimal.unorm in U. cbn [Decimal.nzhead] in U.
  destruct (Decimal.nzhead u) eqn:Ez; try discriminate.
  - inversion U; subst u. simpl in E. inversion E; subst. split; auto.
    rewrite <- (DecimalN.Unsigned.of_to n), Eu. reflexivity.
  - exfalso. now apply (DecimalFacts.nzhead_nonzero u u0).
Qed.

Definition digs (s : str) : list N := map (fun c => (c - 48)%N) s.

Lemma lex_digits s r : Forall digit_ok s ->
  lex (s ++ r) = match lex r with Some l => Some (map RDigit (digs s) ++ l) | None => None end.
Proof.
  induction 1 as [|c s Hc Hs IH]; cbn [app map digs].
  - now destruct (lex r).
  - cbn [lex]. unfold digit_ok in Hc. rewrite Hc, IH. now destruct (lex r).
Qed.

Lemma lex_blanks s r : Forall blank s ->
  lex (s ++ r) = match lex r with Some l => Some (repeat RSpace (List.length s) ++ l) | None => None end.
Proof.
  induction 1 as [|c s Hc Hs IH]; cbn [app].
  - cbn. now destruct (lex r).
  - cbn [lex]. destruct Hc as [->| ->]; cbn [N.eqb is_digit N.leb N.compare Pos.compare Pos.compare_cont andb orb Pos.eqb];
      rewrite IH; destruct (lex r); reflexivity.
Qed.

Lemma group_digits ds l acc : group acc (map RDigit ds ++ l) = group (acc ++ ds) l.
Proof.
  revert acc; induction ds as [|d ds IH]; intros acc; cbn; [now rewrite app_nil_r|].
  rewrite IH, <- app_assoc. reflexivity.
Qed.

Lemma group_spaces n l : group [] (repeat RSpace n ++ l) = group [] l.
Proof. induction n; cbn; auto. Qed.

Lemma fold_digs s a : fold_left (fun a d => 10 * a + d)%N (digs s) a = digits_val s a.
Proof. revert a; induction s; intros; cbn; auto. Qed.

Lemma digs_dec_nil n : digs (dec n) <> [].
Proof. unfold digs. intros E. apply map_eq_nil in E. now apply dec_nonempty in E. Qed.

Lemma literal_dec n : literal (digs (dec n)) = TNum n.
Proof.
  destruct (dec n) as [|c r] eqn:E; [now apply dec_nonempty in E|].
  cbn [digs map literal]. fold (digs r).
  assert (V : fold_left (fun a d => 10 * a + d)%N ((c - 48)%N :: digs r) 0%N = n).
  { change ((c - 48)%N :: digs r) with (digs (c :: r)). rewrite fold_digs, <- E. apply digits_val_dec. }
  destruct (N.eqb_spec (c - 48) 0) as [Ez|Ez]; cbn [andb]; [|now rewrite V].
  assert (c = 48%N).
  { pose proof (dec_digits n) as D. rewrite E in D. inversion D as [|? ? Dc]; subst. unfold digit_ok, is_digit in Dc.
    apply andb_true_iff in Dc. destruct Dc as [Dc _]. apply N.leb_le in Dc. lia. }
  subst c. destruct (dec_leading _ _ E) as [-> ->]. reflexivity.
Qed.

Lemma flush_dec n l : flush (digs (dec n)) l = TNum n :: l.
Proof.
  unfold flush. destruct (digs (dec n)) eqn:E; [now apply digs_dec_nil in E|]. rewrite <- E. now rewrite literal_dec.
Qed.

(** Replacing in a text without '@' changes nothing. *)
Lemma replace_none new s : ~ In 64%N s -> replace HIT new s = s.
Proof.
  unfold replace. induction s as [|c s IH]; intros H; auto.
  cbn [replace_from].
  assert (E : starts_with HIT (c :: s) = false).
  { unfold HIT. change (lit "@HIT@") with (64%N :: lit "HIT@"). cbn [starts_with].
    destruct (N.eqb_spec 64 c); auto. subst. exfalso. apply H. now left. }
  rewrite E. f_equal. apply IH. intros K. apply H. now right.
Qed.

Lemma replace_hit new s : ~ In 64%N s -> replace HIT new (HIT ++ s) = new ++ s.
Proof.
  intros H. unfold replace.
  change (HIT ++ s) with (64%N :: 72%N :: 73%N :: 84%N :: 64%N :: s).
  cbn [replace_from].
  change (64%N :: 72%N :: 73%N :: 84%N :: 64%N :: s) with (HIT ++ s). rewrite starts_with_app.
  change (List.length HIT - 1) with 4. cbn [replace_from]. f_equal.
  apply replace_none. exact H.
Qed.

Lemma dec_no_at n : ~ In 64%N (dec n).
Proof.
  intros H. pose proof (dec_digits n) as D. rewrite Forall_forall in D. specialize (D _ H). discriminate.
Qed.

Lemma blank_no_at w : Forall blank w -> ~ In 64%N w.
Proof. intros F H. rewrite Forall_forall in F. destruct (F _ H); discriminate. Qed.

Lemma lex_op c r : lex r <> None -> (forall x y, r = x :: y -> x <> 61%N) ->
  lex (op_text c ++ r) = match lex r with Some l => Some (RCmp c :: l) | None => None end.
Proof.
  intros Hr Hx. destruct c; cbn [op_text lit app].
  - reflexivity.
  - change (lex (60%N :: r) = match lex r with Some l => Some (RCmp CLt :: l) | None => None end).
    cbn [lex]. destruct r as [|x y]; [reflexivity|].
    specialize (Hx x y eq_refl). apply N.eqb_neq in Hx. rewrite Hx. reflexivity.
  - reflexivity.
  - change (lex (62%N :: r) = match lex r with Some l => Some (RCmp CGt :: l) | None => None end).
    cbn [lex]. destruct r as [|x y]; [reflexivity|].
    specialize (Hx x y eq_refl). apply N.eqb_neq in Hx. rewrite Hx. reflexivity.
  - reflexivity.
Qed.

Lemma lex_num n : lex (dec n) = Some (map RDigit (digs (dec n))).
Proof.
  rewrite <- (app_nil_r (dec n)) at 1. rewrite lex_digits by apply dec_digits. cbn [lex]. now rewrite app_nil_r.
Qed.

Lemma num_head w n : Forall blank w -> forall x y, w ++ dec n = x :: y -> x <> 61%N.
Proof.
  intros F x y E. destruct w as [|c w].
  - destruct (dec_head n) as (d & r & Ed & Hd). simpl in E. rewrite Ed in E. inversion E; subst.
    intros ->. discriminate.
  - inversion E; subst. inversion F; subst. destruct H1; subst; discriminate.
Qed.

Lemma eval_cmp k c w n : Forall blank w ->
  py_eval (dec k ++ lit " " ++ op_text c ++ w ++ dec n) = VBool (compare c k n).
Proof.
  intros F. unfold py_eval.
  rewrite lex_digits by apply dec_digits.
  rewrite (lex_blanks (lit " ")) by (repeat constructor).
  assert (L : lex (w ++ dec n) = Some (repeat RSpace (List.length w) ++ map RDigit (digs (dec n)))).
  { rewrite lex_blanks by exact F. now rewrite lex_num. }
  rewrite lex_op; [|rewrite L; discriminate|now apply num_head]. rewrite L.
  cbn [List.length lit repeat app].
  rewrite group_digits. cbn [app group]. rewrite flush_dec. cbn [flush].
  rewrite group_spaces. rewrite <- (app_nil_r (map RDigit _)), group_digits. cbn [app group].
  rewrite flush_dec. reflexivity.
Qed.

Lemma eval_mod k w n : Forall blank w ->
  py_eval (dec k ++ lit " " ++ (lit "%" ++ w ++ dec n) ++ lit " == 0") =
  if N.eqb n 0 then VError else VBool (N.eqb (k mod n) 0).
Proof.
  intros F. unfold py_eval.
  rewrite lex_digits by apply dec_digits.
  rewrite (lex_blanks (lit " ")) by (repeat constructor).
  rewrite <- !app_assoc.
  change (lit "%" ++ w ++ dec n ++ lit " == 0") with (37%N :: (w ++ dec n ++ lit " == 0")).
  cbn [lex]. cbn [is_digit N.leb N.compare Pos.compare Pos.compare_cont andb orb N.eqb Pos.eqb].
  rewrite lex_blanks by exact F. rewrite lex_digits by apply dec_digits.
  change (lex (lit " == 0")) with (Some [RSpace; RCmp CEq; RSpace; RDigit 0]).
  cbn [List.length lit repeat app]. rewrite group_digits. cbn [app group]. rewrite flush_dec. cbn [flush].
  rewrite group_spaces, group_digits. cbn [app group]. rewrite flush_dec. cbn [flush literal N.eqb forallb andb negb fold_left].
  change (10 * 0 + 0)%N with 0%N. unfold eval_tokens. cbn [existsb]. now destruct (N.eqb n 0).
Qed.

Lemma text_nonempty h w : text h w <> [].
Proof. destruct h as [n|[] n|n]; cbn; try discriminate. apply dec_nonempty. Qed.

Lemma text_last h w r c : text h w = r ++ [c] -> is_ws c = false.
Proof.
  intros E.
  assert (G : exists n p, text h w = p ++ dec n).
  { destruct h as [n|o n|n]; cbn [text].
    - exists n, []. reflexivity.
    - exists n, (op_text o ++ w). now rewrite <- app_assoc.
    - exists n, (lit "%" ++ w). now rewrite <- app_assoc. }
  destruct G as (n & p & G). rewrite G in E.
  destruct (exists_last (dec_nonempty n)) as (d & x & Ed). rewrite Ed, app_assoc in E.
  apply app_inj_tail in E. destruct E as [_ <-]. eapply dec_last; eauto.
Qed.

Lemma text_first h w c r : text h w = c :: r -> is_ws c = false.
Proof.
  destruct h as [n|[] n|n]; cbn [text op_text lit app]; intros E; try (inversion E; subst; reflexivity).
  destruct (dec_head n) as (d & y & Ed & Hd). rewrite Ed in E. inversion E; subst. now apply digit_not_ws.
Qed.

Lemma strip_text w1 h w w2 : Forall ws w1 -> Forall ws w2 ->
  strip (w1 ++ text h w ++ w2) = text h w.
Proof.
  intros. apply strip_mid; auto using text_nonempty.
  - apply text_first.
  - intros r c. apply text_last.
Qed.

Lemma py_int_op h w : (forall n, h <> Plain n) -> py_int (text h w) = None.
Proof.
  intros Hp. unfold py_int.
  assert (S : strip (text h w) = text h w).
  { pose proof (strip_text [] h w [] (Forall_nil _) (Forall_nil _)) as K. simpl in K. now rewrite app_nil_r in K. }
  rewrite S. destruct h as [n|[] n|n]; [now elim (Hp n)| | | | | |]; reflexivity.
Qed.

Theorem hit_condition_meaning :
  forall h w1 w w2 k, Forall ws w1 -> Forall ws w2 -> Forall blank w ->
    exists e, hit_expression (Some (w1 ++ text h w ++ w2)) = Some e /\
      exists b, handle_hit (Some e) k = Some b /\ (b = true <-> meaning h k).
Proof.
  intros h w1 w w2 k H1 H2 Hw. unfold hit_expression.
  destruct (w1 ++ text h w ++ w2) as [|x y] eqn:Exy.
  { exfalso. destruct (text h w) eqn:Et; [now apply text_nonempty in Et|]. destruct w1; discriminate. }
  rewrite <- Exy. rewrite strip_text by auto.
  destruct h as [n|c n|n].
  - (* Plain *)
    cbn [text]. rewrite py_int_dec0. eexists. split; [reflexivity|].
    exists (N.eqb k n). split; [|cbn [meaning]; apply N.eqb_eq].
    unfold handle_hit.
    change (HIT ++ lit " == " ++ dec n) with (64%N :: lit "HIT@" ++ lit " == " ++ dec n) at 1.
    cbv iota. rewrite replace_hit.
    + change (lit " == " ++ dec n) with (lit " " ++ op_text CEq ++ lit " " ++ dec n).
      rewrite eval_cmp by (repeat constructor). reflexivity.
    + intros K. apply in_app_iff in K. destruct K as [K|K]; [cbn in K; intuition discriminate|now apply dec_no_at in K].
  - (* operator *)
    rewrite py_int_op by (intros; discriminate).
    assert (E1 : starts_with (lit "%") (text (Oper c n) w) = false) by (destruct c; reflexivity).
    rewrite E1.
    assert (E2 : starts_with (lit "==") (text (Oper c n) w) || starts_with (lit ">") (text (Oper c n) w)
                 || starts_with (lit "<") (text (Oper c n) w) = true) by (destruct c; reflexivity).
    rewrite E2. eexists. split; [reflexivity|].
    exists (compare c k n). split.
    + unfold handle_hit.
      change (HIT ++ lit " " ++ text (Oper c n) w) with (64%N :: lit "HIT@" ++ lit " " ++ text (Oper c n) w) at 1.
      cbv iota. rewrite replace_hit.
      * cbn [text]. rewrite eval_cmp by exact Hw. reflexivity.
      * cbn [text]. intros K. apply in_app_iff in K. destruct K as [K|K]; [cbn in K; intuition discriminate|].
        apply in_app_iff in K. destruct K as [K|K]; [destruct c; cbn in K; intuition discriminate|].
        apply in_app_iff in K. destruct K as [K|K]; [now apply blank_no_at in K|now apply dec_no_at in K].
    + destruct c; cbn [compare meaning];
        [apply N.eqb_eq|apply N.ltb_lt|apply N.leb_le|apply N.ltb_lt|apply N.leb_le].
  - (* modulus *)
    rewrite py_int_op by (intros; discriminate).
    assert (E1 : starts_with (lit "%") (text (Every n) w) = true) by reflexivity.
    rewrite E1. eexists. split; [reflexivity|].
    exists (negb (N.eqb n 0) && N.eqb (k mod n) 0). split.
    + unfold handle_hit.
      change (HIT ++ lit " " ++ text (Every n) w ++ lit " == 0")
        with (64%N :: lit "HIT@" ++ lit " " ++ text (Every n) w ++ lit " == 0") at 1.
      cbv iota. rewrite replace_hit.
      * cbn [text]. rewrite eval_mod by exact Hw. destruct (N.eqb n 0); reflexivity.
      * cbn [text]. intros K. apply in_app_iff in K. destruct K as [K|K]; [cbn in K; intuition discriminate|].
        rewrite !in_app_iff in K. destruct K as [[K|[K|K]]|K].
        -- cbn in K. intuition discriminate.
        -- now apply blank_no_at in K.
        -- now apply dec_no_at in K.
        -- cbn in K. intuition discriminate.
    + cbn [meaning]. rewrite andb_true_iff, negb_true_iff, N.eqb_neq, N.eqb_eq.
      split; intros [A B]; split; auto.
      * exists (k / n)%N. rewrite N.mul_comm. now apply N.div_exact.
      * destruct B as [m ->]. now apply N.mod_mul.
Qed.
Print Assumptions hit_condition_meaning.

(** C20.  A breakpoint with a hit condition and no other condition stops exactly on the hits that satisfy
    it. *)
Theorem hit_condition_stops :
  forall h w1 w w2 k e, Forall ws w1 -> Forall ws w2 -> Forall blank w ->
    hit_expression (Some (w1 ++ text h w ++ w2)) = Some e ->
    exists b, stops (Some e) None k = Some b /\ (b = true <-> meaning h k).
Proof.
  intros h w1 w w2 k e H1 H2 Hw He.
  destruct (hit_condition_meaning h w1 w w2 k H1 H2 Hw) as (e' & He' & b & Hb & Hm).
  rewrite He in He'. inversion He'; subst e'. exists b. split; auto.
  unfold stops. destruct e; [|cbv zeta; cbv iota; rewrite Hb; now destruct b].
  exfalso. unfold hit_expression in He.
  destruct (w1 ++ text h w ++ w2) as [|x y] eqn:Exy; [discriminate|]. rewrite <- Exy in He.
  rewrite strip_text in He by auto.
  destruct (py_int (text h w)); [discriminate|].
  destruct (starts_with (lit "%") (text h w)); [discriminate|].
  destruct (_ || _); [discriminate|]. destruct (w1 ++ text h w ++ w2); discriminate.
Qed.
Print Assumptions hit_condition_stops.

Example hit_condition_case :
  stops (hit_expression (Some (lit "  >= 3 "))) None 2 = Some false /\
  stops (hit_expression (Some (lit "  >= 3 "))) None 3 = Some true /\
  stops (hit_expression (Some (lit "%5"))) None 15 = Some true /\
  text (Oper CGe 3) (lit " ") = lit ">= 3".
Proof. vm_compute. auto. Qed.

(** Finding: a number typed with a leading zero is accepted as a number but never stops. *)
Theorem hit_condition_leading_zero_refuted :
  exists s n, py_int s = Some (Z.of_N n) /\ forall e, hit_expression (Some s) = Some e ->
    stops (Some e) None n = Some false.
Proof.
  exists (lit "05"), 5%N. split; [reflexivity|]. intros e H. vm_compute in H. inversion H; subst. vm_compute. reflexivity.
Qed.
Print Assumptions hit_condition_leading_zero_refuted.

(** Finding: with both a condition and a hit condition the breakpoint stops when either holds. *)
Theorem hit_and_condition_refuted :
  exists h k e, hit_expression (Some (text h [])) = Some e /\
    ~ meaning h k /\ stops (Some e) (Some (CondValue true)) k = Some true.
Proof.
  exists (Plain 5), 2%N. eexists. split; [vm_compute; reflexivity|]. split; [discriminate|].
  vm_compute. reflexivity.
Qed.
Print Assumptions hit_and_condition_refuted.
