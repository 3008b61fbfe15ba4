(** Common definitions: text, byte strings and Python helpers used by several models. *)
From Coq Require Import List NArith ZArith Bool Ascii String Lia.
From Coq Require Decimal DecimalN DecimalNat.
Import ListNotations.
Open Scope bool_scope.

(** A Python [str] (list of code points) or [bytes] (list of byte values). *)
Definition str := list N.

(** Literals, for readable models and examples only. *)
Fixpoint lit (s : string) : str :=
  match s with
  | EmptyString => []
  | String c r => N_of_ascii c :: lit r
  end.

Fixpoint str_eqb (a b : str) : bool :=
  match a, b with
  | [], [] => true
  | x :: a', y :: b' => N.eqb x y && str_eqb a' b'
  | _, _ => false
  end.

(** [s.startswith(p)] *)
Fixpoint starts_with (p s : str) : bool :=
  match p, s with
  | [], _ => true
  | x :: p', y :: s' => N.eqb x y && starts_with p' s'
  | _, [] => false
  end.

(** [s.endswith(p)] *)
Definition ends_with (p s : str) : bool := starts_with (rev p) (rev s).

(** Whitespace stripped by [bytes.strip()] (and, within ASCII, by [int(...)]). *)
Definition is_ws (c : N) : bool :=
  N.eqb c 32 || ((9 <=? c) && (c <=? 13))%N.

Fixpoint lstrip (s : str) : str :=
  match s with
  | [] => []
  | c :: r => if is_ws c then lstrip r else s
  end.

Definition rstrip (s : str) : str := rev (lstrip (rev s)).
Definition strip (s : str) : str := rstrip (lstrip s).

(** First split of [s.split(sep, 1)]: the part before and the part after the first [sep]. *)
Fixpoint split1 (sep : N) (s : str) : option (str * str) :=
  match s with
  | [] => None
  | c :: r =>
      if N.eqb c sep then Some ([], r)
      else match split1 sep r with
           | Some (a, b) => Some (c :: a, b)
           | None => None
           end
  end.

Definition is_digit (c : N) : bool := ((48 <=? c) && (c <=? 57))%N.

(** Digits of Python's [int(...)] literal: digits, single underscores only between digits.
    [last_digit] tells whether the previous character was a digit. *)
Fixpoint py_digits (s : str) (acc : N) (last_digit : bool) : option N :=
  match s with
  | [] => if last_digit then Some acc else None
  | c :: r =>
      if is_digit c then py_digits r (10 * acc + (c - 48))%N true
      else if N.eqb c 95 && last_digit then py_digits r acc false
      else None
  end.

(** Python's [int(b)] for ASCII input: surrounding whitespace, optional sign, digits.
    Simplification: non-ASCII digits and whitespace are rejected here. *)
Definition py_int (s : str) : option Z :=
  match strip s with
  | [] => None
  | c :: r =>
      if N.eqb c 45 then option_map (fun n => Z.opp (Z.of_N n)) (py_digits r 0 false)
      else if N.eqb c 43 then option_map Z.of_N (py_digits r 0 false)
      else option_map Z.of_N (py_digits (c :: r) 0 false)
  end.

(** Decimal text of a natural number: Python's ["%s" % n]. *)
Fixpoint uint_str (u : Decimal.uint) : str :=
  match u with
  | Decimal.Nil => []
  | Decimal.D0 r => 48%N :: uint_str r
  | Decimal.D1 r => 49%N :: uint_str r
  | Decimal.D2 r => 50%N :: uint_str r
  | Decimal.D3 r => 51%N :: uint_str r
  | Decimal.D4 r => 52%N :: uint_str r
  | Decimal.D5 r => 53%N :: uint_str r
  | Decimal.D6 r => 54%N :: uint_str r
  | Decimal.D7 r => 55%N :: uint_str r
  | Decimal.D8 r => 56%N :: uint_str r
  | Decimal.D9 r => 57%N :: uint_str r
  end.

Definition dec (n : N) : str := uint_str (N.to_uint n).

Definition zdec (z : Z) : str :=
  match z with
  | Zneg p => 45%N :: dec (Npos p)
  | _ => dec (Z.to_N z)
  end.

(** ** Facts *)

Lemma str_eqb_spec a b : reflect (a = b) (str_eqb a b).
Proof.
  revert b; induction a as [|x a IH]; intros [|y b]; simpl; try (constructor; congruence).
  destruct (N.eqb_spec x y); simpl.
  - destruct (IH b); constructor; congruence.
  - constructor; congruence.
Qed.

Lemma str_eqb_refl a : str_eqb a a = true.
Proof. destruct (str_eqb_spec a a); congruence. Qed.

Lemma str_eqb_eq a b : str_eqb a b = true <-> a = b.
Proof. destruct (str_eqb_spec a b); split; congruence. Qed.

Lemma str_eqb_neq a b : str_eqb a b = false <-> a <> b.
Proof. destruct (str_eqb_spec a b); split; congruence. Qed.

Lemma str_eq_dec (a b : str) : {a = b} + {a <> b}.
Proof. apply (list_eq_dec N.eq_dec). Defined.

Lemma starts_with_app p s : starts_with p (p ++ s) = true.
Proof. induction p; simpl; auto. rewrite N.eqb_refl; auto. Qed.

Lemma starts_with_spec p s : starts_with p s = true <-> exists r, s = p ++ r.
Proof.
  split.
  - revert s; induction p as [|x p IH]; intros s H; simpl in *.
    + now exists s.
    + destruct s as [|y s]; try discriminate.
      apply andb_true_iff in H; destruct H as [H1 H2].
      apply N.eqb_eq in H1; subst.
      destruct (IH _ H2) as [r ->]. now exists r.
  - intros [r ->]. apply starts_with_app.
Qed.

Lemma ends_with_spec p s : ends_with p s = true <-> exists r, s = r ++ p.
Proof.
  unfold ends_with. rewrite starts_with_spec. split; intros [r H].
  - exists (rev r). rewrite <- (rev_involutive s), H, rev_app_distr, rev_involutive. reflexivity.
  - exists (rev r). rewrite H, rev_app_distr. reflexivity.
Qed.

Definition digit_ok (c : N) := is_digit c = true.

Lemma uint_str_digits u : Forall digit_ok (uint_str u).
Proof. induction u; simpl; constructor; auto; reflexivity. Qed.

Lemma dec_digits n : Forall digit_ok (dec n).
Proof. apply uint_str_digits. Qed.

Fixpoint digits_val (s : str) (acc : N) : N :=
  match s with
  | [] => acc
  | c :: r => digits_val r (10 * acc + (c - 48))%N
  end.

Lemma py_digits_digits s acc last :
  Forall digit_ok s -> (s <> [] \/ last = true) ->
  py_digits s acc last = Some (digits_val s acc).
Proof.
  intros H; revert acc last; induction H as [|c r Hc Hr IH]; intros acc last Hl; simpl.
  - destruct Hl as [Hl| ->]; congruence.
  - unfold digit_ok in Hc; rewrite Hc. apply IH. auto.
Qed.


Lemma digits_val_uint u : forall acc,
  digits_val (uint_str u) acc = match acc with
                                | N0 => N.of_uint u
                                | Npos p => Npos (Pos.of_uint_acc u p)
                                end.
Proof.
  induction u as [|u IH|u IH|u IH|u IH|u IH|u IH|u IH|u IH|u IH|u IH]; intros [|p]; simpl uint_str;
    try reflexivity;
    cbn [digits_val]; rewrite IH; try reflexivity.
  all: match goal with |- match ?x with _ => _ end = _ => idtac end.
  all: cbn [Pos.of_uint_acc].
  all: repeat match goal with
    | |- context [match ?x with N0 => _ | Npos p => _ end] =>
        let E := fresh "E" in destruct x eqn:E; [exfalso; lia|]
    end.
  all: apply f_equal; apply f_equal; lia.
Qed.

Lemma digits_val_dec n : digits_val (dec n) 0 = n.
Proof.
  unfold dec. rewrite digits_val_uint. apply DecimalN.Unsigned.of_to.
Qed.

Lemma dec_nonempty n : dec n <> [].
Proof.
  unfold dec. intros H.
  assert (Hd := digits_val_dec n). unfold dec in Hd. rewrite H in Hd. simpl in Hd. subst n.
  vm_compute in H. discriminate.
Qed.

Lemma py_digits_dec n : py_digits (dec n) 0 false = Some n.
Proof.
  rewrite py_digits_digits.
  - now rewrite digits_val_dec.
  - apply dec_digits.
  - left; apply dec_nonempty.
Qed.

Lemma digit_not_ws c : digit_ok c -> is_ws c = false.
Proof.
  unfold digit_ok, is_digit, is_ws. intros H.
  apply andb_true_iff in H. destruct H as [H1 H2].
  apply N.leb_le in H1. apply N.leb_le in H2.
  destruct (N.eqb_spec c 32); [lia|].
  destruct (N.leb_spec 9 c), (N.leb_spec c 13); simpl; auto; lia.
Qed.

Lemma lstrip_nows s : (forall c r, s = c :: r -> is_ws c = false) -> lstrip s = s.
Proof.
  destruct s as [|c r]; simpl; auto. intros H. now rewrite (H c r eq_refl).
Qed.

Lemma lstrip_app_ws w s : Forall (fun c => is_ws c = true) w -> lstrip (w ++ s) = lstrip s.
Proof. induction 1 as [|c w Hc Hw IH]; simpl; auto. now rewrite Hc. Qed.

Lemma strip_digits w1 w2 d :
  Forall (fun c => is_ws c = true) w1 -> Forall (fun c => is_ws c = true) w2 ->
  d <> [] -> Forall (fun c => is_ws c = false) d ->
  strip (w1 ++ d ++ w2) = d.
Proof.
  intros H1 H2 Hd Hn. unfold strip, rstrip.
  rewrite lstrip_app_ws by auto.
  rewrite (lstrip_nows (d ++ w2)).
  - rewrite rev_app_distr, lstrip_app_ws by (now apply Forall_rev).
    rewrite lstrip_nows, rev_involutive; auto.
    intros c r Hr. apply Forall_rev in Hn. rewrite Hr in Hn. now inversion Hn.
  - intros c r Hr. destruct d as [|x d]; [congruence|]. simpl in Hr. injection Hr as -> _.
    now inversion Hn.
Qed.

Lemma dec_head n : exists c r, dec n = c :: r /\ digit_ok c.
Proof.
  destruct (dec n) as [|c r] eqn:E; [now apply dec_nonempty in E|].
  exists c, r; split; auto. pose proof (dec_digits n) as H. rewrite E in H. now inversion H.
Qed.

(** [int(...)] reads back the decimal text of a number, with any surrounding whitespace. *)
Lemma py_int_dec w1 w2 n :
  Forall (fun c => is_ws c = true) w1 -> Forall (fun c => is_ws c = true) w2 ->
  py_int (w1 ++ dec n ++ w2) = Some (Z.of_N n).
Proof.
  intros H1 H2. unfold py_int.
  rewrite strip_digits; auto.
  - destruct (dec_head n) as (c & r & E & Hc). rewrite E.
    destruct (N.eqb_spec c 45) as [->|_]; [discriminate Hc|].
    destruct (N.eqb_spec c 43) as [->|_]; [discriminate Hc|].
    rewrite <- E, py_digits_dec. reflexivity.
  - apply dec_nonempty.
  - eapply Forall_impl; [|apply dec_digits]. intros; now apply digit_not_ws.
Qed.

Lemma py_int_dec0 n : py_int (dec n) = Some (Z.of_N n).
Proof.
  generalize (py_int_dec [] [] n (Forall_nil _) (Forall_nil _)). simpl. now rewrite app_nil_r.
Qed.
