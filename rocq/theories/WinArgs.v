(** Model of the quoting and splitting of Windows command lines (property C24).
    Source: /repo/_pydev_bundle/pydev_monkey.py: quote_arg_win32 L326-356, str_to_args_windows L592-672. *)
From Coq Require Import List NArith Bool.
From Verif Require Import Base.
Import ListNotations.

Definition bs : N := 92.    (* backslash *)
Definition dq : N := 34.    (* double quote *)
Definition sp : N := 32.
Definition tab : N := 9.
Definition nl : N := 10.
Definition vt : N := 11.

Definition bss (n : nat) : str := repeat bs n.

(** L331: the characters which make quotes necessary *)
Definition special (c : N) : bool := existsb (N.eqb c) [sp; dq; tab; nl; vt].

(** L354, first re.sub: backslashes before a quotation mark are doubled and one more
    is added.  [n]: backslashes read and not written yet. *)
Fixpoint esc_quotes (s : str) (n : nat) : str :=
  match s with
  | [] => bss n
  | c :: r =>
      if N.eqb c bs then esc_quotes r (S n)
      else if N.eqb c dq then bss (2 * n + 1) ++ dq :: esc_quotes r 0
      else bss n ++ c :: esc_quotes r 0
  end.

(** L355, second re.sub: backslashes at the end are doubled; the dollar sign also matches before a
    newline at the end. *)
Fixpoint dbl_end (s : str) (n : nat) : str :=
  match s with
  | [] => bss (2 * n)
  | c :: r =>
      if N.eqb c bs then dbl_end r (S n)
      else if N.eqb c nl && match r with [] => true | _ => false end then bss (2 * n) ++ [nl]
      else bss n ++ c :: dbl_end r 0
  end.

Definition quote_arg (a : str) : str :=
  if negb (match a with [] => true | _ => false end) && negb (existsb special a) then a
  else dq :: dbl_end (esc_quotes a 0) 0 ++ [dq].

(** The arguments with a space between *)
Fixpoint join (l : list str) : str :=
  match l with
  | [] => []
  | [a] => a
  | a :: r => a ++ sp :: join r
  end.

(** str_to_args_windows *)
Inductive mode := Default | Arg | InQuote.
Record st := St { md : mode; bk : nat; buf : str; res : list str }.

(** One iteration of the loop, L610-667; [next] is the character after [ch].  The [i += 1] at L658 has no
    effect on a [for] over a range. *)
Definition char (s : st) (ch : N) (next : option N) : st :=
  if N.eqb ch bs then St (md s) (S (bk s)) (buf s) (res s)
  else
    let esc := Nat.odd (bk s) && N.eqb ch dq in
    (* L615-638: pending backslashes *)
    let s1 :=
      match bk s with
      | O => s
      | n =>
          if N.eqb ch dq then
            St (if esc then match md s with Default => Arg | m => m end else md s) 0
               (buf s ++ bss (Nat.div2 n) ++ (if esc then [dq] else [])) (res s)
          else St (match md s with Default => Arg | m => m end) 0 (buf s ++ bss n) (res s)
      end in
    if esc then s1
    else
      let ws := N.eqb ch sp || N.eqb ch tab in
      match md s1 with
      | Default =>
          if ws then s1
          else if N.eqb ch dq then St InQuote (bk s1) (buf s1) (res s1)
          else St Arg (bk s1) (buf s1 ++ [ch]) (res s1)
      | Arg =>
          if ws then St Default (bk s1) [] (res s1 ++ [buf s1])
          else if N.eqb ch dq then St InQuote (bk s1) (buf s1) (res s1)
          else St Arg (bk s1) (buf s1 ++ [ch]) (res s1)
      | InQuote =>
          if N.eqb ch dq then
            match next with
            | Some c => if N.eqb c dq then St InQuote (bk s1) (buf s1 ++ [dq]) (res s1)
                        else St Arg (bk s1) (buf s1) (res s1)
            | None => St Arg (bk s1) (buf s1) (res s1)
            end
          else St InQuote (bk s1) (buf s1 ++ [ch]) (res s1)
      end.

Fixpoint chars (s : st) (l : str) : st :=
  match l with
  | [] => s
  | c :: r => chars (char s c (match r with [] => None | d :: _ => Some d end)) r
  end.

(** L669-672 *)
Definition finish (s : st) : list str :=
  match buf s, md s with
  | [], Default => res s
  | b, _ => res s ++ [b]
  end.
Definition to_args (l : str) : list str := finish (chars (St Default 0 [] []) l).
