(** The text which is evaluated for what the user typed: indented code, and attributes with private names.
    Modelled from _pydevd_bundle/pydevd_vars.py (_expression_to_evaluate, eval_in_context,
    evaluate_expression). *)
From Coq Require Import String.
From Coq Require Import List Bool Arith Lia NArith.
From Verif Require Import Base Dict Glob HitCond PatchArgs.
Import ListNotations.
Open Scope nat_scope.
Open Scope list_scope.

(** the expression is a str or bytes *)
Inductive kind := Text | Bytes.

(** c.isspace() for one character *)
Definition space (k : kind) (c : N) : bool :=
  (9 <=? c)%N && (c <=? 13)%N || (c =? 32)%N ||
  match k with
  | Bytes => false
  | Text => (28 <=? c)%N && (c <=? 31)%N || (8192 <=? c)%N && (c <=? 8202)%N ||
            existsb (N.eqb c) [133; 160; 5760; 8232; 8233; 8239; 8287; 12288]%N
  end.

(** the characters after which splitlines ends a line *)
Definition brk (k : kind) (c : N) : bool :=
  match k with
  | Bytes => existsb (N.eqb c) [10; 13]%N
  | Text => existsb (N.eqb c) [10; 11; 12; 13; 28; 29; 30; 133; 8232; 8233]%N
  end.

(** expression.splitlines(True); [cur] is the line so far, reversed *)
Fixpoint lines_from (k : kind) (s cur : str) : list str :=
  match s with
  | [] => match cur with [] => [] | _ => [rev cur] end
  | c :: r =>
      if brk k c then
        match r with
        | d :: r' => if (c =? 13)%N && (d =? 10)%N then rev (d :: c :: cur) :: lines_from k r' []
                     else rev (c :: cur) :: lines_from k r []
        | [] => [rev (c :: cur)]
        end
      else lines_from k r (c :: cur)
  end.

Definition lines (k : kind) (s : str) : list str := lines_from k s [].

(** L217-224: the blanks at the start of a line *)
Fixpoint leading (k : kind) (l : str) : nat :=
  match l with c :: r => if space k c then S (leading k r) else 0 | [] => 0 end.

(** L215-224: those of the first line which line.strip() leaves something of *)
Fixpoint chars_to_strip (k : kind) (ls : list str) : nat :=
  match ls with
  | [] => 0
  | l :: r => if forallb (space k) l then chars_to_strip k r else leading k l
  end.

(** _expression_to_evaluate, L211-246 (the cache returns what was computed for an equal expression) *)
Definition to_evaluate (k : kind) (e : str) : str :=
  let ls := lines k e in
  match chars_to_strip k ls with
  | 0 => e
  | n => if forallb (fun l => forallb (space k) (firstn n l)) ls then List.concat (map (skipn n) ls) else e
  end.

(** evaluate_expression L535 and compile_as_eval L395: the text compiled for a str *)
Definition compiled (e : str) : str := to_evaluate Text (replace (lit "@LINE@") [10%N] e).

(** ** Private names *)

(** Objects by number: the name of the class and the attributes which getattr finds (those of the instance, its
    class and its base classes). *)
Record obj := Obj { o_class : str; o_attrs : list (str * nat) }.

Definition getattr (h : nat -> obj) (o : nat) (a : str) : option nat := get str_eqb a (o_attrs (h o)).

(** eval_in_context L281-286: the loop over the names after the first *)
Fixpoint follow (h : nat -> obj) (curr : nat) (names : list str) : option nat :=
  match names with
  | [] => Some curr
  | entry :: r =>
      let entry' := if starts_with (lit "__") entry && negb (match getattr h curr entry with Some _ => true | None => false end)
                    then lit "_" ++ o_class (h curr) ++ entry else entry in
      match getattr h curr entry' with
      | Some v => follow h v r
      | None => None
      end
  end.

Inductive result := Value (o : nat) | Raised.

(** eval_in_context, L249-290. [py] is the outcome of Python's eval for the expression. *)
Definition eval_in_context (h : nat -> obj) (locals : list (str * nat)) (expression : str) (py : result) : result :=
  match py with
  | Value v => Value v
  | Raised =>
      if contains (lit ".__") expression then
        match split_on 46%N expression with
        | entry :: names =>
            match get str_eqb entry locals with
            | Some curr => match follow h curr names with Some v => Value v | None => Raised end
            | None => Raised
            end
        | [] => Raised
        end
      else Raised
  end.
