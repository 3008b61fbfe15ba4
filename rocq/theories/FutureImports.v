(** The code which python -c gets when the debugger follows a subprocess: the code of the user with the
    attaching code put before it, but after its __future__ imports.
    Modelled from _pydev_bundle/pydev_monkey.py (_get_offset_from_line_col, _separate_future_imports,
    _get_python_c_args). *)
From Coq Require Import String.
From Coq Require Import List Bool Arith Lia NArith.
From Verif Require Import Base PatchArgs.
Import ListNotations.
Open Scope nat_scope.
Open Scope list_scope.

(** the characters after which str.splitlines ends a line *)
Definition is_break (c : N) : bool :=
  existsb (N.eqb c) [10; 11; 12; 13; 28; 29; 30; 133; 8232; 8233]%N.

(** str.splitlines(True); [cur] is the line so far, reversed *)
Fixpoint lines_from (s cur : str) : list str :=
  match s with
  | [] => match cur with [] => [] | _ => [rev cur] end
  | c :: r =>
      if is_break c then
        match r with
        | d :: r' => if (c =? 13)%N && (d =? 10)%N then rev (d :: c :: cur) :: lines_from r' []
                     else rev (c :: cur) :: lines_from r []
        | [] => [rev (c :: cur)]
        end
      else lines_from r (c :: cur)
  end.

Definition splitlines (s : str) : list str := lines_from s [].

(** _get_offset_from_line_col, L103-112; None stands for -1 *)
Fixpoint offset_in (ls : list str) (line col : nat) : option nat :=
  match ls with
  | [] => None
  | l :: r => match line with
              | O => Some col
              | S n => match offset_in r n col with Some k => Some (length l + k) | None => None end
              end
  end.

Definition offset_of (code : str) (line col : nat) : option nat := offset_in (splitlines code) line col.

(** L157-161: the characters skipped after the import *)
Definition skipped (c : N) : bool := existsb (N.eqb c) [32; 9; 59; 41; 10]%N.

Fixpoint run (s : str) : nat :=
  match s with c :: r => if skipped c then S (run r) else 0 | [] => 0 end.

(** L169-171: newlines at the end go back to the remainder; [f] is the future import reversed *)
Fixpoint give_back (f c : str) : str * str :=
  match f with
  | x :: r => if (x =? 10)%N then give_back r (10%N :: c) else (f, c)
  | [] => (f, c)
  end.

(** _separate_future_imports, L115-183. [found] is what ast gives for the last __future__ import: the
    line, from 0, and the column of its end (Python 3.8 and later); None if there is no such import or
    the code cannot be parsed. *)
Definition separate (code : str) (found : option (nat * nat)) : str * str :=
  match found with
  | None => ([], code)
  | Some (line, col) =>
      match offset_of code line col with
      | None => ([], code)
      | Some offset =>
          let n := offset + run (skipn offset code) in
          let '(f, c) := give_back (rev (firstn n code)) (skipn n code) in
          (match f with
           | x :: _ => if (x =? 59)%N then rev f else rev (59%N :: f)
           | [] => [59%N]
           end, c)
      end
  end.

(** _get_python_c_args, L186-213; [attach] is the attaching code (import sys; ... pydevd.settrace(...))
    without the semicolon and the space which follow it *)
Definition c_code (attach code : str) (found : option (nat * nat)) : str :=
  let '(f, c) := if contains (lit "__future__") code then separate code found else ([], code) in
  f ++ attach ++ lit "; " ++ c.
