(** Model of the debugger's frame evaluation (property C61): code gets calls to the debugger at the lines with breakpoints
    instead of being traced.
    Sources: /repo/_pydevd_frame_eval/pydevd_modify_bytecode.py, /repo/_pydevd_frame_eval/pydevd_frame_tracing.py,
    /repo/_pydevd_frame_eval/pydevd_frame_evaluator.template.pyx; /repo/pydevd.py: on_breakpoints_changed. *)
From Coq Require Import String.
From Coq Require Import List NArith ZArith Bool.
From Verif Require Import Base Dict.
Import ListNotations.
Open Scope list_scope.

(** * Inserting the calls, pydevd_modify_bytecode.py *)
(** A label of the code, or the one of the [k]th inserted block (each Label() is a new object). *)
Inductive label := CodeLabel (l : N) | BreakLabel (k : N).
Definition label_eqb (a b : label) : bool :=
  match a, b with CodeLabel x, CodeLabel y => N.eqb x y | BreakLabel x, BreakLabel y => N.eqb x y | _, _ => false end.
(** An instruction of the program, or one of those of get_instructions_to_add *)
Inductive op (U : Type) :=
  | User (u : U) | LoadNeeds | LoadStop | LoadLine (n : N) | Call | JumpIfFalse (l : label) | PopTop | Nop.
Arguments User {U}. Arguments LoadNeeds {U}. Arguments LoadStop {U}. Arguments LoadLine {U}. Arguments Call {U}.
Arguments JumpIfFalse {U}. Arguments PopTop {U}. Arguments Nop {U}.
Inductive item (U : Type) := Lab (l : label) | Ins (line : option N) (o : op U).
Arguments Lab {U}. Arguments Ins {U}.

(** get_instructions_to_add, L75-115 *)
Definition spurious_line (n : N) : N := if (n - 1 =? 0)%N then (n + 1)%N else (n - 1)%N.
Definition block {U} (n k : N) : list (item U) :=
  let sp := spurious_line n in
  [Ins (Some n) LoadNeeds; Ins (Some n) (LoadLine n); Ins (Some n) Call; Ins (Some n) (JumpIfFalse (BreakLabel k));
   Ins (Some sp) LoadStop; Ins (Some sp) (LoadLine n); Ins (Some sp) Call; Ins (Some sp) PopTop; Ins (Some n) Nop; Lab (BreakLabel k)].

(** The part of the loop of insert_pydevd_breaks which fixes what the interpreter predicts, L288-301: the line of an instruction
    predicted by the one before it is dropped.  In the code this is done on the way, always before the instruction is looked at.
    [predicts a b]: b is one of the targets of a in _PREDICT_TABLE, L190-215. *)
Fixpoint fix_predict {U} (predicts : U -> U -> bool) (l : list (item U)) : list (item U) :=
  match l with
  | [] => []
  | Ins line (User u) :: r =>
      Ins line (User u) ::
      match fix_predict predicts r with
      | Ins (Some n) (User v) :: r' => Ins (if predicts u v && negb (n =? 0)%N then None else Some n) (User v) :: r'
      | r' => r'
      end
  | x :: r => x :: fix_predict predicts r
  end.

(** The loop of insert_pydevd_breaks, L281-346.  [multi]: TRACK_MULTIPLE_BRANCHES; [prev_label]: the node before is a label; [last]:
    last_lineno; [added]: added_breaks_in_lines; [k] counts the blocks. *)
Record walk := Walk { prev_label : bool; last_lineno : option N; added : list N; count : N }.
Definition start_walk : walk := Walk false None [] 0.
Definition skips (multi : bool) (w : walk) (n : N) : bool :=
  if multi then match last_lineno w with None => false | Some m => (m =? n)%N && negb (prev_label w) end
  else existsb (N.eqb n) (added w).
Definition pop_op {U} (pop_top : U -> bool) (o : op U) : bool := match o with User u => pop_top u | _ => false end.
Fixpoint insert {U} (multi : bool) (B : list N) (pop_top : U -> bool) (w : walk) (l : list (item U)) : list (item U) :=
  match l with
  | [] => []
  | Lab x :: r => Lab x :: insert multi B pop_top (Walk true (last_lineno w) (added w) (count w)) r
  | Ins None o :: r => Ins None o :: insert multi B pop_top (Walk false (last_lineno w) (added w) (count w)) r
  | Ins (Some n) o :: r =>
      if skips multi w n then Ins (Some n) o :: insert multi B pop_top (Walk false (last_lineno w) (added w) (count w)) r
      else
        if existsb (N.eqb n) B then
          if prev_label w && pop_op pop_top o then
            Ins (Some n) o :: block n (count w) ++ insert multi B pop_top (Walk true (Some n) (n :: added w) (count w + 1)) r
          else block n (count w) ++ Ins (Some n) o :: insert multi B pop_top (Walk false (Some n) (n :: added w) (count w + 1)) r
        else Ins (Some n) o :: insert multi B pop_top (Walk false (Some n) (added w) (count w)) r
  end.
(** insert_pydevd_breaks, L239-363, for code which has lines; None: it was not possible.  [encodes]: whether the library could write
    the code. *)
Definition insert_pydevd_breaks {U} (multi : bool) (predicts : U -> U -> bool) (pop_top : U -> bool) (encodes : bool)
  (B : list N) (l : list (item U)) : option (list (item U)) :=
  if existsb (N.eqb 0) B then None
  else if encodes then Some (insert multi B pop_top start_walk (if multi then fix_predict predicts l else l)) else None.

(** * Running code *)
(** What an instruction of the program does to the state of the program: go on, go to a label (a jump, or an exception with its
    handler; [back]: to an earlier place), or leave the frame. *)
Inductive outcome (S : Type) := Next (s : S) | Goto (l : N) (back : bool) (s : S) | Leave (s : S).
Arguments Next {S}. Arguments Goto {S}. Arguments Leave {S}.
(** What the inserted instructions put on the stack *)
Inductive dval := DNeeds | DStop | DLine (n : N) | DBool (b : bool) | DNone.
Inductive event (U S : Type) := Did (u : U) (s : S) | Line (n : N) | Needed (n : N) | StopCalled (n : N).
Arguments Did {U S}. Arguments Line {U S}. Arguments Needed {U S}. Arguments StopCalled {U S}.
(** A running frame: the instructions to come, the debugger's part of the stack, the program's state, whether the frame is traced
    (f_trace), the line of the last instruction, whether there was a jump back since, and how many of the
    program's instructions were executed. *)
Record frame (U S : Type) := Frame {
  rest : list (item U); dstack : list dval; us : S; traced : bool; last : option N; back : bool; time : nat }.
Arguments Frame {U S}. Arguments rest {U S}. Arguments dstack {U S}. Arguments us {U S}. Arguments traced {U S}. Arguments last {U S}.
Arguments back {U S}. Arguments time {U S}.
Fixpoint find_label {U} (l : label) (code : list (item U)) : option (list (item U)) :=
  match code with
  | [] => None
  | Lab x :: r => if label_eqb x l then Some r else find_label l r
  | _ :: r => find_label l r
  end.
(** The interpreter: what an instruction of the program does, and the breakpoints of the file at each time (they may change while
    the frame runs). *)
Record interp (U S : Type) := Interp { exec : U -> S -> outcome S; breaks : nat -> N -> bool }.
Arguments exec {U S}. Arguments breaks {U S}.
(** _pydev_needs_stop_at_break, pydevd_frame_tracing.py L66-121, outside of the debugger's own code; a file without breakpoints
    has none at the line. *)
Definition needs_stop {U S} (M : interp U S) (f : frame U S) (n : N) : bool := negb (traced f) && breaks M (time f) n.
(** CPython reports a line of a traced frame when the line is another one or after a jump back. *)
Definition line_event {U S} (f : frame U S) (line : option N) : list (event U S) :=
  match line with
  | Some n => if traced f && (back f || negb (match last f with Some m => (m =? n)%N | None => false end)) then [Line n] else []
  | None => []
  end.
Definition moved {U S} (f : frame U S) (line : option N) (r : list (item U)) : frame U S :=
  match line with
  | Some n => Frame r (dstack f) (us f) (traced f) (Some n) false (time f)
  | None => Frame r (dstack f) (us f) (traced f) (last f) (back f) (time f)
  end.
Definition with_stack {U S} (d : list dval) (f : frame U S) : frame U S :=
  Frame (rest f) d (us f) (traced f) (last f) (back f) (time f).
Definition with_rest {U S} (r : list (item U)) (f : frame U S) : frame U S :=
  Frame r (dstack f) (us f) (traced f) (last f) (back f) (time f).
(** Setting f_trace: _pydev_stop_at_break, pydevd_frame_tracing.py L34-63 *)
Definition with_trace {U S} (f : frame U S) : frame U S :=
  Frame (rest f) (dstack f) (us f) true (last f) (back f) (time f).
Definition after {U S} (code : list (item U)) (o : outcome S) (f : frame U S) : frame U S :=
  match o with
  | Next s => Frame (rest f) (dstack f) s (traced f) (last f) (back f) (time f + 1)
  | Goto l b s => Frame (match find_label (CodeLabel l) code with Some r => r | None => [] end) (dstack f) s (traced f) (last f) (back f || b) (time f + 1)
  | Leave s => Frame [] (dstack f) s (traced f) (last f) (back f) (time f + 1)
  end.
(** One step; None: the frame has ended, or an instruction finds what it cannot use on the stack. *)
Definition step {U S} (M : interp U S) (code : list (item U)) (f : frame U S) : option (list (event U S) * frame U S) :=
  match rest f with
  | [] => None
  | Lab _ :: r => Some ([], with_rest r f)
  | Ins line o :: r =>
      let e := line_event f line in
      let f' := moved f line r in
      match o, dstack f with
      | User u, [] => Some (e ++ [Did u (us f)], after code (exec M u (us f)) f')
      | LoadNeeds, d => Some (e, with_stack (DNeeds :: d) f')
      | LoadStop, d => Some (e, with_stack (DStop :: d) f')
      | LoadLine n, d => Some (e, with_stack (DLine n :: d) f')
      | Call, DLine n :: DNeeds :: d => Some (e ++ [Needed n], with_stack (DBool (needs_stop M f n) :: d) f')
      | Call, DLine n :: DStop :: d => Some (e ++ [StopCalled n], with_trace (with_stack (DNone :: d) f'))
      | JumpIfFalse l, DBool b :: d =>
          if b then Some (e, with_stack d f')
          else Some (e, with_rest (match find_label l code with Some r => r | None => [] end) (with_stack d f'))
      | PopTop, _ :: d => Some (e, with_stack d f')
      | Nop, d => Some (e, f')
      | _, _ => None
      end
  end.
Fixpoint run {U S} (M : interp U S) (code : list (item U)) (n : nat) (f : frame U S) : list (event U S) * frame U S :=
  match n with
  | O => ([], f)
  | S n => match step M code f with
           | None => ([], f)
           | Some (e, f) => let '(e', f) := run M code n f in (e ++ e', f)
           end
  end.
Definition enter {U S} (code : list (item U)) (s : S) (tr : bool) : frame U S := Frame code [] s tr None false 0.
