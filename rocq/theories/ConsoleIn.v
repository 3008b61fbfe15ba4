(** Model of what happens to the text typed into the two interactive consoles (property C85).
    Source: the console of a process of its own, /repo/_pydev_bundle/pydev_console_utils.py L150-158 (CodeFragment), L190-227
    (need_more_for_code, need_more), L235-304 (add_exec), L365-402 (do_exec_code, execLine, execMultipleLines, interrupt) and
    /repo/pydevconsole.py L43-59 (Command), L94-97 (do_add_exec), L285-304 (process_exec_queue); the console of a stopped frame,
    /repo/_pydevd_bundle/pydevd_console.py L24-42 (ConsoleMessage), L93-137 (push, do_add_exec), L204-248 (get_interactive_console,
    execute_console_command) and /repo/_pydevd_bundle/pydevconsole_code.py L267-304 (runsource), L482-501 (push).
    What Python says of a text is a parameter, one for each way to compile it: it is whole, a part (compile_command gives None), wrong
    (a SyntaxError, OverflowError or ValueError) or compiling it raises something else (RecursionError, MemoryError).
    Simplifications: the answer for a text does not depend on the __future__ statements compiled before; no IPython (no is_complete), no
    Jython; the calls of the client are one after another and the main thread takes from the queue between them; there is no server
    to notify; white space is that of ASCII without the separators 28 to 31. *)
From Coq Require Import String.
From Coq Require Import List NArith Bool.
From Verif Require Import Base RunFile.
Import ListNotations.
Open Scope list_scope.

Inductive verdict := Whole | Part | Wrong | Breaks.

(** * The console of a process of its own *)

(** L150-158 *)
Record fragment := Fragment { text : str; single : bool }.
Definition newline : N := 10%N.
Definition append (a b : fragment) : fragment :=
  Fragment (text a ++ newline :: text b) (if single b then single a else false).

(** need_more_for_code, L190-219; None: an exception *)
Definition need_more_for_code (compile : str -> verdict) (source : str) : option bool :=
  if ends_with [92%N] source then Some true
  else match compile source with Wrong => Some false | Part => Some true | Whole => Some false | Breaks => None end.

(** pydevconsole.py L43-59 and runsource, L267-304: what became of a command.  Ran and Told have the text; Told is a shown syntax error *)
Inductive fate := Ran (s : str) | Told (s : str) | Nothing (s : str) | Raised (s : str).
Definition runsource (compile : str -> verdict) (source : str) : fate :=
  match compile source with Wrong => Told source | Part => Nothing source | Whole => Ran source | Breaks => Raised source end.
(** Command.run; the two ways to compile are those for one line and for several *)
Definition run_command (one several : str -> verdict) (f : fragment) : fate :=
  runsource (if single f then one else several) (text f).

Record console := Console { buffer : option fragment; queue : list fragment; taken : list fragment; fates : list fate }.
Definition fresh : console := Console None [] [] [].

(** do_exec_code, L365-377 with need_more, L221-227: the console and the answer *)
Definition do_exec_code (one : str -> verdict) (f : fragment) (c : console) : console * bool :=
  let b := match buffer c with None => f | Some b => append b f end in
  match need_more_for_code one (text b) with
  | Some true => (Console (Some b) (queue c) (taken c) (fates c), true)
  | Some false => (Console None (queue c ++ [b]) (taken c) (fates c), false)
  | None => (Console (Some b) (queue c) (taken c) (fates c), false)
  end.

(** What happens: execLine and execMultipleLines (L379-389), interrupt (L391-402), the main thread takes the next fragment and runs it
    (L287-296), a KeyboardInterrupt reaches the main thread while it waits for one (L297-299) *)
Inductive event := ExecLine (s : str) | ExecMultipleLines (s : str) | Interrupt | Take | Late.
Definition step (one several : str -> verdict) (c : console) (e : event) : console :=
  match e with
  | ExecLine s => fst (do_exec_code one (Fragment s true) c)
  | ExecMultipleLines s => fst (do_exec_code one (Fragment s false) c)
  | Interrupt => Console None (queue c) (taken c) (fates c)
  | Take =>
      match queue c with
      | [] => c
      | f :: q => Console (buffer c) q (taken c ++ [f]) (fates c ++ [run_command one several f])
      end
  | Late => Console None (queue c) (taken c) (fates c)
  end.
Definition run (one several : str -> verdict) (es : list event) : console := fold_left (step one several) es fresh.
Definition answer (one : str -> verdict) (c : console) (e : event) : option bool :=
  match e with
  | ExecLine s => Some (snd (do_exec_code one (Fragment s true) c))
  | ExecMultipleLines s => Some (snd (do_exec_code one (Fragment s false) c))
  | _ => None
  end.

(** * What a command can change of sys: add_exec, L235-304 *)

(** Streams and hooks are numbers *)
Record system := System { stdin : N; stdout : N; stderr : N; hook : N (* excepthook *); hook0 : N (* __excepthook__ *); help_input : option N (* pydoc.help.input, if pydoc is loaded *) }.
Inductive ending := Ends (more : bool) | Raises | Exits.
(** A command: what it leaves, and how it ends *)
Definition program := system -> system * ending.
Definition with_stdin (n : N) (s : system) : system := System n (stdout s) (stderr s) (hook s) (hook0 s) (help_input s).
Definition with_hook (n : N) (s : system) : system := System (stdin s) (stdout s) (stderr s) n (hook0 s) (help_input s).
Definition with_hook0 (n : N) (s : system) : system := System (stdin s) (stdout s) (stderr s) (hook s) n (help_input s).
Definition with_help (n : option N) (s : system) : system := System (stdin s) (stdout s) (stderr s) (hook s) (hook0 s) n.
Definition with_outputs (o e : N) (s : system) : system := System (stdin s) o e (hook s) (hook0 s) (help_input s).
(** own: the stdin of the console.  The answer is None for SystemExit, which is raised again.  Whether pydoc is loaded is looked at
    before the command. *)
Definition add_exec (own : N) (p : program) (s : system) : system * option bool :=
  let s1 := with_hook (hook0 s) s in
  let original_in := stdin s1 in
  let s2 := with_stdin own s1 in
  let helped := match help_input s with Some _ => true | None => false end in
  let s3 := if helped then with_help (Some own) s2 else s2 in
  let (s4, e) := p s3 in
  let s5 := if helped then with_help (Some original_in) s4 else s4 in
  let s6 := with_stdin original_in s5 in
  let s7 := with_hook0 (hook s6) s6 in
  (s7, match e with Ends more => Some more | Raises => Some false | Exits => None end).

(** DebugConsole.push, L93-133: out and err are the two new buffers; own as above *)
Definition push_io (buffer_output : bool) (own out err : N) (p : program) (s : system) : system * option bool :=
  let s1 := if buffer_output then with_outputs out err s else s in
  let (s2, r) := add_exec own p s1 in
  (if buffer_output then with_outputs (stdout s) (stderr s) s2 else s2, r).

(** * The console of a stopped frame *)

(** The cache, L197-201: thread, frame and the lines in the buffer of the console *)
Record cache := Cache { thread : N; frame : N; lines : list str }.
(** The text given to runsource, pydevconsole_code.py L497 *)
Fixpoint joined (l : list str) : str := match l with [] => [] | [x] => x | x :: r => x ++ newline :: joined r end.
Record asked := Asked { a_thread : N; a_frame : N; a_line : str }.
(** get_interactive_console, L204-221: the lines waiting, and whether the console is a new one *)
Definition lines_for (c : option cache) (a : asked) : list str * bool :=
  match c with
  | Some k => if N.eqb (thread k) (a_thread a) && N.eqb (frame k) (a_frame a) then (lines k, false) else ([], true)
  | None => ([], true)
  end.
(** push of L482-501 inside of push of L93-133.  [exits s]: the command s ends with SystemExit.  The third part is the answer more, None
    for SystemExit. *)
Definition debug_push (compile : str -> verdict) (exits : str -> bool) (c : option cache) (a : asked)
  : option cache * fate * option bool :=
  let b := fst (lines_for c a) ++ [a_line a] in
  let f := runsource compile (joined b) in
  let keep := Some (Cache (a_thread a) (a_frame a) b) in
  let reset := Some (Cache (a_thread a) (a_frame a) []) in
  match f with
  | Ran s => if exits s then (keep, f, None) else (reset, f, Some false)
  | Told _ => (reset, f, Some false)
  | Nothing _ => (keep, f, Some true)
  | Raised _ => (keep, f, Some false)
  end.
Fixpoint debug_run (compile : str -> verdict) (exits : str -> bool) (c : option cache) (l : list asked) : option cache * list (N * N * fate) :=
  match l with
  | [] => (c, [])
  | a :: r =>
      let '(c', f, _) := debug_push compile exits c a in
      let (c2, fs) := debug_run compile exits c' r in
      (c2, (a_thread a, a_frame a, f) :: fs)
  end.

(** add_console_message, L32-36 *)
Inductive kind := Output | Error.
Definition nonblank (m : str) : bool := match strip m with [] => false | _ => true end.
Definition add_console_message (k : kind) (message : str) : list (kind * str) :=
  flat_map (fun m => if nonblank m then [(k, m)] else []) (pieces newline message).
(** execute_console_command, L230-248: the messages; context is the one of a new console (L216-220), out and err the texts written, one
    for each write *)
Definition messages (is_new : bool) (context : str) (out err : list str) : list (kind * str) :=
  (if is_new then add_console_message Output (lit "[Current context]: " ++ context) else []) ++
  flat_map (add_console_message Output) out ++ flat_map (add_console_message Error) err.
