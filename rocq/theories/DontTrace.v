(** Model of the functions which the user marks with a comment so that stepping does not stop in them (property C77).
    Sources: /repo/_pydevd_bundle/pydevd_dont_trace.py L20-79 (default_should_trace_hook), L82-103
    (clear_trace_filter_cache), L105-123 (trace_filter); /repo/_pydevd_bundle/pydevd_process_net_command.py L734-738
    (cmd_enable_dont_trace); /repo/_pydevd_bundle/pydevd_frame.py L796-815 and L985-1022 (the uses of the hook while
    stepping with sys.settrace); /repo/_pydevd_bundle/pydevd_reload.py L172.
    A file is its list of lines, each with its end of line, as linecache.getlines gives it; files and frames are numbers.
    What a step wants (stop at this event or not) is an input, decided by the code modelled elsewhere (C12). *)
From Coq Require Import String.
From Coq Require Import List NArith ZArith Bool Arith Lia.
From Verif Require Import Base PatchArgs EvalText.
Import ListNotations.
Open Scope nat_scope.
Open Scope list_scope.

(** DONT_TRACE_TAG, L20 *)
Definition tag : str := lit "@DontTrace".

(** RE_DECORATOR.match(line), L24: white space, then an at sign *)
Fixpoint decorator (line : str) : bool :=
  match line with
  | [] => false
  | c :: r => if space Text c then decorator r else N.eqb c 64
  end.

(** line[j:] for j = line.find of the number sign; None if there is none, L47-49 *)
Fixpoint comment (line : str) : option str :=
  match line with
  | [] => None
  | c :: r => if N.eqb c 35 then Some line else comment r
  end.

(** L47-50 *)
Definition tagged (line : str) : bool :=
  match comment line with
  | Some c => contains tag c
  | None => false
  end.

(** The loop upwards, L54-60: [n] lines are above the marked one. *)
Fixpoint up (lines : list str) (n : nat) : list nat :=
  match n with
  | 0 => []
  | S k => if decorator (nth k lines []) then k :: up lines k else []
  end.

(** The loop downwards, L62-68, from line [k].  Its condition lets k be the number of lines: then lines[k] raises an
    IndexError (None).  [fuel] is the number of lines which are left and one more. *)
Fixpoint down (lines : list str) (k fuel : nat) : option (list nat) :=
  match fuel with
  | 0 => Some []
  | S f =>
      if k <=? length lines then
        match nth_error lines k with
        | None => None
        | Some l => if decorator l then option_map (cons k) (down lines (S k) f) else Some []
        end
      else Some []
  end.

(** The body of the loop over the lines, L46-68, for the lines from [i] on. *)
Fixpoint scan_from (lines rest : list str) (i : nat) : option (list nat) :=
  match rest with
  | [] => Some []
  | l :: r =>
      if tagged l then
        match down lines (S i) (S (length lines)) with
        | None => None
        | Some d => option_map (fun t => i :: up lines i ++ d ++ t) (scan_from lines r (S i))
        end
      else scan_from lines r (S i)
  end.

(** ignored_lines, L44-68; None: an IndexError *)
Definition scan (lines : list str) : option (list nat) := scan_from lines lines 0.

(** L72-76: [first] is co_firstlineno; true: the function is to be traced *)
Definition should_trace (ignored : list nat) (first : nat) : bool :=
  let func_line := (Z.of_nat first - 1)%Z in
  negb (existsb (fun i => Z.eqb (Z.of_nat i) (func_line - 1)) ignored
        || existsb (fun i => Z.eqb (Z.of_nat i) func_line) ignored).

(** [hook]: should_trace_hook is not None; [cache]: _filename_to_ignored_lines; [lc]: the lines linecache has; [disk]: what
    is in the files; [skips]: should_skip of the tracer of each frame, None for -1 *)
Record state := State {
  hook : bool;
  cache : N -> option (list nat);
  lc : N -> option (list str);
  disk : N -> list str;
  skips : N -> option bool }.

Definition upd {A} (m : N -> A) (k : N) (v : A) : N -> A := fun x => if N.eqb x k then v else m x.

(** linecache.getlines *)
Definition getlines (st : state) (f : N) : list str * state :=
  match lc st f with
  | Some l => (l, st)
  | None => (disk st f, State (hook st) (cache st) (upd (lc st) f (Some (disk st f))) (disk st) (skips st))
  end.

(** default_should_trace_hook, L31-79; None: it raises an IndexError (and nothing is put into the cache) *)
Definition ask (st : state) (f : N) (first : nat) : option bool * state :=
  match cache st f with
  | Some ig => (Some (should_trace ig first), st)
  | None =>
      let (l, st1) := getlines st f in
      match scan l with
      | None => (None, st1)
      | Some ig =>
          (Some (should_trace ig first),
           State (hook st1) (upd (cache st1) f (Some ig)) (lc st1) (disk st1) (skips st1))
      end
  end.

(** str.strip *)
Fixpoint trim_left (s : str) : str :=
  match s with
  | [] => []
  | c :: r => if space Text c then trim_left r else s
  end.
Definition trim (s : str) : str := rev (trim_left (rev (trim_left s))).

Inductive outcome := Shown (frame : N) | NotShown | Raised.

Inductive op :=
| Command (text : str)                                   (* CMD_ENABLE_DONT_TRACE *)
| Reload                                                 (* clear_trace_filter_cache after a reload *)
| Edit (f : N) (lines : list str)                        (* the user saves a file *)
| Recheck (f : N)                                        (* somebody else makes linecache forget a file *)
| LineEvent (frame : N) (wants : bool)                   (* a line event of a frame *)
| ReturnEvent (frame : N) (back : option N) (wants : bool).   (* a return event, with the caller *)

Section Program.
(** the file and co_firstlineno of the code of a frame *)
Variable code : N -> N * nat.

(** should_skip, pydevd_frame.py L798-810; the first component is None if the hook raises *)
Definition should_skip (st : state) (fr : N) : option bool * state :=
  if hook st then
    match skips st fr with
    | Some b => (Some b, st)
    | None =>
        match ask st (fst (code fr)) (snd (code fr)) with
        | (None, st1) => (None, st1)
        | (Some t, st1) => (Some (negb t), State (hook st1) (cache st1) (lc st1) (disk st1) (upd (skips st1) fr (Some (negb t))))
        end
    end
  else (Some false, st).

(** pydevd_frame.py L812-815 and L985-1022.  Left out: a caller which is the debugger itself, or the debugger's own
    properties. *)
Definition step (st : state) (o : op) : outcome * state :=
  match o with
  | Command text =>
      (NotShown, match text with
                 | [] => st
                 | _ => State (str_eqb (trim text) (lit "true")) (cache st) (lc st) (disk st) (skips st)
                 end)
  | Reload => (NotShown, State (hook st) (fun _ => None) (fun _ => None) (disk st) (skips st))
  | Edit f l => (NotShown, State (hook st) (cache st) (lc st) (upd (disk st) f l) (skips st))
  | Recheck f => (NotShown, State (hook st) (cache st) (upd (lc st) f None) (disk st) (skips st))
  | LineEvent fr wants =>
      match should_skip st fr with
      | (None, st1) => (Raised, st1)
      | (Some true, st1) => (NotShown, st1)
      | (Some false, st1) => (if wants then Shown fr else NotShown, st1)
      end
  | ReturnEvent fr back wants =>
      match should_skip st fr with
      | (None, st1) => (Raised, st1)
      | (Some true, st1) => (NotShown, st1)
      | (Some false, st1) =>
          if wants then
            match back with
            | None => (NotShown, st1)
            | Some b =>
                if hook st1 then
                  match ask st1 (fst (code b)) (snd (code b)) with
                  | (None, st2) => (Raised, st2)
                  | (Some false, st2) => (NotShown, st2)
                  | (Some true, st2) => (Shown b, st2)
                  end
                else (Shown b, st1)
            end
          else (NotShown, st1)
      end
  end.

Fixpoint run (st : state) (ops : list op) : list outcome * state :=
  match ops with
  | [] => ([], st)
  | o :: r => let (x, st1) := step st o in let (xs, st2) := run st1 r in (x :: xs, st2)
  end.
End Program.

(** The debugger at its start. *)
Definition init (files : N -> list str) : state := State false (fun _ => None) (fun _ => None) files (fun _ => None).
