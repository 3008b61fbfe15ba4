(** Model of moving the next statement of a suspended thread (property C59).
    Sources: /repo/_pydevd_bundle/pydevd_process_net_command_json.py: IDMap, on_gototargets_request, on_goto_request;
    /repo/_pydevd_bundle/pydevd_api.py: request_set_next; /repo/_pydevd_bundle/pydevd_comm.py: InternalSetNextStatementThread;
    /repo/pydevd.py: set_next_statement, _do_wait_suspend, do_wait_suspend; /repo/_pydevd_bundle/pydevd_thread_lifecycle.py.
    The thread is the one which is suspended; which of its notifications are merged with those of other threads is property C17. *)
From Coq Require Import String.
From Coq Require Import List NArith ZArith Bool.
From Verif Require Import Base Dict.
Import ListNotations.
Open Scope list_scope.

(** * Targets *)
(** IDMap, pydevd_process_net_command_json.py L122-138, for the pairs of a path and a line. *)
Definition target := (str * Z)%type.
Definition target_eqb (a b : target) : bool := str_eqb (fst a) (fst b) && Z.eqb (snd a) (snd b).
Record idmap := IdMap { value_to_key : list (target * N); key_to_value : list (N * target); next_id : N }.
Definition empty_map : idmap := IdMap [] [] 0.
Definition obtain_value (m : idmap) (k : N) : option target := get N.eqb k (key_to_value m).
Definition obtain_key (m : idmap) (v : target) : idmap * N :=
  match get target_eqb v (value_to_key m) with
  | Some k => (m, k)
  | None => let k := next_id m in (IdMap (set target_eqb v k (value_to_key m)) (set N.eqb k v (key_to_value m)) (k + 1)%N, k)
  end.
Fixpoint obtain_keys (m : idmap) (l : list target) : idmap * list N :=
  match l with [] => (m, []) | v :: r => let '(m, k) := obtain_key m v in let '(m, ks) := obtain_keys m r in (m, k :: ks) end.

(** * The suspended thread *)
Inductive event := Line | Exc | Call | Return.
(** pydev_step_cmd; [Step]: any of the stepping commands, [Susp]: CMD_THREAD_SUSPEND *)
Inductive step_cmd := NoCmd | SetNext | RunTo | Smart | Step | Susp.
Inductive stop_reason := RGoto | RSuspend | ROther.
Inductive phase := Waiting | Left | Raised.
Record thr := Thr {
  running : bool; cmd : step_cmd; next_line : Z; func : str; message : str; reason : stop_reason;
  ev : event; name : str; line : Z; tracked : bool; disposed : bool; ph : phase }.
Inductive out := Answer (seq : Z) (ok : bool) (text : str) | ErrorSent | Continued | Stopped (r : stop_reason) (message : str) (line : Z).
(** What assigning to f_lineno of the frame does: the line it is then at, or the text of the ValueError. *)
Definition jumps := event -> Z -> Z -> Z + str.

(** PyDB.set_next_statement, pydevd.py L2045-2067; with the except of its caller, L2282-2283. *)
Definition shown_name (n : str) : str := if str_eqb n (lit "?") || str_eqb n (lit "<module>") then [] else n.
Definition with_line (l : Z) (s : thr) : thr := Thr (running s) (cmd s) (next_line s) (func s) (message s) (reason s) (ev s) (name s) l (tracked s) (disposed s) (ph s).
Definition set_next_statement (jump : jumps) (s : thr) : thr * bool * str :=
  match ev s with
  | Line | Exc =>
      if str_eqb (func s) (lit "*") || str_eqb (shown_name (name s)) (func s) then
        match jump (ev s) (line s) (next_line s) with
        | inl l => (with_line l s, true, [])
        | inr e => (s, false, e)
        end
      else (s, false, lit "jump is available only within the bottom frame")
  | _ => (s, false, [])
  end.
(** make_set_next_stmnt_status_message: pydevd_net_command_factory_json.py L441-445 (no text when it succeeds) and
    pydevd_net_command_factory_xml.py L508-513; None: the ValueError of int() is not caught. *)
Definition status_message (json : bool) (seq : str) (ok : bool) (text : str) : option out :=
  match py_int seq with
  | Some n => Some (Answer n ok (if json && ok then [] else text))
  | None => if json then None else Some ErrorSent
  end.
(** What follows the wait loop, pydevd.py L2259-2306, and do_wait_suspend, L2186-2191, which suspends again.  For the other
    commands the thread leaves; setting up their tracing is not modelled (properties C31, C48). *)
Definition set_phase (p : phase) (s : thr) : thr := Thr (running s) (cmd s) (next_line s) (func s) (message s) (reason s) (ev s) (name s) (line s) (tracked s) (disposed s) p.
Definition after_loop (json : bool) (jump : jumps) (s : thr) : thr * list out :=
  match cmd s with
  | SetNext | RunTo =>
      let '(s, stop, text) := set_next_statement jump s in
      match status_message json (message s) stop text with
      | None => (set_phase Raised s, [])
      | Some o =>
          if stop then
            (Thr false (cmd s) (next_line s) (func s) [] RGoto (ev s) (name s) (line s) true (disposed s) Waiting,
             [o; Continued; Stopped RGoto [] (line s)])
          else
            (Thr false NoCmd (next_line s) (func s) [] RSuspend (ev s) (name s) (line s) (tracked s) (disposed s) Waiting, [o])
      end
  | _ => (Thr (running s) (cmd s) (next_line s) (func s) (message s) (reason s) (ev s) (name s) (line s) false (disposed s) Left, [Continued])
  end.
(** What happens while the thread waits: it takes a command from its queue; the reader resumes it (resume_threads,
    pydevd_thread_lifecycle.py L57-84) or another thread suspends all (mark_thread_suspended with main_suspend=False, L27-48);
    the debugger is disposed; the thread looks at its state (L2234-2238). *)
Inductive command := Goto (kind : step_cmd) (seq : N) (line : Z) (func : str) | StepCmd.
Inductive happening := Take (c : command) | Resume | SuspendAll | Dispose | Check.
Definition with_state (r : bool) (c : step_cmd) (re : stop_reason) (s : thr) : thr :=
  Thr r c (next_line s) (func s) (message s) re (ev s) (name s) (line s) (tracked s) (disposed s) (ph s).
(** InternalSetNextStatementThread.do_it, pydevd_comm.py L760-774 *)
Definition do_it (c : command) (s : thr) : thr :=
  match c with
  | Goto k q l f => Thr true k l f (dec q) (reason s) (ev s) (name s) (line s) (tracked s) (disposed s) (ph s)
  | StepCmd => with_state true Step (reason s) s
  end.
Definition happen (json : bool) (jump : jumps) (s : thr) (h : happening) : thr * list out :=
  match ph s with
  | Waiting =>
      match h with
      | Take c => (do_it c s, [])
      | Resume => (with_state true NoCmd (reason s) s, [])
      | SuspendAll => (with_state false Susp RSuspend s, [])
      | Dispose => (Thr (running s) (cmd s) (next_line s) (func s) (message s) (reason s) (ev s) (name s) (line s) (tracked s) true (ph s), [])
      | Check => if running s || disposed s then after_loop json jump s else (s, [])
      end
  | _ => (s, [])
  end.
Fixpoint run (json : bool) (jump : jumps) (s : thr) (l : list happening) : thr * list out :=
  match l with [] => (s, []) | h :: r => let '(s, o) := happen json jump s h in let '(s, o') := run json jump s r in (s, o ++ o') end.
(** request_set_next, pydevd_api.py L279-314, for goto: the path is translated ([server]) and the line mapped when the file has
    cells ([mapped]); the command has the line only. *)
Definition request_goto (server : str -> str) (mapped : str -> Z -> option Z) (m : idmap) (seq : N) (id : N) : option command :=
  match obtain_value m id with
  | None => None
  | Some (path, l) => Some (Goto SetNext seq (match mapped (server path) l with Some l' => l' | None => l end) (lit "*"))
  end.
