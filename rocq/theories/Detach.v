(** Model of the client's disconnecting from a program which goes on (property C76).
    Sources: /repo/_pydevd_bundle/pydevd_process_net_command_json.py L727-741 (on_disconnect_request);
    /repo/_pydevd_bundle/pydevd_api.py L214-224 (request_disconnect), L647-691 (remove_all_breakpoints), L759-765
    (set_function_breakpoints), L902-910 (remove_all_exception_breakpoints); /repo/pydevd.py L912-917 (on_disconnect),
    L1948-1961 (set_suspend), L2220-2224; /repo/_pydevd_bundle/pydevd_thread_lifecycle.py L54-79.
    The threads of the program and the reader thread interleave in any order; the check of a breakpoint and set_suspend are
    different steps of a thread, without a lock around both.  Conditions, hit counts and log points are left out (a
    breakpoint here is one which stops), as are the authentication (see C05), the refusal of
    breakpoints before the next attach request and output redirection: a client which has disconnected sends nothing. *)
From Coq Require Import List NArith Bool.
From Verif Require Import Base.
Import ListNotations.
Open Scope list_scope.

(** What can stop a thread of the program. *)
Inductive event :=
| Line (file line : N)
| Raise (exc : N)
| Template (file line : N)
| Function (name : N)
| Quiet.                    (* any other traced event *)

(** py_db.breakpoints, the exception breakpoints, the breakpoints of plugins, function_breakpoint_name_to_breakpoint *)
Record bps := Bps { lines : list (N * N); excs : list N; templates : list (N * N); functions : list N }.

(** Where a thread is: in the program; in the tracing function, having found that it has to stop; past set_suspend; in the
    loop of do_wait_suspend. *)
Inductive phase := Free | Found | Marked | Waiting.
Record thread := Thread { ph : phase; run : bool (* pydev_state is STATE_RUN *); stepping : bool (* pydev_step_cmd is not -1 *) }.

(** [attached] is what is_attached answers, L909-910. *)
Record state := State { bp : bps; ths : N -> thread; attached : bool }.

Definition pair_eqb (a b : N * N) : bool := N.eqb (fst a) (fst b) && N.eqb (snd a) (snd b).

Definition hits (b : bps) (e : event) : bool :=
  match e with
  | Line f l => existsb (pair_eqb (f, l)) (lines b)
  | Raise x => existsb (N.eqb x) (excs b)
  | Template f l => existsb (pair_eqb (f, l)) (templates b)
  | Function n => existsb (N.eqb n) (functions b)
  | Quiet => false
  end.

Definition upd (f : N -> thread) (t : N) (x : thread) : N -> thread := fun u => if N.eqb u t then x else f u.

Inductive request :=
| SetLines (l : list (N * N)) | SetExcs (l : list N) | SetTemplates (l : list (N * N)) | SetFunctions (l : list N).

Definition set_bps (b : bps) (r : request) : bps :=
  match r with
  | SetLines l => Bps l (excs b) (templates b) (functions b)
  | SetExcs l => Bps (lines b) l (templates b) (functions b)
  | SetTemplates l => Bps (lines b) (excs b) l (functions b)
  | SetFunctions l => Bps (lines b) (excs b) (templates b) l
  end.

Inductive op :=
(* of the client *)
| Request (r : request)
| Attach                          (* initialize, attach, configurationDone *)
| Pause
| Continue
| Step (t : N)                    (* stepping a waiting thread *)
| DropBreakpoints                 (* the steps of a disconnect, request_disconnect L216 *)
| DropExceptions                  (* L217 *)
| Logout                          (* L218 *)
| ResumeAll                       (* L220-221 *)
(* of a thread *)
| Reach (t : N) (e : event) (stops : bool)  (* an event; stops: a step command in force ends here *)
| Suspend (t : N)                 (* set_suspend *)
| Enter (t : N)
| Leave (t : N).

(** internal_run_thread, pydevd_thread_lifecycle.py L54-60 *)
Definition running (x : thread) : thread := Thread (ph x) true false.

(** [single]: the mode with one notification for all threads *)
Definition step (single : bool) (s : state) (o : op) : state :=
  match o with
  | Request r => State (set_bps (bp s) r) (ths s) (attached s)
  | Attach => State (bp s) (ths s) true
  | Pause => State (bp s) (fun u => Thread (ph (ths s u)) false (stepping (ths s u))) (attached s)
  | Continue => State (bp s) (fun u => running (ths s u)) (attached s)
  | Step t =>
      match ph (ths s t) with
      | Waiting => State (bp s) (upd (ths s) t (Thread Waiting true true)) (attached s)
      | _ => s
      end
  | DropBreakpoints => State (Bps [] (excs (bp s)) [] (functions (bp s))) (ths s) (attached s)
  | DropExceptions => State (Bps (lines (bp s)) [] (templates (bp s)) (functions (bp s))) (ths s) (attached s)
  | Logout => State (bp s) (ths s) false
  | ResumeAll => State (bp s) (fun u => running (ths s u)) (attached s)
  | Reach t e stops =>
      let x := ths s t in
      match ph x with
      | Free =>
          if hits (bp s) e || (stepping x && stops) then State (bp s) (upd (ths s) t (Thread Found (run x) (stepping x))) (attached s)
          else if negb (run x) then State (bp s) (upd (ths s) t (Thread Marked (run x) (stepping x))) (attached s)
          else s
      | _ => s
      end
  | Suspend t =>
      match ph (ths s t) with
      | Found =>
          State (bp s)
            (fun u => if N.eqb u t then Thread Marked false (stepping (ths s t))
                      else if single then Thread (ph (ths s u)) false (stepping (ths s u)) else ths s u) (attached s)
      | _ => s
      end
  | Enter t =>
      match ph (ths s t) with
      | Marked => State (bp s) (upd (ths s) t (Thread Waiting (run (ths s t)) (stepping (ths s t)))) (attached s)
      | _ => s
      end
  | Leave t =>
      match ph (ths s t) with
      | Waiting => if run (ths s t) then State (bp s) (upd (ths s) t (Thread Free true (stepping (ths s t)))) (attached s) else s
      | _ => s
      end
  end.

Definition exec (single : bool) (s : state) (l : list op) : state := fold_left (step single) l s.
