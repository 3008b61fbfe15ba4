(** Model of the module events sent with stack traces (property C46).
    Source: /repo/_pydevd_bundle/pydevd_net_command_factory_json.py: ModulesManager.track_module L66-105,
    make_get_thread_stack_message L258-270 and L328-344; /repo/_pydevd_bundle/pydevd_api.py: request_stack L231-241
    (the reader thread tries at once, without the lock of process_internal_commands, so several threads may build
    stack traces). A file is a number. The rest of the stack trace is left out; that it raises nothing is assumed. *)
From Coq Require Import List NArith Bool.
From Verif Require Import Base Dict.
Import ListNotations.
Local Open Scope list_scope.

(** A request: the files of the frames still to be looked at and the module_events so far; [true]: the test before the lock
    said that the first file is new *)
Inductive req :=
| Idle
| Tracking (todo : list N) (checked : bool) (evs : list (N * N))
| Sending (evs : list (N * N))
| Done
| Failed (evs : list (N * N)).      (* extend(None) raised TypeError *)
Inductive msg := Module (file id : N) | Response (r : N).
Record state := State { mods : list (N * N); next : N; reqs : N -> req; out : list msg }.
Definition init : state := State [] 0 (fun _ => Idle) [].

Definition upd (s : state) (r : N) (q : req) : N -> req := fun x => if N.eqb x r then q else reqs s x.
Definition step (s : state) (r : N) : state :=
  match reqs s r with
  | Tracking [] _ evs => State (mods s) (next s) (upd s r (Sending evs)) (out s)
  (* L71-72 *)
  | Tracking (f :: t) false evs =>
      State (mods s) (next s) (upd s r (if mem N.eqb f (mods s) then Tracking t false evs else Tracking (f :: t) true evs)) (out s)
  (* L75-104, under the lock *)
  | Tracking (f :: t) true evs =>
      if mem N.eqb f (mods s) then State (mods s) (next s) (upd s r (Failed evs)) (out s)
      else State (set N.eqb f (next s) (mods s)) (N.succ (next s)) (upd s r (Tracking t false (evs ++ [(f, next s)]))) (out s)
  (* L328-329 *)
  | Sending ((f, i) :: evs) => State (mods s) (next s) (upd s r (Sending evs)) (out s ++ [Module f i])
  | Sending [] => State (mods s) (next s) (upd s r Done) (out s ++ [Response r])
  | _ => s
  end.
Inductive op := Ask (r : N) (files : list N) | Go (r : N).
Definition exec (s : state) (o : op) : state :=
  match o with
  | Ask r files => match reqs s r with Idle => State (mods s) (next s) (upd s r (Tracking files false [])) (out s) | _ => s end
  | Go r => step s r
  end.
Definition run (h : list op) : state := fold_left exec h init.
