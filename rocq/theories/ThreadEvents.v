(** Model of the thread notifications (property C18).
    Source: /repo/pydevd.py L1705-1759 and L1776-1808 (reconciling in process_internal_commands).
    The message is sent after the lock is released (L1728, L1749), except from process_internal_commands, which holds the
    lock around the whole call.  Threads are numbered objects; [tid] gives their ids. *)
From Coq Require Import List NArith Bool.
From Verif Require Import Base Dict.
Import ListNotations.

Inductive event := Started (t : N) | Exited (t : N) | Session.   (* Session: notifications enabled again (ghost) *)
Record state := State {
  enabled : bool;
  running : list (N * N);              (* _running_thread_ids: id -> thread object *)
  killed : list N;                     (* objects whose pydev_notify_kill is set *)
  pending : list (N * event);          (* per sending agent: message not sent yet *)
  events : list event                  (* newest first *)
}.
Definition init : state := State true [] [] [] [].

Definition memN (x : N) (l : list N) : bool := existsb (N.eqb x) l.

(** the part under the lock: the message to send, if any *)
Definition created (s : state) (t obj : N) : state * option event :=      (* L1713-1726 *)
  if negb (enabled s) then (s, None)
  else if mem N.eqb t (running s) then (s, None)
  else if memN obj (killed s) then (s, None)
  else (State (enabled s) (set N.eqb t obj (running s)) (killed s) (pending s) (events s), Some (Started t)).
Definition not_alive (s : state) (t : N) : state * option event :=        (* L1735-1747 *)
  if negb (enabled s) then (s, None)
  else match get N.eqb t (running s) with
       | None => (s, None)
       | Some obj => (State (enabled s) (del N.eqb t (running s)) (if memN obj (killed s) then killed s else obj :: killed s) (pending s) (events s), Some (Exited t))
       end.
Definition send (s : state) (e : option event) : state :=
  match e with None => s | Some e => State (enabled s) (running s) (killed s) (pending s) (e :: events s) end.
Definition later (s : state) (a : N) (e : option event) : state :=
  match e with None => s | Some e => State (enabled s) (running s) (killed s) (set N.eqb a e (pending s)) (events s) end.

Definition created_now (s : state) (x : N * N) : state := let '(s, e) := created s (fst x) (snd x) in send s e.
Definition not_alive_now (s : state) (t : N) : state := let '(s, e) := not_alive s t in send s e.

(** process_internal_commands, L1776-1808, with the threads alive: (id, object) *)
Definition reconcile (s : state) (alive : list (N * N)) : state :=
  let s := fold_left created_now alive s in
  let dead := filter (fun t => negb (mem N.eqb t alive)) (keys (running s)) in
  fold_left not_alive_now dead s.

(** set_enable_thread_notifications, L1751-1759 *)
Definition enable (s : state) (b : bool) : state :=
  if Bool.eqb (enabled s) b then s
  else State b (if b then [] else running s) (killed s) (pending s) (if b then Session :: events s else events s).

Inductive op :=
| Created (a t obj : N)         (* agent a runs notify_thread_created up to the end of the lock *)
| NotAlive (a t : N)
| Send (a : N)                  (* agent a sends its message *)
| Reconcile (alive : list (N * N))
| Enable (b : bool).

Definition step (s : state) (o : op) : state :=
  match o with
  | Created a t obj => if mem N.eqb a (pending s) then s else let '(s, e) := created s t obj in later s a e
  | NotAlive a t => if mem N.eqb a (pending s) then s else let '(s, e) := not_alive s t in later s a e
  | Send a =>
      match get N.eqb a (pending s) with
      | None => s
      | Some e => State (enabled s) (running s) (killed s) (del N.eqb a (pending s)) (e :: events s)
      end
  | Reconcile alive => reconcile s alive
  | Enable b => enable s b
  end.
Definition run (ops : list op) : state := fold_left step ops init.
