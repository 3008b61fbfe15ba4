(** Model of the ids by which the client knows the threads (property C80).
    Sources: /repo/_pydevd_bundle/pydevd_constants.py L615-623 (clear_cached_thread_id), L626-646
    (_get_or_compute_thread_id_with_lock), L649-681 (get_current_thread_id, get_thread_id), L684-686 (set_thread_id);
    /repo/pydevd.py L1784-1797 (process_internal_commands clears the ids when no thread is known, as in a new process).
    Each operation runs with the lock, or is the single read of the fast path, so that operations of different threads come one
    after the other.  Threads are the Thread objects of the program, ever new numbers; addresses of objects are used again
    when an object was collected.  Whatever else refers to a thread object can go away at any time. *)
From Coq Require Import String.
From Coq Require Import List NArith Bool.
From Verif Require Import Base.
Import ListNotations.
Open Scope list_scope.

(** L642 *)
Definition id_text (pid addr : N) : str := lit "pid_" ++ dec pid ++ lit "_id_" ++ dec addr.

Definition console : str := lit "console_main".

(** [at_]: the address of a thread object which exists; [made]: the threads there have ever been; [attr]: __pydevd_id__;
    [held]: _thread_id_to_thread_found *)
Record state := State {
  pid : N;
  at_ : N -> option N;
  made : list N;
  attr : N -> option str;
  held : N -> option N }.

Inductive op :=
| Create (t addr : N)        (* a thread object is made, where there is none *)
| Collect (t : N)            (* the memory of a thread object is freed: nothing refers to it *)
| Ask (t : N)                (* get_thread_id, get_current_thread_id *)
| Clear (t : N)              (* clear_cached_thread_id *)
| Console (t : N)            (* the thread of the interactive console gets its fixed id *)
| Fork (child : N).          (* from here on the process is the child *)

Definition upd {A} (m : N -> A) (k : N) (v : A) : N -> A := fun x => if N.eqb x k then v else m x.

Definition is_free (s : state) (addr : N) : bool :=
  forallb (fun t => match at_ s t with Some a => negb (N.eqb a addr) | None => true end) (made s).

(** the answer of Ask; None: the operation cannot happen or gives nothing *)
Definition step (s : state) (o : op) : option str * state :=
  match o with
  | Create t addr =>
      if negb (existsb (N.eqb t) (made s)) && is_free s addr
      then (None, State (pid s) (upd (at_ s) t (Some addr)) (t :: made s) (upd (attr s) t None) (held s))
      else (None, s)
  | Collect t =>
      match at_ s t with
      | None => (None, s)
      | Some a =>
          if match held s a with Some u => N.eqb u t | None => false end then (None, s)
          else (None, State (pid s) (upd (at_ s) t None) (made s) (attr s) (held s))
      end
  | Ask t =>
      match at_ s t with
      | None => (None, s)
      | Some a =>
          match attr s t with
          | Some i => (Some i, s)
          | None => let i := id_text (pid s) a in
                    (Some i, State (pid s) (at_ s) (made s) (upd (attr s) t (Some i)) (upd (held s) a (Some t)))
          end
      end
  | Clear t =>
      match attr s t with
      | Some i => if str_eqb i console then (None, s) else (None, State (pid s) (at_ s) (made s) (upd (attr s) t None) (held s))
      | None => (None, s)
      end
  | Console t =>
      match at_ s t with
      | None => (None, s)
      | Some _ => (None, State (pid s) (at_ s) (made s) (upd (attr s) t (Some console)) (held s))
      end
  | Fork c => (None, State c (at_ s) (made s) (attr s) (held s))
  end.

(** all answers, with the thread asked for *)
Fixpoint run (s : state) (ops : list op) : list (N * str) * state :=
  match ops with
  | [] => ([], s)
  | o :: r =>
      let (a, s1) := step s o in
      let (l, s2) := run s1 r in
      (match o, a with Ask t, Some i => (t, i) :: l | _, _ => l end, s2)
  end.

Definition start (p : N) : state := State p (fun _ => None) [] (fun _ => None) (fun _ => None).
