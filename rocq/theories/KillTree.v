(** Termination of the debugged program and of the processes it started: the terminate and disconnect
    requests, and the listing and killing of child processes on Linux and macOS and on Windows.
    Modelled from
      _pydevd_bundle/pydevd_process_net_command_json.py (on_terminate_request, on_disconnect_request),
      _pydevd_bundle/pydevd_api.py (request_terminate_process, terminate_process,
        _terminate_child_processes_windows, _terminate_child_processes_linux_and_mac),
      pydevd.py (add_dont_terminate_child_pid, the wait loop of a suspended thread). *)
From Coq Require Import List Bool Arith Lia NArith.
From Verif Require Import Base.
Import ListNotations.
Open Scope nat_scope.
Open Scope list_scope.

(** ** Processes of the operating system (environment, not code of the project)

    A process is named by its number; numbers are given in order of creation and are not used again
    (simplification: operating systems reuse them after a long time). [born] is the process which
    forked it, [ppid] its parent now: when a process dies on Linux, its children become children of
    process 1. [Exited] processes ended on their own, [Killed] ones by a signal of the debugger. A dead
    process stays visible to pgrep until it is reaped. *)
Inductive status := Running | Stopped | Exited | Killed.

Record proc := Proc { born : nat; ppid : nat; st : status; reaped : bool }.

Record os := OS { procs : list proc; me : nat }.

Definition look (o : os) (p : nat) : option proc := nth_error (procs o) p.

Definition alive (s : status) : bool := match s with Running | Stopped => true | _ => false end.

Definition is_running (s : status) : bool := match s with Running => true | _ => false end.

Fixpoint upd (p : nat) (f : proc -> proc) (l : list proc) : list proc :=
  match l, p with
  | [], _ => []
  | x :: r, O => f x :: r
  | x :: r, S q => x :: upd q f r
  end.

Definition with_st (s : status) (x : proc) : proc := Proc (born x) (ppid x) s (reaped x).

(** the children of a process which died get process 1 as parent *)
Definition orphan (p : nat) (x : proc) : proc :=
  if Nat.eqb (ppid x) p then Proc (born x) 1 (st x) (reaped x) else x.

Definition die (s : status) (p : nat) (o : os) : os :=
  OS (map (orphan p) (upd p (with_st s) (procs o))) (me o).

(** What other processes, and the other threads of this one, may do between two commands of the
    debugger. A stopped process does nothing (simplification: nobody else sends it signals). *)
Inductive move := Fork (p : nat) | Exit (p : nat) | Reap (p : nat).

Definition moved (o : os) (m : move) : os :=
  match m with
  | Fork p =>
      match look o p with
      | Some x => if is_running (st x) then OS (procs o ++ [Proc p p Running false]) (me o) else o
      | None => o
      end
  | Exit p =>
      match look o p with
      | Some x => if is_running (st x) && negb (Nat.eqb p (me o)) then die Exited p o else o
      | None => o
      end
  | Reap p =>
      match look o p with
      | Some x => if alive (st x) then o
                  else OS (upd p (fun y => Proc (born y) (ppid y) (st y) true) (procs o)) (me o)
      | None => o
      end
  end.

(** kill -STOP *)
Definition stop (p : nat) (o : os) : os :=
  match look o p with
  | Some x => if is_running (st x) then OS (upd p (with_st Stopped) (procs o)) (me o) else o
  | None => o
  end.

(** kill -KILL *)
Definition kill (p : nat) (o : os) : os :=
  match look o p with
  | Some x => if alive (st x) then die Killed p o else o
  | None => o
  end.

(** pgrep -P p: the processes, dead ones not yet reaped included, with this parent (the process of
    pgrep itself leaves itself out) *)
Definition pgrep (p : nat) (o : os) : list nat :=
  filter (fun q => match look o q with
                   | Some x => Nat.eqb (ppid x) p && negb (reaped x)
                   | None => false
                   end) (seq 0 (length (procs o))).

(** The world of the debugger: the processes, what the others do before each of the next commands, and
    the signals sent so far. *)
Inductive signal := SStop (p : nat) | SKill (p : nat).

Record world := World { sys : os; sched : list (list move); sent : list signal }.

Definition tick (w : world) : world :=
  match sched w with
  | [] => w
  | ms :: r => World (fold_left moved ms (sys w)) r (sent w)
  end.

Definition do_stop (p : nat) (w : world) : world :=
  let w := tick w in World (stop p (sys w)) (sched w) (sent w ++ [SStop p]).

Definition do_kill (p : nat) (w : world) : world :=
  let w := tick w in World (kill p (sys w)) (sched w) (sent w ++ [SKill p]).

Definition do_pgrep (p : nat) (w : world) : list nat * world :=
  let w := tick w in (pgrep p (sys w), w).

(** ** The processes not to be terminated

    add_dont_terminate_child_pid, pydevd.py L3366-3381, adds the value it is given, documented as an
    int, to the set dont_terminate_child_pids (pydevd.py L572). An int and a text are never equal. *)
Inductive pyval := VInt (n : nat) | VStr (s : str).

Definition pyval_eqb (a b : pyval) : bool :=
  match a, b with
  | VInt m, VInt n => Nat.eqb m n
  | VStr s, VStr t => str_eqb s t
  | _, _ => false
  end.

Definition contains (v : pyval) (l : list pyval) : bool := existsb (pyval_eqb v) l.

(** pid = str(line); if pid in dont_terminate_child_pids, _pydevd_bundle/pydevd_api.py L1085-1089 *)
Definition text_of (p : nat) : pyval := VStr (dec (N.of_nat p)).

(** ** _terminate_child_processes_linux_and_mac, _pydevd_bundle/pydevd_api.py L1071-1109

    The commands kill and pgrep are taken to be there and to succeed for processes of the user (in the
    code a command which cannot be run does nothing). *)
Section Unix.
Variable skip : list pyval.

Definition spared (p : nat) : bool := contains (text_of p) skip.

(** the loop over the lines of pgrep, L1084-1092: for each process which is not to be spared, it and
    what [rec] finds below it *)
Fixpoint visit (rec : world -> nat -> option (list nat * world)) (kids : list nat) (w : world)
  : option (list nat * world) :=
  match kids with
  | [] => Some ([], w)
  | k :: r =>
      if spared k then visit rec r w
      else match rec w k with
           | None => None
           | Some (l, w1) =>
               match visit rec r w1 with
               | None => None
               | Some (l2, w2) => Some ((k :: l) ++ l2, w2)
               end
           end
  end.

(** list_children_and_stop_forking, L1074-1093. The recursion of the code is unbounded; [fuel] bounds
    it and the result is None if it does not suffice (unix_total proves that it always does). *)
Fixpoint list_children (fuel : nat) (stopping : bool) (w : world) (p : nat) : option (list nat * world) :=
  match fuel with
  | O => None
  | S f =>
      let w1 := if stopping then do_stop p w else w in
      let '(kids, w2) := do_pgrep p w1 in
      visit (list_children f true) kids w2
  end.

(** L1101-1106: kills what was not found before; gives the processes found so far and found_new *)
Fixpoint kill_new (l found : list nat) (new : bool) (w : world) : list nat * bool * world :=
  match l with
  | [] => (found, new, w)
  | p :: r =>
      if existsb (Nat.eqb p) found then kill_new r found new w
      else kill_new r (p :: found) true (do_kill p w)
  end.

(** more processes than there can be before the given moves are used up *)
Definition room (w : world) : nat := length (procs (sys w)) + length (concat (sched w)).

(** the loop, L1097-1109 *)
Fixpoint rounds (n : nat) (found : list nat) (w : world) : option world :=
  match n with
  | O => Some w
  | S n' =>
      match list_children (S (room w)) false w (me (sys w)) with
      | None => None
      | Some (l, w1) =>
          let '(found', new, w2) := kill_new l found false w1 in
          if new then rounds n' found' w2 else Some w2
      end
  end.

Definition terminate_unix (w : world) : option world := rounds 50 [] w.

End Unix.

(** ** _terminate_child_processes_windows, _pydevd_bundle/pydevd_api.py L1051-1069

    On Windows a process keeps the number of the process which made it, dead processes are not listed,
    and taskkill /T kills a process with the living tree below it (taken to be one step; it does
    nothing for a process which is gone). *)
Definition snapshot_children (p : nat) (o : os) : list nat :=
  filter (fun q => match look o q with
                   | Some x => Nat.eqb (born x) p && alive (st x) && negb (Nat.eqb q p)
                   | None => false
                   end) (seq 0 (length (procs o))).

(** the living tree below p; a process is made after its parent, so that one pass suffices *)
Definition tree (p : nat) (o : os) : list nat :=
  fold_left (fun acc q =>
               match look o q with
               | Some x => if alive (st x) && existsb (Nat.eqb (born x)) acc && negb (existsb (Nat.eqb q) acc)
                           then acc ++ [q] else acc
               | None => acc
               end) (seq 0 (length (procs o))) [p].

Definition set_killed (o : os) (p : nat) : os := OS (upd p (with_st Killed) (procs o)) (me o).

Definition taskkill (p : nat) (o : os) : os :=
  match look o p with
  | Some x => if alive (st x) then fold_left set_killed (tree p o) o else o
  | None => o
  end.

(** moves on Windows: a dead process is gone at once and its children keep their parent *)
Definition moved_win (o : os) (m : move) : os :=
  match m with
  | Fork p => moved o (Fork p)
  | Exit p =>
      match look o p with
      | Some x => if is_running (st x) && negb (Nat.eqb p (me o))
                  then OS (upd p (with_st Exited) (procs o)) (me o) else o
      | None => o
      end
  | Reap _ => o
  end.

Definition tick_win (w : world) : world :=
  match sched w with
  | [] => w
  | ms :: r => World (fold_left moved_win ms (sys w)) r (sent w)
  end.

Definition do_taskkill (w : world) (p : nat) : world :=
  let w := tick_win w in World (taskkill p (sys w)) (sched w) (sent w ++ [SKill p]).

Fixpoint rounds_win (skip : list pyval) (n : nat) (w : world) : world :=
  match n with
  | O => w
  | S n' =>
      let w1 := tick_win w in
      match filter (fun p => negb (contains (VInt p) skip)) (snapshot_children (me (sys w1)) (sys w1)) with
      | [] => w1
      | kids => rounds_win skip n' (fold_left do_taskkill kids w1)
      end
  end.

Definition terminate_win (skip : list pyval) (w : world) : world := rounds_win skip 50 w.

(** ** Requests

    terminate_keyboard_interrupt, keyboard_interrupt_requested and terminate_requested of PyDB, whether
    it was disposed, and the state of one suspended thread. *)
Record db := DB { by_interrupt : bool; interrupted : bool; terminating : bool; disposed : bool;
                  suspended : bool; waiting : bool }.

Inductive effect :=
| EInterrupt   (* a KeyboardInterrupt in the main thread *)
| EEnd         (* the children are terminated, if asked for, and the process ends *)
| EDetach.     (* breakpoints are removed and all threads resume *)

Inductive request := Terminate | Disconnect (terminate_debuggee : bool).

(** request_terminate_process, _pydevd_bundle/pydevd_api.py L1151-1161; the thread it starts disposes of
    the debugger and ends the process (L1147-1149, L1131-1145), which is [EEnd] *)
Definition request_terminate_process (d : db) : db * list effect :=
  if by_interrupt d && negb (interrupted d)
  then (DB (by_interrupt d) true (terminating d) (disposed d) (suspended d) (waiting d), [EInterrupt])
  else (DB (by_interrupt d) (interrupted d) true (disposed d) (suspended d) (waiting d), [EEnd]).

(** on_terminate_request L301-310 and on_disconnect_request L727-741 of
    _pydevd_bundle/pydevd_process_net_command_json.py; request_disconnect,
    _pydevd_bundle/pydevd_api.py L214-221 (resuming sets the state of suspended threads to running) *)
Definition on_request (d : db) (r : request) : db * list effect :=
  match r with
  | Terminate => request_terminate_process d
  | Disconnect true => request_terminate_process d
  | Disconnect false => (DB (by_interrupt d) (interrupted d) (terminating d) (disposed d) false (waiting d), [EDetach])
  end.

Fixpoint on_requests (d : db) (rs : list request) : db * list effect :=
  match rs with
  | [] => (d, [])
  | r :: rest => let '(d1, e1) := on_request d r in
                 let '(d2, e2) := on_requests d1 rest in (d2, e1 ++ e2)
  end.

(** What happens while a thread is in the wait loop: requests, the debugger is disposed of (the first
    step of ending, or by the program), the client resumes the thread, the loop looks at the state
    (pydevd.py L2219-2224). *)
Inductive happening := HRequest (r : request) | HDispose | HResume | HLook.

Definition happens (d : db) (h : happening) : db :=
  match h with
  | HRequest r => fst (on_request d r)
  | HDispose => DB (by_interrupt d) (interrupted d) (terminating d) true (suspended d) (waiting d)
  | HResume => DB (by_interrupt d) (interrupted d) (terminating d) (disposed d) false (waiting d)
  | HLook => if negb (suspended d) || (disposed d && negb (terminating d))
             then DB (by_interrupt d) (interrupted d) (terminating d) (disposed d) (suspended d) false
             else d
  end.

Definition happen (d : db) (hs : list happening) : db := fold_left happens hs d.
