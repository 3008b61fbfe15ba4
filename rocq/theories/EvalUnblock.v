(** Model of evaluations which take too long: the other threads are let go and stopped again (property C74).
    Sources: /repo/_pydevd_bundle/pydevd_vars.py L312-346 (_run_with_unblock_threads);
    /repo/_pydevd_bundle/pydevd_thread_lifecycle.py L28-115; /repo/_pydevd_bundle/pydevd_timeout.py L120-153;
    /repo/pydevd.py L464-470, L1948-1961, L2117, L2180-2181, L2220-2224.
    The notifications are those of Notify.v.  One evaluation of a thread [curr] in the mode with one notification for
    all threads; the callback of the timeout runs in a thread of its own, so its steps and those of all other
    threads come in any order.  Time is left out: the callback may begin at any time.  What set_suspend does under the
    lock, and the continuing of all threads by the client, are one step each; no threads begin or end. *)
From Coq Require Import List NArith ZArith Bool.
From Verif Require Import Base Dict.
From Verif Require Notify.
Import ListNotations.
Open Scope list_scope.

(** Where a thread is: in the program; on its way into do_wait_suspend, with the reason it read (L2117); in the loop;
    out of the loop, its on_thread_resume not yet called. *)
Inductive phase := Out | Entering (r : Z) | Inside | Leaving.

(** Where the callback is: not begun; past the check of disposed (pydevd_timeout.py L126); in resume_threads with these
    threads to come; about to call on_thread_resume; done. *)
Inductive cbpc := CbWait | CbIn | CbResume (rest : list N) | CbNotify | CbDone.

(** Where the evaluation is: evaluating; after __exit__; after the check of called, with the lock; the steps under the
    lock; over. *)
Inductive evpc := EvRun | EvOut | EvMark | EvInc | EvSuspend (rest : list N) | EvNotify | EvEnd.

(** What the rest of the debugger sees: pydev_state is STATE_RUN; stop_reason; where the threads are; the
    notifications; a KeyError was raised by on_thread_resume. *)
Record body := Body { run : N -> bool; reason : N -> Z; ph : N -> phase; ntf : Notify.state; err : bool }.
Record state := State { bd : body; called : bool; disposed : bool; cb : cbpc; ev : evpc }.

Definition SET_BREAK : Z := 111.       (* CMD_SET_BREAK *)
Definition SUSPEND : Z := 105.         (* CMD_THREAD_SUSPEND *)

Definition upd {A} (f : N -> A) (t : N) (x : A) : N -> A := fun u => if N.eqb u t then x else f u.
Definition set_run (b : body) (t : N) (x : bool) : body := Body (upd (run b) t x) (reason b) (ph b) (ntf b) (err b).
Definition set_ph (b : body) (t : N) (x : phase) : body := Body (run b) (reason b) (upd (ph b) t x) (ntf b) (err b).
Definition notify (b : body) (o : Notify.op) : body := Body (run b) (reason b) (ph b) (Notify.step (ntf b) o) (err b).

(** mark_thread_suspended, pydevd_thread_lifecycle.py L28-51; the step commands are left out (see Mon.v) *)
Definition mark (b : body) (t : N) (r : Z) : body :=
  Body (upd (run b) t false) (upd (reason b) t r) (ph b) (ntf b) (err b).
(** on_thread_resume, pydevd.py L449-462: the pop raises KeyError if the thread is not there *)
Definition resumed (b : body) (t : N) : body :=
  Body (run b) (reason b) (ph b) (Notify.step (ntf b) (Notify.Resume t)) (err b || negb (mem N.eqb t (Notify.suspended (ntf b)))).
(** on_thread_suspend, L422-447 *)
Definition suspended (b : body) (t : N) (r : Z) : body := notify b (Notify.Suspend t (Z.eqb r SUSPEND)).

(** The threads of the program (get_non_pydevd_threads), those not to be traced, and the one which evaluates. *)
Record world := World { threads : list N; dnt : N -> bool; curr : N }.

(** suspend_all_threads, pydevd_thread_lifecycle.py L85-115, for one thread *)
Definition suspend_one (w : world) (main : N) (b : body) (t : N) : body :=
  if dnt w t || N.eqb t main then b else mark b t SUSPEND.
(** internal_run_thread and resume_threads, L54-79, for one thread *)
Definition resume_one (b : body) (t : N) : body := set_run b t true.

Inductive op :=
| CbStart                    (* exec_on_timeout, pydevd_timeout.py L120-136 *)
| CbNext                     (* a step of on_timeout_unblock_threads, pydevd_vars.py L325-329 *)
| EvNext                     (* the evaluation ends, or a step of what follows, L340-346 *)
| See (t : N)                (* a thread sees that it is to be suspended and reads the reason *)
| Enter (t : N)              (* it says so, and waits *)
| Leave (t : N)              (* it sees that it is to run *)
| Left (t : N)               (* it says so, and runs *)
| Mark (t : N) (r : Z)       (* set_suspend for a thread which stops at a breakpoint etc., or for a pause, L1952-1961 *)
| Continue                   (* the client continues all threads, resume_threads *)
| Other (o : Notify.op).     (* increment_suspend_time, on_pause (L1948-1950) and its timeouts *)

(** The lock suspend_threads_lock is held by the evaluation. *)
Definition locked (e : evpc) : bool :=
  match e with EvMark | EvInc | EvSuspend _ | EvNotify => true | _ => false end.
(** The thread which evaluates is busy until then. *)
Definition free (w : world) (s : state) (t : N) : bool :=
  negb (N.eqb t (curr w)) || match ev s with EvEnd => true | _ => false end.

Definition with_bd (s : state) (b : body) : state := State b (called s) (disposed s) (cb s) (ev s).

Definition step (w : world) (s : state) (o : op) : state :=
  let b := bd s in
  match o with
  | CbStart =>
      match cb s with
      | CbWait => if disposed s then s else State b (called s) true CbIn (ev s)
      | _ => s
      end
  | CbNext =>
      match cb s with
      | CbWait | CbDone => s
      | CbIn => State b true (disposed s) (CbResume (threads w)) (ev s)
      | CbResume [] => State b (called s) (disposed s) CbNotify (ev s)
      | CbResume (t :: r) =>
          State (if N.eqb t (curr w) then b else resume_one b t) (called s) (disposed s) (CbResume r) (ev s)
      | CbNotify => State (resumed b (curr w)) (called s) (disposed s) CbDone (ev s)
      end
  | EvNext =>
      match ev s with
      | EvRun => State b (called s) true (cb s) EvOut              (* __exit__, pydevd_timeout.py L141-152 *)
      | EvOut => State b (called s) (disposed s) (cb s) (if called s then EvMark else EvEnd)
      | EvMark => State (mark b (curr w) SET_BREAK) (called s) (disposed s) (cb s) EvInc
      | EvInc => State (notify b Notify.Increment) (called s) (disposed s) (cb s) (EvSuspend (threads w))
      | EvSuspend [] => State b (called s) (disposed s) (cb s) EvNotify
      | EvSuspend (t :: r) => State (suspend_one w (curr w) b t) (called s) (disposed s) (cb s) (EvSuspend r)
      | EvNotify => State (suspended b (curr w) SET_BREAK) (called s) (disposed s) (cb s) EvEnd
      | EvEnd => s
      end
  | See t =>
      match ph b t with
      | Out => if free w s t && negb (run b t) then with_bd s (set_ph b t (Entering (reason b t))) else s
      | _ => s
      end
  | Enter t =>
      match ph b t with
      | Entering r => with_bd s (suspended (set_ph b t Inside) t r)
      | _ => s
      end
  | Leave t =>
      match ph b t with
      | Inside => if free w s t && run b t then with_bd s (set_ph b t Leaving) else s
      | _ => s
      end
  | Left t =>
      match ph b t with
      | Leaving => with_bd s (resumed (set_ph b t Out) t)
      | _ => s
      end
  | Mark t r =>
      if locked (ev s) then s
      else with_bd s (fold_left (suspend_one w t) (threads w) (mark b t r))
  | Continue => with_bd s (fold_left resume_one (threads w) b)
  | Other o =>
      match o with
      | Notify.Increment | Notify.Pause | Notify.Timeout _ => with_bd s (notify b o)
      | _ => s
      end
  end.

Definition exec (w : world) (s : state) (l : list op) : state := fold_left (step w) l s.
