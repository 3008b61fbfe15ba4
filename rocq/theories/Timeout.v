(** Model of the timeout thread (property C15).
    Source: /repo/_pydevd_bundle/pydevd_timeout.py L14-198.  The timer holds _TimeoutThread._lock, the end of a
    guarded block holds TimeoutTracker._lock: they are different locks, so the steps of exec_on_timeout and of
    __exit__ interleave.  Killing the thread is not modelled. *)
From Coq Require Import List ZArith NArith Bool.
From Verif Require Import Base Dict.
Import ListNotations.
Open Scope Z_scope.

(** _OnTimeoutHandle, L108-119; [h_kw], [h_cb]: kwargs and on_timeout are not None; [h_exit]: steps of __exit__ done;
    [h_time], [h_delay]: the clock and the timeout at registration (L191-192). *)
Record handle := Handle {
  h_time : Z; h_delay : Z; h_disposed : bool; h_kw : bool; h_cb : bool; h_exit : nat
}.
Definition h_abs (h : handle) : Z := h_time h + h_delay h.

(** Position of the timer thread. [cur]: the clock at the snapshot, [rest]: handles still to look at, [new]:
    new_handles, [mn]: min_handle_timeout. *)
Record job := Job { cur : Z; rest : list N; new : list N; mn : option Z }.
Inductive tpc :=
| Waiting (wait : option Z)                        (* _event.wait(wait_time), L45 *)
| Loop (j : job)                                   (* L70 *)
| ReadKw (j : job) (h : N)                         (* exec_on_timeout, L122 *)
| ReadCb (j : job) (h : N) (kw : bool)             (* L123 *)
| Check (j : job) (h : N) (kw cb : bool)           (* L125 *)
| Set1 (j : job) (h : N) (kw cb : bool)            (* L126 *)
| Set2 (j : job) (h : N) (kw cb : bool)            (* L127 *)
| Set3 (j : job) (h : N) (kw cb : bool)            (* L128 *)
| Call (j : job) (h : N) (kw cb : bool).           (* L134 *)

Record call := MkCall { c_handle : N; c_clock : Z; c_kw : bool; c_cb : bool }.

Record state := State {
  table : list (N * handle);   (* every handle created *)
  handles : list N;            (* _TimeoutThread._handles *)
  event : bool;
  timer : tpc;
  lastcur : Z;                 (* the clock at the last snapshot *)
  calls : list call            (* newest first *)
}.
Definition init : state := State [] [] false (Waiting None) 0 [].

Definition upd (h : N) (f : handle -> handle) (t : list (N * handle)) : list (N * handle) :=
  match get N.eqb h t with Some x => set N.eqb h (f x) t | None => t end.
Definition dispose (x : handle) := Handle (h_time x) (h_delay x) true (h_kw x) (h_cb x) (h_exit x).
Definition drop_kw (x : handle) := Handle (h_time x) (h_delay x) (h_disposed x) false (h_cb x) (h_exit x).
Definition drop_cb (x : handle) := Handle (h_time x) (h_delay x) (h_disposed x) (h_kw x) false (h_exit x).

(** One step of __exit__, L140-152 *)
Definition exit_step (x : handle) : handle :=
  match h_exit x with
  | O => Handle (h_time x) (h_delay x) true (h_kw x) (h_cb x) 1
  | S O => Handle (h_time x) (h_delay x) (h_disposed x) false (h_cb x) 2
  | S (S O) => Handle (h_time x) (h_delay x) (h_disposed x) (h_kw x) false 3
  | _ => x
  end.

Inductive op :=
| Add (h : N) (clock delay : Z)     (* call_on_timeout, L170-198 *)
| Exit (h : N)                      (* next step of the end of the guarded block *)
| Timer (clock : Z).                (* next step of the timer; the clock is read when it wakes up *)

Definition with_timer (s : state) (p : tpc) : state := State (table s) (handles s) (event s) p (lastcur s) (calls s).
Definition with_table (s : state) (t : list (N * handle)) (p : tpc) : state := State t (handles s) (event s) p (lastcur s) (calls s).

Definition timer_step (s : state) (clock : Z) : state :=
  match timer s with
  | Waiting _ => State (table s) [] false (Loop (Job clock (handles s) [] None)) clock (calls s)   (* L56-65 *)
  | Loop j =>
      match rest j with
      | [] => State (table s) (new j) (event s)
                (Waiting (match mn j with None => None | Some m => Some (m - cur j) end)) (lastcur s) (calls s)   (* L90-95 *)
      | h :: r =>
          match get N.eqb h (table s) with
          | None => with_timer s (Loop (Job (cur j) r (new j) (mn j)))
          | Some x =>
              if Z.ltb (cur j) (h_abs x) && negb (h_disposed x) then
                with_timer s (Loop (Job (cur j) r (new j ++ [h])
                   (match mn j with None => Some (h_abs x) | Some m => if Z.ltb (h_abs x) m then Some (h_abs x) else Some m end)))
              else with_timer s (ReadKw (Job (cur j) r (new j) (mn j)) h)
          end
      end
  | ReadKw j h => with_timer s (ReadCb j h (match get N.eqb h (table s) with Some x => h_kw x | None => false end))
  | ReadCb j h kw => with_timer s (Check j h kw (match get N.eqb h (table s) with Some x => h_cb x | None => false end))
  | Check j h kw cb =>
      match get N.eqb h (table s) with
      | Some x => if h_disposed x then with_timer s (Loop j) else with_timer s (Set1 j h kw cb)
      | None => with_timer s (Loop j)
      end
  | Set1 j h kw cb => with_table s (upd h dispose (table s)) (Set2 j h kw cb)
  | Set2 j h kw cb => with_table s (upd h drop_kw (table s)) (Set3 j h kw cb)
  | Set3 j h kw cb => with_table s (upd h drop_cb (table s)) (Call j h kw cb)
  | Call j h kw cb => State (table s) (handles s) (event s) (Loop j) (lastcur s) (MkCall h (cur j) kw cb :: calls s)
  end.

Definition is_waiting (p : tpc) : bool := match p with Waiting _ => true | _ => false end.

Definition step (s : state) (o : op) : state :=
  match o with
  | Add h clock delay =>
      (* needs _TimeoutThread._lock, which the timer holds while processing; handles are new objects *)
      if is_waiting (timer s) && negb (mem N.eqb h (table s))
      then State (table s ++ [(h, Handle clock delay false true true 0)]) (handles s ++ [h]) true (timer s) (lastcur s) (calls s)
      else s
  | Exit h => with_table s (upd h exit_step (table s)) (timer s)
  | Timer clock => timer_step s clock
  end.
Definition run (ops : list op) : state := fold_left step ops init.
