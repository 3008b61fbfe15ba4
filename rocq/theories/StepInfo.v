(** Model of the set of stepping threads and of waking a thread when it is resumed (property C33).
    Source: /repo/_pydevd_bundle/pydevd_additional_thread_info_regular.py: _get_related_thread L126-151, _is_stepping
    L155-167, _update_stepping_info L268-297, add_additional_info L304-308, remove_additional_info L313-316,
    any_thread_stepping L325-326; /repo/_pydevd_bundle/pydevd_thread_lifecycle.py: internal_run_thread L52-59;
    /repo/_pydevd_bundle/pydevd_comm.py: internal_step_in_thread L714-725. The debugger exists and is not disposed.
    The wait loop of a suspended thread, which looks at its state again after a time-out, is left out. *)
From Coq Require Import List NArith ZArith Bool.
Import ListNotations.

(** The attributes of a PyDBAdditionalThreadInfo that matter here, and those of its thread. An info is known by the
    number of its thread. *)
Record attrs := Attrs {
  notify_kill : bool;        (* pydev_notify_kill *)
  collected : bool;          (* weak_thread() is None *)
  alive : bool;              (* is_thread_alive and registered in threading._active under its ident *)
  suspended : bool;          (* pydev_state == STATE_SUSPEND, else STATE_RUN *)
  step_cmd : Z;              (* pydev_step_cmd, -1 for none *)
  in_wait : bool             (* is_in_wait_loop *)
}.
(** _get_related_thread() is not None, L126-151 (for a collected thread it returns False) *)
Definition related (a : attrs) : bool :=
  if notify_kill a then false else if collected a then true else alive a.
(** L155-167 *)
Definition is_stepping (a : attrs) : bool :=
  (negb (suspended a) && negb (Z.eqb (step_cmd a) (-1))) || (suspended a && in_wait a).

Record state := State {
  info : N -> attrs;
  all : list N;              (* _all_infos: a set, in some order *)
  stepping : list N;         (* _infos_stepping *)
  woken : list N             (* the threads whose event was set, in order *)
}.

(** _update_stepping_info L268-297: the sets are iterated in the orders [o1] and [o2]; the last value of the loop
    variable takes the place of the parameter. *)
Definition last_or (p : N) (l : list N) : N := last l p.
Definition keep (s : state) (o1 : list N) : list N := filter (fun i => related (info s i)) o1.
Definition update (s : state) (p : N) (o1 o2 : list N) : state :=
  let new_stepping := filter (fun i => is_stepping (info s i)) o2 in
  let p := last_or (last_or p o1) o2 in
  State (info s) o2 new_stepping (woken s ++ (if collected (info s p) then [] else [p])).

Definition with_info (s : state) (i : N) (a : attrs) : state :=
  State (fun j => if N.eqb j i then a else info s j) (all s) (stepping s) (woken s).
(** add_additional_info, from set_additional_thread_info *)
Definition add (s : state) (i : N) : state :=
  let stepping' := if is_stepping (info s i) then (if existsb (N.eqb i) (stepping s) then stepping s else stepping s ++ [i]) else stepping s in
  State (info s) (if existsb (N.eqb i) (all s) then all s else all s ++ [i]) stepping' (woken s).
Definition discard (i : N) (l : list N) : list N := filter (fun j => negb (N.eqb j i)) l.
Definition remove (s : state) (i : N) : state := State (info s) (discard i (all s)) (discard i (stepping s)) (woken s).

(** internal_run_thread and internal_step_in_thread: the attributes are set, then update_stepping_info. [cmd] is -1 for
    a resumed thread *)
Definition resume (s : state) (i : N) (cmd : Z) (o1 o2 : list N) : state :=
  let a := info s i in
  update (with_info s i (Attrs (notify_kill a) (collected a) (alive a) false cmd (in_wait a))) i o1 o2.
