(** Model of the return values shown while stepping (property C75).
    Sources: /repo/_pydevd_bundle/pydevd_frame.py L235-250 (_show_return_values), L255-269 (_remove_return_values),
    L484-507, L584-592, L736-756; /repo/_pydevd_sys_monitoring/_pydevd_sys_monitoring.py L1039-1055 (_show_return_values),
    L1116-1220 (_return_event); /repo/_pydevd_bundle/pydevd_api.py L163-171 (set_show_return_values).
    One thread between two stops: the step command and its frame are those of the step, and change only when that frame is
    left.  Functions which are no generators or coroutines, stepping not scoped to IPython cells. *)
From Coq Require Import List NArith Bool.
From Verif Require Import Base Dict.
Import ListNotations.
Open Scope list_scope.

(** The step commands, /repo/_pydevd_bundle/pydevd_comm_constants.py *)
Inductive cmd := NoStep | Into | IntoMy | IntoCo | Over | OverMy | Ret | RetMy | Smart | Susp.

(** A frame: its identity, the name get_func_name gives it, its namespace (f_locals), whether its return is seen at all
    (its code is traced, that is not filtered out) and whether its file is filtered by apply_files_filter(.., True). *)
Record frame := Frame { fid : N; fname : str; floc : N; seen : bool; filtered : bool }.

(** The return values kept in a namespace (RETURN_VALUES_DICT), if any *)
Notation vals := (option (list (str * N))).
Notation spaces := (N -> vals).

Definition put (ns : spaces) (l : N) (v : vals) : spaces := fun k => if N.eqb k l then v else ns k.

(** _show_return_values, pydevd_frame.py L235-250, with the caller [b] *)
Definition show (ns : spaces) (f b : frame) (v : N) : spaces :=
  let d := match ns (floc b) with Some d => d | None => [] end in
  put ns (floc b) (Some (set str_eqb (fname f) v d)).

(** How a function is left: with a value, or by an exception. *)
Inductive leave := Returned (v : N) | Raised.
Definition none : N := 0%N.        (* None *)

Inductive engine := Tracing | Monitoring.

Definition is_over (c : cmd) : bool := match c with Over | OverMy => true | _ => false end.
Definition is_ret (c : cmd) : bool := match c with Ret | RetMy => true | _ => false end.
Definition is_stop (s : option N) (f : frame) : bool := match s with Some i => N.eqb i (fid f) | None => false end.

(** The condition of pydevd_frame.py L737-749, with the command and frame after L493-503 *)
Definition cond_tracing (c : cmd) (stop : option N) (f b : frame) : bool :=
  let leaves := is_stop stop f && match c with Over | Ret | OverMy | RetMy | Smart => true | _ => false end in
  let c' := if leaves then match c with Over | Ret | Smart => Into | _ => IntoMy end else c in
  let stop' := if leaves then None else stop in
  (match c' with Over | OverMy | Smart => true | _ => false end && is_stop stop' b)
  || (is_ret c' && is_stop stop' f)
  || match c' with Into | IntoCo => true | _ => false end
  || (match c' with IntoMy => true | _ => false end && negb (filtered b)).

(** _return_event, _pydevd_sys_monitoring.py L1116-1220: whether one of the calls of _show_return_values is reached, where
    [skips] says that the code of the caller is skipped or filtered out and [initial] that it is at the location where the
    step began.  (info, _is_same_frame(..)) at L1194 is a pair and so always true. *)
Definition cond_monitoring (c : cmd) (stop : option N) (skips initial : bool) (f b : frame) : bool :=
  let fine := negb skips && negb (match c with IntoMy | OverMy => filtered b | _ => false end) in
  match c with
  | NoStep => false
  | Into | IntoMy | IntoCo | Susp =>
      if fine && negb initial then true
      else match c with Into | IntoCo => true | IntoMy => negb (filtered b) | _ => false end
  | Ret | RetMy => true                       (* L1149 or L1202 *)
  | Over | OverMy =>
      if is_stop stop f then true             (* L1174, or L1220 if the caller is not fine *)
      else is_stop stop b
  | Smart => is_stop stop f || is_stop stop b
  end.

(** What the handler of the return of [f] into [b] does; an exception is a return of None for the tracing function, and no
    return for sys.monitoring (PY_UNWIND). *)
Definition on_leave (e : engine) (showing : bool) (c : cmd) (stop : option N) (skips initial : bool)
    (ns : spaces) (f b : frame) (k : leave) : spaces :=
  if negb (seen f) || negb showing then ns
  else
    match e, k with
    | Tracing, Returned v => if cond_tracing c stop f b then show ns f b v else ns
    | Tracing, Raised => if cond_tracing c stop f b then show ns f b none else ns
    | Monitoring, Returned v => if cond_monitoring c stop skips initial f b then show ns f b v else ns
    | Monitoring, Raised => ns
    end.

(** The thread: its frames, the innermost first, and the namespaces. *)
Record state := State { stack : list frame; ns : spaces }.
Inductive op := Call (f : frame) | Leave (k : leave) (skips initial : bool).

Definition step (e : engine) (showing : bool) (c : cmd) (stop : option N) (s : state) (o : op) : state :=
  match o with
  | Call f => State (f :: stack s) (ns s)
  | Leave k sk i =>
      match stack s with
      | [] => s
      | [f] => State [] (ns s)                                    (* f_back is None *)
      | f :: b :: r => State (b :: r) (on_leave e showing c stop sk i (ns s) f b k)
      end
  end.
Definition exec (e : engine) (showing : bool) (c : cmd) (stop : option N) (s : state) (l : list op) : state :=
  fold_left (step e showing c stop) l s.

(** set_show_return_values, pydevd_api.py L163-171: the flags show_return_values and remove_return_values_flag *)
Definition set_show (fl : bool * bool) (x : bool) : bool * bool :=
  if x then (true, snd fl) else (false, if fst fl then true else snd fl).

(** A line event, or any other which is not skipped, pydevd_frame.py L736 and L752-756; sys.monitoring has no such step *)
Definition touch (e : engine) (fl : bool * bool) (s : state) : (bool * bool) * state :=
  match e with
  | Monitoring => (fl, s)
  | Tracing =>
      if fst fl then (fl, s)
      else if snd fl then
        ((fst fl, false),
         State (stack s)
           match stack s with
           | [] => ns s
           | [f] => put (ns s) (floc f) None
           | f :: b :: _ => put (put (ns s) (floc f) None) (floc b) None
           end)
      else (fl, s)
  end.
