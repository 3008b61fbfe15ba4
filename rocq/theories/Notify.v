(** Model of single suspend/resume notifications (property C17).
    Source: /repo/pydevd.py L348-470 (AbstractSingleNotificationBehavior), L473-515.  All methods hold the lock, so each is
    one step.  _notify_after_timeout runs at any time after on_pause (see Timeout.v), possibly never. *)
From Coq Require Import List NArith ZArith Bool.
From Verif Require Import Base Dict.
Import ListNotations.

Inductive event := Stopped (t : N) | Continued (t : N).
Record state := State {
  next_time : Z;                 (* itertools.count() *)
  last_suspend : Z;
  last_resume : Z;
  request : Z;                   (* _suspend_time_request *)
  suspended : list (N * unit);   (* _suspended_thread_id_to_thread *)
  pause : bool;
  timeouts : list Z;             (* global_suspend_time of the callbacks registered by on_pause *)
  events : list event            (* sent to the client, newest first *)
}.

(** __init__, L379-387 *)
Definition init : state := State 1 (-1) (-1) 0 [] false [] [].

Inductive op :=
| Increment                      (* increment_suspend_time, L395-397 *)
| Pause                          (* on_pause, L399-410 *)
| Timeout (g : Z)                (* _notify_after_timeout, L412-421 *)
| Suspend (t : N) (plain : bool) (* on_thread_suspend, L422-447; plain: the reason is CMD_THREAD_SUSPEND *)
| Resume (t : N).                (* on_thread_resume, L449-462 *)

Definition send (s : state) (e : event) : state :=
  State (next_time s) (last_suspend s) (last_resume s) (request s) (suspended s) (pause s) (timeouts s) (e :: events s).
Definition set_susp (s : state) (d : list (N * unit)) (p : bool) : state :=
  State (next_time s) (last_suspend s) (last_resume s) (request s) d p (timeouts s) (events s).
Definition set_last (s : state) (ls lr : Z) : state :=
  State (next_time s) ls lr (request s) (suspended s) (pause s) (timeouts s) (events s).

Definition step (s : state) (o : op) : state :=
  match o with
  | Increment => State (next_time s + 1) (last_suspend s) (last_resume s) (next_time s) (suspended s) (pause s) (timeouts s) (events s)
  | Pause => State (next_time s) (last_suspend s) (last_resume s) (request s) (suspended s) true (request s :: timeouts s) (events s)
  | Timeout g =>
      if existsb (Z.eqb g) (timeouts s) then
        match suspended s with
        | [] => s
        | (t, _) :: _ => if Z.ltb (last_suspend s) g then send (set_last s g (last_resume s)) (Stopped t) else s
        end
      else s
  | Suspend t plain =>
      let pr := pause s in
      let s := set_susp s (set N.eqb t tt (suspended s)) false in
      if negb plain || pr then
        if Z.ltb (last_suspend s) (request s) then send (set_last s (request s) (last_resume s)) (Stopped t) else s
      else s
  | Resume t =>
      if mem N.eqb t (suspended s) then
        let s := set_susp s (del N.eqb t (suspended s)) (pause s) in
        if Z.ltb (last_resume s) (last_suspend s) then send (set_last s (last_suspend s) (last_suspend s)) (Continued t) else s
      else s                                                    (* KeyError at L456 *)
  end.
Definition run (ops : list op) : state := fold_left step ops init.
