(** Model of the tables behind frame and variable references (property C13).
    Source: /repo/_pydevd_bundle/pydevd_suspended_frames.py L316-540. *)
From Coq Require Import List NArith ZArith Bool String.
From Verif Require Import Base Dict.
Import ListNotations.

(** Objects (frames and values) are numbers; [addr o] is id(o).  Trackers and threads are numbers too. *)
Notation obj := N (only parsing).

(** _FramesTracker, L321-352 *)
Record tracker := Tracker {
  t_frames : list (N * obj);            (* _frame_id_to_frame *)
  t_threads : list (N * list N);        (* _thread_id_to_frame_ids *)
  t_vars : list (N * obj);              (* _variable_reference_to_variable; the variable is given by its value *)
  t_main : option N;                    (* _main_thread_id *)
  t_untracked : bool
}.
Definition new_tracker : tracker := Tracker [] [] [] None false.

(** SuspendedFramesManager, L450-456; all trackers ever created. *)
Record state := State {
  s_tr : N -> tracker;
  s_threads : list (N * N);             (* _thread_id_to_tracker *)
  s_refs : list (N * N)                 (* _variable_reference_to_frames_tracker *)
}.
Definition init : state := State (fun _ => new_tracker) [] [].

Definition upd (f : N -> tracker) (t : N) (x : tracker) : N -> tracker := fun u => if N.eqb u t then x else f u.

Section Frames.
Context (addr : obj -> N).

(** _register_variable, L350-352 *)
Definition reg_var (tr : tracker) (o : obj) : tracker :=
  Tracker (t_frames tr) (t_threads tr) (set N.eqb (addr o) o (t_vars tr)) (t_main tr) (t_untracked tr).

(** get_children_variables of a variable or frame and obtain_as_variable, L354-366: each child value becomes
    a variable of the same tracker. *)
Definition register (s : state) (t : N) (objs : list obj) : state :=
  State (upd (s_tr s) t (fold_left reg_var objs (s_tr s t))) (s_threads s) (s_refs s).

(** track, L374-407; [key]: frame_custom_thread_id or thread_id *)
Definition track_frame (t : N) (p : tracker * list (N * N)) (f : obj) : tracker * list (N * N) :=
  let '(tr, refs) := p in
  let tr := Tracker (set N.eqb (addr f) f (t_frames tr)) (t_threads tr) (t_vars tr) (t_main tr) (t_untracked tr) in
  (reg_var tr f, set N.eqb (addr f) t refs).

Definition track (s : state) (t thread key : N) (frames : list obj) : state :=
  let tr := s_tr s t in
  let old := match get N.eqb key (t_threads tr) with Some l => l | None => [] end in
  let tr := Tracker (t_frames tr) (set N.eqb key (old ++ map addr frames) (t_threads tr)) (t_vars tr) (Some thread) (t_untracked tr) in
  let '(tr, refs) := fold_left (track_frame t) frames (tr, s_refs s) in
  State (upd (s_tr s) t tr) (set N.eqb key t (s_threads s)) refs.

(** for frame_id in ...: del refs[frame_id]; false: KeyError *)
Fixpoint del_refs (ids : list N) (refs : list (N * N)) : list (N * N) * bool :=
  match ids with
  | [] => (refs, true)
  | i :: r => if mem N.eqb i refs then del_refs r (del N.eqb i refs) else (refs, false)
  end.

(** untrack_all, L409-427 *)
Definition untrack (s : state) (t : N) : state :=
  let tr := s_tr s t in
  if t_untracked tr then s
  else
    let threads := fold_left (fun m k => del N.eqb k m) (keys (t_threads tr)) (s_threads s) in
    let '(refs, ok) := del_refs (keys (t_frames tr)) (s_refs s) in
    if ok then State (upd (s_tr s) t (Tracker [] [] [] None true)) threads refs
    else State (upd (s_tr s) t (Tracker (t_frames tr) (t_threads tr) (t_vars tr) (t_main tr) true)) threads refs.

(** _get_tracker_for_variable_reference, L458-471 *)
Definition tracker_for (s : state) (r : N) : option N :=
  match get N.eqb r (s_refs s) with
  | Some t => Some t
  | None => find (fun t => mem N.eqb r (t_vars (s_tr s t))) (values (s_threads s))
  end.

(** get_variable, L495-502; None: KeyError *)
Definition get_variable (s : state) (r : N) : option obj :=
  match tracker_for s r with
  | Some t => get N.eqb r (t_vars (s_tr s t))
  | None => None
  end.

(** get_thread_id_for_variable_reference, L473-490 *)
Definition thread_for (s : state) (r : N) : option N :=
  match tracker_for s r with
  | Some t => t_main (s_tr s t)
  | None => None
  end.

(** find_frame, L521-540, without fake frames and "*" *)
Definition find_frame (s : state) (thread r : N) : option obj :=
  match get N.eqb thread (s_threads s) with
  | Some t => get N.eqb r (t_frames (s_tr s t))
  | None => None
  end.

Inductive op :=
| Track (t thread key : N) (frames : list obj)
| Register (t : N) (objs : list obj)
| Untrack (t : N).

Definition step (s : state) (o : op) : state :=
  match o with
  | Track t th k fr => track s t th k fr
  | Register t objs => register s t objs
  | Untrack t => untrack s t
  end.
Definition run (ops : list op) : state := fold_left step ops init.
End Frames.
