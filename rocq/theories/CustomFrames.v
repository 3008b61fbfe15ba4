(** Model of the custom frames shown as threads (properties C36, C43).
    Source: /repo/_pydevd_bundle/pydevd_custom_frames.py: add_custom_frame L59-88, update_custom_frame L91-106,
    remove_custom_frame L109-114; /repo/pydevd.py: do_wait_suspend L2156-2182, _do_wait_suspend L2349-2356;
    /repo/_pydevd_bundle/pydevd_gevent_integration.py: greenlet_events L31-56.
    Every access is under custom_frames_lock, so the operations are atomic. A frame's text id is
    "__frame__:n|thread", with a number n never used again: here it is n. *)
From Coq Require Import List NArith ZArith Bool.
From Verif Require Import Base Dict.
Import ListNotations.

(** What CustomFrame.thread_id and name may hold: a thread's ident or a text *)
Inductive val := Ident (t : Z) | Text (s : str).
Definition val_eqb (a b : val) : bool :=
  match a, b with Ident x, Ident y => Z.eqb x y | Text x, Text y => str_eqb x y | _, _ => false end.
Record cframe := CFrame { frame : N; name : val; thread : val }.
Record frames := Frames { next_id : N; custom : list (N * cframe) }.
Definition no_frames : frames := Frames 0 [].

Definition add_custom (s : frames) (f : N) (nm : val) (t : val) : frames * N :=
  let n := N.succ (next_id s) in
  (Frames n (set N.eqb n (CFrame f nm t) (custom s)), n).
(** L91-106: the new frame is not used; an unknown id is only logged *)
Definition update_custom (s : frames) (id : N) (f : N) (t : val) (nm : option val) : frames :=
  match get N.eqb id (custom s) with
  | Some old => Frames (next_id s) (set N.eqb id (CFrame (frame old) (match nm with Some n => n | None => name old end) t) (custom s))
  | None => s
  end.
Definition remove_custom (s : frames) (id : N) : frames := Frames (next_id s) (del N.eqb id (custom s)).

(** Messages to the client about frames and threads *)
Inductive msg := Created (id : N) (nm : val) | Suspended (id : N) | Run (t : Z) | Killed (id : N).
Record state := State {
  cf : frames;
  waiting : list (Z * list N);      (* the suspended threads with their from_this_thread *)
  sent : list msg
}.
Definition init : state := State no_frames [] [].
(** do_wait_suspend L2156-2182: every id is appended to from_this_thread *)
Definition stop (s : state) (t : Z) : state :=
  let msgs := flat_map (fun x => if val_eqb (thread (snd x)) (Ident t) then [Created (fst x) (name (snd x)); Suspended (fst x)] else [])
                       (custom (cf s)) in
  State (cf s) (set Z.eqb t (keys (custom (cf s))) (waiting s)) (sent s ++ msgs).
(** The end of _do_wait_suspend L2349-2356 *)
Definition resume (s : state) (t : Z) : state :=
  match get Z.eqb t (waiting s) with
  | None => s
  | Some from => State (cf s) (del Z.eqb t (waiting s)) (sent s ++ Run t :: map Killed from)
  end.
Inductive op :=
| Add (f : N) (nm t : val) | Update (id f : N) (t : val) (nm : option val) | Remove (id : N)
| Stop (t : Z) | Resume (t : Z).
Definition exec (s : state) (o : op) : state :=
  match o with
  | Add f nm t => State (fst (add_custom (cf s) f nm t)) (waiting s) (sent s)
  | Update id f t nm => State (update_custom (cf s) id f t nm) (waiting s) (sent s)
  | Remove id => State (remove_custom (cf s) id) (waiting s) (sent s)
  | Stop t => stop s t
  | Resume t => resume s t
  end.
Definition run (h : list op) : state := fold_left exec h init.

(** ** gevent *)
Record gstate := GState { saved : list (N * N); gf : frames }.
(** greenlet_events L31-56 for a switch in the thread [t]; [paused]: the origin is not dead and has a frame, with the
    frame and the name to be shown. The arguments of update_custom_frame are given as they are there: the name as
    thread id and the ident as name. *)
Definition greenlet_switch (s : gstate) (t : Z) (origin target : N) (paused : option (N * str)) : gstate :=
  let drop g s := match get N.eqb g (saved s) with
                  | Some id => GState (del N.eqb g (saved s)) (remove_custom (gf s) id)
                  | None => s
                  end in
  let s := match paused with
           | Some (f, nm) =>
               match get N.eqb origin (saved s) with
               | None => let (fs, id) := add_custom (gf s) f (Text nm) (Ident t) in GState (set N.eqb origin id (saved s)) fs
               | Some id => GState (saved s) (update_custom (gf s) id f (Text nm) (Some (Ident t)))
               end
           | None => drop origin s
           end in
  drop target s.
