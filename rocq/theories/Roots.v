(** Model of project and library roots (property C10).
    Source: /repo/_pydevd_bundle/pydevd_filtering.py L199-299. *)
From Coq Require Import List NArith ZArith Bool String.
From Verif Require Import Base.
Import ListNotations.

(** [absn]: _absolute_normalized_path, L210-214 (absolute_path then normcase), left abstract.
    [sl]: the separator appended to roots, "\\" on Windows and "/" elsewhere. *)

(** _convert_to_str_and_clear_empty, L19-25, and _fix_roots, L199-208 *)
Definition nonempty (s : str) : bool := match s with [] => false | _ => true end.
Definition fix_roots (absn : str -> str) (sl : N) (roots : list str) : list str :=
  map (fun r => absn r ++ [sl]) (filter nonempty roots).

(** max(len(x) for x in l) *)
Definition max_len (l : list str) : nat := fold_right (fun x m => Nat.max (List.length x) m) 0 l.

(** USER_CODE_BASENAMES_STARTING_WITH, LIBRARY_CODE_BASENAMES_STARTING_WITH *)
Definition user_start : str := lit "<ipython".
Definition library_start : str := lit "<".

Definition found_in (f fdir : str) (roots : list str) : list str :=
  filter (fun root => nonempty root && (starts_with root f || str_eqb root fdir)) roots.

(** in_project_roots, L230-299.  [proj], [libs]: the roots as stored by _fix_roots. *)
Definition in_project_roots (absn : str -> str) (sl : N) (proj libs : list str) (received : str) : bool :=
  if starts_with user_start received then true
  else if starts_with library_start received then false
  else
    let f := absn received in
    let fdir := f ++ [sl] in
    let found_p := found_in f fdir proj in
    let found_l := found_in f fdir libs in
    match proj with
    | [] => match found_l with [] => true | _ => false end
    | _ => match found_p with
           | [] => false
           | _ => match found_l with
                  | [] => true
                  | _ => Nat.ltb (max_len found_l) (max_len found_p)
                  end
           end
    end.
