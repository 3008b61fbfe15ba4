(** Model of how a path is turned into the one with the case of the disk (property C87).
    Source: /repo/pydevd_file_utils.py L144-167 (_resolve_listing), L170-206 (_resolve_listing_parts), L240-259 (_get_path_with_real_case of
    Windows), L285-297 (get_path_with_real_case of the Mac).
    Parameters: the separator, lower and upper case of a character, what os.listdir says of a path, whether the file exists.
    Simplifications: lower and upper case go character by character; for Windows the path is given as os.path.splitdrive and normpath
    leave it, in two parts, and has no short names; os.path.join is that for names without separators after a path which does not end
    with a drive letter alone. *)
From Coq Require Import List NArith Bool.
From Verif Require Import Base RunFile.
Import ListNotations.
Open Scope list_scope.

Inductive listed := Listed (l : list str) | NotFound | Denied.
Inductive result := Path (s : str) | Missing | Refused.

Record cache := Cache { joined : list (str * str * str); contents : list (str * list str) }.
Definition empty : cache := Cache [] [].
Fixpoint get_joined (k p : str) (l : list (str * str * str)) : option str :=
  match l with [] => None | (k', p', v) :: r => if str_eqb k' k && str_eqb p' p then Some v else get_joined k p r end.
Fixpoint get_contents (k : str) (l : list (str * list str)) : option (list str) :=
  match l with [] => None | (k', v) :: r => if str_eqb k' k then Some v else get_contents k r end.

Section Case.
  Variables (sep : N) (low up : N -> N).

  Definition lower (s : str) : str := map low s.
  (** os.path.join *)
  Definition os_join (d n : str) : str :=
    match d with [] => n | _ => if ends_with [sep] d then d ++ n else d ++ sep :: n end.
  Fixpoint find_name (p : str) (l : list str) : option str :=
    match l with [] => None | n :: r => if str_eqb (lower n) p then Some n else find_name p r end.

  (** L144-167 *)
  Fixpoint resolve_listing (listdir : str -> listed) (c : cache) (resolved : str) (parts : list str) : cache * result :=
    match parts with
    | [] => (c, Path resolved)
    | p :: rest =>
        let k := lower resolved in
        match get_joined k p (joined c) with
        | Some v => resolve_listing listdir c v rest
        | None =>
            let with_dir c l :=
              match find_name p l with
              | Some n => let v := os_join resolved n in resolve_listing listdir (Cache ((k, p, v) :: joined c) (contents c)) v rest
              | None => (c, Missing)
              end in
            match get_contents k (contents c) with
            | Some l => with_dir c l
            | None =>
                match listdir resolved with
                | Listed l => with_dir (Cache (joined c) ((k, l) :: contents c)) l
                | NotFound => (c, Missing)
                | Denied => (c, Refused)
                end
            end
        end
    end.

  (** L170-206 *)
  Definition resolve_listing_parts (listdir : str -> listed) (c : cache) (resolved : str) (parts : list str) (filename : str) : cache * option str :=
    match parts with
    | [[]] => (c, Some resolved)
    | _ =>
        match resolve_listing listdir c resolved parts with
        | (c1, Path s) => (c1, Some s)
        | (c1, Refused) => (c1, Some filename)
        | (c1, Missing) =>
            match resolve_listing listdir empty resolved parts with
            | (c2, Path s) => (c2, Some s)
            | (c2, Missing) => (c2, Some filename)
            | (c2, Refused) => (c2, None)   (* the error of the second try is raised *)
            end
        end
    end.

  (** L290-295: the parts which are empty go in front *)
  Fixpoint mac_start (found : str) (parts : list str) : str * list str :=
    match parts with [] :: r => mac_start (found ++ [sep]) r | _ => (found, parts) end.
  (** L285-297 *)
  Definition mac (listdir : str -> listed) (exists_ : bool) (c : cache) (filename : str) : cache * option str :=
    if starts_with [60%N] filename || negb exists_ then (c, Some filename)
    else let (found, parts) := mac_start [] (pieces sep (lower filename)) in resolve_listing_parts listdir c found parts filename.

  (** L253-258 *)
  Fixpoint windows_start (drive rest : str) : str * str :=
    match rest with x :: r => if N.eqb x sep then windows_start (drive ++ [sep]) r else (drive, rest) | [] => (drive, []) end.
  (** L240-259, the path being drive ++ rest *)
  Definition windows (listdir : str -> listed) (exists_ : bool) (c : cache) (drive rest : str) : cache * option str :=
    if starts_with [60%N] (drive ++ rest) || negb exists_ then (c, Some (drive ++ rest))
    else let (d, r) := windows_start (map up drive) rest in
         resolve_listing_parts listdir c d (pieces sep (lower r)) (drive ++ rest).
End Case.
