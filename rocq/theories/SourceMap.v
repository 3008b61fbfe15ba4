(** Model of the source mappings of cells (property C29).
    Source: /repo/_pydevd_bundle/pydevd_source_mapping.py L1-150; /repo/_pydevd_bundle/pydevd_api.py:
    set_source_mapping L999-1021 (the entries' source_filename). The callback _on_source_mapping_changed and
    reapply_breakpoints are left out. *)
From Coq Require Import List NArith ZArith Bool.
From Verif Require Import Base Dict.
Import ListNotations.

(** SourceMappingEntry, L6-32. [src] is given by set_source_mapping of the API. *)
Record cell := Cell { line : Z; end_line : Z; rline : Z; rsrc : str; src : str }.
Definition contains_line (e : cell) (i : Z) : bool := Z.leb (line e) i && Z.leb i (end_line e).
(** L26-29 *)
Definition contains_rline (e : cell) (i : Z) : bool :=
  let line_count := (end_line e + line e)%Z in
  Z.leb (rline e) i && Z.leb i (rline e + line_count)%Z.

(** Keys of the cache: (lineno, "client", name) and ("has_entry", name) *)
Definition ckey := (Z * str)%type.
Definition ckey_eqb (a b : ckey) : bool := Z.eqb (fst a) (fst b) && str_eqb (snd a) (snd b).
Definition answer := (str * Z * bool)%type.

Record state := State {
  to_server : list (str * list cell);    (* _mappings_to_server, insertion order *)
  to_client : list (str * str);          (* _mappings_to_client *)
  cache : list (ckey * answer);
  has_cache : list (str * bool)
}.
Definition init : state := State [] [] [] [].

Section Mapping.
(** pydevd_file_utils.normcase *)
Context (norm : str -> str).

(** sorted(mapping, key=line): stable *)
Fixpoint insert (e : cell) (l : list cell) : list cell :=
  match l with
  | [] => [e]
  | x :: r => if Z.ltb (line e) (line x) then e :: l else x :: insert e r
  end.
Definition sorted (l : list cell) : list cell := fold_left (fun acc e => insert e acc) l [].

(** The deletions L71-72; None: KeyError, with the dictionary so far *)
Fixpoint delete_all (l : list cell) (d : list (str * str)) : list (str * str) * bool :=
  match l with
  | [] => (d, true)
  | e :: r => if mem str_eqb (rsrc e) d then delete_all r (del str_eqb (rsrc e) d) else (d, false)
  end.

Inductive reply := Applied | Conflict | KeyError.
(** set_source_mapping L43-82 with the API's L1010-1014 *)
Definition set_mapping (s : state) (file : str) (m : list cell) : state * reply :=
  let m := map (fun e => Cell (line e) (end_line e) (rline e) (rsrc e) file) m in
  if existsb (fun e => match get str_eqb (rsrc e) (to_client s) with
                       | Some f => negb (str_eqb f []) && negb (str_eqb f file)
                       | None => false
                       end) m
  then (s, Conflict)
  else
    let n := norm file in
    let current := match get str_eqb n (to_server s) with Some l => l | None => [] end in
    let (d, ok) := delete_all current (to_client s) in
    if ok then
      (State (set str_eqb n (sorted m) (to_server s))
             (fold_left (fun d e => set str_eqb (rsrc e) file d) m d) [] [], Applied)
    else (State (to_server s) d [] [], KeyError).

(** map_to_client L84-98 without the cache *)
Definition compute_client (s : state) (name : str) (l : Z) : answer :=
  match find (fun e => str_eqb (rsrc e) name && contains_rline e l) (flat_map snd (to_server s)) with
  | Some e => (src e, (line e + (l - rline e))%Z, true)
  | None => (name, l, false)
  end.
Definition map_to_client (s : state) (name : str) (l : Z) : state * answer :=
  match get ckey_eqb (l, name) (cache s) with
  | Some a => (s, a)
  | None => let a := compute_client s name l in
            (State (to_server s) (to_client s) (set ckey_eqb (l, name) a (cache s)) (has_cache s), a)
  end.

(** has_mapping_entry L100-119 *)
Definition compute_has (s : state) (name : str) : bool :=
  existsb (fun e => str_eqb (rsrc e) name) (flat_map snd (to_server s)).
Definition has_mapping_entry (s : state) (name : str) : state * bool :=
  match get str_eqb name (has_cache s) with
  | Some b => (s, b)
  | None => let b := compute_has s name in
            (State (to_server s) (to_client s) (cache s) (set str_eqb name b (has_cache s)), b)
  end.

(** bisect.bisect on the lines of a sorted list: the number of entries not after the line *)
Fixpoint bisect (l : list cell) (i : Z) : nat :=
  match l with
  | [] => 0
  | e :: r => if Z.leb (line e) i then S (bisect r i) else 0
  end.
(** map_to_server L121-150 *)
Definition map_to_server (s : state) (file : str) (l : Z) : answer :=
  match get str_eqb (norm file) (to_server s) with
  | None | Some [] => (file, l, false)
  | Some m =>
      let i := bisect m l in
      let i := if Nat.leb (List.length m) i then Nat.pred i else i in
      let first := nth_error m (match i with O => O | S j => j end) in
      let chosen :=
        match first with
        | Some e => if contains_line e l then Some e
                    else match nth_error m i with
                         | Some e => if contains_line e l then Some e else None
                         | None => None
                         end
        | None => None
        end in
      match chosen with
      | Some e => (rsrc e, (rline e + (l - line e))%Z, true)
      | None => (file, l, false)
      end
  end.

(** What may happen. [Compute] and [Store]: a translation to the client in a thread, which looks up the entries and
    later stores the answer *)
Inductive op :=
| Set_ (file : str) (m : list cell)
| ToClient (name : str) (l : Z)
| HasEntry (name : str)
| Store (name : str) (l : Z) (a : answer).
Definition exec (s : state) (o : op) : state :=
  match o with
  | Set_ f m => fst (set_mapping s f m)
  | ToClient n l => fst (map_to_client s n l)
  | HasEntry n => fst (has_mapping_entry s n)
  | Store n l a => State (to_server s) (to_client s) (set ckey_eqb (l, n) a (cache s)) (has_cache s)
  end.
Definition run (h : list op) : state := fold_left exec h init.
End Mapping.
