(** Model of how variables are grouped for display (property C19).
    Source: /repo/_pydevd_bundle/pydevd_suspended_frames.py L112-151, L166-201, L259-312;
    /repo/_pydevd_bundle/pydevd_resolver.py L45-58, L796-829; /repo/_pydevd_bundle/pydevd_utils.py L327-345. *)
From Coq Require Import List NArith Bool String.
From Verif Require Import Base.
Import ListNotations.

(** DAPGrouper's scopes, pydevd_utils.py L333-343 *)
Inductive scope := Special | Protected | Function | Class.
Definition scopes_sorted : list scope := [Special; Protected; Function; Class].
Definition scope_eqb (a b : scope) : bool :=
  match a, b with
  | Special, Special | Protected, Protected | Function, Function | Class, Class => true
  | _, _ => false
  end.

(** What inspect.isroutine and inspect.isclass say of a value; Raises: they raise (pydevd_resolver.py L817-828). *)
Inductive vkind := Routine | AClass | Plain | Raises.

Record entry := Entry { e_name : str; e_kind : vkind; e_value : N }.

Definition return_values : str := lit "__pydevd_ret_val_dict".  (* pydevd_constants.py L89 *)
Definition len_name : str := lit "len()".                       (* pydevd_constants.py L90 *)
Definition quote : N := 39%N.

(** The text before the first occurrence of [sub]: str.find. *)
Fixpoint before (sub s : str) : option str :=
  if starts_with sub s then Some []
  else match s with
       | [] => None
       | c :: r => match before sub r with Some p => Some (c :: p) | None => None end
       end.

(** get_var_scope, L796-829; None: "" *)
Definition scope_of_name (name : str) (k : vkind) (handle_ret : bool) : option scope :=
  if handle_ret && str_eqb name return_values then None
  else if str_eqb name len_name then None
  else if starts_with (lit "__") name && ends_with (lit "__") name then Some Special
  else if starts_with (lit "_") name || ends_with (lit "__") name then Some Protected
  else match k with
       | Routine => Some Function
       | AClass => Some Class
       | Plain | Raises => None
       end.

Definition get_var_scope (name : str) (k : vkind) (handle_ret : bool) : option scope :=
  if starts_with [quote] name then
    if ends_with [quote] name then None
    else match before (lit "__' (") name with
         | Some p => scope_of_name (tl p ++ lit "__") k handle_ret
         | None => scope_of_name name k handle_ret
         end
  else scope_of_name name k handle_ret.

Inductive presentation := Hide | Inline | Group.

(** _group_entries, L112-151, for a value which is not itself a group.  [groups]: scope_to_grouper. *)
Definition add_group (s : scope) (e : entry) (groups : list (scope * list entry)) : list (scope * list entry) :=
  if existsb (fun g => scope_eqb (fst g) s) groups
  then map (fun g => if scope_eqb (fst g) s then (fst g, snd g ++ [e]) else g) groups
  else groups ++ [(s, [e])].

Definition group_step (pres : scope -> presentation) (handle_ret : bool)
    (st : list entry * list (scope * list entry)) (e : entry) : list entry * list (scope * list entry) :=
  let '(new_lst, groups) := st in
  match get_var_scope (e_name e) (e_kind e) handle_ret with
  | Some s =>
      match pres s with
      | Hide => (new_lst, groups)
      | Inline => (new_lst ++ [e], groups)
      | Group => (new_lst, add_group s e groups)
      end
  | None => (new_lst ++ [e], groups)
  end.

Definition group_entries (pres : scope -> presentation) (handle_ret : bool) (lst : list entry)
    : list entry * list (scope * list entry) :=
  let '(new_lst, groups) := fold_left (group_step pres handle_ret) lst ([], []) in
  (new_lst,
   flat_map (fun s => match find (fun g => scope_eqb (fst g) s) groups with Some g => [g] | None => [] end) scopes_sorted).

(** What the client sees below a variable: the groups, each with the entries shown when it is expanded, then the
    entries shown directly.  An expanded group is not grouped again (L116-117). *)
Inductive shown := AGroup (s : scope) (contents : list entry) | AnEntry (e : entry).

(** _ObjectVariable.get_children_variables, L166-201; [is_group]: the value is a DAPGrouper *)
Definition object_children (pres : scope -> presentation) (is_group : bool) (lst : list entry) : list shown :=
  if is_group then map AnEntry lst
  else let '(new_lst, groups) := group_entries pres false lst in
       map (fun g => AGroup (fst g) (snd g)) groups ++ map AnEntry new_lst.

(** sorted_attributes_key, pydevd_resolver.py L45-58, with the order of tuples and texts *)
Definition rank (name : str) : N :=
  if starts_with (lit "__") name then if ends_with (lit "__") name then 3%N else 2%N
  else if starts_with (lit "_") name then 1%N else 0%N.

Fixpoint str_leb (a b : str) : bool :=
  match a, b with
  | [], _ => true
  | _ :: _, [] => false
  | x :: a', y :: b' => if N.eqb x y then str_leb a' b' else N.ltb x y
  end.
Definition name_leb (a b : str) : bool :=
  if N.eqb (rank a) (rank b) then str_leb a b else N.ltb (rank a) (rank b).

(** list.sort(key=...): stable *)
Fixpoint insert {A} (key : A -> str) (x : A) (l : list A) : list A :=
  match l with
  | [] => [x]
  | y :: r => if name_leb (key x) (key y) then x :: l else y :: insert key x r
  end.
Definition sort {A} (key : A -> str) (l : list A) : list A := fold_right (insert key) [] l.

(** _FrameVariable.get_children_variables, L263-313.  [ret e]: the names and values of the dictionary of return
    values; the second component tells a return value. *)
Definition stop_name : str := lit "_pydev_stop_at_break".

Definition frame_children (pres : scope -> presentation) (ret : entry -> list entry) (dct : list entry)
    : list (scope * list entry) * list (entry * bool) :=
  let lst := filter (fun e => negb (str_eqb (e_name e) stop_name)) dct in
  let '(new_lst, groups) := group_entries pres true lst in
  let groups := map (fun g => (fst g, sort e_name (snd g))) groups in
  let vars := flat_map (fun e => if str_eqb (e_name e) return_values then map (fun r => (r, true)) (ret e) else [(e, false)]) new_lst in
  (groups, sort (fun v => e_name (fst v)) vars).
