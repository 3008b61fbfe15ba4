(** Model of the expansion of dictionaries and sets in the variables view (property C42).
    Source: /repo/_pydevd_bundle/pydevd_resolver.py: DictResolver L243-346 (resolve, key_to_str,
    get_contents_debug_adapter_protocol, get_dictionary), SetResolver L539-607.
    Simplifications: Python 3.6 or later (keys are not sorted); the entries of additional attributes and the entry
    with the length, which are added to the items, are left out; the setting is not negative. *)
From Coq Require Import String List NArith ZArith Bool Arith.
From Verif Require Import Base.
Import ListNotations.
Local Open Scope list_scope.

Section Dict_view.
(** Keys (or items of a set) and values. [ident]: id(); [repr]: key_to_str with the format asked for;
    [plain_repr]: without format; [literal]: _does_obj_repr_evaluate_to_obj L224-238 *)
Context {K V : Type}.
Context (ident : K -> N) (repr plain_repr : K -> str) (literal : K -> bool).
(** PYDEVD_CONTAINER_RANDOM_ACCESS_MAX_ITEMS *)
Context (max_items : nat).

(** An entry, or the note that there are too many *)
Inductive dentry := DEntry (name : str) (v : V) (expr : option str) | TooLarge.

Definition with_id (k : K) : str := repr k ++ lit " (id: " ++ dec (ident k) ++ lit ")".

(** The loop L292-315; [i]: entries before, [found]: found_representations *)
Fixpoint contents (i : nat) (found : list str) (d : list (K * V)) : list dentry :=
  match d with
  | [] => []
  | (k, v) :: r =>
      let name := if existsb (str_eqb (repr k)) found then with_id k else repr k in
      let e := DEntry name v (if literal k then Some (lit "[" ++ plain_repr k ++ lit "]") else None) in
      if Nat.leb max_items (i + 1) then [e; TooLarge] else e :: contents (i + 1) (name :: found) r
  end.
Definition dict_contents (d : list (K * V)) : list dentry := contents 0 [] d.

(** get_dictionary, L329-341 *)
Definition ref_name (k : K) : str := plain_repr k ++ lit " (" ++ dec (ident k) ++ lit ")".
Fixpoint dictionary (i : nat) (d : list (K * V)) : list dentry :=
  match d with
  | [] => []
  | (k, v) :: r =>
      let e := DEntry (ref_name k) v None in
      if Nat.leb max_items (i + 1) then [e; TooLarge] else e :: dictionary (i + 1) r
  end.

(** key.split of an opening parenthesis, last part; None: there is none *)
Fixpoint after_last (c : N) (s : str) : option str :=
  match s with
  | [] => None
  | x :: r => match after_last c r with
              | Some t => Some t
              | None => if N.eqb x c then Some r else None
              end
  end.
(** resolve, L246-266, for a name with a parenthesis *)
Definition resolve (d : list (K * V)) (name : str) : option V :=
  match after_last 40 name with
  | None => None
  | Some t =>
      match py_int (removelast t) with
      | None => None
      | Some z => option_map snd (find (fun p => Z.eqb (Z.of_N (ident (fst p))) z) d)
      end
  end.

(** SetResolver.get_contents_debug_adapter_protocol, L544-552; the item itself is the value *)
Fixpoint set_contents (i : nat) (s : list K) : list (option (str * K)) :=
  match s with
  | [] => []
  | x :: r =>
      if Nat.leb max_items i then [Some (dec (ident x), x); None]
      else Some (dec (ident x), x) :: set_contents (i + 1) r
  end.
(** SetResolver.resolve, L561-574, for a number *)
Definition set_resolve (s : list K) (name : str) : option K :=
  match py_int name with
  | None => None
  | Some z => find (fun x => Z.eqb (Z.of_N (ident x)) z) s
  end.
End Dict_view.
Arguments dentry : clear implicits.
