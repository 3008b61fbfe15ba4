(** Model of the text shown for values (property C12).
    Source: /repo/_pydevd_bundle/pydevd_safe_repr.py L12-366. *)
From Coq Require Import List NArith ZArith Bool String.
From Verif Require Import Base.
Import ListNotations.

(** Kinds of collections with their own __repr__ untouched, L40-49 (a deque has no maxlen). *)
Inductive coll := Tuple | List_ | Frozenset | Set_ | Deque.

(** Values.  [VSelf] stands for an item which is the collection that contains it ("item is obj").
    [VSub]: an instance of list, tuple, dict, set, frozenset or bytearray whose __repr__ is not one of the
    known ones: type name, the items iteration gives, and its repr().  [VOther]: everything else, given by
    its repr() (or the replacement text of L337-345 when that fails). *)
Inductive value :=
| VColl (k : coll) (items : list value)
| VDict (ordered : bool) (items : list (value * value))
| VStr (bytes : bool) (s : str)
| VSub (name : str) (items : list value) (r : str)
| VOther (r : str)
| VSelf.

(** Limits: maxcollection, maxother_inner, maxother_outer, maxstring_inner (L22-64). *)
Record limits := Limits { l_coll : list N; l_inner : N; l_outer : N; l_str : N }.
Definition default_limits : limits := Limits [60; 20]%N 128 65536 128.

Definition len {A} (l : list A) : N := N.of_nat (List.length l).

(** repr() of str and bytes.  [printable]: str.isprintable of one character above 126. *)
Definition hex_digit (d : N) : N := if N.ltb d 10 then (48 + d)%N else (87 + d)%N.
Fixpoint hex (digits : nat) (c : N) : str :=
  match digits with O => [] | S d => hex d (c / 16) ++ [hex_digit (c mod 16)] end.

Section Repr.
Context (printable : N -> bool).

Definition esc (bytes : bool) (q c : N) : str :=
  if N.eqb c q || N.eqb c 92 then [92%N; c]
  else if N.eqb c 9 then lit "\t"
  else if N.eqb c 10 then lit "\n"
  else if N.eqb c 13 then lit "\r"
  else if N.ltb c 32 || N.eqb c 127 then lit "\x" ++ hex 2 c
  else if N.ltb c 127 then [c]
  else if bytes then lit "\x" ++ hex 2 c
  else if printable c then [c]
  else if N.ltb c 256 then lit "\x" ++ hex 2 c
  else if N.ltb c 65536 then lit "\u" ++ hex 4 c
  else lit "\U" ++ hex 8 c.

Definition has (c : N) (s : str) : bool := existsb (N.eqb c) s.
Definition quote_of (s : str) : N := if has 39 s && negb (has 34 s) then 34 else 39.

Definition str_repr (bytes : bool) (s : str) : str :=
  let q := quote_of s in
  (if bytes then lit "b" else []) ++ q :: flat_map (esc bytes q) s ++ [q].

(** s[: s.rindex(c)] and s[s.index(c) + 1 :]; None: ValueError *)
Fixpoint before_last (c : N) (s : str) : option str :=
  match s with
  | [] => None
  | x :: r => match before_last c r with
              | Some p => Some (x :: p)
              | None => if N.eqb x c then Some [] else None
              end
  end.
Fixpoint after_first (c : N) (s : str) : option str :=
  match s with
  | [] => None
  | x :: r => if N.eqb x c then Some r else after_first c r
  end.

(** s[:n] and s[-n:] (n positive) *)
Definition first_n (n : N) (s : str) : str := firstn (N.to_nat n) s.
Definition last_n (n : N) (s : str) : str := skipn (List.length s - N.to_nat n) s.

Definition left_count (limit : N) : N := N.max 1 (2 * limit / 3).
Definition right_count (limit : N) : N := N.max 1 (limit / 3).

Definition limit_of (L : limits) (top : bool) : N := if top then l_outer L else l_inner L.

(** _repr_obj, L323-366, without raw_value *)
Definition repr_obj (L : limits) (top : bool) (r : str) : str :=
  let limit := limit_of L top in
  if N.leb (len r) limit then r
  else first_n (left_count limit) r ++ lit "..." ++ last_n (right_count limit) r.

(** _repr_str, L264-318, without raw_value *)
Definition repr_str (L : limits) (top : bool) (bytes : bool) (s : str) : str :=
  let limit := limit_of L top in
  if N.leb (len s) limit then str_repr bytes s
  else
    match before_last 39 (str_repr bytes (first_n (left_count limit) s)),
          after_first 39 (str_repr bytes (last_n (right_count limit) s)) with
    | Some part1, Some part2 => part1 ++ lit "..." ++ part2
    | _, _ => repr_obj L top (str_repr bytes s)
    end.

(** collection_types, L40-49, and dict_types, L53-58 *)
Definition prefix_of (k : coll) : str :=
  match k with Tuple => lit "(" | List_ => lit "[" | Frozenset => lit "frozenset({" | Set_ => lit "{" | Deque => lit "deque([" end.
Definition suffix_of (k : coll) : str :=
  match k with Tuple => lit ")" | List_ => lit "]" | Frozenset => lit "})" | Set_ => lit "}" | Deque => lit "])" end.
Definition comma_of (k : coll) : bool := match k with Tuple => true | _ => false end.
Definition dict_prefix (o : bool) : str := if o then lit "OrderedDict([" else lit "{".
Definition dict_suffix (o : bool) : str := if o then lit "])" else lit "}".
Definition item_prefix (o : bool) : str := if o then lit "(" else [].
Definition item_sep (o : bool) : str := if o then lit ", " else lit ": ".
Definition item_suffix (o : bool) : str := if o then lit ")" else [].

(** _is_long_iter, L119-175; [colls]: the part of maxcollection from the current level on.  Iterating a
    dictionary gives its keys.  Opaque objects count as not iterable. *)
Fixpoint is_long (L : limits) (colls : list N) (v : value) : bool :=
  match v with
  | VStr _ s => N.ltb (l_str L) (len s)
  | VOther _ => false
  | VSelf => true
  | VColl Deque _ => false
  | VColl _ items | VSub _ items _ =>
      match colls with
      | [] => true
      | n :: colls' => N.ltb n (len items) || existsb (is_long L colls') items
      end
  | VDict _ items =>
      match colls with
      | [] => true
      | n :: colls' => N.ltb n (len items) || existsb (is_long L colls') (map fst items)
      end
  end.

(** "<%s, len() = %s>", L203-206 *)
Definition long_text (name : str) (n : N) : str := lit "<" ++ name ++ lit ", len() = " ++ dec n ++ lit ">".

(** self._repr(item, 100 if item is obj else level + 1), L194, L256 *)
Definition shown (rep : value -> str) (self : str) (x : value) : str := match x with VSelf => self | _ => rep x end.

(** The loop of _repr_iter, L184-200; [rep]: text of an item that is not the collection itself, [self]: text
    for the collection itself. *)
Fixpoint iter_loop (rep : value -> str) (self : str) (comma : bool) (n count : N) (first : bool) (items : list value) : str :=
  match items with
  | [] => if comma && N.eqb (N.succ count) n then lit "," else []
  | x :: r =>
      (if first then [] else lit ", ") ++
      (if N.leb count 1 then lit "..."
       else shown rep self x ++ iter_loop rep self comma n (N.pred count) false r)
  end.

(** The loop of _repr_dict, L238-260 *)
Fixpoint dict_loop (rep : value -> str) (self : str) (o : bool) (count : N) (first : bool) (items : list (value * value)) : str :=
  match items with
  | [] => []
  | (k, x) :: r =>
      (if first then [] else lit ", ") ++
      (if N.leb count 1 then lit "..."
       else item_prefix o ++ rep k ++ item_sep o ++ shown rep self x ++ item_suffix o ++
            dict_loop rep self o (N.pred count) false r)
  end.

(** _repr, L85-115; [top]: level = 0; [colls]: maxcollection from the current level on (level 100 has none). *)
Fixpoint repr (L : limits) (top : bool) (colls : list N) (v : value) : str :=
  match v with
  | VColl k items =>
      prefix_of k ++
      match colls with
      | [] => lit "..."
      | n :: colls' => iter_loop (repr L false colls') (prefix_of k ++ lit "..." ++ suffix_of k) (comma_of k) n n true items
      end ++ suffix_of k
  | VDict o items =>
      match items with
      | [] => dict_prefix o ++ dict_suffix o
      | _ =>
          match colls with
          | [] => dict_prefix o ++ lit "..." ++ dict_suffix o
          | n :: colls' =>
              dict_prefix o ++ dict_loop (repr L false colls') (dict_prefix o ++ lit "..." ++ dict_suffix o) o n true items ++ dict_suffix o
          end
      end
  | VStr b s => repr_str L top b s
  | VSub name items r => if is_long L (l_coll L) v then long_text name (len items) else repr_obj L top r
  | VOther r => repr_obj L top r
  | VSelf => []
  end.

(** __call__, L69-83 *)
Definition safe_repr (L : limits) (v : value) : str := repr L true (l_coll L) v.
End Repr.
