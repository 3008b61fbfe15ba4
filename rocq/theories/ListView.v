(** Model of the expansion of lists and tuples in the variables view (property C28).
    Source: /repo/_pydevd_bundle/pydevd_resolver.py: MoreItemsRange L353-392, MoreItems L395-437,
    ForwardInternalResolverToObject L440-452, TupleResolver L455-533.
    Simplifications: the two settings are not negative; the entries of additional attributes (subclasses of list)
    and the entry with the length, which are added to the items, are left out. *)
From Coq Require Import String List NArith ZArith Bool Arith.
From Verif Require Import Base.
Import ListNotations.
Local Open Scope list_scope.

(** PYDEVD_CONTAINER_INITIAL_EXPANDED_ITEMS and PYDEVD_CONTAINER_BUCKET_SIZE *)
Record settings := Settings { initial : nat; bucket : nat }.

(** "%x" % n *)
Definition hex_char (d : N) : N := if N.ltb d 10 then (48 + d)%N else (87 + d)%N.
Fixpoint hex_uint (u : Hexadecimal.uint) : str :=
  match u with
  | Hexadecimal.Nil => []
  | Hexadecimal.D0 r => hex_char 0 :: hex_uint r
  | Hexadecimal.D1 r => hex_char 1 :: hex_uint r
  | Hexadecimal.D2 r => hex_char 2 :: hex_uint r
  | Hexadecimal.D3 r => hex_char 3 :: hex_uint r
  | Hexadecimal.D4 r => hex_char 4 :: hex_uint r
  | Hexadecimal.D5 r => hex_char 5 :: hex_uint r
  | Hexadecimal.D6 r => hex_char 6 :: hex_uint r
  | Hexadecimal.D7 r => hex_char 7 :: hex_uint r
  | Hexadecimal.D8 r => hex_char 8 :: hex_uint r
  | Hexadecimal.D9 r => hex_char 9 :: hex_uint r
  | Hexadecimal.Da r => hex_char 10 :: hex_uint r
  | Hexadecimal.Db r => hex_char 11 :: hex_uint r
  | Hexadecimal.Dc r => hex_char 12 :: hex_uint r
  | Hexadecimal.Dd r => hex_char 13 :: hex_uint r
  | Hexadecimal.De r => hex_char 14 :: hex_uint r
  | Hexadecimal.Df r => hex_char 15 :: hex_uint r
  end.
Definition hex (n : N) : str := hex_uint (N.to_hex_uint n).

(** "%0<w>d" and "%0<w>x" of a non-negative number *)
Definition pad (w : nat) (s : str) : str := repeat 48%N (w - List.length s) ++ s.
(** str(l - 1): the length of this text is the width; hex(l) without the zeros and the x at the left *)
Definition width (l : nat) : nat := List.length (zdec (Z.of_nat l - 1)).
Definition hex_width (l : nat) : nat := match l with O => O | _ => List.length (hex (N.of_nat l)) end.
Definition item_name (hx : bool) (l i : nat) : str :=
  if hx then lit "0x" ++ pad (hex_width l) (hex (N.of_nat i)) else pad (width l) (dec (N.of_nat i)).
(** "[%s]" % i *)
Definition index_expr (i : nat) : str := lit "[" ++ dec (N.of_nat i) ++ lit "]".

Section List_view.
Context {A : Type}.

(** An entry: an item with its name and the expression appended to the list's; the entry [more] which is a
    MoreItemsRange or a MoreItems of the same list *)
Inductive obj := Item (v : A) | Range (from to : nat) | More (handled : nat).
Record entry := Entry { ename : str; eobj : obj; eexpr : option str }.

(** MoreItemsRange.__str__, L388-389 *)
Definition range_name (from to : nat) : str := lit "[" ++ dec (N.of_nat from) ++ lit ":" ++ dec (N.of_nat to) ++ lit "]".

(** The loop L490-502 of TupleResolver; the result tells whether it was left by [break] *)
Fixpoint head_items (S : settings) (hx : bool) (l : nat) (i : nat) (xs : list A) : list entry * bool :=
  match xs with
  | [] => ([], false)
  | x :: r =>
      let e := Entry (item_name hx l i) (Item x) (Some (index_expr i)) in
      if Nat.leb (initial S) (i + 1) then ([e], true)
      else let (es, b) := head_items S hx l (i + 1) r in (e :: es, b)
  end.
(** TupleResolver.get_contents_debug_adapter_protocol *)
Definition contents (S : settings) (hx : bool) (xs : list A) : list entry :=
  let l := List.length xs in
  let (es, brk) := head_items S hx l 0 xs in
  es ++ (if brk then [Entry (lit "more")
                            (if Nat.ltb l (bucket S + initial S) then Range (initial S) l else More (initial S)) None]
         else []).

(** MoreItemsRange.get_contents_debug_adapter_protocol. ForwardInternalResolverToObject passes the format as the
    argument _self, so that numbers are always decimal here. *)
Definition slice (from to : nat) (xs : list A) : list A := firstn (to - from) (skipn from xs).
Fixpoint number_items (l i : nat) (xs : list A) : list entry :=
  match xs with
  | [] => []
  | x :: r => Entry (item_name false l i) (Item x) (Some (index_expr i)) :: number_items l (i + 1) r
  end.
Definition range_contents (xs : list A) (from to : nat) : list entry :=
  number_items (List.length xs) from (slice from to xs).

(** MoreItems.get_contents_debug_adapter_protocol, L400-419: the loop for at most [n] iterations; None: not
    finished. A subtraction that would be negative is 0, which also ends the loop. *)
Fixpoint ranges (S : settings) (n : nat) (from to remaining : nat) : option (list entry) :=
  match remaining with
  | O => Some []
  | _ =>
      match n with
      | O => None
      | Datatypes.S n =>
          let remaining := remaining - bucket S in
          match ranges S n to (to + Nat.min (bucket S) remaining) remaining with
          | Some r => Some (Entry (range_name from to) (Range from to) None :: r)
          | None => None
          end
      end
  end.
Definition more_contents (S : settings) (n : nat) (xs : list A) (handled : nat) : option (list entry) :=
  let remaining := List.length xs - handled in
  ranges S n handled (handled + Nat.min (bucket S) remaining) remaining.

(** get_dictionary L511-533: the entry [more] is always a MoreItems *)
Definition dictionary (S : settings) (xs : list A) : list entry :=
  let l := List.length xs in
  let (es, brk) := head_items S false l 0 xs in
  es ++ (if brk then [Entry (lit "more") (More (initial S)) None] else []).

(** resolve: TupleResolver L456-470, MoreItemsRange L377-383, MoreItems L427-431; None: an exception (for a
    list: looked up as an attribute) *)
Definition item_at (xs : list A) (z : Z) : option A :=
  if Z.ltb z 0 then (if Z.ltb (z + Z.of_nat (List.length xs)) 0 then None
                     else nth_error xs (Z.to_nat (z + Z.of_nat (List.length xs))))
  else nth_error xs (Z.to_nat z).
Definition resolve (S : settings) (xs : list A) (name : str) : option obj :=
  match match py_int name with Some z => item_at xs z | None => None end with
  | Some v => Some (Item v)
  | None => if str_eqb name (lit "more") then Some (More (initial S)) else None
  end.
Definition resolve_range (xs : list A) (name : str) : option obj :=
  match py_int name with Some z => option_map Item (item_at xs z) | None => None end.
Definition resolve_more (name : str) : option obj :=
  match split1 58 (removelast (tl name)) with
  | Some (a, b) => match py_int a, py_int b with
                   | Some x, Some y => Some (Range (Z.to_nat x) (Z.to_nat y))
                   | _, _ => None
                   end
  | None => None
  end.
End List_view.
Arguments obj : clear implicits.
Arguments entry : clear implicits.
