(** How a value is shown: the view of its children and its text, chosen by its class and remembered.
    Modelled from _pydevd_bundle/pydevd_xml.py (TypeResolveHandler, get_variable_details). *)
From Coq Require Import List Bool Arith Lia NArith.
From Verif Require Import Base Dict.
Import ListNotations.
Open Scope nat_scope.
Open Scope list_scope.

(** What Python answers. Values, classes, providers (of extensions), built-in views and contexts are numbers.
    None stands for an exception, except in [type_map] (a class without children) and in the text given by a
    provider (None is returned). *)
Record world := World {
  class_of : nat -> option nat;             (* o.__class__ *)
  type_of : nat -> nat;                     (* type(o) *)
  named : nat -> bool;                      (* __name__ can be read *)
  hashable : nat -> bool;
  is_class : nat -> bool;                   (* isinstance(t, type) *)
  unable : nat;                             (* the text given as the type if there is none *)
  isinst : nat -> nat -> bool;              (* isinstance_checked *)
  providers : list nat; can : nat -> nat -> option bool;
  type_map : list (nat * option nat);       (* _default_type_map *)
  str_providers : list nat; str_can : nat -> nat -> option bool;
  str_of : nat -> nat -> nat -> option (option str);   (* provider, value, context *)
  plain : nat -> option str;                (* to_string(v), or what L353-378 makes of it *)
  repr_of : nat -> option str;
  unable_text : nat -> str;                 (* L383 *)
  default_value : str                       (* DEFAULT_VALUE *)
}.

Inductive view := ByProvider (p : nat) | ByResolver (r : nat) | Default.

(** The two caches, L144-145. In the second one None is NO_PROVIDER. *)
Record state := State { views : dict nat (option view); texts : dict nat (option nat) }.
Definition init : state := State [] [].

Inductive search := Found (p : nat) | NotFound | Raised.

Fixpoint first_provider (can : nat -> nat -> option bool) (ps : list nat) (t : nat) : search :=
  match ps with
  | [] => NotFound
  | p :: r => match can p t with None => Raised | Some true => Found p | Some false => first_provider can r t end
  end.

(** _get_type, L179-207: None if it raises. A cached None does not count. *)
Definition get_type_as (w : world) (c : dict nat (option view)) (v t : nat) : option (option view * dict nat (option view)) :=
  if hashable w t then
    match get Nat.eqb t c with
    | Some (Some r) => Some (Some r, c)
    | _ =>
        let r := match first_provider (can w) (providers w) t with
                 | Found p => Some (ByProvider p)
                 | Raised => Some Default
                 | NotFound => match find (fun m => isinst w v (fst m)) (type_map w) with
                               | Some m => option_map ByResolver (snd m)
                               | None => Some Default
                               end
                 end in
        Some (r, set Nat.eqb t r c)
    end
  else None.

(** get_type, L154-177: the class, the view and the cache *)
Definition get_type (w : world) (c : dict nat (option view)) (v : nat) : nat * option view * dict nat (option view) :=
  match (match class_of w v with
         | Some t => if named w t then option_map (fun x => (t, x)) (get_type_as w c v t) else None
         | None => None
         end) with
  | Some (t, (r, c')) => (t, r, c')
  | None =>
      let t := type_of w v in
      if named w t then
        match get_type_as w c v t with
        | Some (r, c') => (t, r, c')
        | None => if is_class w t then (t, Some Default, c) else (unable w, None, c)
        end
      else (unable w, None, c)
  end.

(** str_from_providers, L242-250 *)
Fixpoint try_providers (w : world) (ps : list nat) (c : dict nat (option nat)) (v t ctx : nat) : option (option str) * dict nat (option nat) :=
  match ps with
  | [] => (Some None, set Nat.eqb t None c)
  | p :: r =>
      match str_can w p t with
      | None => (None, c)
      | Some false => try_providers w r c v t ctx
      | Some true =>
          let c' := set Nat.eqb t (Some p) c in
          match str_of w p v ctx with
          | Some x => (Some x, c')
          | None => try_providers w r c' v t ctx
          end
      end
  end.

(** str_from_providers, L229-250 *)
Definition str_from (w : world) (c : dict nat (option nat)) (v t ctx : nat) : option (option str) * dict nat (option nat) :=
  if hashable w t then
    match get Nat.eqb t c with
    | Some None => (Some None, c)
    | Some (Some p) => (str_of w p v ctx, c)
    | None => try_providers w (str_providers w) c v t ctx
    end
  else (None, c).

Record shown := Shown { s_type : nat; s_view : option view; s_text : str }.

Definition by_repr (w : world) (v : nat) : str := match repr_of w v with Some x => x | None => unable_text w v end.

(** get_variable_details, L318-392; not modelled: the value of an exception raised by an evaluation, which is
    shown in its place, and the decoding of bytes *)
Definition details (w : world) (s : state) (v : nat) (full : bool) (ctx : nat) : shown * state :=
  let '(t, r, c) := get_type w (views s) v in
  if full then
    let '(x, c') := str_from w (texts s) v t ctx in
    let text := match x with
                | Some (Some x) => x
                | Some None => match plain w v with Some x => x | None => by_repr w v end
                | None => by_repr w v
                end in
    (Shown t r text, State c c')
  else (Shown t r (default_value w), State c (texts s)).

(** What has been asked for: the values, whether with their text, and the context. *)
Notation asked := (list (nat * bool * nat)).
Definition after (w : world) (h : asked) : state :=
  fold_left (fun s q => snd (details w s (fst (fst q)) (snd (fst q)) (snd q))) h init.
