(** Model of the debugger's replacement for the builtin property, which keeps stepping out of getters, setters and deleters
    (property C79).
    Sources: /repo/_pydevd_bundle/pydevd_traceproperty.py L10-20 (replace_builtin_property), L26-90 (DebugProperty);
    /repo/_pydevd_bundle/pydevd_process_net_command.py L553-577 (cmd_set_property_trace); /repo/pydevd.py L1122-1173
    (enable_tracing, disable_tracing).
    Tracing is the one of sys.settrace: a function is traced if tracing is on when it is called, its lines while it is on.
    Left out: threads (the switch is per thread), the documentation strings. *)
From Coq Require Import List NArith Bool.
From Verif Require Import Base.
Import ListNotations.
Open Scope list_scope.

Inductive kind := Getter | Setter | Deleter.

(** ---- The objects ---- *)

(** fget, fset, fdel; functions are numbers *)
Record pobj := Pobj { fget : option N; fset : option N; fdel : option N }.

Definition accessor (k : kind) (p : pobj) : option N :=
  match k with Getter => fget p | Setter => fset p | Deleter => fdel p end.

Definition with_accessor (k : kind) (f : N) (p : pobj) : pobj :=
  match k with
  | Getter => Pobj (Some f) (fset p) (fdel p)
  | Setter => Pobj (fget p) (Some f) (fdel p)
  | Deleter => Pobj (fget p) (fset p) (Some f)
  end.

(** What class bodies do with properties, names being those of attributes with their class:
    x = property(...); x = y.getter(f), x = y.setter(f), x = y.deleter(f) (written as decorators). *)
Inductive def :=
| New (x : N) (g s d : option N)
| With (k : kind) (x y f : N).

(** All property objects, by number, and the names. *)
Record names := Names { heap : list pobj; env : N -> option nat }.

Definition bind (e : N -> option nat) (x : N) (i : nat) : N -> option nat := fun z => if N.eqb z x then Some i else e z.

Fixpoint replace (i : nat) (p : pobj) (h : list pobj) : list pobj :=
  match h, i with
  | [], _ => []
  | _ :: r, O => p :: r
  | q :: r, S j => q :: replace j p r
  end.

(** Python's property: getter, setter and deleter make a new object. *)
Definition def_builtin (s : names) (d : def) : names :=
  match d with
  | New x g st dl => Names (heap s ++ [Pobj g st dl]) (bind (env s) x (length (heap s)))
  | With k x y f =>
      match env s y with
      | None => s
      | Some i =>
          match nth_error (heap s) i with
          | None => s
          | Some p => Names (heap s ++ [with_accessor k f p]) (bind (env s) x (length (heap s)))
          end
      end
  end.

(** DebugProperty, L32-36 and L74-90: they change the object and return it. *)
Definition def_debug (s : names) (d : def) : names :=
  match d with
  | New x g st dl => Names (heap s ++ [Pobj g st dl]) (bind (env s) x (length (heap s)))
  | With k x y f =>
      match env s y with
      | None => s
      | Some i =>
          match nth_error (heap s) i with
          | None => s
          | Some p => Names (replace i (with_accessor k f p) (heap s)) (bind (env s) x i)
          end
      end
  end.

(** The function which an access to attribute x runs: None, there is no such property; Some None, an AttributeError. *)
Definition runs (s : names) (k : kind) (x : N) : option (option N) :=
  match env s x with
  | None => None
  | Some i => match nth_error (heap s) i with None => None | Some p => Some (accessor k p) end
  end.

Definition no_names : names := Names [] (fun _ => None).
Definition build (step : names -> def -> names) (ds : list def) : names := fold_left step ds no_names.

(** __isabstractmethod__ of a property: the builtin one has it if one of its functions has; DebugProperty has no such attribute,
    so that abc counts it as not abstract. [abs] tells it for a function. *)
Definition abstract_builtin (abs : N -> bool) (p : pobj) : bool :=
  existsb (fun o => match o with Some f => abs f | None => false end) [fget p; fset p; fdel p].
Definition abstract_debug (abs : N -> bool) (p : pobj) : bool := false.

(** ---- The accesses ---- *)

(** What functions do: a line; a call of a function; an access to a property whose accessor is present or not; an exception.
    Each exception leaves all functions. *)
Inductive act :=
| Line (n : N)
| Call (body : list act)
| Use (k : kind) (present : bool) (body : list act)
| Raise.

(** a line which ran: whether the debugger saw it, and whether it was in an accessor *)
Record seen := Seen { at_line : N; traced : bool; inside : bool }.

(** what a function gives: the lines which ran, whether tracing is on afterwards, whether an exception was raised *)
Notation result := (list seen * bool * bool)%type.

(** one after the other, up to the first exception *)
Definition in_turn (f : act -> bool -> result) : list act -> bool -> result :=
  fix go (l : list act) (t : bool) : result :=
    match l with
    | [] => ([], t, false)
    | x :: r =>
        let '(o, t1, e) := f x t in
        if e then (o, t1, true) else let '(o2, t2, e2) := go r t1 in (o ++ o2, t2, e2)
    end.

Section Run.
(** the methods of property: given the kind, whether there is a function, that function, and whether tracing is on *)
Variable use : kind -> bool -> (bool -> result) -> bool -> result.

(** [t]: tracing is on in the thread; [fr]: the running function was called while it was on; [ins]: within an accessor. *)
Fixpoint run1 (fr ins : bool) (a : act) (t : bool) : result :=
  match a with
  | Line n => ([Seen n (t && fr) ins], t, false)
  | Raise => ([], t, true)
  | Call b => in_turn (run1 t ins) b t
  | Use k p b => use k p (fun t1 => in_turn (run1 t1 true) b t1) t
  end.

Definition run (fr ins : bool) (l : list act) (t : bool) : result := in_turn (run1 fr ins) l t.
End Run.

(** property.__get__ and so on: AttributeError without the function *)
Definition use_builtin (k : kind) (present : bool) (body : bool -> result) (t : bool) : result :=
  if present then body t else ([], t, true).

(** DebugProperty.__get__, __set__, __delete__, L38-72 *)
Definition use_debug (disabled : kind -> bool) (k : kind) (present : bool) (body : bool -> result) (t : bool) : result :=
  let t1 := if disabled k then false else t in
  let '(o, _, e) := if present then body t1 else ([], t1, true) in
  (o, true, e).

Definition run_builtin := run use_builtin.
Definition run_debug (disabled : kind -> bool) := run (use_debug disabled).

(** ---- The command ---- *)

Record switches := Switches { replaced : bool; sget : bool; sset : bool; sdel : bool }.

Definition is_true (s : str) : bool := str_eqb s [116; 114; 117; 101]%N.

(** cmd_set_property_trace, L553-577, with the parts of the text; the second component: an IndexError *)
Definition command (s : switches) (parts : list str) : switches * bool :=
  match parts with
  | p0 :: p1 :: p2 :: r =>
      let rep := replaced s || is_true p0 in
      match r with
      | p3 :: _ => (Switches rep (is_true p1) (is_true p2) (is_true p3), false)
      | [] => (Switches rep (is_true p1) (is_true p2) (sdel s), true)
      end
  | _ => (s, false)
  end.
