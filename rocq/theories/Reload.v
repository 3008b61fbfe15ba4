(** Model of the reloading of a module in place (property C56).
    Sources: /repo/_pydevd_bundle/pydevd_reload.py L149-433 (code_objects_equal, xreload, Reload).
    The objects of the program are a heap: addresses with what they are now.  Running the new source (execfile, L238) is not modelled: its
    outcome is a namespace and new objects in the heap, or an exception.
    Not modelled: metaclasses given by the attribute __metaclass__ (L325), assignments to a class which fail (slots, metaclasses),
    what the hooks themselves do to the objects, messages. *)
From Coq Require Import String.
From Coq Require Import List NArith Bool Arith.
From Verif Require Import Base Dict.
Import ListNotations.
Open Scope list_scope.

Definition addr := N.
(** A code object: all which is compared, the line numbers, and the number of free variables. *)
Record code := Code { body : N; lines : N; free : nat }.
(** A function: its namespace is the dictionary of globals it was made with. *)
Record func := Func { fcode : code; fdoc : N; fdict : list (str * N); fdefaults : N; fkwdefaults : N; fglobals : N }.
Definition space := list (str * addr).
Inductive obj :=
| Function (f : func)
| Method (self : N) (u : addr)
| ClassMethod (u : addr)
| StaticMethod (u : addr)
| Class (meta : N) (d : space) (bases : list addr)
| Data (ty v : N).                                          (* anything else: its type, what it is *)
Definition heap := addr -> obj.
Definition store (h : heap) (a : addr) (o : obj) : heap := fun x => if N.eqb x a then o else h x.

(** type(oldobj) is type(newobj), L293 *)
Definition same_type (a b : obj) : bool :=
  match a, b with
  | Function _, Function _ | Method _ _, Method _ _ | ClassMethod _, ClassMethod _ | StaticMethod _, StaticMethod _ => true
  | Class m _ _, Class m' _ _ => N.eqb m m'
  | Data t _, Data t' _ => N.eqb t t'
  | _, _ => false
  end.

(** code_objects_equal, L149-155: attributes with line in the name are left out. *)
Definition code_equal (a b : code) : bool := N.eqb (body a) (body b) && Nat.eqb (free a) (free b).

(** Where the name which is updated is from. *)
Inductive owner := Module | InClass (c : addr) | Nothing.
(** The hooks which are called: __xreload_old_new__ and __xreload_after_reload_update__. *)
Inductive call := OldNew (w : owner) (name : str) (a b : addr) | After (w : owner).
(** [visits]: how often _update is entered; [finish]: the callbacks. *)
Record state := State { hp : heap; found : bool; calls : list call; finish : list call; visits : N }.
Definition with_hp h s := State h (found s) (calls s) (finish s) (visits s).
Definition set_found s := State (hp s) true (calls s) (finish s) (visits s).
Definition add_call c s := State (hp s) true (calls s ++ [c]) (finish s) (visits s).
Definition add_finish c s := State (hp s) true (calls s) (finish s ++ [c]) (visits s).
Definition visit s := State (hp s) (found s) (calls s) (finish s) (visits s + 1).

Definition old_new : str := lit "__xreload_old_new__".
Definition after_update : str := lit "__xreload_after_reload_update__".

(** f.__dict__.update *)
Definition update_dict (d e : list (str * N)) : list (str * N) := fold_left (fun d x => set str_eqb (fst x) (snd x) d) e d.
(** _update_function, L354-378: the assignment of a code with another number of free variables raises, which leaves the defaults. *)
Definition new_code (f g : func) : code := if code_equal (fcode f) (fcode g) then fcode f else fcode g.
Definition update_func (f g : func) : func :=
  let d := update_dict (fdict f) (fdict g) in
  if Nat.eqb (free (fcode f)) (free (fcode g)) then Func (new_code f g) (fdoc g) d (fdefaults g) (fkwdefaults f) (fglobals f)
  else Func (fcode f) (fdoc g) d (fdefaults f) (fkwdefaults f) (fglobals f).
Definition code_changes (f g : func) : bool := Nat.eqb (free (fcode f)) (free (fcode g)) && negb (code_equal (fcode f) (fcode g)).

(** The names of [e] which are not in [d], with what they are in [e] (L397-400 and L244-247; their order does not matter). *)
Definition added (d e : space) : space := filter (fun x => negb (mem str_eqb (fst x) d)) e.

Section Reload.
(** The order in which the names of both are gone through (that of a set). *)
Variable order : list str -> list str.
(** Whether a class has the attribute from one of its bases. *)
Variable inherited : addr -> str -> bool.
Definition has_attr (h : heap) (c : addr) (name : str) : bool :=
  match h c with Class _ d _ => mem str_eqb name d || inherited c name | _ => false end.

(** The names of a class which are updated, L407 *)
Definition common (d e : space) : list str :=
  filter (fun x => mem str_eqb x e && negb (str_eqb x (lit "__dict__")) && negb (str_eqb x (lit "__doc__"))) (keys d).

(** The loop over the names; [up] is _update.  True: an exception. *)
Fixpoint each (up : str -> addr -> addr -> state -> state * bool) (d e : space) (names : list str) (s : state) : state * bool :=
  match names with
  | [] => (s, false)
  | x :: r =>
      match get str_eqb x d, get str_eqb x e with
      | Some a, Some b => let (s, bad) := up x a b s in if bad then (s, true) else each up d e r s
      | _, _ => each up d e r s
      end
  end.

(** _update, L278-350, with _update_method, _update_class, _update_classmethod, _update_staticmethod, L380-433.  [n]: how deep calls may
    still be nested (one for each object); when there is no room the exception is raised in the caller, whose own try ends it.
    [hooks]: whether the module has __xreload_old_new__ (L339).  The bound method between a class method and its function (L424) counts as one level with it. *)
Fixpoint update (hooks : bool) (n : nat) (w : owner) (name : str) (a b : addr) (s : state) : state * bool :=
  match n with
  | 0 => (s, true)
  | S n =>
      let s := visit s in
      if N.eqb a b then (s, false)
      else if negb (same_type (hp s a) (hp s b)) then (s, false)
      else
        match hp s a, hp s b with
        | Function f, Function g =>
            let s' := with_hp (store (hp s) a (Function (update_func f g))) s in
            (if code_changes f g then set_found s' else s', false)
        | Method _ u, Method _ v | ClassMethod u, ClassMethod v | StaticMethod u, StaticMethod v =>
            (fst (update hooks n Nothing [] u v s), false)
        | Class m d bs, Class _ e _ =>
            let s1 := match added d e with
                      | [] => s
                      | l => set_found (with_hp (store (hp s) a (Class m (d ++ l) bs)) s)
                      end in
            match each (fun x a' b' s => update hooks n (InClass a) x a' b' s) d e (order (common d e)) s1 with
            | (s2, true) => (s2, false)
            | (s2, false) => (if has_attr (hp s2) a after_update then add_finish (After (InClass a)) s2 else s2, false)
            end
        | _, _ =>
            match w with
            | Module => (if hooks then add_call (OldNew w name a b) s else s, false)
            | InClass c => (if has_attr (hp s) c old_new then add_call (OldNew w name a b) s else s, false)
            | Nothing => (s, false)
            end
        end
  end.

(** The callbacks at the end (L255-256): one which raises ends the others. *)
Fixpoint callbacks (raises : call -> bool) (l : list call) : list call :=
  match l with [] => [] | c :: r => c :: if raises c then [] else callbacks raises r end.

(** Reload.apply, L208-259, and xreload, L161-173: the namespace of the module, the heap, the hooks which were called, and whether a change was
    found.  [new]: the namespace the new source leaves (None: it raises). *)
Definition reload (raises : call -> bool) (n : nat) (h : heap) (ns : space) (new : option space) : space * heap * list call * bool :=
  match new with
  | None => (ns, h, [], false)
  | Some e =>
      let ns' := ns ++ added ns e in
      let s0 := State h (match added ns e with [] => false | _ => true end) [] [] 0 in
      let hooks := mem str_eqb old_new ns' in
      match each (fun x a b s => update hooks n Module x a b s) ns' e (order (filter (fun x => mem str_eqb x e) (keys ns))) s0 with
      | (s, true) => (ns', hp s, calls s, found s)
      | (s, false) =>
          let s := if mem str_eqb after_update ns' then add_finish (After Module) s else s in
          (ns', hp s, calls s ++ callbacks raises (finish s), found s)
      end
  end.
End Reload.

(** The name the new source runs with, L230-236. *)
Definition run_name (name : str) : str := if str_eqb name (lit "__main__") then lit "__main_reloaded__" else name.
