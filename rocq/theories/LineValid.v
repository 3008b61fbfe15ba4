(** Model of the validation of the lines of template breakpoints (property C30), for the breakpoints of one template.
    Source: /repo/pydevd_plugins/pydevd_line_validation.py (ValidationInfo L24-121);
    /repo/_pydevd_bundle/pydevd_api.py: add_breakpoint L548, L616-633 and remove_breakpoint L731-757;
    /repo/pydevd.py: consolidate_breakpoints L1862-1868;
    /repo/pydevd_plugins/jinja2_debug.py: add_line_breakpoint L35-67, after_breakpoints_consolidated L70-82,
    get_breakpoint L464-487 (and the same of django_debug.py, Django 1.9 or higher).
    Conditions and hit conditions, other files, and the reading of the lines from a template are left out: the lines
    of a template are an arbitrary finite set. *)
From Coq Require Import List NArith ZArith Bool.
From Verif Require Import Dict.
Import ListNotations.

(** tuple(sorted(frozenset(lines))), L38-39. A frozenset is represented by this sorted tuple. *)
Fixpoint insert (x : Z) (l : list Z) : list Z :=
  match l with
  | [] => [x]
  | y :: r => if Z.eqb x y then l else if Z.ltb x y then x :: l else y :: insert x r
  end.
Definition sorted (l : list Z) : list Z := fold_left (fun acc x => insert x acc) l [].
Definition contains (x : Z) (l : list Z) : bool := existsb (Z.eqb x) l.
Fixpoint lines_eqb (a b : list Z) : bool :=
  match a, b with
  | [], [] => true
  | x :: a, y :: b => Z.eqb x y && lines_eqb a b
  | _, _ => false
  end.
(** bisect.bisect_left *)
Fixpoint bisect_left (l : list Z) (x : Z) : nat :=
  match l with
  | [] => 0
  | y :: r => if Z.ltb y x then S (bisect_left r x) else 0
  end.

(** ADD_BREAKPOINT_NO_ERROR, ADD_BREAKPOINT_LAZY_VALIDATION, ADD_BREAKPOINT_INVALID_LINE *)
Inductive code := NoError | Lazy | Invalid.
Definition code_eqb (a b : code) : bool :=
  match a, b with NoError, NoError | Lazy, Lazy | Invalid, Invalid => true | _, _ => false end.
(** LineBreakpointWithLazyValidation with its add_breakpoint_result (error_code, translated_line) *)
Record bp := Bp { line : Z; error : code; tline : Z; key : option (list Z) }.
(** A call of on_changed_breakpoint_state: the id, error code and line reported *)
Definition event := (N * code * Z)%type.
Record state := State {
  objs : list (N * bp);             (* id_to_pybreakpoint: a breakpoint object is known by its id *)
  lines : list (Z * N);             (* line -> breakpoint *)
  cached : option (list Z);         (* _canonical_normalized_filename_to_last_template_lines *)
  sent : list event
}.
Definition init : state := State [] [] None [].

(** L84-90 *)
Definition preceding (vs : list Z) (l : Z) : Z :=
  match bisect_left vs l with O => (-1)%Z | S i => nth i vs (-1)%Z end.

(** The body of the loop L77-121 *)
Definition verify_one (vs : list Z) (s : state) (item : Z * N) : state :=
  let (l, id) := item in
  match get N.eqb id (objs s) with
  | None => s
  | Some b =>
      if match key b with Some k => lines_eqb k vs | None => false end then s
      else
        let upd (e : code) (t : Z) := set N.eqb id (Bp (line b) e t (Some vs)) (objs s) in
        if negb (contains l vs) then
          let nl := preceding vs l in
          if Z.leb 0 nl && negb (mem Z.eqb nl (lines s)) then
            if negb (code_eqb (error b) NoError) && negb (Z.eqb (tline b) nl) then
              State (upd NoError nl) (set Z.eqb nl id (del Z.eqb l (lines s))) (cached s) (sent s ++ [(id, NoError, nl)])
            else State (upd (error b) (tline b)) (lines s) (cached s) (sent s)
          else if negb (code_eqb (error b) Invalid) then
            State (upd Invalid (tline b)) (lines s) (cached s) (sent s ++ [(id, Invalid, tline b)])
          else State (upd (error b) (tline b)) (lines s) (cached s) (sent s)
        else if negb (code_eqb (error b) NoError) then
          State (upd NoError (tline b)) (lines s) (cached s) (sent s ++ [(id, NoError, tline b)])
        else State (upd (error b) (tline b)) (lines s) (cached s) (sent s)
  end.
(** _verify_breakpoints_with_lines_collected: over a copy of the items *)
Definition verify (vs : list Z) (s : state) : state := fold_left (verify_one vs) (lines s) s.

(** consolidate_breakpoints and after_breakpoints_consolidated *)
Definition consolidate (s : state) : state :=
  let s := State (objs s) (fold_left (fun d x => set Z.eqb (line (snd x)) (fst x) d) (objs s) []) (cached s) (sent s) in
  match lines s, cached s with
  | _ :: _, Some vs => verify vs s
  | _, _ => s
  end.
Definition add (s : state) (id : N) (l : Z) : state :=
  consolidate (State (set N.eqb id (Bp l Lazy l None) (objs s)) (lines s) (cached s) (sent s)).
Definition remove (s : state) (id : N) : state :=
  if mem N.eqb id (objs s)
  then consolidate (State (del N.eqb id (objs s)) (lines s) (cached s) (sent s))
  else s.
(** The template is rendered, with the given lines: verify_breakpoints if the file has breakpoints *)
Definition render (s : state) (v : list Z) : state :=
  match lines s with
  | [] => s
  | _ => verify (sorted v) (State (objs s) (lines s) (Some (sorted v)) (sent s))
  end.
(** The breakpoint found for a line being rendered *)
Definition stops (s : state) (l : Z) : option N := get Z.eqb l (lines s).

Inductive op := Add (id : N) (l : Z) | Remove (id : N) | Render (v : list Z).
Definition exec (s : state) (o : op) : state :=
  match o with Add id l => add s id l | Remove id => remove s id | Render v => render s v end.
Definition run (h : list op) : state := fold_left exec h init.
