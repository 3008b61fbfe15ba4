(** Model of changing variables and of running code in a frame (properties C54 and C55).
    Sources: /repo/_pydevd_bundle/pydevd_vars.py L445-598 (evaluate_expression), L601-648 (change_attr_expression),
    /repo/_pydevd_bundle/pydevd_save_locals.py, /repo/_pydevd_bundle/pydevd_suspended_frames.py L203-244, L258-262
    (change_variable), /repo/_pydevd_bundle/pydevd_resolver.py L591-608 (change_var_from_name),
    /repo/_pydevd_bundle/pydevd_comm.py L886-960 (internal_change_variable, internal_change_variable_json), L1322-1332,
    /repo/_pydevd_bundle/pydevd_process_net_command.py L200-207 (cmd_change_variable).
    Values are identities: two values are equal in the model when they are the same object.
    Not modelled: frames of templates (plugins), names with a dot and items of containers other than sets (these change an
    object, not a variable), top-level await, timeouts of evaluations, retrying an attribute with a mangled name. *)
From Coq Require Import String.
From Coq Require Import List NArith Bool.
From Verif Require Import Base Dict HitCond SetBreak.
Import ListNotations.
Open Scope list_scope.

Definition ns := list (str * N).
(** None *)
Definition none : N := 0.

(** ** Frames, as CPython has them *)

(** The frame of a function has a slot for each of its variables (empty while the variable is not bound), and a table of its own:
    before Python 3.13 the dictionary f_locals, later the other names which were added.  For a module f_locals is f_globals; the
    body of a class has a dictionary. *)
Inductive kind := Fun | Top | Body.
Record frame := Frame { kd : kind; slots : list (str * option N); table : ns; globs : ns }.
Definition with_slots l f := Frame (kd f) l (table f) (globs f).
Definition with_table t f := Frame (kd f) (slots f) t (globs f).
Definition with_globs g f := Frame (kd f) (slots f) (table f) g.

(** The version of Python: up to 3.12, where save_locals calls PyFrame_LocalsToFast, or 3.13 and later, where f_locals
    writes through (PEP 667) and save_locals_impl is None (pydevd_save_locals.py L55-58). *)
Inductive version := Old | New.

(** PyFrame_FastToLocals: the slots are written to the dictionary, those empty are removed from it. *)
Definition to_table (l : list (str * option N)) (t : ns) : ns :=
  fold_left (fun t x => match snd x with Some v => set str_eqb (fst x) v t | None => del str_eqb (fst x) t end) l t.
(** PyFrame_LocalsToFast with clear = 0: the slots take what the dictionary has. *)
Definition to_slots (t : ns) (l : list (str * option N)) : list (str * option N) :=
  map (fun x => (fst x, match get str_eqb (fst x) t with Some v => Some v | None => snd x end)) l.

(** frame.f_locals: each access up to Python 3.12 updates the dictionary. *)
Definition access (v : version) (f : frame) : frame :=
  match kd f, v with Fun, Old => with_table (to_table (slots f) (table f)) f | _, _ => f end.
(** What it contains. *)
Definition bound (l : list (str * option N)) : ns := flat_map (fun x => match snd x with Some v => [(fst x, v)] | None => [] end) l.
Definition view (v : version) (f : frame) : ns :=
  match kd f, v with Top, _ => globs f | Fun, New => bound (slots f) ++ table f | _, _ => table f end.
(** f_locals[x] = w *)
Definition put (v : version) (x : str) (w : N) (f : frame) : frame :=
  match kd f, v with
  | Top, _ => with_globs (set str_eqb x w (globs f)) f
  | Fun, New =>
      if mem str_eqb x (slots f) then with_slots (set str_eqb x (Some w) (slots f)) f
      else with_table (set str_eqb x w (table f)) f
  | _, _ => with_table (set str_eqb x w (table f)) f
  end.
(** del f_locals[x] as in pydevd_save_locals.py L108-121: in Python 3.13 the variable of a slot cannot be removed (ValueError) and is
    set to None; a name which is not there is left (KeyError).  Python 3.13.0 refuses the other names too. *)
Definition drop (v : version) (x : str) (f : frame) : frame :=
  match kd f, v with
  | Top, _ => with_globs (del str_eqb x (globs f)) f
  | Fun, New =>
      match get str_eqb x (slots f) with
      | Some (Some _) => with_slots (set str_eqb x (Some none) (slots f)) f
      | _ => with_table (del str_eqb x (table f)) f
      end
  | _, _ => with_table (del str_eqb x (table f)) f
  end.
(** save_locals, L20-36 *)
Definition save (v : version) (f : frame) : frame :=
  match kd f, v with Fun, Old => with_slots (to_slots (table f) (slots f)) f | _, _ => f end.

(** ** Changing a variable *)
Section Change.
(** [W]: the rest of the world.  [means]: an expression, run with globals and locals, gives a value or raises, and may change the
    world; it assigns no variable. *)
Context {W : Type}.
Variable means : str -> ns -> ns -> W -> option N * W.

Inductive scope := Globals | Locals.

(** change_attr_expression, for a name without a dot; [value]: the result which is to be set, when there is one.  The result: the frame, the
    world, and what is returned (None also stands for an exception, which is logged). *)
Definition change_attr (v : version) (f : frame) (w : W) (sc : option scope) (attr text : str) (value : option N) : frame * W * option N :=
  let text := replace (lit "@LINE@") [newline] text in
  let eval f w := match value with Some x => (Some x, w) | None => means text (globs f) (view v f) w end in
  if starts_with (lit "Globals") attr || match sc with Some Globals => true | _ => false end then
    let attr := if starts_with (lit "Globals") attr then skipn 8 attr else attr in
    if mem str_eqb attr (globs f) then
      let f := access v f in
      match eval f w with
      | (Some x, w) => (with_globs (set str_eqb attr x (globs f)) f, w, Some x)
      | (None, w) => (f, w, None)
      end
    else (f, w, None)
  else
    let f := access v f in
    match eval f w with
    | (None, w) => (f, w, None)
    | (Some x, w) =>
        match v with
        | Old =>
            let f := save v (put v attr x (access v f)) in
            let f := access v f in
            (f, w, get str_eqb attr (view v f))
        | New =>                                           (* Exec of the text attr=expression *)
            match means text (globs f) (view v f) w with
            | (Some y, w) => (put v attr y f, w, Some x)
            | (None, w) => (f, w, None)
            end
        end
    end.

(** _FrameVariable.change_variable, L258-262, and the answer of internal_change_variable_json: the variable of the name, if it is shown
    ([hidden]: those which are grouped or hidden). *)
Definition set_variable (hidden : str -> bool) (v : version) (f : frame) (w : W) (sc : option scope) (name text : str) : frame * W * option N :=
  let '(f, w, _) := change_attr v f w sc name text None in
  let f := access v f in
  (f, w, if hidden name then None
         else get str_eqb name (match sc with Some Globals => globs f | _ => view v f end)).
End Change.

(** cmd_change_variable, L200-207: thread, frame, scope, attribute, value; None: an exception. *)
Fixpoint rsplit (s : str) : option (str * str) :=                          (* at the last tab *)
  match s with
  | [] => None
  | c :: r =>
      match rsplit r with
      | Some (a, b) => Some (c :: a, b)
      | None => if N.eqb c tab then Some ([], r) else None
      end
  end.
Definition read_change (text : str) : option (str * str * str * str * str) :=
  match splitn 3 text with
  | [t; f; s; av] =>
      match rsplit av with
      | Some (a, val) => Some (t, f, s, map (fun c => if N.eqb c tab then 46%N else c) a, val)
      | None => None
      end
  | _ => None
  end.

(** SetResolver.change_var_from_name: an item has an identity and a value by which it is compared.  The result: the items, and the
    identity which is the name of the new item (None: not changed).  set.remove takes the first which is equal; set.add adds nothing when
    one is equal. *)
Definition item := (N * N)%type.
Definition remove_equal (x : N) (l : list item) : list item := filter (fun i => negb (N.eqb (snd i) x)) l.
Definition add_item (i : item) (l : list item) : list item := if existsb (fun j => N.eqb (snd j) (snd i)) l then l else l ++ [i].
Definition change_item (hashable : item -> bool) (l : list item) (name : N) (new : item) : list item * option N :=
  if hashable new then
    match find (fun i => N.eqb (fst i) name) l with
    | Some i => (add_item new (remove_equal (snd i) l), Some (fst new))
    | None => (l, None)
    end
  else (l, None).

(** ** Running code in a frame *)

(** d.update(e) *)
Definition update (d e : ns) : ns := fold_left (fun d x => set str_eqb (fst x) (snd x) d) e d.
(** The function given as globals when the name is free (L521-524). *)
Definition globals_fn : N := 1.
Definition with_globals_fn (d : ns) : ns := if mem str_eqb (lit "globals") d then d else set str_eqb (lit "globals") globals_fn d.
(** L518-524 *)
Definition namespace (v : version) (f : frame) : ns :=
  with_globals_fn (update (update [] (globs f)) (view v (access v f))).

Definition same (a b : option N) : bool := match a, b with Some x, Some y => N.eqb x y | None, None => true | _, _ => false end.
(** update_globals_and_locals, L85-130 *)
Definition changes (after before : ns) : ns := filter (fun x => negb (same (Some (snd x)) (get str_eqb (fst x) before))) after.
Definition removed (after before : ns) : list str := filter (fun x => negb (mem str_eqb x after)) (keys before).
Definition update_frame (v : version) (after before : ns) (f : frame) : frame :=
  match changes after before, removed after before with
  | [], [] => f
  | cs, rs => save v (fold_left (fun f x => drop v x f) rs (fold_left (fun f x => put v (fst x) (snd x) f) cs (access v f)))
  end.

(** Code given by the user: is it an expression, and what running it in a namespace does to it; the result is None when it raises. *)
Record prog := Prog { is_expr : bool; run : ns -> ns * option N }.

(** evaluate_expression, L526-598: the frame and the result (for exec: None when it raises, None otherwise too; what is printed). *)
Definition evaluate (v : version) (is_exec : bool) (p : prog) (f : frame) : frame * option N :=
  let before := namespace v f in
  let f := access v f in
  let (after, r) := run p before in
  if is_exec then
    if is_expr p then (f, r) else (update_frame v after before f, r)
  else if negb (is_expr p) then (f, None)                                  (* SyntaxError *)
  else
    match r with Some x => (update_frame v after before f, Some x) | None => (f, None) end.

Definition session (v : version) (is_exec : bool) (ps : list prog) (f : frame) : frame :=
  fold_left (fun f p => fst (evaluate v is_exec p f)) ps f.
