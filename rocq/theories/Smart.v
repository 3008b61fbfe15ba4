(** Model of stepping into a chosen call (property C53).
    Sources: /repo/_pydevd_bundle/pydevd_bytecode_utils_py311.py L1-105 (the calls of a code, for Python 3.11 and later),
    /repo/_pydevd_bundle/pydevd_bytecode_utils.py L803-938 (Variant, _convert_target_to_variant,
    get_smart_step_into_variant_from_frame_offset), /repo/_pydevd_bundle/pydevd_comm.py L728-741 (internal_smart_step_into),
    L985-1126 (internal_get_smart_step_into_variants, internal_get_step_in_targets_json),
    /repo/_pydevd_bundle/pydevd_process_net_command_json.py L604-658 (on_stepin_request),
    /repo/_pydevd_bundle/pydevd_frame.py L487-505, L559-565, L900-974 (sys.settrace),
    /repo/_pydevd_sys_monitoring/_pydevd_sys_monitoring.py L1179-1186, L1626-1698 (sys.monitoring).
    Not modelled: the calls of a code before Python 3.11 (pydevd_bytecode_utils.py L107-800), the choice by name and line
    of the older protocol, breakpoints met on the way. *)
From Coq Require Import String.
From Coq Require Import List NArith ZArith Bool.
Open Scope list_scope.
From Verif Require Import Base Dict.
Import ListNotations.

(** ** The calls of a code *)

(** _Pos, L8, from the positions of an instruction. *)
Record pos := Pos { lineno : Z; endlineno : Z; startcol : Z; endcol : Z }.

(** dis.Bytecode(code): LOAD_CONST of a code object, CALL or CALL_INTRINSIC_1 with its offset (and its position, when it has
    lines), anything else.  A code is the list of its instructions; those in a constant are of the same file. *)
Inductive instr := Const (c : list instr) | Call (off : Z) (p : option pos) | Other.
Definition code := list instr.

(** Target, pydevd_bytecode_utils.py L59-80 *)
Inductive target := Target (arg : str) (p : pos) (off : Z) (inner : list target).
Definition t_pos (t : target) : pos := let (_, p, _, _) := t in p.
Definition t_off (t : target) : Z := let (_, _, o, _) := t in o.

(** L11-24 *)
Definition is_inside (i c : pos) : bool :=
  if Z.ltb (lineno i) (lineno c) || Z.ltb (endlineno c) (endlineno i) then false
  else if Z.eqb (lineno i) (lineno c) && Z.ltb (startcol i) (startcol c) then false
  else if Z.eqb (endlineno i) (endlineno c) && Z.ltb (endcol c) (endcol i) then false
  else true.

(** L46-58: the text of the call.  [src]: linecache.getline.  Slices take the columns as indexes of characters, although they
    count bytes.  The lines of a position are in order (lineno <= end_lineno). *)
Definition slice (a b : Z) (s : str) : str := firstn (Z.to_nat b - Z.to_nat a) (skipn (Z.to_nat a) s).
Fixpoint lines (src : Z -> str) (l : Z) (n : nat) : list str :=
  match n with 0 => [] | S n => src l :: lines src (l + 1) n end.
Definition call_text (src : Z -> str) (p : pos) : str :=
  if Z.eqb (lineno p) (endlineno p) then slice (startcol p) (endcol p) (src (lineno p))
  else skipn (Z.to_nat (startcol p)) (src (lineno p))
       ++ concat (lines src (lineno p + 1) (Z.to_nat (endlineno p - lineno p - 1)))
       ++ firstn (Z.to_nat (endcol p)) (src (endlineno p)).

(** L63-70: the first call around the position takes the inner call. *)
Fixpoint attach (c : target) (ts : list target) : list target :=
  match ts with
  | [] => []
  | Target a p o inner :: r =>
      if is_inside (t_pos c) p then Target a p o (inner ++ [c]) :: r else Target a p o inner :: attach c r
  end.

(** _get_smart_step_into_targets, L27-71 *)
Fixpoint inner_targets (src : Z -> str) (i : instr) : list target :=
  match i with
  | Const c =>
      fold_left (fun ts c => attach c ts) (flat_map (inner_targets src) c)
        (flat_map (fun i => match i with Call o (Some p) => [Target (call_text src p) p o []] | _ => [] end) c)
  | _ => []
  end.
Definition targets (src : Z -> str) (c : code) : list target := inner_targets src (Const c).

(** Variant, pydevd_bytecode_utils.py L803-819 (an empty list stands for no children too). *)
Inductive variant := Variant (name : str) (visited : bool) (line off order : Z) (inner : list variant).
Definition v_name (v : variant) : str := let (n, _, _, _, _, _) := v in n.
Definition v_visited (v : variant) : bool := let (_, b, _, _, _, _) := v in b.
Definition v_line (v : variant) : Z := let (_, _, l, _, _, _) := v in l.
Definition v_off (v : variant) : Z := let (_, _, _, o, _, _) := v in o.
Definition v_order (v : variant) : Z := let (_, _, _, _, k, _) := v in k.
Definition v_inner (v : variant) : list variant := let (_, _, _, _, _, l) := v in l.

(** The outcome of _convert_target_to_variant, L849-880: nothing when it is out of the lines asked for, an exception when
    this is so for an inner call (parent cannot be set at L817), a variant.  The number of calls of each name is passed on.
    [base] is 0 wherever this is called. *)
Inductive conv := Out | Raise | Var (v : variant).
Definition orders := list (str * Z).
Fixpoint convert (a b lasti : Z) (t : target) (k : orders) : conv * orders :=
  let (name, p, off, inner) := t in
  if Z.ltb b (lineno p) || Z.ltb (lineno p) a then (Out, k)
  else
    let order := (match get str_eqb name k with Some n => n | None => 0 end + 1)%Z in
    let k := set str_eqb name order k in
    match (fix all (l : list target) (k : orders) : option (list variant) * orders :=
             match l with
             | [] => (Some [], k)
             | t :: r =>
                 match convert a b lasti t k with
                 | (Var v, k) => match all r k with (Some vs, k) => (Some (v :: vs), k) | x => x end
                 | (_, k) => (None, k)
                 end
             end) inner k with
    | (Some vs, k) => (Var (Variant name (Z.leb off lasti) (lineno p) off order vs), k)
    | (None, k) => (Raise, k)
    end.

(** calculate_smart_step_into_variants, L74-105; None: an exception. *)
Fixpoint convert_all (a b lasti : Z) (ts : list target) (k : orders) : option (list variant) :=
  match ts with
  | [] => Some []
  | t :: r =>
      match convert a b lasti t k with
      | (Out, k) => convert_all a b lasti r k
      | (Raise, _) => None
      | (Var v, k) => option_map (cons v) (convert_all a b lasti r k)
      end
  end.
Definition variants_of (src : Z -> str) (c : code) (lasti a b : Z) : option (list variant) :=
  convert_all a b lasti (targets src c) [].

(** ** The targets offered to the client *)

(** A target: its label, the offset of the call around it, its own offset.  Ids are the positions in the list. *)
Record entry := Entry { e_label : str; e_parent : option Z; e_off : Z }.
Definition label (v : variant) : str :=
  if Z.ltb 1 (v_order v) then v_name v ++ lit " (call " ++ dec (Z.to_N (v_order v)) ++ lit ")" else v_name v.

(** pydevd_comm.py L1077-1111: the check of the number of targets leaves one loop only. *)
Fixpoint add_inner (parent : Z) (vs : list variant) (acc : list entry) : list entry :=
  match vs with
  | [] => acc
  | v :: r =>
      let acc := acc ++ [Entry (label v) (Some parent) (v_off v)] in
      if Nat.leb 15 (length acc) then acc else add_inner parent r acc
  end.
Fixpoint add_targets (vs : list variant) (acc : list entry) : list entry :=
  match vs with
  | [] => acc
  | v :: r =>
      if v_visited v then add_targets r acc
      else
        match v_inner v with
        | [] =>
            let acc := acc ++ [Entry (label v) None (v_off v)] in
            if Nat.leb 15 (length acc) then acc else add_targets r acc
        | cs => add_targets r (add_inner (v_off v) cs acc)
        end
  end.
Definition first_line : Z := 0.
Definition last_line : Z := 99999999.
(** What internal_get_step_in_targets_json computes: the variants kept for the step, and the targets. *)
Definition step_in_targets (src : Z -> str) (c : code) (lasti : Z) : option (list variant * list entry) :=
  option_map (fun vs => (vs, add_targets vs [])) (variants_of src c lasti first_line last_line).

(** on_stepin_request, L624-637: the offsets the step is made with. *)
Definition choose (es : list entry) (id : nat) : option (Z * Z) :=
  match nth_error es id with
  | None => None
  | Some e => Some (match e_parent e with Some p => (p, e_off e) | None => (e_off e, (-1)%Z) end)
  end.

(** The lines of the answer to CMD_GET_SMART_STEP_INTO_VARIANTS, L1006-1039: name, visited, line, offset, inner offset,
    order. *)
Definition xml_variants (vs : list variant) : list (str * bool * Z * Z * Z * Z) :=
  flat_map (fun v =>
    match v_inner v with
    | [] => [(v_name v, v_visited v, v_line v, v_off v, (-1)%Z, v_order v)]
    | cs => map (fun c => (v_name c, v_visited c, v_line c, v_off v, v_off c, v_order c)) cs
    end) vs.

(** ** The step *)

(** bisect.bisect_right of the standard library on the offsets: [n] bounds the number of rounds. *)
Fixpoint bisect_loop (n lo hi : nat) (vs : list variant) (x : Z) : nat :=
  match n with
  | 0 => lo
  | S n =>
      if Nat.ltb lo hi then
        let mid := Nat.div2 (lo + hi) in
        match nth_error vs mid with
        | None => lo
        | Some v => if Z.ltb x (v_off v) then bisect_loop n lo mid vs x else bisect_loop n (S mid) hi vs x
        end
      else lo
  end.
Definition bisect (vs : list variant) (x : Z) : nat := bisect_loop (length vs) 0 (length vs) vs x.

(** get_smart_step_into_variant_from_frame_offset, L920-938: the position of the variant, as they are compared with [is]. *)
Definition at_offset (x : Z) (vs : list variant) : option nat :=
  match vs with [] => None | _ => match bisect vs x with 0 => None | S i => Some i end end.
Definition same_variant (a b : option nat) : bool :=
  match a, b with Some i, Some j => Nat.eqb i j | None, None => true | _, _ => false end.

(** A frame: its identity, f_lasti, is it of a generator or coroutine, is its code debugged (its file is not filtered), is it
    still traced (NO_FTRACE otherwise). *)
Record frame := Frame { fid : N; flasti : Z; fgen : bool; fseen : bool; fon : bool }.

(** The step: pydev_step_stop, pydev_smart_parent_offset, pydev_smart_child_offset, pydev_smart_step_into_variants. *)
Record step := Step { st_frame : N; st_parent : Z; st_child : Z; st_variants : list variant }.

(** What the thread does: the current frame calls (or resumes) a frame at the given offset, its instruction moves on, it comes
    to a line, it returns ([real]: not only the pause of a generator, return_lines). *)
Inductive act := Enter (site : Z) (f : frame) | Move (lasti : Z) | Line | Return (real : bool).

Inductive engine := Settrace | Monitoring.

(** The choice made for a line, pydevd_frame.py L906-974 and _pydevd_sys_monitoring.py L1626-1698. *)
Definition line_stops (s : step) (back : list frame) : bool :=
  match back with
  | b :: rest =>
      if N.eqb (fid b) (st_frame s) then
        if negb (Z.eqb (st_child s) (-1)) then false
        else if Z.leb 0 (st_parent s) && negb (match st_variants s with [] => true | _ => false end) then
          same_variant (at_offset (flasti b) (st_variants s)) (at_offset (st_parent s) (st_variants s))
        else false                        (* by name and line: pydev_func_name is not set by this command *)
      else
        match rest with
        | bb :: _ =>
            if N.eqb (fid bb) (st_frame s) then
              if Z.leb 0 (st_child s) && Z.leb 0 (st_parent s) && negb (match st_variants s with [] => true | _ => false end) then
                match at_offset (st_parent s) (st_variants s) with
                | None => false                                         (* AttributeError, the event is given up *)
                | Some i =>
                    match nth_error (st_variants s) i with
                    | None => false
                    | Some v =>
                        match v_inner v with
                        | [] => false
                        | cs => same_variant (at_offset (flasti b) cs) (at_offset (st_child s) cs)
                        end
                    end
                end
              else false
            else false
        | [] => false
        end
  | [] => false
  end.

(** Is the frame the one of the step, or called by it, or called by one called by it (pydevd_frame.py L559-565). *)
Definition near (s : step) (fs : list frame) : bool := existsb (fun f => N.eqb (fid f) (st_frame s)) (firstn 3 fs).

Definition set_on (b : bool) (f : frame) : frame := Frame (fid f) (flasti f) (fgen f) (fseen f) b.
Definition move (l : Z) (f : frame) : frame := Frame (fid f) l (fgen f) (fseen f) (fon f).

(** One action: the new stack, and whether the thread stops.  With sys.settrace a frame which is not near, or in which the line
    is not the chosen one, is no longer traced. *)
Definition do_act (e : engine) (s : step) (fs : list frame) (a : act) : list frame * bool :=
  match a, fs with
  | _, [] => (fs, false)
  | Enter site f, b :: rest =>
      let fs := f :: move site b :: rest in
      (match e with
       | Settrace => set_on (fseen f && (fgen f || near s fs)) f :: move site b :: rest
       | Monitoring => set_on (fseen f) f :: move site b :: rest
       end, false)
  | Move l, f :: rest => (move l f :: rest, false)
  | Line, f :: rest =>
      if fon f then
        if negb (N.eqb (fid f) (st_frame s)) && line_stops s rest then (fs, true)
        else
          match e with
          | Settrace => (if N.eqb (fid f) (st_frame s) then fs else set_on false f :: rest, false)
          | Monitoring => (fs, false)
          end
      else (fs, false)
  | Return real, f :: rest =>
      (rest, fon f && N.eqb (fid f) (st_frame s) && (real || negb (fgen f)))
  end.

(** Until it stops: the stack at the stop, with the action. *)
Fixpoint until_stop (e : engine) (s : step) (fs : list frame) (l : list act) : option (list frame * act) :=
  match l with
  | [] => None
  | a :: r => let (fs', b) := do_act e s fs a in if b then Some (fs, a) else until_stop e s fs' r
  end.
