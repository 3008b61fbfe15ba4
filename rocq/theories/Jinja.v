(** Model of the debugging of Jinja2 templates (property C64): breakpoints at the lines of a template, stepping through a template
    and the functions it calls, and the variables shown.
    Sources: /repo/pydevd_plugins/jinja2_debug.py, /repo/_pydevd_bundle/pydevd_frame.py: trace_dispatch,
    /repo/_pydevd_bundle/pydevd_trace_dispatch_regular.py, /repo/pydevd.py: _do_wait_suspend, apply_files_filter. *)
From Coq Require Import String.
From Coq Require Import List NArith Bool.
From Verif Require Import Base Dict Glob.
Import ListNotations.
Open Scope list_scope.

(** * Frames and events *)
Definition dict (V : Type) := list (str * V).
(** The template of the module a frame runs in (__jinja_template__): its file, and which line of the template each line of the generated
    code is for (debug_info, pairs of both) *)
Record template := Tpl { filename : option str; debug_info : list (N * N) }.
(** The local variable called context: the variables given to the template, and those set at its top level *)
Record context (V : Type) := Ctx { parent : dict V; vars : dict V }.
Arguments Ctx {V}. Arguments parent {V}. Arguments vars {V}.
(** A frame as it is at an event: which one it is, the name of its function, its template, its line, its local variables, its
    context; whether it has the local variable _Context__obj (the call of a function by a template), the class of self, whether it has a
    local variable called event, whether it is a generator, whether the filters of files exclude it, whether it has Python breakpoints *)
Record frame (V : Type) := Frame { fid : N; co_name : str; tpl : option template; lineno : N; locals : dict V; ctx : option (context V);
  context_call : bool; self_class : option str; has_event : bool; generator : bool; filtered : bool; pybreaks : bool }.
Arguments Frame {V}. Arguments fid {V}. Arguments co_name {V}. Arguments tpl {V}. Arguments lineno {V}. Arguments locals {V}. Arguments ctx {V}.
Arguments context_call {V}. Arguments self_class {V}. Arguments has_event {V}. Arguments generator {V}. Arguments filtered {V}. Arguments pybreaks {V}.
Inductive kind := ECall | ELine | EReturn.
(** What the interpreter reports; [atbreak]: there is a Python breakpoint at the line; [final]: the line has a return, so that a generator
    which returns there has not just given a value (pydevd_frame.py L395-411). *)
Record event (V : Type) := Event { ev : kind; fr : frame V; stack : list (frame V); atbreak : bool; final : bool }.
Arguments Event {V}. Arguments ev {V}. Arguments fr {V}. Arguments stack {V}. Arguments atbreak {V}. Arguments final {V}.
Definition is_call (k : kind) : bool := match k with ECall => true | _ => false end.
Definition is_line (k : kind) : bool := match k with ELine => true | _ => false end.
Definition is_return (k : kind) : bool := match k with EReturn => true | _ => false end.

(** * What the frames are, jinja2_debug.py *)
(** _is_jinja2_render_call, L124-132; as it is written the second condition holds for code of any module *)
Definition is_render_call {V} (f : frame V) : bool :=
  match tpl f with Some _ => true | None => false end
    && (str_eqb (co_name f) (lit "root") || str_eqb (co_name f) (lit "loop") || str_eqb (co_name f) (lit "macro"))
  || starts_with (lit "block_") (co_name f).
(** _is_jinja2_internal_function, L161-167 *)
Definition is_internal_function {V} (f : frame V) : bool :=
  match self_class f with
  | None => false
  | Some c => existsb (str_eqb c) [lit "LoopContext"; lit "TemplateReference"; lit "Macro"; lit "BlockReference"]
  end.
(** _find_jinja2_render_frame, L170-174 *)
Fixpoint find_render {V} (l : list (frame V)) : option N :=
  match l with [] => None | f :: r => if is_render_call f then Some (fid f) else find_render r end.
(** _get_jinja2_template_line, L309-320, with _get_jinja2_template_debug_info, L281-289 *)
Definition template_line {V} (f : frame V) : option N :=
  match tpl f with
  | None => None
  | Some t => option_map fst (find (fun p => (snd p =? lineno f)%N) (debug_info t))
  end.
(** _get_jinja2_template_original_filename, L327-331 *)
Definition template_file {V} (f : frame V) : option str := match tpl f with Some t => filename t | None => None end.

(** * The variables of a template, jinja2_debug.py *)
(** A template frame; Jinja2TemplateFrame.__init__, L185-201 *)
Record tframe (V : Type) := TFrame { tfile : option str; tline : option N; tlocals : dict V }.
Arguments TFrame {V}. Arguments tfile {V}. Arguments tline {V}. Arguments tlocals {V}.
(** The program: whether a value is true, whether it is jinja2's missing *)
Record values (V : Type) := Values { truth : V -> bool; missing : V -> bool }.
Arguments truth {V}. Arguments missing {V}.
Definition all_digits (s : str) : bool := match s with [] => false | _ => forallb is_digit s end.
(** _get_real_var_name, L203-208 (names are ASCII) *)
Definition real_var_name (name : str) : str :=
  match split_on 95 name with
  | p0 :: p1 :: _ => if all_digits p0 then p1 else name
  | _ => name
  end.
(** What a local variable is shown as; collect_context, L210-216 *)
Definition shown_local {V} (W : values V) (kv : str * V) : option (str * V) :=
  let '(k, v) := kv in
  if negb (starts_with (lit "l_") k) then Some (k, v)
  else if truth W v && negb (missing W v) then Some (real_var_name (skipn 2 k), v) else None.
Definition put {V} (res : dict V) (kv : str * V) : dict V := set str_eqb (fst kv) (snd kv) res.
(** Context.items() of jinja2: the variables set in the template go before those given to it *)
Definition context_items {V} (c : context V) : dict V := fold_left put (vars c) (parent c).
(** collect_context, L210-220 *)
Definition collect_context {V} (W : values V) (f : frame V) : dict V :=
  fold_left put (match ctx f with Some c => context_items c | None => [] end)
    (fold_left (fun res kv => match shown_local W kv with Some kv => put res kv | None => res end) (locals f) []).
Definition template_frame {V} (W : values V) (f : frame V) : tframe V := TFrame (template_file f) (template_line f) (collect_context W f).
(** The call frame._change_variable(frame.f_back, attr, result, scope=scope) of L255: the method, L222, has no parameter called scope.
    change_variable, L252-257, and change_attr_expression, pydevd_vars.py L601-644: None when there was an exception.  What the method would
    do is not modelled. *)
Definition change_variable_accepts_scope : bool := false.
Definition change_variable {V E} (method : tframe V -> str -> V -> tframe V) (eval : E -> dict V -> option V) (t : tframe V) (name : str) (expr : E)
  : option V * tframe V :=
  match eval expr (tlocals t) with
  | None => (None, t)
  | Some v => if change_variable_accepts_scope then (Some v, method t name v) else (None, t)
  end.

(** * The state of a thread *)
(** pydev_step_cmd: -1, CMD_STEP_INTO(_MY_CODE), CMD_STEP_OVER(_MY_CODE), CMD_STEP_RETURN(_MY_CODE) *)
Inductive cmd := Run | Into | Over | Return.
(** pydev_step_stop: a frame of the program, or something which is none of its frames *)
Inductive stop_frame := NoFrame | Real (f : N) | Template.
(** [jinja]: suspend_type is JINJA2_SUSPEND; [call_from]: pydev_call_from_jinja2; [inside]: pydev_call_inside_jinja2; [dead]: an exception
    from the trace function ended the tracing of the thread. *)
Record dbg := Dbg { jinja : bool; step : cmd; at_frame : stop_frame; call_from : bool; inside : option N; dead : bool }.
Definition with_step (c : cmd) (s : stop_frame) (d : dbg) : dbg := Dbg (jinja d) c s (call_from d) (inside d) (dead d).
Definition with_mode (m : bool) (d : dbg) : dbg := Dbg m (step d) (at_frame d) (call_from d) (inside d) (dead d).
Definition with_from (c : bool) (d : dbg) : dbg := Dbg (jinja d) (step d) (at_frame d) c (inside d) (dead d).
Definition with_inside (i : option N) (d : dbg) : dbg := Dbg (jinja d) (step d) (at_frame d) (call_from d) i (dead d).
Definition with_dead (d : dbg) : dbg := Dbg (jinja d) (step d) (at_frame d) (call_from d) (inside d) true.
Definition same_frame {V} (s : stop_frame) (f : frame V) : bool := match s with Real n => (n =? fid f)%N | _ => false end.

(** The breakpoints of the templates, as verify_breakpoints leaves them (property C30): for each file (as it is normalised), the lines
    with the condition; [norm]: canonical_normalized_path; [filters]: the filters of files are in use. *)
Record setup (V : Type) := Setup { norm : str -> str; bps : list (str * list (N * (dict V -> bool))); filters : bool; world : values V }.
Arguments norm {V}. Arguments bps {V}. Arguments filters {V}. Arguments world {V}.
(** has_line_breaks, L345-349 *)
Definition has_line_breaks {V} (P : setup V) : bool := existsb (fun fb => match snd fb with [] => false | _ => true end) (bps P).
(** The breakpoints of the file of a frame's template *)
Definition file_breaks {V} (P : setup V) (f : frame V) : list (N * (dict V -> bool)) :=
  match template_file f with
  | Some n => match get str_eqb (norm P n) (bps P) with Some l => l | None => [] end
  | None => []
  end.
(** can_skip, L352-373, without breakpoints at the exceptions of templates *)
Definition can_skip {V} (P : setup V) (f : frame V) : bool :=
  negb (is_render_call f && match file_breaks P f with [] => false | _ => true end).
(** apply_files_filter, pydevd.py L1358-1444: a frame which a plugin needs is not filtered out *)
Definition apply_files_filter {V} (P : setup V) (f : frame V) : bool :=
  filters P && filtered f && negb (has_line_breaks P && negb (can_skip P f)).
(** get_breakpoint, L463-488 *)
Definition get_breakpoint {V} (P : setup V) (e : event V) : option (dict V -> bool) :=
  if is_line (ev e) && is_render_call (fr e) then
    match template_line (fr e) with
    | Some n => get N.eqb n (file_breaks P (fr e))
    | None => None
    end
  else None.

(** * The trace function *)
Inductive place (V : Type) := InTemplate (t : tframe V) | InCode (f : frame V).
Arguments InTemplate {V}. Arguments InCode {V}.
(** set_suspend with mark_thread_suspended, pydevd_thread_lifecycle.py L28-51; _suspend_jinja2, L135-150 *)
Definition suspended (m : bool) (d : dbg) : dbg :=
  match step d with Run => with_step Into NoFrame (with_mode m d) | _ => with_mode m d end.
(** pydevd_trace_dispatch_regular.py L450-482: whether the frame is left out because of the filters; and pydevd_frame.py
    L377-454: of a generator only the lines and the last return are looked at *)
Definition left_out {V} (P : setup V) (e : event V) (d : dbg) : bool :=
  filters P && apply_files_filter P (fr e) &&
  match step d, stack e with
  | Into, b :: _ | Return, b :: _ => apply_files_filter P b
  | _, _ => true
  end
  || generator (fr e) && match ev e with ECall => true | ELine => false | EReturn => negb (final e) end.
(** trace_dispatch, pydevd_frame.py L487-506: a step which leaves its frame goes on as step into (functions of the program which are
    generators are left out) *)
Definition leaving {V} (e : event V) (d : dbg) : dbg :=
  if is_return (ev e) && same_frame (at_frame d) (fr e) then
    match step d with Over | Return => with_step Into NoFrame d | _ => d end
  else d.
(** trace_dispatch, pydevd_frame.py L541-659: whether nothing is looked at in the frame *)
Definition skipped {V} (P : setup V) (e : event V) (d : dbg) : bool :=
  match step d with
  | Run => true
  | Over | Return => negb (same_frame (at_frame d) (fr e))
  | Into => false
  end && (if has_line_breaks P then can_skip P (fr e) else true) && negb (pybreaks (fr e)).
(** The caller is the call of a function by a template, _is_jinja2_context_call, L157-158; None: there is no caller, an exception *)
Definition called_by_template {V} (e : event V) : option bool := match stack e with [] => None | b :: _ => Some (context_call b) end.
(** cmd_step_into, L387-414: (state, stop, stop in the template); None: an exception *)
Definition cmd_step_into {V} (e : event V) (d : dbg) (stop : bool) : option (dbg * bool * bool) :=
  let '(d, stop, plugin_stop) :=
    if jinja d then
      (if call_from d && is_internal_function (fr e) then with_from false d else d,
       call_from d && negb (is_internal_function (fr e)),
       (is_call (ev e) || is_line (ev e)) && is_render_call (fr e))
    else (d, stop, false) in
  match ev e with
  | ELine => Some (d, stop, plugin_stop)
  | ECall => if jinja d then match called_by_template e with
                             | None => None
                             | Some c => Some (if c then with_from true d else d, stop, plugin_stop)
                             end
             else Some (d, stop, plugin_stop)
  | EReturn => match called_by_template e with
               | None => None
               | Some true => Some (Dbg true (step d) (if call_from d then Template else NoFrame) false (inside d) (dead d), false, plugin_stop)
               | Some false => Some (d, stop, plugin_stop)
               end
  end.
(** cmd_step_over, L417-451 *)
Definition cmd_step_over {V} (e : event V) (d : dbg) (stop : bool) : option (dbg * bool * bool) :=
  if jinja d then
    match inside d with
    | None =>
        if is_render_call (fr e) then
          match ev e with
          | ECall => Some (with_inside (option_map fid (hd_error (stack e))) d, false, false)
          | _ => Some (with_inside (Some (fid (fr e))) d, false, false)
          end
        else Some (d, false, false)
    | Some g =>
        match ev e with
        | ECall => Some (d, false, false)
        | ELine => Some (d, false, is_render_call (fr e) && (g =? fid (fr e))%N)
        | EReturn =>
            if (g =? fid (fr e))%N then
              match stack e with
              | [] => None
              | b :: _ => Some (if has_event b then d else with_inside (find_render (stack e)) d, false, false)
              end
            else Some (d, false, false)
        end
    end
  else
    match ev e with
    | EReturn => match called_by_template e with
                 | None => None
                 | Some true => Some (Dbg true (step d) (at_frame d) false (find_render (fr e :: stack e)) (dead d), false, false)
                 | Some false => Some (d, stop, false)
                 end
    | _ => Some (d, stop, false)
    end.
(** The steps, pydevd_frame.py L812-988, without smart step into, coroutines and scoped steps; [c], [s]: the command and the frame before
    the frame was left.  The rules that a step into does not stop again at the place it started from, and never in code of the
    debugger, are left out. *)
Definition steps {V} (P : setup V) (e : event V) (c : cmd) (s : stop_frame) (d : dbg) : option (dbg * bool * bool) :=
  match c with
  | Run => Some (d, false, false)
  | Into => cmd_step_into e d
      match ev e, stack e with
      | ELine, _ => negb (apply_files_filter P (fr e))
      | EReturn, b :: _ => negb (apply_files_filter P b)
      | _, _ => false
      end
  | Over => cmd_step_over e d (same_frame s (fr e) && is_line (ev e))
  | Return => Some (d, is_return (ev e) && same_frame s (fr e), false)
  end.
(** One event, pydevd_frame.py L340-1047; stop, jinja2_debug.py L454-460 *)
Definition finish {V} (P : setup V) (e : event V) (r : dbg * bool * bool) : dbg * option (place V) :=
  let '(d, stop, plugin_stop) := r in
  if plugin_stop then
    match template_line (fr e) with
    | None => (d, None)
    | Some _ => (suspended true d, Some (InTemplate (template_frame (world P) (fr e))))
    end
  else if stop then
    match ev e, stack e with
    | ELine, _ => (suspended false d, Some (InCode (fr e)))
    | EReturn, b :: _ => (suspended false d, Some (InCode b))
    | _, _ => (d, None)
    end
  else (d, None).
Definition trace {V} (P : setup V) (e : event V) (d : dbg) : dbg * option (place V) :=
  if dead d || left_out P e d then (d, None)
  else
    let d1 := leaving e d in
    if skipped P e d then (d1, None)
    else if is_line (ev e) && atbreak e then (suspended false d1, Some (InCode (fr e)))
    else
      let t := template_frame (world P) (fr e) in
      if (if has_line_breaks P then match get_breakpoint P e with Some holds => holds (tlocals t) | None => false end else false)
      then (suspended true d1, Some (InTemplate t))
      else match steps P e (step d) (at_frame d) d1 with
           | None => (with_dead d1, None)
           | Some r => finish P e r
           end.
Fixpoint run {V} (P : setup V) (evs : list (event V)) (d : dbg) : dbg * option (place V * event V * list (event V)) :=
  match evs with
  | [] => (d, None)
  | e :: r => match trace P e d with
              | (d, Some p) => (d, Some (p, e, r))
              | (d, None) => run P r d
              end
  end.

(** * The commands of a stopped thread *)
(** pydevd.py L2309-2332 *)
Fixpoint return_frame {V} (P : setup V) (shown : stop_frame) (callers : list (frame V)) : option stop_frame :=
  match callers with
  | [] => None
  | b :: r => if filters P && apply_files_filter P b then return_frame P (Real (fid b)) r else Some shown
  end.
(** _do_wait_suspend, pydevd.py L2259-2332 *)
Definition shown_frame {V} (p : place V) (e : event V) : stop_frame * list (frame V) :=
  match p with
  | InTemplate _ => (Template, fr e :: stack e)
  | InCode f => (Real (fid f), if is_return (ev e) then tl (stack e) else stack e)
  end.
Definition resume {V} (P : setup V) (c : cmd) (p : place V) (e : event V) (d : dbg) : dbg :=
  let '(s, callers) := shown_frame p e in
  match c with
  | Run => with_step Run NoFrame d
  | Into => with_step Into NoFrame d
  | Over => with_step Over s d
  | Return => match return_frame P s callers with Some s => with_step Return s d | None => with_step Run NoFrame d end
  end.
Fixpoint session {V} (P : setup V) (cs : list cmd) (evs : list (event V)) (d : dbg) : list (place V) :=
  match run P evs d with
  | (_, None) => []
  | (d, Some (p, e, r)) => p :: match cs with [] => [] | c :: cs => session P cs r (resume P c p e d) end
  end.
Definition fresh : dbg := Dbg false Run NoFrame false None false.
