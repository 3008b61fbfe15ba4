(** Model of the debugging of Django templates (property C63): breakpoints at the lines of a template, stepping from one to the
    next node which is rendered, and the variables shown.
    Sources: /repo/pydevd_plugins/django_debug.py, /repo/_pydevd_bundle/pydevd_frame.py: trace_dispatch,
    /repo/_pydevd_bundle/pydevd_trace_dispatch_regular.py, /repo/pydevd.py: _do_wait_suspend, apply_files_filter,
    /repo/_pydevd_bundle/pydevd_vars.py: change_attr_expression. *)
From Coq Require Import String.
From Coq Require Import List NArith Bool.
From Verif Require Import Base Dict.
Import ListNotations.
Open Scope list_scope.

(** * Frames and events *)
(** The object which is the self of a frame: its class, the names of the classes it inherits from, and for a node of a template
    the file (self.origin.name) and the line (self.token.lineno), which may be missing. *)
Record node := Node { cls : str; mro : list str; origin : option str; lineno : option N }.
Definition dict (V : Type) := list (str * V).
(** A frame: which one it is, the name of its function, self, the dictionaries of the local variable called context (outermost first;
    None: there is no such variable), whether the filters of files exclude it, whether it has Python breakpoints. *)
Record frame (V : Type) := Frame { fid : N; co_name : str; self : option node; context : option (list (dict V)); filtered : bool; pybreaks : bool }.
Arguments Frame {V}. Arguments fid {V}. Arguments co_name {V}. Arguments self {V}. Arguments context {V}. Arguments filtered {V}. Arguments pybreaks {V}.
Inductive kind := ECall | ELine | EReturn.
(** What the interpreter reports; [atbreak]: there is a Python breakpoint at the line. *)
Record event (V : Type) := Event { ev : kind; fr : frame V; stack : list (frame V); atbreak : bool }.
Arguments Event {V}. Arguments ev {V}. Arguments fr {V}. Arguments stack {V}. Arguments atbreak {V}.
Definition is_call (k : kind) : bool := match k with ECall => true | _ => false end.
Definition is_line (k : kind) : bool := match k with ELine => true | _ => false end.
Definition is_return (k : kind) : bool := match k with EReturn => true | _ => false end.

(** * What the frames are, django_debug.py *)
(** _inherits, L167-175; getmro starts with the class itself *)
Definition inherits (n : node) (name : str) : bool := str_eqb (cls n) name || existsb (str_eqb name) (cls n :: mro n).
(** _is_django_render_call, L181-208, for Django 1.10 and later; _IGNORE_RENDER_OF_CLASSES, L178 *)
Definition is_render_call {V} (f : frame V) : bool :=
  str_eqb (co_name f) (lit "render") &&
  match self f with
  | None => false
  | Some n => inherits n (lit "Node") && negb (str_eqb (cls n) (lit "TextNode") || str_eqb (cls n) (lit "NodeList"))
  end.
(** _is_django_context_get_call, L211-221 *)
Definition is_context_get_call {V} (f : frame V) : bool :=
  match self f with None => false | Some n => inherits n (lit "BaseContext") end.
(** _is_django_resolve_call, L224-239; without a frame the exception which is raised is caught *)
Definition is_resolve_call {V} (f : option (frame V)) : bool :=
  match f with
  | None => false
  | Some f => str_eqb (co_name f) (lit "_resolve_lookup") && match self f with None => false | Some n => str_eqb (cls n) (lit "Variable") end
  end.
(** _get_template_original_file_name_from_frame, L324-366 *)
Definition template_file {V} (f : frame V) : option str := match self f with Some n => origin n | None => None end.
(** _get_template_line, L369-385 *)
Definition template_line {V} (f : frame V) : option N := match self f with Some n => lineno n | None => None end.

(** * The variables of a template, django_debug.py *)
(** _collect_context, L401-409 *)
Definition collect_context {V} (dicts : list (dict V)) : dict V :=
  fold_left (fun res d => fold_left (fun res kv => set str_eqb (fst kv) (snd kv) res) d res) dicts [].
(** _change_variable, L411-415: the value of every entry with the name is replaced *)
Definition change_in_dicts {V} (name : str) (v : V) (dicts : list (dict V)) : list (dict V) :=
  map (map (fun kv => if str_eqb (fst kv) name then (fst kv, v) else kv)) dicts.
(** A template frame: the file, the line, the dictionaries behind it and the variables shown, DjangoTemplateFrame.__init__, L391-399 *)
Record tframe (V : Type) := TFrame { tfile : option str; tline : option N; tdicts : list (dict V); tlocals : dict V }.
Arguments TFrame {V}. Arguments tfile {V}. Arguments tline {V}. Arguments tdicts {V}. Arguments tlocals {V}.
(** None: KeyError, there is no variable called context *)
Definition template_frame {V} (f : frame V) : option (tframe V) :=
  match context f with
  | None => None
  | Some dicts => Some (TFrame (template_file f) (template_line f) dicts (collect_context dicts))
  end.
(** What Python does with the call frame._change_variable(attr, result, scope=scope) of L433: the method has no parameter called
    scope.  [accepts] says whether it had. *)
Definition call_change_variable {V} (accepts : bool) (t : tframe V) (name : str) (v : V) : option (tframe V) :=
  if accepts then Some (TFrame (tfile t) (tline t) (change_in_dicts name v (tdicts t)) (tlocals t)) else None.
Definition change_variable_accepts_scope : bool := false.
(** change_variable, L430-435, and what change_attr_expression, pydevd_vars.py L601-644, returns for a template frame: the value, or
    None when there was an exception.  [eval]: the value of the expression with the variables, None: an exception. *)
Definition change_variable {V E} (eval : E -> dict V -> option V) (t : tframe V) (name : str) (expr : E) : option V * tframe V :=
  match eval expr (tlocals t) with
  | None => (None, t)
  | Some v => match call_change_variable change_variable_accepts_scope t name v with Some t' => (Some v, t') | None => (None, t) end
  end.
(** _FrameVariable.change_variable, pydevd_suspended_frames.py L258-261, and internal_change_variable_json, pydevd_comm.py L906-955:
    the response is the variable of that name after the attempt, or a failure when there is none. *)
Definition set_variable {V E} (eval : E -> dict V -> option V) (t : tframe V) (name : str) (expr : E) : option V * tframe V :=
  let t' := snd (change_variable eval t name expr) in (get str_eqb name (tlocals t'), t').

(** * The state of a thread *)
(** pydev_step_cmd: -1, CMD_STEP_INTO(_MY_CODE), CMD_STEP_OVER(_MY_CODE), CMD_STEP_RETURN(_MY_CODE) *)
Inductive cmd := Run | Into | Over | Return.
(** pydev_step_stop: a frame of the program, or a template frame (which is none of the frames of the program) *)
Inductive stop_frame := NoFrame | Real (f : N) | Template.
(** [django]: suspend_type is DJANGO_SUSPEND; [resolved]: pydev_django_resolve_frame; [dead]: an exception from the trace function
    ended the tracing of the thread. *)
Record dbg := Dbg { django : bool; step : cmd; at_frame : stop_frame; resolved : bool; dead : bool }.
Definition with_step (c : cmd) (s : stop_frame) (d : dbg) : dbg := Dbg (django d) c s (resolved d) (dead d).
Definition with_mode (m : bool) (d : dbg) : dbg := Dbg m (step d) (at_frame d) (resolved d) (dead d).
Definition with_resolved (r : bool) (d : dbg) : dbg := Dbg (django d) (step d) (at_frame d) r (dead d).
Definition with_dead (d : dbg) : dbg := Dbg (django d) (step d) (at_frame d) (resolved d) true.
Definition same_frame {V} (s : stop_frame) (f : frame V) : bool := match s with Real n => (n =? fid f)%N | _ => false end.

(** The breakpoints of the templates: for each file (as it is normalised), the lines with the condition of the breakpoint, as
    verify_breakpoints leaves them (property C30); [norm]: canonical_normalized_path; [filters]: the filters of files are in use. *)
Record setup (V : Type) := Setup { norm : str -> str; bps : list (str * list (N * (dict V -> bool))); filters : bool }.
Arguments norm {V}. Arguments bps {V}. Arguments filters {V}.
(** has_line_breaks, L494-498 *)
Definition has_line_breaks {V} (P : setup V) : bool := existsb (fun fb => match snd fb with [] => false | _ => true end) (bps P).
(** can_skip, L462-474, without breakpoints at the exceptions of templates *)
Definition can_skip {V} (P : setup V) (f : frame V) : bool := negb (match bps P with [] => false | _ => true end && is_render_call f).
(** apply_files_filter, pydevd.py L1358-1444: a frame which a plugin needs is not filtered out *)
Definition apply_files_filter {V} (P : setup V) (f : frame V) : bool :=
  filters P && filtered f && negb (has_line_breaks P && negb (can_skip P f)).
(** What a file name is looked up as; without one canonical_normalized_path takes the name of code without a file *)
Definition lookup_name {V} (P : setup V) (f : frame V) : str := match template_file f with Some n => norm P n | None => lit "<string>" end.
(** get_breakpoint, L536-565 *)
Inductive found (V : Type) := NoBreak | Break (holds : dict V -> bool) (t : tframe V) | Fails.
Arguments NoBreak {V}. Arguments Break {V}. Arguments Fails {V}.
Definition get_breakpoint {V} (P : setup V) (e : event V) : found V :=
  if is_call (ev e) && is_render_call (fr e) then
    match get str_eqb (lookup_name P (fr e)) (bps P) with
    | None | Some [] => NoBreak
    | Some lines =>
        match template_frame (fr e) with
        | None => Fails
        | Some t => match template_line (fr e) with
                    | None => NoBreak
                    | Some n => match get N.eqb n lines with Some h => Break h t | None => NoBreak end
                    end
        end
    end
  else NoBreak.

(** * The trace function *)
(** What is shown to the user: a place in a template, or in code *)
Inductive place (V : Type) := InTemplate (t : tframe V) | InCode (f : frame V).
Arguments InTemplate {V}. Arguments InCode {V}.
(** set_suspend with mark_thread_suspended, pydevd_thread_lifecycle.py L28-51: a thread which was not stepping is now stepping
    into; suspend_django, L246-253 *)
Definition suspended (m : bool) (d : dbg) : dbg :=
  match step d with Run => with_step Into NoFrame (with_mode m d) | _ => with_mode m d end.
(** The first part, pydevd_trace_dispatch_regular.py L450-482: whether the frame is left out because of the filters *)
Definition left_out {V} (P : setup V) (e : event V) (d : dbg) : bool :=
  filters P && apply_files_filter P (fr e) &&
  match step d, stack e with
  | Into, b :: _ | Return, b :: _ => apply_files_filter P b
  | _, _ => true
  end.
(** trace_dispatch, pydevd_frame.py L487-506: a step which leaves its frame goes on as step into *)
Definition leaving {V} (e : event V) (d : dbg) : dbg :=
  if is_return (ev e) && same_frame (at_frame d) (fr e) then
    match step d with Over | Return => with_step Into NoFrame d | _ => d end
  else d.
(** trace_dispatch, pydevd_frame.py L541-659: whether nothing is looked at in the frame *)
Definition skipped {V} (P : setup V) (e : event V) (d : dbg) : bool :=
  match step d with
  | Run => true
  | Over | Return => negb (same_frame (at_frame d) (fr e))
  | Into => false
  end && (if has_line_breaks P then can_skip P (fr e) else true) && negb (pybreaks (fr e)).
(** cmd_step_into, L501-508: (state, stop, stop in the template) *)
Definition cmd_step_into {V} (e : event V) (d : dbg) (stop : bool) : dbg * bool * bool :=
  if django d then
    let stop := stop && is_resolve_call (hd_error (stack e)) && negb (is_context_get_call (fr e)) in
    (if stop then with_resolved true d else d, stop, is_call (ev e) && is_render_call (fr e))
  else (d, stop, false).
(** cmd_step_over, L511-524 *)
Definition cmd_step_over {V} (e : event V) (d : dbg) (stop : bool) : dbg * bool * bool :=
  if django d then (d, false, is_call (ev e) && is_render_call (fr e))
  else
    let d' := if is_return (ev e) && resolved d && is_resolve_call (hd_error (stack e))
              then Dbg true (step d) (match stack e with b :: _ => Real (fid b) | [] => NoFrame end) false (dead d) else d in
    (d', same_frame (at_frame d') (fr e) && (is_line (ev e) || is_return (ev e)), false).
(** The steps, pydevd_frame.py L812-988, without smart step into, coroutines and scoped steps; [c]: the command before the frame was left,
    [s]: the frame before.  The rules that a step into does not stop again at the place it started from, and never in code of the
    debugger, are left out. *)
Definition steps {V} (P : setup V) (e : event V) (c : cmd) (s : stop_frame) (d : dbg) : dbg * bool * bool :=
  match c with
  | Run => (d, false, false)
  | Into => cmd_step_into e d
      match ev e, stack e with
      | ELine, _ => negb (apply_files_filter P (fr e))
      | EReturn, b :: _ => negb (apply_files_filter P b)
      | _, _ => false
      end
  | Over => cmd_step_over e d (same_frame s (fr e) && is_line (ev e))
  | Return => (d, is_return (ev e) && same_frame s (fr e), false)
  end.
(** One event: the state after it and, if the thread stops, the place shown; trace_dispatch, pydevd_frame.py L340-1047; stop, L527-533 *)
Definition finish {V} (P : setup V) (e : event V) (r : dbg * bool * bool) : dbg * option (place V) :=
  let '(d, stop, plugin_stop) := r in
  if plugin_stop then
    match template_frame (fr e) with
    | None => (with_dead d, None)
    | Some t => match tline t with None => (d, None) | Some _ => (suspended true d, Some (InTemplate t)) end
    end
  else if stop then
    match ev e, stack e with
    | ELine, _ => (suspended false d, Some (InCode (fr e)))
    | EReturn, b :: _ => (suspended false d, Some (InCode b))
    | _, _ => (d, None)
    end
  else (d, None).
Definition trace {V} (P : setup V) (e : event V) (d : dbg) : dbg * option (place V) :=
  if dead d || left_out P e d then (d, None)
  else
    let d1 := leaving e d in
    if skipped P e d then (d1, None)
    else if is_line (ev e) && atbreak e then (suspended false d1, Some (InCode (fr e)))
    else
      let go_on := finish P e (steps P e (step d) (at_frame d) d1) in
      match (if has_line_breaks P then get_breakpoint P e else NoBreak) with
      | Fails => (with_dead d1, None)
      | Break holds t => if holds (tlocals t) then (suspended true d1, Some (InTemplate t)) else go_on
      | NoBreak => go_on
      end.
(** The events up to the next stop: the state, the place, the event it happened at and the events still to come *)
Fixpoint run {V} (P : setup V) (evs : list (event V)) (d : dbg) : dbg * option (place V * event V * list (event V)) :=
  match evs with
  | [] => (d, None)
  | e :: r => match trace P e d with
              | (d, Some p) => (d, Some (p, e, r))
              | (d, None) => run P r d
              end
  end.

(** * The commands of a stopped thread *)
(** The frame at which step return stops, pydevd.py L2309-2332, from the frame shown and its callers; with filters the callers which
    are filtered out are left as well. *)
Fixpoint return_frame {V} (P : setup V) (shown : stop_frame) (callers : list (frame V)) : option stop_frame :=
  match callers with
  | [] => None
  | b :: r => if filters P && apply_files_filter P b then return_frame P (Real (fid b)) r else Some shown
  end.
(** _do_wait_suspend, pydevd.py L2259-2332: [p] is the place shown, [e] the event at which the thread stopped *)
Definition shown_frame {V} (p : place V) (e : event V) : stop_frame * list (frame V) :=
  match p with
  | InTemplate _ => (Template, fr e :: stack e)
  | InCode f => (Real (fid f), if is_return (ev e) then tl (stack e) else stack e)
  end.
Definition resume {V} (P : setup V) (c : cmd) (p : place V) (e : event V) (d : dbg) : dbg :=
  let '(s, callers) := shown_frame p e in
  match c with
  | Run => with_step Run NoFrame d
  | Into => with_step Into NoFrame d
  | Over => with_step Over s d
  | Return => match return_frame P s callers with Some s => with_step Return s d | None => with_step Run NoFrame d end
  end.
(** A session: what is shown at each stop, with the commands given at the stops *)
Fixpoint session {V} (P : setup V) (cs : list cmd) (evs : list (event V)) (d : dbg) : list (place V) :=
  match run P evs d with
  | (_, None) => []
  | (d, Some (p, e, r)) => p :: match cs with [] => [] | c :: cs => session P cs r (resume P c p e d) end
  end.
Definition fresh : dbg := Dbg false Run NoFrame false false.
