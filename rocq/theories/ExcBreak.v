(** Model of exception breakpoints (properties C08, C39, C40).
    Sources: /repo/_pydevd_bundle/pydevd_breakpoints.py L7-43, L108-171; /repo/pydevd.py L1870-1914,
    L1428-1444; /repo/_pydevd_bundle/pydevd_api.py L830-910;
    /repo/_pydevd_bundle/pydevd_process_net_command_json.py L896-999;
    /repo/_pydevd_bundle/pydevd_frame.py L1064-1182. *)
From Coq Require Import List NArith ZArith Bool String.
From Verif Require Import Base Dict.
Import ListNotations.

(** Exception classes are numbers.  [sub]: issubclass; [qname c]: c.__module__ + "." + c.__name__;
    [resolve]: get_exception_class (pydevd_breakpoints.py L176-180), which evaluates or imports the name:
    a class, None (the name evaluates to None), ImportError, or another exception (an attribute missing in an
    existing module).  Names that evaluate to something else than a class are not modelled. *)
Inductive resolved := RClass (c : nat) | RNone | RImportError | RRaises.

Record world := World {
  sub : nat -> nat -> bool;
  qname : nat -> str;
  resolve : str -> resolved
}.

(** ExceptionBreakpoint, L7-35.  [e_info] stands for condition and expression. *)
Record exb := Exb {
  e_key : str;                 (* qname, as given by the client *)
  e_type : option nat;
  e_info : Z;
  e_unhandled : bool;
  e_handled : bool;
  e_user : bool;
  e_first_only : bool;
  e_ignore_libs : bool
}.

Notation table := (list (str * exb)).
Record tables := Tables { uncaught : table; caught : table; user_uncaught : table }.
Definition no_tables : tables := Tables [] [] [].

Inductive added := Added | NotImported | Raised.

(** PyDB.add_break_on_exception, pydevd.py L1870-1914; [b] carries the requested values, its type is set
    here. *)
Definition add_exception (w : world) (b : exb) (t : tables) : tables * added :=
  let put eb :=
    (Tables (if e_unhandled eb then set str_eqb (e_key eb) eb (uncaught t) else uncaught t)
            (if e_handled eb then set str_eqb (e_key eb) eb (caught t) else caught t)
            (if e_user eb then set str_eqb (e_key eb) eb (user_uncaught t) else user_uncaught t), Added) in
  match resolve w (e_key b) with
  | RClass c => put (Exb (e_key b) (Some c) (e_info b) (e_unhandled b) (e_handled b) (e_user b) (e_first_only b) (e_ignore_libs b))
  | RNone => put (Exb (e_key b) None (e_info b) (e_unhandled b) (e_handled b) (e_user b) (e_first_only b) (e_ignore_libs b))
  | RImportError => (t, NotImported)
  | RRaises => (t, Raised)
  end.

(** remove_python_exception_breakpoint, pydevd_api.py L868-883 *)
Definition remove_exception (k : str) (t : tables) : tables :=
  Tables (del str_eqb k (uncaught t)) (del str_eqb k (caught t)) (del str_eqb k (user_uncaught t)).

(** get_exception_breakpoint, pydevd_breakpoints.py L108-124 (the class is not None) *)
Definition pick (w : world) (e : nat) (exc : option exb) (b : exb) : option exb :=
  match e_type b with
  | None => exc
  | Some t =>
      if sub w e t then
        match exc with
        | None => Some b
        | Some x => match e_type x with
                    | Some tx => if sub w t tx then Some b else exc
                    | None => exc          (* unreachable: only breakpoints with a type are kept *)
                    end
        end
      else exc
  end.

Definition get_exception_breakpoint (w : world) (e : nat) (t : table) : option exb :=
  match get str_eqb (qname w e) t with
  | Some b => Some b
  | None => fold_left (pick w e) (values t) None
  end.

(** ** setExceptionBreakpoints, pydevd_process_net_command_json.py L896-999 *)
Inductive break_mode := Never | Always | Unhandled | UserUnhandled.
Record exc_option := Opt { o_path : list (list str); o_mode : break_mode }.

Definition python_exceptions : str := lit "Python Exceptions".
Definition base_exception : str := lit "BaseException".

Definition str_mem (s : str) (l : list str) : bool := existsb (str_eqb s) l.

(** L918-951: the names of one option *)
Definition option_names (o : exc_option) : list str :=
  match o_path o with
  | [] => []
  | [p] => if str_mem python_exceptions p then [base_exception] else []
  | p :: rest => if str_mem python_exceptions p then List.concat rest else []
  end.

Definition is_mode (m m' : break_mode) : bool :=
  match m, m' with
  | Never, Never | Always, Always | Unhandled, Unhandled | UserUnhandled, UserUnhandled => true
  | _, _ => false
  end.

Definition dap_exb (ignore_libs handled unhandled user : bool) (name : str) : exb :=
  Exb name None 0 unhandled handled user false ignore_libs.

(** Adds the names in order; an exception other than ImportError ends the request ([false]). *)
Fixpoint add_names (w : world) (mk : str -> exb) (names : list str) (t : tables) : tables * bool :=
  match names with
  | [] => (t, true)
  | n :: r => match add_exception w (mk n) t with
              | (t', Raised) => (t', false)
              | (t', _) => add_names w mk r t'
              end
  end.

Fixpoint add_options (w : world) (ignore_libs : bool) (os : list exc_option) (t : tables) : tables * bool :=
  match os with
  | [] => (t, true)
  | o :: r =>
      let m := o_mode o in
      match add_names w (dap_exb ignore_libs (is_mode m Always) (is_mode m Unhandled) (is_mode m UserUnhandled)) (option_names o) t with
      | (t', true) => add_options w ignore_libs r t'
      | (t', false) => (t', false)
      end
  end.

(** The whole request on the Python tables (template plugins are not modelled); [false]: the handler raised.
    remove_all_exception_breakpoints comes first (L904). *)
Definition set_exception_breakpoints (w : world) (ignore_libs : bool) (filters : list str) (os : list exc_option) : tables * bool :=
  match os with
  | _ :: _ => add_options w ignore_libs os no_tables
  | [] =>
      let raised := str_mem (lit "raised") filters in
      let unc := str_mem (lit "uncaught") filters in
      let usr := str_mem (lit "userUnhandled") filters in
      if raised || unc || usr
      then add_names w (dap_exb ignore_libs raised unc usr) [base_exception] no_tables
      else (no_tables, true)
  end.

(** ** Requests of both protocols *)
Inductive eop :=
| EAdd (b : exb)
| ERemove (k : str)
| ERemoveAll
| EDap (ignore_libs : bool) (filters : list str) (os : list exc_option).

Definition estep (w : world) (t : tables) (o : eop) : tables :=
  match o with
  | EAdd b => fst (add_exception w b t)
  | ERemove k => remove_exception k t
  | ERemoveAll => no_tables
  | EDap l f os => fst (set_exception_breakpoints w l f os)
  end.

Definition erun (w : world) (h : list eop) : tables := fold_left (estep w) h no_tables.

(** ** Deciding to stop when an exception is raised or propagates through a frame *)

(** What should_stop_on_exception looks at, pydevd_frame.py L1064-1182. *)
Record event := Ev {
  v_class : nat;
  v_suspended : bool;          (* info.pydev_state == STATE_SUSPEND *)
  v_trace : option nat;        (* None: no traceback; Some n: n frames between this one and the raise *)
  v_plugin : bool;             (* a template plugin stops here *)
  v_ignored_exit : bool;       (* exception == SystemExit and py_db.ignore_system_exit_code(value) *)
  v_ignored_trace : bool;      (* ignore_exception_trace(trace) *)
  v_in_scope : bool;           (* in_project_scope(trace.tb_frame) *)
  v_excluded : bool;           (* _exclude_by_filter(trace.tb_frame, ...) *)
  v_user_boundary : bool;      (* this frame is user code and its caller is not (or there is none), L1128 *)
  v_condition : exb -> bool    (* what the breakpoint's condition evaluates to; true if it has none *)
}.

(** Configuration: exclude filters enabled, skip_on_exceptions_thrown_in_same_context, and the classes
    GeneratorExit, StopIteration, StopAsyncIteration. *)
Record config := Config { filters_enabled : bool; skip_same_context : bool; control_flow : list nat }.

(** exclude_exception_by_filter, pydevd.py L1428-1444 (the trace is not None) *)
Definition excluded (c : config) (v : event) (b : exb) : bool :=
  if negb (e_ignore_libs b) && negb (filters_enabled c) then false
  else (e_ignore_libs b && negb (v_in_scope v)) || (filters_enabled c && v_excluded v).

(** One turn of the loop of L1112-1172: stop?, and is this frame recorded as the user-uncaught one? *)
Definition check_one (c : config) (v : event) (n : nat) (b : exb) (is_user : bool) : bool * bool :=
  let was_just_raised := Nat.eqb n 0 in
  if excluded c v b then (false, false)
  else if negb (v_condition v b) then (false, false)
  else if is_user then (false, v_user_boundary v)
  else if e_first_only b && skip_same_context c && negb was_just_raised && negb (Nat.eqb n 1) then (false, false)
  else if e_first_only b && negb (skip_same_context c) && negb was_just_raised then (false, false)
  else if was_just_raised && skip_same_context c then (false, false)
  else (true, false).

(** Result: stop, breakpoint responsible, user-uncaught recorded. *)
Definition should_stop_on_exception (w : world) (c : config) (t : tables) (v : event) : bool * option exb * bool :=
  if v_suspended v then (false, None, false)
  else match v_trace v with
  | None => (false, None, false)
  | Some n =>
      if v_plugin v then (true, None, false)
      else if v_ignored_exit v then (false, None, false)
      else if existsb (Nat.eqb (v_class v)) (control_flow c) then (false, None, false)
      else if v_ignored_trace v then (false, None, false)
      else
        let recorded :=
          match get_exception_breakpoint w (v_class v) (user_uncaught t) with
          | Some b => snd (check_one c v n b true)
          | None => false
          end in
        match get_exception_breakpoint w (v_class v) (caught t) with
        | Some b => if fst (check_one c v n b false) then (true, Some b, recorded) else (false, None, recorded)
        | None => (false, None, recorded)
        end
  end.

(** stop_on_unhandled_exception, pydevd_breakpoints.py L127-171: the frame at which the thread stops.
    [tb]: frames of the traceback from outermost to innermost, with in_project_scope and
    _exclude_by_filter of each; [is_kbd]: the class is KeyboardInterrupt. *)
Record tbframe := Tb { f_id : nat; f_in_scope : bool; f_excluded : bool }.

Definition frame_excluded (c : config) (b : exb) (f : tbframe) : bool :=
  if negb (e_ignore_libs b) && negb (filters_enabled c) then false
  else (e_ignore_libs b && negb (f_in_scope f)) || (filters_enabled c && f_excluded f).

Definition stop_on_unhandled (w : world) (c : config) (t : tables) (e : nat) (tb : list tbframe)
           (is_kbd ignored_exit : bool) (condition : exb -> bool) : option tbframe :=
  match get_exception_breakpoint w e (uncaught t) with     (* an empty table gives None too *)
  | None => None
  | Some b =>
      match tb with
      | [] => None
      | _ =>
          if is_kbd then None
          else if ignored_exit then None
          else match fold_left (fun u f => if frame_excluded c b f then u else Some f) tb None with
               | None => None
               | Some f => if condition b then Some f else None
               end
      end
  end.
