(** Model of the settings of a launch or attach request (property C60).
    Sources: /repo/_pydevd_bundle/pydevd_json_debug_options.py; /repo/_pydevd_bundle/pydevd_process_net_command_json.py:
    _resolve_remote_root, _set_debug_options, _handle_launch_or_attach_request, on_disconnect_request;
    /repo/_pydevd_bundle/pydevd_api.py: the set_ functions called there; /repo/pydevd_file_utils.py: set_ide_os.
    Not modelled here: the directories watched for changed files (C52), what the rules become (C41) and the translation of
    paths (C22). *)
From Coq Require Import String.
From Coq Require Import List NArith ZArith Bool.
From Verif Require Import Base Dict Glob GlobSpec.
Import ListNotations.
Open Scope list_scope.

(** Values of a request; numbers are whole numbers. *)
Inductive json := JNull | JBool (b : bool) | JInt (z : Z) | JStr (s : str) | JList (l : list json) | JObj (d : list (str * json)).
Definition jobject := list (str * json).
Definition truthy (j : json) : bool :=
  match j with
  | JNull => false | JBool b => b | JInt z => negb (Z.eqb z 0) | JStr s => negb (str_eqb s [])
  | JList l => match l with [] => false | _ => true end | JObj d => match d with [] => false | _ => true end
  end.
(** What the surroundings give: os.getcwd(), os.path.sep, str.upper, urllib.parse.unquote, str() of a value which is not a
    text, and the filters made of the rules. *)
Record world (F : Type) := World {
  cwd : str; path_sep : str; upper : str -> str; unquote : str -> str; text_of : json -> str; convert_rules : json -> list F }.
Arguments cwd {F}. Arguments path_sep {F}. Arguments upper {F}. Arguments unquote {F}. Arguments text_of {F}. Arguments convert_rules {F}.

(** * pydevd_json_debug_options.py *)
(** DebugOptions, L5-29 *)
Record opts := Opts {
  just_my_code : bool; redirect_output : bool; show_return_value : bool; break_exit_zero : bool; django : bool; flask : bool;
  stop_on_entry : bool; max_frames : Z; gui_loop : str; client_os : option str }.
Definition default_opts : opts := Opts true false false false false false false 0 (lit "matplotlib") None.

(** bool_parser, L109-110 *)
Definition bool_parser (j : json) : bool :=
  match j with
  | JStr s => str_eqb s (lit "True") || str_eqb s (lit "true") || str_eqb s (lit "1")
  | JBool b => b
  | JInt z => Z.eqb z 1
  | _ => false
  end.
(** int_parser, L102-106; a text is read within ASCII *)
Definition int_parser (j : json) : Z :=
  match j with
  | JInt z => z
  | JBool b => if b then 1%Z else 0%Z
  | JStr s => match py_int s with Some z => z | None => 0%Z end
  | _ => 0%Z
  end.

(** DEBUG_OPTIONS_PARSER, L117-130: the value of a key, None for a key which is not there *)
Inductive oval := OBool (b : bool) | OText (s : str).
Definition bool_keys : list str :=
  [lit "WAIT_ON_ABNORMAL_EXIT"; lit "WAIT_ON_NORMAL_EXIT"; lit "BREAK_SYSTEMEXIT_ZERO"; lit "REDIRECT_OUTPUT"; lit "DJANGO_DEBUG";
   lit "FLASK_DEBUG"; lit "FIX_FILE_PATH_CASE"; lit "DEBUG_STDLIB"; lit "STOP_ON_ENTRY"; lit "SHOW_RETURN_VALUE"; lit "MULTIPROCESS"].
Definition parse_value (unq : str -> str) (key value : str) : option oval :=
  if existsb (str_eqb key) bool_keys then Some (OBool (bool_parser (JStr value)))
  else if str_eqb key (lit "CLIENT_OS_TYPE") then Some (OText (unq value))
  else None.
(** DEBUG_OPTIONS_BY_FLAG, L132-147 *)
Definition by_flag : list (str * str) :=
  [(lit "RedirectOutput", lit "REDIRECT_OUTPUT=True"); (lit "WaitOnNormalExit", lit "WAIT_ON_NORMAL_EXIT=True");
   (lit "WaitOnAbnormalExit", lit "WAIT_ON_ABNORMAL_EXIT=True"); (lit "BreakOnSystemExitZero", lit "BREAK_SYSTEMEXIT_ZERO=True");
   (lit "Django", lit "DJANGO_DEBUG=True"); (lit "Flask", lit "FLASK_DEBUG=True"); (lit "Jinja", lit "FLASK_DEBUG=True");
   (lit "FixFilePathCase", lit "FIX_FILE_PATH_CASE=True"); (lit "DebugStdLib", lit "DEBUG_STDLIB=True");
   (lit "WindowsClient", lit "CLIENT_OS_TYPE=WINDOWS"); (lit "UnixClient", lit "CLIENT_OS_TYPE=UNIX");
   (lit "StopOnEntry", lit "STOP_ON_ENTRY=True"); (lit "ShowReturnValue", lit "SHOW_RETURN_VALUE=True");
   (lit "Multiprocess", lit "MULTIPROCESS=True")].
(** Iterating over the value of debugOptions (its texts; other hashable values are no key of the table); None: TypeError *)
Fixpoint flag_texts (l : list json) : option (list str) :=
  match l with
  | [] => Some []
  | JList _ :: _ | JObj _ :: _ => None
  | JStr s :: r => match flag_texts r with Some t => Some (s :: t) | None => None end
  | _ :: r => flag_texts r
  end.
Definition iterate_flags (flags : json) : option (list str) :=
  if truthy flags then
    match flags with
    | JList l => flag_texts l
    | JObj d => Some (keys d)
    | JStr s => Some (map (fun c => [c]) s)
    | _ => None
    end
  else Some [].
(** _build_debug_options, L150-152 *)
Definition known_flag (flag : str) : list str := match get str_eqb flag by_flag with Some t => [t] | None => [] end.
Definition build_debug_options (flags : list str) : str := join 59 (flat_map known_flag flags).
(** _parse_debug_options, L155-171 *)
Definition parse_step (unq : str -> str) (o : list (str * oval)) (opt : str) : list (str * oval) :=
  match split_on 61 opt with
  | [key; value] => match parse_value unq key value with Some v => set str_eqb key v o | None => o end
  | _ => o
  end.
Definition parse_debug_options (unq : str -> str) (s : str) : list (str * oval) :=
  match s with [] => [] | _ => fold_left (parse_step unq) (split_on 59 s) [] end.
(** _extract_debug_options, L174-200; None: an exception, for options which is no text or flags which are no list *)
Definition extract_debug_options (unq : str -> str) (options flags : json) : option (list (str * oval)) :=
  if truthy options then match options with JStr s => Some (parse_debug_options unq s) | _ => None end
  else match iterate_flags flags with Some l => Some (parse_debug_options unq (build_debug_options l)) | None => None end.

(** update_fom_debug_options, L37-62.  A text can only be the value of CLIENT_OS_TYPE. *)
Definition truth (v : oval) : bool := match v with OBool b => b | OText s => negb (str_eqb s []) end.
Definition given_bool (d : list (str * oval)) (k : str) (old : bool) : bool :=
  match get str_eqb k d with Some v => truth v | None => old end.
Definition update_from_debug_options (d : list (str * oval)) (o : opts) : opts :=
  Opts (match get str_eqb (lit "DEBUG_STDLIB") d with Some v => negb (truth v) | None => just_my_code o end)
       (given_bool d (lit "REDIRECT_OUTPUT") (redirect_output o))
       (given_bool d (lit "SHOW_RETURN_VALUE") (show_return_value o))
       (given_bool d (lit "BREAK_SYSTEMEXIT_ZERO") (break_exit_zero o))
       (given_bool d (lit "DJANGO_DEBUG") (django o))
       (given_bool d (lit "FLASK_DEBUG") (flask o))
       (given_bool d (lit "STOP_ON_ENTRY") (stop_on_entry o))
       (max_frames o) (gui_loop o)
       (match get str_eqb (lit "CLIENT_OS_TYPE") d with Some (OText s) => Some s | _ => client_os o end).

(** update_from_args, L64-99 *)
Definition arg_bool (args : jobject) (k : str) (old : bool) : bool :=
  match get str_eqb k args with Some j => bool_parser j | None => old end.
Definition to_text {F} (W : world F) (j : json) : str := match j with JStr s => s | _ => text_of W j end.
Definition update_from_args {F} (W : world F) (args : jobject) (o : opts) : opts :=
  Opts (match get str_eqb (lit "justMyCode") args with
        | Some j => bool_parser j
        | None => match get str_eqb (lit "debugStdLib") args with Some j => negb (bool_parser j) | None => just_my_code o end
        end)
       (arg_bool args (lit "redirectOutput") (redirect_output o))
       (arg_bool args (lit "showReturnValue") (show_return_value o))
       (arg_bool args (lit "breakOnSystemExitZero") (break_exit_zero o))
       (arg_bool args (lit "django") (django o))
       (arg_bool args (lit "jinja") (arg_bool args (lit "flask") (flask o)))
       (arg_bool args (lit "stopOnEntry") (stop_on_entry o))
       (int_parser (match get str_eqb (lit "maxExceptionStackFrames") args with Some j => j | None => JInt 0 end))
       (match get str_eqb (lit "guiEventLoop") args with Some j => to_text W j | None => gui_loop o end)
       (match get str_eqb (lit "clientOS") args with Some j => Some (upper W (to_text W j)) | None => client_os o end).

(** * pydevd_process_net_command_json.py *)
(** VariablePresentation, pydevd_api.py L100-107 *)
Record presentation := Presentation { p_special : str; p_function : str; p_class : str; p_protected : str }.
Definition default_presentation : presentation := Presentation (lit "group") (lit "group") (lit "group") (lit "inline").
(** The settings of the debugger which _set_debug_options changes.  The exit codes: None is Python's None. *)
Record settings (F : Type) := Settings {
  stepping_all : json; single : json; kill_children : json; keyboard_interrupt : bool; shown : presentation; filters : list F;
  library_filter : bool; ide_windows : bool; mappings : list (str * str); symlinks : json; redirected : bool; output_shown : json;
  return_values : bool; forget_returned : bool; ignored_codes : list (option Z); entry_stop : bool; event_loop : str }.
Arguments Settings {F}. Arguments stepping_all {F}. Arguments single {F}. Arguments kill_children {F}. Arguments keyboard_interrupt {F}.
Arguments shown {F}. Arguments filters {F}. Arguments library_filter {F}. Arguments ide_windows {F}. Arguments mappings {F}.
Arguments symlinks {F}. Arguments redirected {F}. Arguments output_shown {F}. Arguments return_values {F}. Arguments forget_returned {F}.
Arguments ignored_codes {F}. Arguments entry_stop {F}. Arguments event_loop {F}.
Definition state (F : Type) := (opts * settings F)%type.

Definition arg (args : jobject) (k : str) (default : json) : json := match get str_eqb k args with Some j => j | None => default end.

(** get_variable_presentation and its uses, L362-388 *)
Definition valid_presentation (j : json) : option str :=
  match j with
  | JStr s => if str_eqb s (lit "group") || str_eqb s (lit "inline") || str_eqb s (lit "hide") then Some s else None
  | _ => None
  end.
Definition get_presentation (d : jobject) (setting default : str) : str :=
  match valid_presentation (arg d setting (JStr default)) with Some s => s | None => default end.
Definition new_presentation (d : jobject) : presentation :=
  let default := get_presentation d (lit "all") (lit "group") in
  Presentation (get_presentation d (lit "special") default) (get_presentation d (lit "function") default)
               (get_presentation d (lit "class") default) (get_presentation d (lit "protected") default).

(** _resolve_remote_root, L340-345 *)
Definition resolve_remote_root {F} (W : world F) (local remote : str) : str :=
  if str_eqb remote (lit ".") then
    cwd W ++ (if ends_with (lit "\") local || ends_with (lit "/") local then path_sep W else [])
  else remote.
(** The loop over pathMappings, L410-416; None: an exception, for entries which are not objects or roots which are not texts
    (for roots the code may only fail later, in setup_client_server_paths). *)
Definition one_mapping {F} (W : world F) (j : json) : option (list (str * str)) :=
  match j with
  | JObj d =>
      match arg d (lit "localRoot") (JStr []), arg d (lit "remoteRoot") (JStr []) with
      | JStr l, JStr r =>
          let r := resolve_remote_root W l r in
          Some (if negb (str_eqb l []) && negb (str_eqb r []) then [(l, r)] else [])
      | _, _ => None
      end
  | _ => None
  end.
Fixpoint all_mappings {F} (W : world F) (l : list json) : option (list (str * str)) :=
  match l with
  | [] => Some []
  | j :: r => match one_mapping W j, all_mappings W r with Some a, Some b => Some (a ++ b) | _, _ => None end
  end.
(** Iterating over pathMappings; the empty text and the empty object have no entries. *)
Definition get_mappings {F} (W : world F) (j : json) : option (list (str * str)) :=
  match j with
  | JList l => all_mappings W l
  | JStr [] | JObj [] => Some []
  | _ => None
  end.
(** set_ide_os, pydevd_file_utils.py L369-403: whether the client runs on Windows; None: AssertionError *)
Definition ide_os_of (os : str) : option bool :=
  if str_eqb os (lit "WIN") || str_eqb os (lit "WINDOWS") then Some true
  else if str_eqb os (lit "UNIX") then Some false else None.

(** _set_debug_options, L347-499, in three parts, each up to where it may raise; false: it raised *)
Definition part1 {F} (W : world F) (args : jobject) (s : settings F) : settings F :=
  Settings (arg args (lit "steppingResumesAllThreads") (JBool true))
    (match arg args (lit "stopAllThreadsOnSuspend") JNull with JNull => single s | j => j end)
    (arg args (lit "terminateChildProcesses") (JBool true))
    (match arg args (lit "onTerminate") (JStr (lit "kill")) with JStr t => str_eqb t (lit "KeyboardInterrupt") | _ => false end)
    (match arg args (lit "variablePresentation") JNull with JObj d => new_presentation d | _ => shown s end)
    (match arg args (lit "rules") JNull with JNull => [] | j => convert_rules W j end)
    (library_filter s) (ide_windows s) (mappings s) (symlinks s) (redirected s) (output_shown s) (return_values s) (forget_returned s)
    (ignored_codes s) (entry_stop s) (event_loop s).
(** L398-408: the client OS is only set when it is not empty *)
Definition with_filter {F} (b : bool) (s : settings F) : settings F :=
  Settings (stepping_all s) (single s) (kill_children s) (keyboard_interrupt s) (shown s) (filters s) b (ide_windows s) (mappings s)
    (symlinks s) (redirected s) (output_shown s) (return_values s) (forget_returned s) (ignored_codes s) (entry_stop s) (event_loop s).
Definition with_os {F} (b : bool) (s : settings F) : settings F :=
  Settings (stepping_all s) (single s) (kill_children s) (keyboard_interrupt s) (shown s) (filters s) (library_filter s) b (mappings s)
    (symlinks s) (redirected s) (output_shown s) (return_values s) (forget_returned s) (ignored_codes s) (entry_stop s) (event_loop s).
Definition set_client_os {F} (o : opts) (s : settings F) : settings F * bool :=
  match client_os o with
  | Some ((_ :: _) as os) => match ide_os_of os with Some b => (with_os b s, true) | None => (s, false) end
  | _ => (s, true)
  end.
(** L418-499 after the mappings; set_show_return_values is pydevd_api.py L163-171, stop_on_entry L981-992 *)
Definition part3 {F} (launch : bool) (args : jobject) (o : opts) (pm : list (str * str)) (s : settings F) : settings F :=
  Settings (stepping_all s) (single s) (kill_children s) (keyboard_interrupt s) (shown s) (filters s) (library_filter s) (ide_windows s)
    (match pm with [] => mappings s | _ => pm end)
    (match arg args (lit "resolveSymlinks") JNull with JNull => symlinks s | j => j end)
    (redirect_output o)
    (if redirect_output o then JBool true else arg args (lit "isOutputRedirected") JNull)
    (show_return_value o)
    (forget_returned s || (negb (show_return_value o) && return_values s))
    (if break_exit_zero o then ignored_codes s
     else [Some 0%Z; None] ++ (if django o || flask o then [Some 3%Z] else []))
    (entry_stop s || (stop_on_entry o && launch))
    (gui_loop o).
Definition set_debug_options {F} (W : world F) (launch : bool) (args : jobject) (st : state F) : state F * bool :=
  let '(o, s) := st in
  let s := part1 W args s in
  match extract_debug_options (unquote W) (arg args (lit "options") JNull) (arg args (lit "debugOptions") JNull) with
  | None => ((o, s), false)
  | Some d =>
      let o := update_from_args W args (update_from_debug_options d o) in
      let s := with_filter (just_my_code o) s in
      let '(s, ok) := set_client_os o s in
      if ok then
        match get_mappings W (arg args (lit "pathMappings") (JList [])) with
        | None => ((o, s), false)
        | Some pm => ((o, part3 launch args o pm s), true)
        end
      else ((o, s), false)
  end.

(** The requests which change them: launch or attach, L521-530, and disconnect, L727-741, of the same connection.
    With an exception the answer says that the request failed and no initialized event is sent. *)
Inductive request := Attach (launch : bool) (args : jobject) | Disconnect.
Definition with_redirect {F} (b : bool) (s : settings F) : settings F :=
  Settings (stepping_all s) (single s) (kill_children s) (keyboard_interrupt s) (shown s) (filters s) (library_filter s) (ide_windows s) (mappings s)
    (symlinks s) b (output_shown s) (return_values s) (forget_returned s) (ignored_codes s) (entry_stop s) (event_loop s).
Definition handle {F} (W : world F) (st : state F) (r : request) : state F * bool :=
  match r with
  | Attach launch args => set_debug_options W launch args st
  | Disconnect => ((fst st, with_redirect false (snd st)), true)
  end.
Fixpoint handle_all {F} (W : world F) (st : state F) (rs : list request) : state F :=
  match rs with [] => st | r :: rest => handle_all W (fst (handle W st r)) rest end.
(** The type of a breakpoint set in a file which is not a .py file, L808-812; and of the exceptions of templates, L989-992 *)
Inductive template := NoTemplate | Django | Jinja2.
Definition template_of (o : opts) : template := if django o then Django else if flask o then Jinja2 else NoTemplate.
