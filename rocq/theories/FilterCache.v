(** Model of the cached file filters (property C11).
    Sources: /repo/pydevd.py L1037-1107 (get_file_type), L1171-1189 (on_breakpoints_changed), L1253-1301
    (in_project_scope), L1306-1360 (_clear_caches, clear_dont_trace_start_end_patterns_caches,
    _exclude_by_filter), L1362-1456 (apply_files_filter, exclude_exception_by_filter and the setters);
    /repo/_pydevd_bundle/pydevd_api.py L945-980 (set_dont_trace_start_end_patterns). *)
From Coq Require Import List NArith ZArith Bool String.
From Verif Require Import Base Dict Glob Roots.
Import ListNotations.

Inductive ftype := Pydev | Lib | Regular.      (* PYDEV_FILE, LIB_FILE, None *)

(** What does not change during a session: absolute_path, _absolute_normalized_path and its separator, the
    platform, and _internal_get_file_type. *)
Record env := Env {
  e_abs : str -> str;
  e_absn : str -> str;
  e_sl : N;
  e_plat : plat;
  e_base : str -> ftype
}.

(** A frame: co_filename, co_name, co_firstlineno, the equality class of its code object, __name__ of its
    globals; [fr_top]: no frame below is outside the debugger and runpy (only used for "<string>", L1072-1099;
    the walk over the back frames is simplified to this input). *)
Record frame := Frame {
  fr_file : str; fr_name : str; fr_first : Z; fr_code : N; fr_module : str; fr_top : bool
}.

(** Settings. [g_needs]: the template plugins have breakpoints and can_skip is false for this frame (L1382-1389);
    it is taken to depend on the first line, the file and the code only. *)
Record cfg := Cfg {
  g_proj : list str;              (* as stored by _fix_roots *)
  g_libs : list str;
  g_rules : list rule;
  g_uselib : bool;
  g_mapped : str -> bool;         (* source_mapping.has_mapping_entry *)
  g_dont : list str * list str;   (* start and end patterns; both empty when never set *)
  g_needs : Z * str * N -> bool
}.

Definition key1 := (Z * str * N)%type.
Definition key2 := (str * str * Z)%type.
Definition key3 := (Z * str * bool * N)%type.
Definition key1_eqb (a b : key1) : bool :=
  let '(x, y, z) := a in let '(x', y', z') := b in (Z.eqb x x' && str_eqb y y') && N.eqb z z'.
Definition key2_eqb (a b : key2) : bool :=
  let '(x, y, z) := a in let '(x', y', z') := b in (str_eqb x x' && str_eqb y y') && Z.eqb z z'.
Definition key3_eqb (a b : key3) : bool :=
  let '(x, y, w, z) := a in let '(x', y', w', z') := b in ((Z.eqb x x' && str_eqb y y') && Bool.eqb w w') && N.eqb z z'.

Record state := State {
  s_cfg : cfg;
  s_ft : list (key1 * ftype);          (* _CACHE_FILE_TYPE *)
  s_sc : list (key1 * bool);           (* _in_project_scope_cache *)
  s_ex : list (key2 * option bool);    (* _exclude_by_filter_cache *)
  s_ap : list (key3 * bool);           (* _apply_filter_cache *)
  s_exen : bool;                       (* _exclude_filters_enabled *)
  s_liben : bool;                      (* _is_libraries_filter_enabled *)
  s_dontset : bool                     (* dont_trace_external_files is the custom function *)
}.

Definition k1 (E : env) (f : frame) : key1 := (fr_first f, e_abs E (fr_file f), fr_code f).
Definition string_file : str := lit "<string>".

(** custom_dont_trace_external_files, pydevd_api.py L970-972 *)
Definition dont_trace (E : env) (c : cfg) (abs : str) : bool :=
  let n := nc (e_plat E) abs in
  existsb (fun p => starts_with p n) (fst (g_dont c)) || existsb (fun p => ends_with p n) (snd (g_dont c)).

(** get_file_type without the cache *)
Definition file_type_uncached (E : env) (c : cfg) (f : frame) : ftype :=
  let a := e_abs E (fr_file f) in
  if str_eqb a string_file then (if fr_top f then Regular else Lib)
  else match e_base E a with
       | Regular => if dont_trace E c a then Pydev else Regular
       | t => t
       end.

Definition with_ft s m := State (s_cfg s) m (s_sc s) (s_ex s) (s_ap s) (s_exen s) (s_liben s) (s_dontset s).
Definition with_sc s m := State (s_cfg s) (s_ft s) m (s_ex s) (s_ap s) (s_exen s) (s_liben s) (s_dontset s).
Definition with_ex s m := State (s_cfg s) (s_ft s) (s_sc s) m (s_ap s) (s_exen s) (s_liben s) (s_dontset s).
Definition with_ap s m := State (s_cfg s) (s_ft s) (s_sc s) (s_ex s) m (s_exen s) (s_liben s) (s_dontset s).
Definition with_cfg s c := State c (s_ft s) (s_sc s) (s_ex s) (s_ap s) (s_exen s) (s_liben s) (s_dontset s).

Definition get_file_type (E : env) (s : state) (f : frame) : state * ftype :=
  match get key1_eqb (k1 E f) (s_ft s) with
  | Some t => (s, t)
  | None => let t := file_type_uncached E (s_cfg s) f in (with_ft s (set key1_eqb (k1 E f) t (s_ft s)), t)
  end.

Definition is_pydev (t : ftype) : bool := match t with Pydev => true | _ => false end.
Definition is_lib (t : ftype) : bool := match t with Lib => true | _ => false end.

(** in_project_scope(frame), L1253-1301 *)
Definition in_project_scope (E : env) (s : state) (f : frame) : state * bool :=
  match get key1_eqb (k1 E f) (s_sc s) with
  | Some b => (s, b)
  | None =>
      let '(s, t) := get_file_type E s f in
      let a := e_abs E (fr_file f) in
      let b := if is_pydev t then false
               else if str_eqb a string_file then negb (is_lib t)
               else if g_mapped (s_cfg s) a then true
               else in_project_roots (e_absn E) (e_sl E) (g_proj (s_cfg s)) (g_libs (s_cfg s)) a in
      (with_sc s (set key1_eqb (k1 E f) b (s_sc s)), b)
  end.

(** require_module, pydevd_filtering.py L330-339 *)
Definition require_module (rules : list rule) : bool := existsb (fun r => negb (r_is_path r)) rules.

(** _exclude_by_filter, L1334-1356 *)
Definition exclude_by_filter_cached (E : env) (s : state) (f : frame) (absolute : str) : state * option bool :=
  let k := (absolute, fr_name f, fr_first f) in
  match get key2_eqb k (s_ex s) with
  | Some r => (s, r)
  | None =>
      let '(s, t) := get_file_type E s f in
      let r := if is_pydev t then Some true
               else exclude_by_filter (e_plat E) (g_rules (s_cfg s)) absolute
                      (if require_module (g_rules (s_cfg s)) then fr_module f else []) in
      (with_ex s (set key2_eqb k r (s_ex s)), r)
  end.

(** apply_files_filter, L1362-1426: the result of the computation on a cache miss, ... *)
Definition apply_compute (E : env) (s : state) (f : frame) (original : str) (force : bool) : state * bool :=
  if g_needs (s_cfg s) (fr_first f, original, fr_code f) then (s, false)
  else
    let '(s, r) := if s_exen s then exclude_by_filter_cached E s f (e_abs E original) else (s, None) in
    match r with
    | Some e => (s, e)
    | None =>
        if s_liben s || force then
          let '(s, inp) := in_project_scope E s f in (s, negb inp)
        else (s, false)
    end.

(** ... the store, ... *)
Definition apply_store (s : state) (k : key3) (b : bool) : state := with_ap s (set key3_eqb k b (s_ap s)).

(** ... and the whole function. *)
Definition apply_files_filter (E : env) (s : state) (f : frame) (original : str) (force : bool) : state * bool :=
  let k := (fr_first f, original, force, fr_code f) in
  match get key3_eqb k (s_ap s) with
  | Some b => (s, b)
  | None => let '(s, b) := apply_compute E s f original force in (apply_store s k b, b)
  end.

(** exclude_exception_by_filter, L1428-1445; [ignore_libraries] of the exception breakpoint, the frame of the
    traceback if there is one. *)
Definition exclude_exception_by_filter (E : env) (s : state) (ignore_libraries : bool) (trace : option frame) : state * bool :=
  if negb ignore_libraries && negb (s_exen s) then (s, false)
  else match trace with
       | None => (s, true)
       | Some f =>
           let '(s, out) := if ignore_libraries then let '(s, b) := in_project_scope E s f in (s, negb b) else (s, false) in
           if out then (s, true)
           else if s_exen s then
                  let '(s, r) := exclude_by_filter_cached E s f (e_abs E (fr_file f)) in
                  (s, match r with Some true => true | _ => false end)
                else (s, false)
       end.

(** _clear_caches, L1306-1324, for the filters *)
Definition clear_caches (s : state) : state :=
  State (s_cfg s) (s_ft s) [] [] [] (match g_rules (s_cfg s) with [] => false | _ => true end) (g_uselib (s_cfg s)) (s_dontset s).

Definition strs_eqb (a b : list str) : bool := if list_eq_dec (list_eq_dec N.eq_dec) a b then true else false.

(** set_dont_trace_start_end_patterns *)
Definition set_dont (s : state) (st en : list str) : state :=
  if negb (s_dontset s) && (match st with [] => true | _ => false end) && (match en with [] => true | _ => false end) then s
  else
    let c := s_cfg s in
    let reset := match s_ft s with
                 | [] => false
                 | _ => if s_dontset s then negb (strs_eqb (fst (g_dont c)) st) || negb (strs_eqb (snd (g_dont c)) en) else true
                 end in
    let s := State (Cfg (g_proj c) (g_libs c) (g_rules c) (g_uselib c) (g_mapped c) (st, en) (g_needs c))
                   (s_ft s) (s_sc s) (s_ex s) (s_ap s) (s_exen s) (s_liben s) true in
    if reset then clear_caches (with_ft s []) else s.

(** Requests that change the settings, and questions.  [SetNeeds]: a template breakpoint is added
    (on_breakpoints_changed() or consolidate_breakpoints clear the caches); [DropNeeds]: template breakpoints are
    removed with on_breakpoints_changed(removed=True) only (remove_all_breakpoints, pydevd_api.py L647-691, and
    the removal of template exception breakpoints, L888-910), which clears nothing.  The debugger is running. *)
Inductive op :=
| SetRoots (roots : list str)
| SetRules (rules : list rule)
| SetUseLib (b : bool)
| SetMapped (m : str -> bool)
| SetDont (st en : list str)
| SetNeeds (n : Z * str * N -> bool)
| DropNeeds (n : Z * str * N -> bool)
| Apply (f : frame) (original : str) (force : bool)
| Scope (f : frame)
| Exc (ignore_libraries : bool) (trace : option frame).

Definition step (E : env) (s : state) (o : op) : state * option bool :=
  let c := s_cfg s in
  match o with
  | SetRoots l => (clear_caches (with_cfg s (Cfg (fix_roots (e_absn E) (e_sl E) l) (g_libs c) (g_rules c) (g_uselib c) (g_mapped c) (g_dont c) (g_needs c))), None)
  | SetRules l => (clear_caches (with_cfg s (Cfg (g_proj c) (g_libs c) l (g_uselib c) (g_mapped c) (g_dont c) (g_needs c))), None)
  | SetUseLib b => (clear_caches (with_cfg s (Cfg (g_proj c) (g_libs c) (g_rules c) b (g_mapped c) (g_dont c) (g_needs c))), None)
  | SetMapped m => (clear_caches (with_cfg s (Cfg (g_proj c) (g_libs c) (g_rules c) (g_uselib c) m (g_dont c) (g_needs c))), None)
  | SetDont st en => (set_dont s st en, None)
  | SetNeeds n => (clear_caches (with_cfg s (Cfg (g_proj c) (g_libs c) (g_rules c) (g_uselib c) (g_mapped c) (g_dont c) n)), None)
  | DropNeeds n => (with_cfg s (Cfg (g_proj c) (g_libs c) (g_rules c) (g_uselib c) (g_mapped c) (g_dont c) (fun k => g_needs c k && n k)), None)
  | Apply f o force => let '(s, b) := apply_files_filter E s f o force in (s, Some b)
  | Scope f => let '(s, b) := in_project_scope E s f in (s, Some b)
  | Exc i t => let '(s, b) := exclude_exception_by_filter E s i t in (s, Some b)
  end.

Definition run (E : env) (s : state) (ops : list op) : state := fold_left (fun s o => fst (step E s o)) ops s.

(** PyDB.__init__, L767-769 and the initial value of the flags *)
Definition init (proj libs : list str) (rules : list rule) (uselib : bool) : state :=
  State (Cfg proj libs rules uselib (fun _ => false) ([], []) (fun _ => false)) [] [] [] []
        (match rules with [] => false | _ => true end) uselib false.
