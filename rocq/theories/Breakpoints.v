(** Model of the line breakpoint store (properties C06, C38).
    Sources: /repo/_pydevd_bundle/pydevd_api.py L416-757 (PyDevdAPI.add_breakpoint,
    reapply_breakpoints, remove_all_breakpoints, remove_breakpoint), /repo/pydevd.py L1862-1868
    (PyDB.consolidate_breakpoints). *)
From Coq Require Import List NArith ZArith Bool.
From Verif Require Import Base Dict.
Import ListNotations.

(** breakpoint_type: 'python-line', or one of the types of the template plugins. *)
Inductive kind := PyLine | Template (k : N).

(** A LineBreakpoint (pydevd_breakpoints.py L46-58): id, line and the rest (condition, function name,
    expression, ...) as one opaque value. *)
Record bp := Bp { bp_id : Z; bp_line : Z; bp_info : N }.

(** api_add_breakpoint_params, L491-502: the request as received. *)
Record params := Params { p_name : str; p_kind : kind; p_id : Z; p_line : Z; p_info : N }.

(** File name functions used by the store; arbitrary functions here.
    norm = pydevd_file_utils.normcase_from_client; server = PyDevdAPI.filename_to_server;
    absolute = absolute_path; canon = canonical_normalized_path; normcase = normcase. *)
Record paths := Paths {
  norm : str -> str;
  server : str -> str;
  absolute : str -> str;
  canon : str -> str;
  normcase : str -> str
}.

Definition key_eqb (a b : str * Z) : bool := str_eqb (fst a) (fst b) && Z.eqb (snd a) (snd b).

Record store := Store {
  received : dict (str * Z) (str * params);   (* api_received_breakpoints *)
  py_ids : dict str (dict Z bp);              (* file_to_id_to_line_breakpoint *)
  tpl_ids : dict str (dict Z bp);             (* file_to_id_to_plugin_breakpoint *)
  py_lines : dict str (dict Z bp);            (* breakpoints *)
  tpl_lines : N -> dict str (dict Z bp);      (* django_breakpoints, jinja2_breakpoints *)
  srcmap : str -> Z -> option (str * Z)       (* source_mapping.map_to_server, None: not mapped *)
}.

Definition init : store := Store [] [] [] [] (fun _ => []) (fun _ _ => None).

(** pydevd.py L1862-1867 *)
Definition consolidate (ids : dict Z bp) : dict Z bp :=
  fold_left (fun d (e : Z * bp) => set Z.eqb (bp_line (snd e)) (snd e) d) ids [].

(** bisect.bisect_left on a sorted list: the number of leading elements smaller than x. *)
Fixpoint bisect_left (l : list Z) (x : Z) : nat :=
  match l with
  | [] => 0
  | y :: r => if Z.ltb y x then S (bisect_left r x) else 0
  end.

(** L527-538: [lines] are the sorted executable lines of the file, None when adjust_line is false or they
    could not be computed. *)
Definition adjust_line (lines : option (list Z)) (line : Z) : Z :=
  match lines with
  | None => line
  | Some ls =>
      if existsb (Z.eqb line) ls then line
      else match bisect_left ls line with
           | O => line
           | S i => nth i ls line
           end
  end.

Inductive outcome := Added (line : Z) | FileNotFound | UnsupportedType.

Definition lt_sign : str := [60%N].  (* "<" *)

Definition upd_tpl (f : N -> dict str (dict Z bp)) (k : N) (v : dict str (dict Z bp)) :=
  fun k' => if N.eqb k' k then v else f k'.

(** L603-608 for one of the two id dictionaries and one line dictionary. *)
Definition put (ids lines : dict str (dict Z bp)) (c : str) (b : bp)
  : dict str (dict Z bp) * dict str (dict Z bp) :=
  let d := match get str_eqb c ids with Some d => d | None => [] end in
  let d' := set Z.eqb (bp_id b) b d in
  (set str_eqb c d' ids, set str_eqb c (consolidate d') lines).

(** PyDevdAPI.add_breakpoint, L416-633.  [valid]: executable lines when adjust_line is requested,
    [found]: answer of pydevd_file_utils.exists, [supported]: the plugin for a template type is
    available.  Simplifications: the filter test (L562-576) only sets an error code and is left out;
    notification of changes (L631) is left out; the template plugins' own validation
    (after_breakpoints_consolidated) is in Template.v. *)
Definition add (P : paths) (s : store) (q : params) (valid : option (list Z)) (found supported : bool)
  : store * outcome :=
  let translated := server P (p_name q) in
  let '(abs, c, line) :=
    match srcmap s translated (p_line q) with
    | Some (f, l) => (f, normcase P f, l)
    | None =>
        let abs := absolute P translated in
        (abs, canon P translated,
         if starts_with lt_sign abs then p_line q else adjust_line valid (p_line q))
    end in
  let received' := set key_eqb (norm P (p_name q), p_id q) (c, q) (received s) in
  let s' := Store received' (py_ids s) (tpl_ids s) (py_lines s) (tpl_lines s) (srcmap s) in
  if negb (starts_with lt_sign abs) && negb found then (s', FileNotFound)
  else
    let b := Bp (p_id q) line (p_info q) in
    match p_kind q with
    | PyLine =>
        let '(ids, lines) := put (py_ids s) (py_lines s) c b in
        (Store received' ids (tpl_ids s) lines (tpl_lines s) (srcmap s), Added line)
    | Template k =>
        if supported then
          let '(ids, lines) := put (tpl_ids s) (tpl_lines s k) c b in
          (Store received' (py_ids s) ids (py_lines s) (upd_tpl (tpl_lines s) k lines) (srcmap s), Added line)
        else (s', UnsupportedType)
    end.

(** L741-748: removal from one pair of dictionaries; a missing id is only logged. *)
Definition take (ids lines : dict str (dict Z bp)) (c : str) (i : Z)
  : dict str (dict Z bp) * dict str (dict Z bp) :=
  match get str_eqb c ids with
  | None => (ids, lines)
  | Some d =>
      match get Z.eqb i d with
      | None => (ids, lines)
      | Some _ =>
          let d' := del Z.eqb i d in
          (set str_eqb c d' ids, set str_eqb c (consolidate d') lines)
      end
  end.

(** PyDevdAPI.remove_breakpoint, L693-757 *)
Definition remove_one (P : paths) (s : store) (name : str) (k : kind) (i : Z) (supported : bool) : store :=
  let received' := del key_eqb (norm P name, i) (received s) in
  let c := canon P (server P name) in
  match k with
  | PyLine =>
      let '(ids, lines) := take (py_ids s) (py_lines s) c i in
      Store received' ids (tpl_ids s) lines (tpl_lines s) (srcmap s)
  | Template k =>
      if supported then
        let '(ids, lines) := take (tpl_ids s) (tpl_lines s k) c i in
        Store received' (py_ids s) ids (py_lines s) (upd_tpl (tpl_lines s) k lines) (srcmap s)
      else Store received' (py_ids s) (tpl_ids s) (py_lines s) (tpl_lines s) (srcmap s)
  end.

Definition del_all (cs : list str) (d : dict str (dict Z bp)) : dict str (dict Z bp) :=
  fold_left (fun d c => del str_eqb c d) cs d.

(** PyDevdAPI.remove_all_breakpoints for one file, L672-688 *)
Definition remove_file (P : paths) (s : store) (name : str) : store :=
  let n := norm P name in
  let hit := filter (fun e => str_eqb (fst (fst e)) n) (received s) in
  let cs := map (fun e => fst (snd e)) hit in
  Store (filter (fun e => negb (str_eqb (fst (fst e)) n)) (received s))
        (del_all cs (py_ids s)) (del_all cs (tpl_ids s)) (del_all cs (py_lines s))
        (fun k => del_all cs (tpl_lines s k)) (srcmap s).

(** PyDevdAPI.remove_all_breakpoints for '*', L663-670 *)
Definition remove_all (s : store) : store := Store [] [] [] [] (fun _ => []) (srcmap s).

(** PyDevdAPI.reapply_breakpoints, L635-645; an exception from add_breakpoint (unsupported type) ends the
    loop.  [found]: files that exist now. *)
Fixpoint readd (P : paths) (s : store) (qs : list params) (found : str -> bool) (supported : N -> bool) : store :=
  match qs with
  | [] => s
  | q :: r =>
      let '(s', o) := add P s q None (found (p_name q))
                          (match p_kind q with Template k => supported k | PyLine => true end) in
      match o with UnsupportedType => s' | _ => readd P s' r found supported end
  end.

Definition reapply (P : paths) (s : store) (found : str -> bool) (supported : N -> bool) : store :=
  readd P (remove_all s) (map (fun e => snd (snd e)) (received s)) found supported.

(** What the line lookup of the tracer sees (pydevd_frame.py: breakpoints_for_file = main_debugger.breakpoints.get(...)). *)
Definition stop_at (s : store) (c : str) (line : Z) : option bp :=
  match get str_eqb c (py_lines s) with Some d => get Z.eqb line d | None => None end.

(** "*" *)
Definition star : str := [42%N].

(** PyDevdAPI.remove_all_breakpoints, L647-691 *)
Definition remove_all_breakpoints (P : paths) (s : store) (name : str) : store :=
  if str_eqb name star then remove_all s else remove_file P s name.

(** One SourceBreakpoint of a setBreakpoints request, with what the file system and the plugins answer. *)
Record source_bp := SourceBp {
  sb_line : Z; sb_info : N; sb_valid : option (list Z); sb_found : bool; sb_supported : bool
}.

(** /repo/_pydevd_bundle/pydevd_process_net_command_json.py L790-853, on_setbreakpoints_request: the loop.
    [next] is the id counter of _next_breakpoint_id (L146).  The results are what the reply tells the
    client; an unsupported type raises out of the loop. *)
Fixpoint add_source_bps (P : paths) (s : store) (next : Z) (name : str) (k : kind) (bs : list source_bp)
  : store * Z * list outcome :=
  match bs with
  | [] => (s, next, [])
  | b :: r =>
      let q := Params name k next (sb_line b) (sb_info b) in
      let '(s1, o) := add P s q (sb_valid b) (sb_found b) (sb_supported b) in
      match o with
      | UnsupportedType => (s1, (next + 1)%Z, [o])
      | _ => let '(s2, n2, os) := add_source_bps P s1 (next + 1)%Z name k r in (s2, n2, o :: os)
      end
  end.

Definition set_breakpoints (P : paths) (s : store) (next : Z) (name : str) (k : kind) (bs : list source_bp)
  : store * Z * list outcome :=
  add_source_bps P (remove_all_breakpoints P s name) next name k bs.

(** PyDevdAPI.set_source_mapping (L999-1021): the new mapping is in force when the breakpoints are
    re-applied. *)
Definition change_mapping (P : paths) (s : store) (m : str -> Z -> option (str * Z))
  (found : str -> bool) (supported : N -> bool) : store :=
  reapply P (Store (received s) (py_ids s) (tpl_ids s) (py_lines s) (tpl_lines s) m) found supported.
