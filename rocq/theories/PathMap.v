(** Model of the translation of file names between the client and the debugged process (property C22).
    Source: /repo/pydevd_file_utils.py: normcase L298-354, set_ide_os L368-402, _original_file_to_client
    L634-641, _original_map_file_to_server L644-647, _fix_path L654-669, setup_client_server_paths L718-898.
    Simplifications: lower-casing only affects ASCII letters (so it keeps lengths); names with "~" are not
    expanded to long names (convert_to_long_pathname, Windows only); log messages are left out. *)
From Coq Require Import List NArith Bool.
From Verif Require Import Base Dict.
Import ListNotations.

Definition slash : N := 47.
Definition bslash : N := 92.

(** L310-343: no change, lower case, or Windows (lower case and backslashes). *)
Inductive mode := NNone | NLower | NWin.
Definition low (c : N) : N := if (N.leb 65 c && N.leb c 90)%bool then (c + 32)%N else c.
Definition normc (m : mode) (c : N) : N :=
  match m with
  | NNone => c
  | NLower => low c
  | NWin => if N.eqb c slash then bslash else low c
  end.
Definition norm (m : mode) (s : str) : str := map (normc m) s.

(** The debugged process: its system, its normalization, absolute_path (L423-427), get_path_with_real_case
    (L184-289), os.path.exists and os.path.abspath.  The last four depend on the file system and are arbitrary. *)
Record env := Env {
  server_win : bool;
  smode : mode;
  absolute : str -> str;
  realcase : str -> str;
  exists_ : str -> bool;
  abspath : str -> str
}.

(** s.replace(a, b) for single characters *)
Definition repl (a b : N) (s : str) : str := map (fun c => if N.eqb c a then b else c) s.

Definition sep (win : bool) : N := if win then bslash else slash.

(** _normcase_from_client after set_ide_os, L389-398; [cw]: the client runs on Windows *)
Definition cmode (E : env) (cw : bool) : mode :=
  if Bool.eqb cw (server_win E) then smode E else if cw then NWin else NNone.

Definition ends_sep (s : str) : bool := ends_with [slash] s || ends_with [bslash] s.

(** _fix_path, L654-669 *)
Definition fix_path (E : env) (p : str) (sp : N) (add_end : bool) : str :=
  let p := if starts_with [46%N] p then abspath E p else p in
  let p := if add_end then (if ends_sep p then p else p ++ [slash])
           else (if ends_sep p then removelast p else p) in
  if N.eqb sp slash then p else repl slash sp p.

(** One element of initial_paths together with the element of paths_from_eclipse_to_python at the same
    position: client prefix as given, normalized client prefix, normalized server prefix. *)
Record entry := Entry { iclient : str; nclient : str; nserver : str }.
Definition mk_entry (E : env) (cw : bool) (p0 p1 : str) : entry :=
  Entry p0 (norm (cmode E cw) p0) (norm (smode E) p1).

(** The loop at L746-760: the entries with a separator at the end and those without *)
Fixpoint build (E : env) (cw : bool) (paths : list (str * str)) : list entry * list entry :=
  match paths with
  | [] => ([], [])
  | (p0, p1) :: r =>
      let '(w, wo) := build E cw r in
      let es := sep cw in let ps := sep (server_win E) in
      if ends_sep p0 && ends_sep p1
      then (mk_entry E cw (fix_path E p0 es true) (fix_path E p1 ps true) :: w, wo)
      else
        let p0 := fix_path E p0 es false in
        let p1 := fix_path E p1 ps false in
        (mk_entry E cw (fix_path E p0 es true) (fix_path E p1 ps true) :: w, mk_entry E cw p0 p1 :: wo)
  end.

(** L774-775: the versions with a separator come first *)
Definition entries (E : env) (cw : bool) (paths : list (str * str)) : list entry :=
  let '(w, wo) := build E cw paths in w ++ wo.

(** L789-791: separators as the client writes them; also the key under which L834 caches the result *)
Definition client_seps (E : env) (cw : bool) (f : str) : str :=
  if Bool.eqb cw (server_win E) then f else repl (sep (server_win E)) (sep cw) f.
(** L810-811 *)
Definition server_seps (E : env) (cw : bool) (f : str) : str :=
  if Bool.eqb cw (server_win E) then f else repl (sep cw) (sep (server_win E)) f.

(** _map_file_to_server, L783-835, without its cache *)
Definition to_server (E : env) (cw : bool) (paths : list (str * str)) (f : str) : str :=
  let f := client_seps E cw f in
  match find (fun e => starts_with (nclient e) (norm (cmode E cw) f)) (entries E cw paths) with
  | Some e => absolute E (server_seps E cw (nserver e ++ skipn (length (nclient e)) f))
  | None =>
      let t := server_seps E cw f in
      if exists_ E t then absolute E t else t
  end.

(** _map_file_to_client, L837-895, without its cache and the source references (see SourceRef.v): the
    translated name and whether a mapping was applied *)
Definition to_client (E : env) (cw : bool) (paths : list (str * str)) (f : str) : str * bool :=
  let a := absolute E f in
  let proper := realcase E a in
  match find (fun e => starts_with (nserver e) (norm (smode E) a)) (entries E cw paths) with
  | Some e => (client_seps E cw (iclient e ++ skipn (length (nserver e)) proper), true)
  | None => (client_seps E cw proper, false)
  end.

(** ** The functions with their caches *)

Record state := State {
  cw : bool;                                  (* _ide_os *)
  paths : list (str * str);                   (* _last_client_server_paths_set *)
  srv_cache : list (str * str);               (* norm_filename_to_server_container *)
  cli_cache : list (str * (str * bool));      (* norm_filename_to_client_container *)
  orig_cache : list (str * (str * bool))      (* the default argument at L634, never cleared *)
}.

(** setup_client_server_paths: new caches *)
Definition setup (s : state) (ps : list (str * str)) : state := State (cw s) ps [] [] (orig_cache s).

Definition map_to_server (E : env) (s : state) (f : str) : state * str :=
  match paths s with
  | [] => (s, f)
  | _ =>
      match get str_eqb f (srv_cache s) with
      | Some r => (s, r)
      | None =>
          let r := to_server E (cw s) (paths s) f in
          (State (cw s) (paths s) (set str_eqb (client_seps E (cw s) f) r (srv_cache s)) (cli_cache s) (orig_cache s), r)
      end
  end.

Definition map_to_client (E : env) (s : state) (f : str) : state * (str * bool) :=
  match paths s with
  | [] =>
      match get str_eqb f (orig_cache s) with
      | Some r => (s, r)
      | None =>
          let r := (realcase E (absolute E f), false) in
          (State (cw s) (paths s) (srv_cache s) (cli_cache s) (set str_eqb f r (orig_cache s)), r)
      end
  | _ =>
      match get str_eqb f (cli_cache s) with
      | Some r => (s, r)
      | None =>
          let r := to_client E (cw s) (paths s) f in
          (State (cw s) (paths s) (srv_cache s) (set str_eqb f r (cli_cache s)) (orig_cache s), r)
      end
  end.

(** set_ide_os, L368-402: sets the paths up again when the system changes *)
Definition set_ide_os (s : state) (w : bool) : state :=
  if Bool.eqb w (cw s) then s else setup (State w (paths s) (srv_cache s) (cli_cache s) (orig_cache s)) (paths s).

Inductive op := Setup (ps : list (str * str)) | SetOs (w : bool) | ToServer (f : str) | ToClient (f : str).
Definition step (E : env) (s : state) (x : op) : state :=
  match x with
  | Setup ps => setup s ps
  | SetOs w => set_ide_os s w
  | ToServer f => fst (map_to_server E s f)
  | ToClient f => fst (map_to_client E s f)
  end.
(** L358, L900: the client's system is the server's and there are the mappings of the environment variable *)
Definition init (E : env) (ps : list (str * str)) : state := State (server_win E) ps [] [] [].
Definition run (E : env) (ps : list (str * str)) (ops : list op) : state := fold_left (step E) ops (init E ps).
