(** Model of what a program finds when the debugger starts it: sys.path, sys.argv and its main module (property C78).
    Sources: /repo/pydevd.py L15-17 and L3698-3704 (the debugger's own entry of sys.path), L2571-2650 (PyDB.run), L2689-2709
    (PyDB._exec); /repo/_pydevd_bundle/pydevd_utils.py L27-39 (save_main_module);
    /repo/_pydevd_bundle/pydevd_runpy.py L59-97 (_TempModule, _ModifiedArgv0), L100-119 (_run_code), L122-130
    (_run_module_code), L203-228 (_run_module_as_main), L246-261 (_get_main_module_details), L272-284 (_get_code_from_file),
    L287-330 (run_path); /repo/pydevd_file_utils.py L967-987 (get_fullname, get_package_dir).
    The command line is C26: here sys.argv is already the file and its arguments.  Left out: waiting for the client, threads,
    the compiled files .pyc, programs for the App Engine server. *)
From Coq Require Import String.
From Coq Require Import List NArith Bool.
From Verif Require Import Base.
Import ListNotations.
Open Scope list_scope.

(** What the import system knows of a name: a module in a file, a package in a directory, a package without __init__.py. *)
Inductive found := Module (file : str) | Package (dir : str) | Namespace (dir : str) | Missing.

(** The file system and the import system. *)
Record world := World {
  absn : str -> str;              (* os.path.abspath *)
  dirn : str -> str;              (* os.path.split(...)[0], os.path.dirname *)
  target : str -> str;            (* what a symbolic link points to; other paths stay *)
  isdir : str -> bool;
  isfile : str -> bool;
  archive : str -> bool;          (* a zip file: some path hook takes it *)
  lookup : str -> found }.        (* for a dotted name, with the entries of sys.path *)

(** os.path.join with a constant last part *)
Definition join (d last : str) : str := d ++ [47%N] ++ last.

(** Modules are numbers: 0 the one of pydevd.py, 1 the one of save_main_module, 2 the one of _TempModule, 9 that of a plain
    start of Python. *)
Record proc := Proc { path : list str; argv : list str; main : N (* sys.modules of __main__ *) }.

(** What the first line of the program sees; [globals] is the module in whose names it runs. *)
Record view := View { vproc : proc; globals : N; vname : str; vfile : str }.

Inductive started := Runs (v : view) (after : proc) | Fails.

(** The debugger's file is loaded as main program or imported, L15-17, L3698-3704; its imports do not change sys.path. *)
Definition load_debugger (this_dir : str) (p : list str) : list str :=
  let p1 := this_dir :: p in
  match p1 with
  | d :: r => if str_eqb d this_dir then r else p1
  | [] => p1
  end.

Section Start.
Variable W : world.
(** what the program does to sys *)
Variable prog : view -> proc -> proc.

(** the importer for a path is not None, pydevd_runpy.py L300-306 *)
Definition has_importer (f : str) : bool := isdir W f || archive W f.

(** _ModifiedArgv0.__enter__ / __exit__, L83-97 *)
Definition set0 (v : str) (a : list str) : list str :=
  match a with [] => [] | _ :: r => v :: r end.

(** _run_code within _TempModule and _ModifiedArgv0, L122-130 and L323-325 *)
Definition run_temp (p : proc) (fname arg0 : str) : started :=
  let p1 := Proc (path p) (set0 arg0 (argv p)) 2 in
  let v := View p1 2 (lit "__main__") fname in
  let p2 := prog v p1 in
  Runs v (Proc (path p2) (set0 (hd [] (argv p)) (argv p2)) (main p)).

Fixpoint remove1 (x : str) (l : list str) : list str :=
  match l with [] => [] | y :: r => if str_eqb y x then r else y :: remove1 x r end.

(** run_path, L287-330 *)
Definition run_path (p : proc) (file : str) : started :=
  if has_importer file then
    let p1 := Proc (file :: path p) (argv p) (main p) in
    if archive W file then
      match run_temp p1 (join file (lit "__main__.py")) file with
      | Runs v a => Runs v (Proc (remove1 file (path a)) (argv a) (main a))
      | Fails => Fails
      end
    else Fails                                   (* a directory without __main__.py: ImportError *)
  else if isfile W file then run_temp p file file
  else Fails.

(** get_fullname, pydevd_file_utils.py L967-979 *)
Definition get_fullname (m : str) : option str :=
  match lookup W m with
  | Module f => Some f
  | Package d => Some (join d (lit "__init__.py"))
  | Namespace _ | Missing => None
  end.

(** get_package_dir, L982-987: some directory of that name is found in an entry of sys.path; that is the one of a package *)
Definition get_package_dir (m : str) : option str :=
  match lookup W m with Package d | Namespace d => Some d | _ => None end.

(** PyDB.run L2574-2612 for a module: the new sys.argv[0] and the file; None: not found *)
Definition module_file (m : str) : option str :=
  match get_fullname m with
  | None =>
      match get_package_dir m with
      | None => None
      | Some _ => get_fullname (m ++ lit ".__main__")
      end
  | Some f =>
      let main_py := join (dirn W f) (lit "__main__.py") in
      if ends_with (lit "__init__.py") f then (if isfile W main_py then Some main_py else Some f) else Some f
  end.

(** _get_module_details, L134-186: the origin of what is run *)
Definition details (m : str) : option str :=
  match lookup W m with
  | Module f => Some f
  | Package _ | Namespace _ =>
      match lookup W (m ++ lit ".__main__") with Module f => Some f | _ => None end
  | Missing => None
  end.

(** _run_module_as_main(alter_argv=False), L203-228: in the names of sys.modules of __main__ *)
Definition run_module (p : proc) (m : str) : started :=
  match details m with
  | None => Fails
  | Some origin =>
      let v := View p (main p) (lit "__main__") origin in
      Runs v (prog v p)
  end.

(** L2639-2643, with the __file__ of the module of save_main_module: the absolute path *)
Definition drop_entry (file : str) (p : list str) : list str :=
  match p with
  | e :: r => if negb (str_eqb e []) && starts_with e (absn W file) then r else p
  | [] => p                      (* sys.path[0] would raise; not reached: sys.path is never empty *)
  end.

(** PyDB.run for a file, L2614-2650 and L2694-2695 *)
Definition debug_script (p : proc) (file : str) : started :=
  let file1 := if isdir W file && isfile W (join file (lit "__main__.py")) then join file (lit "__main__.py") else file in
  let path1 := drop_entry file1 (path p) in
  let path2 := dirn W (absn W file1) :: path1 in
  run_path (Proc path2 (argv p) 1) file1.

(** PyDB.run for a module without an entry function, L2574-2643 and L2704-2706 *)
Definition debug_module (p : proc) (m : str) : started :=
  let path1 := if existsb (fun e => str_eqb e []) (path p) then path p else [] :: path p in
  match module_file m with
  | None => Fails
  | Some f =>
      let path2 := drop_entry f path1 in
      run_module (Proc path2 (set0 f (argv p)) 1) m
  end.

(** The whole start: Python has put the directory of pydevd.py in front of the other entries, unless it was started with the
    option which forbids that (-P, -I, PYTHONSAFEPATH). *)
Definition debugged (this_dir : str) (safe : bool) (rest args : list str) (is_module : bool) (file : str) : started :=
  let p0 := if safe then rest else this_dir :: rest in
  let p := Proc (load_debugger this_dir p0) (file :: args) 0 in
  if is_module then debug_module p file else debug_script p file.
End Start.
