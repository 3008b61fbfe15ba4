(** Model of runfile, by which the interactive console runs a file again and again (property C83).
    Source: /repo/_pydev_bundle/pydev_umd.py L40-96 (UserModuleDeleter), L135-181 (runfile), /repo/_pydev_bundle/_pydev_execfile.py
    (execfile: the program).
    A module of sys.modules has a name and maybe a path (its __file__).  The program is any function of what it can see and change:
    modules, sys.argv, __file__ of its namespace, the working directory, the environment; it ends or raises.
    Simplifications: names and paths are text (no bytes); one namespace; the import of pydev_pysrc and inspect in L57-62 loads
    nothing new; the printed log is left out. *)
From Coq Require Import String.
From Coq Require Import List NArith Bool.
From Verif Require Import Base.
Import ListNotations.
Open Scope list_scope.

Inductive value := VNone | VText (s : str).

(** What the program can see and change *)
Record outside := Outside {
  modules : list (str * option str);   (* sys.modules *)
  argv : list str;                     (* sys.argv *)
  file : option value;                 (* namespace["__file__"] *)
  cwd : str;
  umd_enabled : option str;            (* environment: PYDEV_UMD_ENABLED *)
  umd_names : option str               (* environment: PYDEV_UMD_NAMELIST *)
}.

(** L40-63: the deleter *)
Record deleter := Deleter { namelist : list str; pathlist : list str; previous : list str }.

(** text.split(c) *)
Fixpoint pieces (c : N) (s : str) : list str :=
  match s with
  | [] => [[]]
  | x :: r =>
      if N.eqb x c then [] :: pieces c r
      else match pieces c r with [] => [[x]] | w :: ws => (x :: w) :: ws end
  end.

(** text.split(): the blanks of ASCII *)
Definition blank (x : N) : bool := N.eqb x 32 || (N.leb 9 x && N.leb x 13) || (N.leb 28 x && N.leb x 31).

Fixpoint words_ (cur : str) (s : str) : list str :=
  match s with
  | [] => match cur with [] => [] | _ => [rev cur] end
  | x :: r =>
      if blank x then match cur with [] => words_ [] r | _ => rev cur :: words_ [] r end
      else words_ (x :: cur) r
  end.
Definition words (s : str) : list str := words_ [] s.

(** text.lower(), for ASCII *)
Definition lower (s : str) : str := map (fun x => if (N.leb 65 x && N.leb x 90)%bool then N.add x 32 else x) s.

Definition mem (x : str) (l : list str) : bool := existsb (str_eqb x) l.

(** L65-70 is_module_ignored *)
Definition ignored (prefix : str) (d : deleter) (name path : str) : bool :=
  existsb (fun p => starts_with p path) (prefix :: pathlist d) || existsb (fun part => mem part (namelist d)) (pieces 46 name).

(** L80-94 run: the modules which stay *)
Definition stays (prefix : str) (d : deleter) (m : str * option str) : bool :=
  if mem (fst m) (previous d) then true
  else match snd m with
       | None => true
       | Some path => ignored prefix d (fst m) path
       end.
Definition delete (prefix : str) (d : deleter) (ms : list (str * option str)) : list (str * option str) := filter (stays prefix d) ms.

(** L49-63 __init__; [pysrc]: the directory of pydev_pysrc, if it can be imported *)
Definition new_deleter (pysrc : option str) (o : outside) : deleter :=
  Deleter (match umd_names o with None => [] | Some s => pieces 44 s end)
    (match pysrc with None => [] | Some p => [p] end) (map fst (modules o)).

(** L147-155 *)
Definition clean (prefix : str) (pysrc : option str) (o : outside) (d : option deleter) : outside * option deleter :=
  if str_eqb (lower (match umd_enabled o with None => [] | Some s => s end)) (lit "true") then
    match d with
    | None => (o, Some (new_deleter pysrc o))
    | Some d' => (Outside (delete prefix d' (modules o)) (argv o) (file o) (cwd o) (umd_enabled o) (umd_names o), d)
    end
  else (o, d).

(** One call of runfile *)
Record call := Call { filename : str; args : option str; wdir : option str; prog : outside -> outside * bool }.

(** L164-168 *)
Definition named (c : call) (o : outside) : outside :=
  Outside (modules o) (filename c :: match args c with None => [] | Some a => words a end) (Some (VText (filename c)))
    (cwd o) (umd_enabled o) (umd_names o).

(** L177-181: true: KeyError *)
Definition finish (old : option value) (o : outside) : outside * bool :=
  match match old with Some VNone => None | _ => old end with
  | None =>
      match file o with
      | None => (Outside (modules o) [[]] None (cwd o) (umd_enabled o) (umd_names o), true)
      | Some _ => (Outside (modules o) [[]] None (cwd o) (umd_enabled o) (umd_names o), false)
      end
  | Some v => (Outside (modules o) [[]] (Some v) (cwd o) (umd_enabled o) (umd_names o), false)
  end.

(** L135-181; [dir_ok]: the directories os.chdir accepts.  The result: what is left, the deleter, whether an exception was raised *)
Definition runfile (prefix : str) (pysrc : option str) (dir_ok : str -> bool) (c : call) (o : outside) (d : option deleter) :
    outside * option deleter * bool :=
  let '(o1, d1) := clean prefix pysrc o d in
  let old := file o1 in
  let o2 := named c o1 in
  let go o3 :=
    match prog c o3 with
    | (o4, true) => (o4, d1, true)
    | (o4, false) => let '(o5, failed) := finish old o4 in (o5, d1, failed)
    end in
  match wdir c with
  | None => go o2
  | Some w =>
      if dir_ok w then go (Outside (modules o2) (argv o2) (file o2) w (umd_enabled o2) (umd_names o2))
      else (o2, d1, true)
  end.

(** A session: calls of runfile, and whatever the user does at the prompt in between *)
Inductive step := Run (c : call) | Prompt (f : outside -> outside).

Definition do_step (prefix : str) (pysrc : option str) (dir_ok : str -> bool) (od : outside * option deleter) (s : step) :
    outside * option deleter :=
  match s with
  | Run c => fst (runfile prefix pysrc dir_ok c (fst od) (snd od))
  | Prompt f => (f (fst od), snd od)
  end.

Definition session (prefix : str) (pysrc : option str) (dir_ok : str -> bool) (steps : list step) (o : outside) : outside * option deleter :=
  fold_left (do_step prefix pysrc dir_ok) steps (o, None).
