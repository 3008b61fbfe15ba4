(** Model of watching directories for changed files (property C52).
    Sources: /repo/_pydev_bundle/fsnotify/__init__.py L61-166 (Change, _SingleVisitInfo, _PathWatcher), L169-350 (Watcher),
    /repo/_pydevd_bundle/pydevd_comm.py L330-362 (FSNotifyThread).
    Sleeping and throttling are left out: they do not change what is reported. *)
From Coq Require Import List NArith ZArith Bool.
From Verif Require Import Base Dict Glob.
Import ListNotations.

(** (st_mtime_ns, st_size), L152 *)
Definition stat := (Z * Z)%type.
Definition stat_eqb (a b : stat) : bool := Z.eqb (fst a) (fst b) && Z.eqb (snd a) (snd b).

(** What os.scandir finds, in its order.  [Gone]: is_dir() is false and stat() raises OSError, as for a link to nothing or
    a file removed after it was listed.  A listing which raises OSError after some entries is the one of these entries.
    A directory reached through links which form a cycle is unfolded: only levels up to the maximum matter. *)
Inductive node := File (s : stat) | Gone | Dir (l : list (str * node)).

Inductive change := Added (p : str) | Modified (p : str) | Deleted (p : str).

(** _SingleVisitInfo, L67-72, with the dictionary of the scan before (its entries are popped) and the changes found. *)
Record visit := Visit { seen : list str; files : list (str * stat); old : list (str * stat); changes : list change }.

Definition slash : N := 47.
(** The path of an entry: os.path.join(dir_path, name), posixpath.py. *)
Definition join (d n : str) : str :=
  match d with [] => n | _ => if ends_with [slash] d then d ++ n else d ++ slash :: n end.

(** L151-160 *)
Definition record (p : str) (s : stat) (v : visit) : visit :=
  Visit (seen v) (set str_eqb p s (files v)) (del str_eqb p (old v))
        (match get str_eqb p (old v) with
         | None => changes v ++ [Added p]
         | Some s' => if stat_eqb s' s then changes v else changes v ++ [Modified p]
         end).
Definition see (d : str) (v : visit) : visit := Visit (d :: seen v) (files v) (old v) (changes v).

(** What the watcher is configured with: accept_directory, accept_file, max_recursion_level. *)
Record config := Config { acc_dir : str -> bool; acc_file : str -> bool; max_level : nat }.

Definition str_mem (d : str) (l : list str) : bool := existsb (str_eqb d) l.

(** _check_dir, L116-163 (paths are text; paths of type bytes are left out) *)
Fixpoint check_dir (cf : config) (n : node) (d : str) (level : nat) (v : visit) {struct n} : visit :=
  if str_mem d (seen v) || Nat.ltb (max_level cf) level then v else
  match n with
  | Dir l =>
      (fix scan (l : list (str * node)) (v : visit) {struct l} : visit :=
         match l with
         | [] => v
         | (name, c) :: r =>
             let p := join d name in
             match c with
             | Dir _ => scan r (if acc_dir cf p then check_dir cf c p (S level) v else v)
             | File s => scan r (if acc_file cf p then record p s v else v)
             | Gone => if acc_file cf p then v else scan r v                     (* L162: the rest is not listed *)
             end
         end) l (see d v)
  | _ => see d v                                                                 (* scandir raises *)
  end.

(** The watched paths with what is found there, in the order they are looked at. *)
Definition roots := list (str * node).
Definition check_roots (cf : config) (rs : roots) (v : visit) : visit :=
  fold_left (fun v r => check_dir cf (snd r) (fst r) 0 v) rs v.

(** set_tracked_paths, L244-279: the longest paths first, changes are dropped; the table of files is kept. *)
Fixpoint by_len (r : str * node) (l : roots) : roots :=
  match l with
  | [] => [r]
  | x :: l' => if Nat.ltb (length (fst x)) (length (fst r)) then r :: l else x :: by_len r l'
  end.
Definition sorted (l : roots) : roots := fold_left (fun a r => by_len r a) l [].
Definition track (cf : config) (rs : roots) : list (str * stat) := files (check_roots cf (sorted rs) (Visit [] [] [] [])).

(** One round of iter_changes, L281-306: the path watchers are in a set, so the order is any order. *)
Definition scan (cf : config) (t : list (str * stat)) (rs : roots) : list (str * stat) * list change :=
  let v := check_roots cf rs (Visit [] [] t []) in
  (files v, changes v ++ map (fun p => Deleted (fst p)) (old v)).

(** All rounds: what is reported in each. *)
Fixpoint rounds (cf : config) (t : list (str * stat)) (rss : list roots) : list (list change) :=
  match rss with
  | [] => []
  | rs :: r => let (t', cs) := scan cf t rs in cs :: rounds cf t' r
  end.

(** FSNotifyThread._on_run, L339-353 of pydevd_comm.py: the files whose code is reloaded. *)
Definition reloads (cs : list change) : list str := flat_map (fun c => match c with Modified p => [p] | _ => [] end) cs.

(** setup_auto_reload_watcher, L820-871 of pydevd.py: which directories and files are watched.  The caches hold what the
    functions return and are left out.  [max_level]: Watcher.max_recursion_level, L194. *)
Definition auto_reload (P : plat) (include exclude : list str) : config :=
  Config
    (fun p =>
       let p := match rev p with [] => p | c :: _ => if N.eqb c 47 || N.eqb c 92 then p else p ++ [sep P] end in
       if existsb (glob_matches_path P p) include then true else negb (existsb (glob_matches_path P p) exclude))
    (fun p => if existsb (glob_matches_path P p) include then true else if existsb (glob_matches_path P p) exclude then false else false)
    10.
