(** Exceptions at which the debugger does not stop because of the line they pass: lines marked in the source and
    lines given by the client.
    Modelled from _pydevd_bundle/pydevd_frame.py (handle_exception, IGNORE_EXCEPTION_TAG) and
    _pydevd_bundle/pydevd_process_net_command.py (cmd_ignore_thrown_exception_at, the flag in
    cmd_set_py_exception_json and cmd_set_py_exception), with linecache of the standard library. *)
From Coq Require Import String.
From Coq Require Import List Bool Arith Lia NArith ZArith.
From Verif Require Import Base Glob PatchArgs.
Import ListNotations.
Open Scope nat_scope.
Open Scope list_scope.

(** Absolute file names are numbers, and so are the files (canonical names) they stand for, and the pairs of size
    and time of change which os.stat gives. *)
Record world := World {
  canon : nat -> nat;
  abs_of : str -> nat;                    (* filename_to_server and absolute_path of a name given by the client *)
  loader : nat -> option (list str)       (* the source given by the loader of a module, for files which do not exist *)
}.

Definition upd {V} (f : nat -> V) (k : nat) (v : V) : nat -> V := fun x => if x =? k then v else f x.
Definition zupd {V} (f : Z -> V) (k : Z) (v : V) : Z -> V := fun x => if (x =? k)%Z then v else f x.

Record state := State {
  fs : nat -> option (nat * list str);              (* the files: os.stat and the lines *)
  lc : nat -> option (option nat * list str);       (* linecache.cache: mtime and size, or None from a loader *)
  ignored : nat -> Z -> option bool;                (* filename_to_lines_where_exceptions_are_ignored, pydevd_frame.py L1187 *)
  stats : nat -> option (option nat);               (* filename_to_stat_info, L1188 *)
  user : nat -> Z -> option bool;                   (* the one of py_db *)
  enabled : bool                                    (* ignore_exceptions_thrown_in_lines_with_ignore_exception *)
}.

Definition init (f : nat -> option (nat * list str)) : state :=
  State f (fun _ => None) (fun _ _ => None) (fun _ => None) (fun _ _ => None) true.

(** IGNORE_EXCEPTION_TAG, pydevd_frame.py L62: the first number sign, and the tag later in that line *)
Fixpoint before_newline (s : str) : str :=
  match s with [] => [] | c :: r => if (c =? 10)%N then [] else c :: before_newline r end.
Fixpoint tagged (s : str) : bool :=
  match s with
  | [] => false
  | c :: r => if (c =? 35)%N then contains (lit "@IgnoreException") (before_newline r) else tagged r
  end.

Definition onat_eqb (a b : option nat) : bool :=
  match a, b with Some x, Some y => x =? y | None, None => true | _, _ => false end.

(** linecache.checkcache(name) *)
Definition checkcache (w : world) (st : state) (a : nat) : nat -> option (option nat * list str) :=
  match lc st a with
  | Some (Some m, _) => if onat_eqb (option_map fst (fs st (canon w a))) (Some m) then lc st else upd (lc st) a None
  | _ => lc st
  end.

(** linecache.getlines(name, f_globals); a file which cannot be read or decoded is one without lines *)
Definition getlines (w : world) (st : state) (a : nat) : list str * (nat -> option (option nat * list str)) :=
  match lc st a with
  | Some (_, ls) => (ls, lc st)
  | None => match fs st (canon w a) with
            | Some (m, ls) => (ls, upd (lc st) a (Some (Some m, ls)))
            | None => match loader w (canon w a) with
                      | Some ls => (ls, upd (lc st) a (Some (None, ls)))
                      | None => ([], lc st)
                      end
            end
  end.

(** linecache.getline *)
Definition line_of (ls : list str) (n : Z) : str := if (1 <=? n)%Z then nth (Z.to_nat (n - 1)) ls [] else [].

(** handle_exception, L1221-1275: whether the exception is ignored for one line of the traceback *)
Definition check (w : world) (st : state) (a : nat) (line : Z) : bool * state :=
  let k := canon w a in
  let curr := option_map fst (fs st k) in
  let last := match stats st a with Some s => s | None => None end in
  let st := if onat_eqb last curr then st
            else State (fs st) (checkcache w st a) (upd (ignored st) k (fun _ => None)) (upd (stats st) a (Some curr)) (user st) (enabled st) in
  match (match user st k line with Some b => Some b | None => ignored st k line end) with
  | Some b => (b, st)
  | None =>
      let '(ls, c) := getlines w st a in
      let b := tagged (line_of ls line) in
      (b, State (fs st) c (upd (ignored st) k (zupd (ignored st k) line (Some b))) (stats st) (user st) (enabled st))
  end.

(** handle_exception, L1220: the first place of the traceback and the place where it was raised; the first component
    is whether the debugger stops *)
Definition handle (w : world) (st : state) (first raised : nat * Z) : bool * state :=
  if enabled st then
    let '(b, st) := check w st (fst first) (snd first) in
    if b then (false, st)
    else let '(b, st) := check w st (fst raised) (snd raised) in (negb b, st)
  else (true, st).

(** text.split of two vertical bars; [cur] is the part so far, reversed *)
Fixpoint split_bars (s cur : str) : list str :=
  match s with
  | [] => [rev cur]
  | c :: r =>
      match r with
      | d :: r' => if (c =? 124)%N && (d =? 124)%N then rev cur :: split_bars r' [] else split_bars r (c :: cur)
      | [] => [rev (c :: cur)]
      end
  end.

Definition set_user (st : state) (u : nat -> Z -> option bool) : state :=
  State (fs st) (lc st) (ignored st) (stats st) u (enabled st).

(** The loop in cmd_ignore_thrown_exception_at, pydevd_process_net_command.py L716-732; it ends where Python raises *)
Fixpoint ignore_each (w : world) (st : state) (parts : list str) : state :=
  match parts with
  | [] => st
  | p :: r =>
      match split_on 124%N p with
      | [name; number] =>
          let k := canon w (abs_of w name) in
          match fs st k with
          | Some _ =>
              match py_int number with
              | Some n => ignore_each w (set_user st (upd (user st) k (zupd (user st k) n (Some true)))) r
              | None => st
              end
          | None => ignore_each w st r
          end
      | _ => st
      end
  end.

(** cmd_ignore_thrown_exception_at, L708-732 *)
Definition ignore_at (w : world) (st : state) (text : str) : state :=
  let replace := starts_with (lit "REPLACE:") text in
  let text := if replace then skipn 8 text else text in
  let st := if replace then set_user st (fun _ _ => None) else st in
  match text with [] => st | _ => ignore_each w st (split_bars text []) end.

Inductive op :=
| Write (k : nat) (f : option (nat * list str))   (* a file is changed, created or deleted *)
| ReadLines (a : nat)                              (* other code uses linecache.getline *)
| CheckLines (a : nat)                             (* other code uses linecache.checkcache *)
| IgnoreAt (text : str)
| Enable (b : bool)                                (* pydevd_process_net_command.py L462, L511-513 *)
| Exc (first raised : nat * Z).

Definition set_lc (st : state) (c : nat -> option (option nat * list str)) : state :=
  State (fs st) c (ignored st) (stats st) (user st) (enabled st).

Definition step (w : world) (st : state) (o : op) : state :=
  match o with
  | Write k f => State (upd (fs st) k f) (lc st) (ignored st) (stats st) (user st) (enabled st)
  | ReadLines a => set_lc st (snd (getlines w st a))
  | CheckLines a => set_lc st (checkcache w st a)
  | IgnoreAt t => ignore_at w st t
  | Enable b => State (fs st) (lc st) (ignored st) (stats st) (user st) b
  | Exc f r => snd (handle w st f r)
  end.

Definition run (w : world) (f : nat -> option (nat * list str)) (h : list op) : state := fold_left (step w) h (init f).

(** Whether the debugger stops at an exception after [h]. *)
Definition stops (w : world) (f : nat -> option (nat * list str)) (h : list op) (first raised : nat * Z) : bool :=
  fst (handle w (run w f h) first raised).
