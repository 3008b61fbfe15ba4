(** Model of the rewriting of a Python subprocess's command line (property C25).
    Source: /repo/_pydev_bundle/pydev_monkey.py: _is_managed_arg L223-227, is_python L277-287,
    remove_quotes_from_args L294-323, quote_args L359-363, patch_args L366-589, patch_arg_str_win L675-682.
    Simplifications: arguments given as bytes are left out (they are decoded for the analysis only). *)
From Coq Require Import String List NArith Bool.
From Verif Require Import Base WinArgs.
Import ListNotations.
Local Open Scope list_scope.

(** An argument: text, a pathlib.Path (its str or as_posix form), or something else *)
Inductive arg := Txt (s : str) | PathArg (s : str) | Bad.

(** What the surroundings give: sys.platform, os.path.basename(..).lower(), the list setup_to_argv(..)
    (pydevd.py and its options), whether a port is known, and _get_python_c_args (L186-213) *)
Record world := World {
  win : bool;
  base_lower : str -> str;
  pydevd : str;
  opts : list str;
  has_port : bool;
  wrap_code : str -> str
}.

Fixpoint contains (p s : str) : bool :=
  starts_with p s || match s with [] => false | _ :: r => contains p r end.

(** is_python, L277-287 *)
Definition is_python (W : world) (path : str) : bool :=
  let path := if ends_with [39%N] path || ends_with [dq] path then removelast (tl path) else path in
  let f := base_lower W path in
  existsb (fun n => contains n f) [lit "python"; lit "jython"; lit "pypy"].

(** L307-309 *)
Definition unquote (W : world) (x : str) : str :=
  if win W && negb (str_eqb x [dq; dq]) && Nat.ltb 1 (List.length x) && starts_with [dq] x && ends_with [dq] x
  then removelast (tl x) else x.

(** remove_quotes_from_args; None: InvalidTypeInArgsException.  On Windows quotes are removed from a path too. *)
Fixpoint remove_quotes (W : world) (l : list arg) : option (list str) :=
  match l with
  | [] => Some []
  | Bad :: _ => None
  | (Txt s | PathArg s) :: r => match remove_quotes W r with Some l => Some (unquote W s :: l) | None => None end
  end.

(** L412-415, L440 *)
Definition long_with_value : list str := [lit "--check-hash-based-pycs"; lit "--jit"].
Definition is_flag (c : N) : bool := existsb (N.eqb c) (lit "WXQcm").

(** The inner loop L468-516: up to the first character of an option which takes a value *)
Fixpoint split_flag (s : str) : option (str * N * str) :=
  match s with
  | [] => None
  | c :: r =>
      if is_flag c then Some ([], c, r)
      else match split_flag r with Some (p, x, q) => Some (c :: p, x, q) | None => None end
  end.

Inductive found :=
| Nothing                                        (* the original arguments are returned *)
| FFile (pre : list str) (f : str) (rest : list str)
| FModule (pre : list str) (flag m : str) (rest : list str)
| FCode (pre : list str) (flag code : str) (rest : list str).

(** The loop L455-541 over the arguments; [pre]: the arguments passed, [ignore]: ignore_next *)
Fixpoint scan (pre l : list str) (ignore : bool) : found :=
  match l with
  | [] => Nothing
  | a :: r =>
      if ignore then scan (pre ++ [a]) r false
      else if starts_with [45%N] a then
        if str_eqb a [45%N] then Nothing
        else if existsb (fun p => starts_with p a) long_with_value then
          scan (pre ++ [a]) r (existsb (str_eqb a) long_with_value)
        else
          match split_flag a with
          | None => scan (pre ++ [a]) r false
          | Some (p, c, rem) =>
              if N.eqb c 109 then
                let flag := if str_eqb p [45%N] then [] else p in
                match rem, r with
                | [], m :: rest => FModule pre flag m rest
                | [], [] => Nothing                       (* IndexError, L586-588 *)
                | _, _ => FModule pre flag rem r
                end
              else if N.eqb c 99 then
                match rem, r with
                | [], code :: rest => FCode pre (p ++ [c]) code rest
                | [], [] => Nothing
                | _, _ => FCode pre (p ++ [c]) rem r
                end
              else scan (pre ++ [a]) r (match rem with [] => true | _ => false end)
          end
      else if ends_with (lit "pydevd.py") a then Nothing
      else FFile pre a r
  end.

(** patch_args; None: the original arguments (the same object) are returned *)
Definition patch_args (W : world) (args : list arg) : option (list str) :=
  match remove_quotes W args with
  | None | Some [] => None
  | Some ((exe :: _) as l) =>
      if negb (is_python W exe) then None
      else
        let out :=
          match scan [] l true with
          | Nothing => None
          | FCode pre flag code rest =>
              if has_port W then Some (pre ++ [flag; wrap_code W code] ++ rest) else None
          | FModule pre flag m rest =>
              Some (pre ++ (match flag with [] => [] | _ => [flag] end) ++
                    pydevd W :: lit "--module" :: opts W ++ [lit "--file"; m] ++ rest)
          | FFile pre f rest => Some (pre ++ pydevd W :: opts W ++ [lit "--file"; f] ++ rest)
          end in
        match out with
        | Some l => Some (if win W then map quote_arg l else l)
        | None => None
        end
  end.

(** patch_arg_str_win, L675-682 *)
Definition patch_arg_str_win (W : world) (s : str) : str :=
  match to_args s with
  | [] => s
  | (exe :: _) as args =>
      if is_python W exe
      then match patch_args W (map Txt args) with Some l => join l | None => join args end
      else s
  end.
