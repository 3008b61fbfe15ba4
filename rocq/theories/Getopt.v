(** Model of the command line of the test runner (property C84).
    Sources: /repo/_pydev_bundle/_pydev_getopt.py L17-128, /repo/_pydev_runfiles/pydev_runfiles.py L104-282 (parse_cmdline).
    Errors are values.  Parameters of parse_cmdline: [int] is Python's int on text; [lines] gives the lines of a file after
    strip and splitlines, none for a file which is not found; [chosen] is what is read from PYDEV_RUNFILES_FILTER_TESTS.
    Not modelled: what is printed. *)
From Coq Require Import String.
From Coq Require Import List NArith ZArith Bool.
From Verif Require Import Base.
From Verif Require RunFile.
Import ListNotations.
Open Scope list_scope.

Inductive err := Unknown (o : str) | Ambiguous (o : str) | Needs (o : str) | NoArg (o : str) | Fuel.

Notation pieces := RunFile.pieces.
Notation mem := RunFile.mem.

Definition dashes : str := [45; 45]%N.

(** L87-106 long_has_args *)
Definition long_has_args (opt : str) (longs : list str) : (bool * str) + err :=
  let possible := filter (starts_with opt) longs in
  match possible with
  | [] => inr (Unknown opt)
  | _ =>
      if mem opt possible then inl (false, opt)
      else if mem (opt ++ [61%N]) possible then inl (true, opt)
      else match possible with
           | [u] => if ends_with [61%N] u then inl (true, removelast u) else inl (false, u)
           | _ => inr (Ambiguous opt)
           end
  end.

(** L64-81 do_longs: the option, its value, the arguments left *)
Definition do_longs (opt : str) (longs : list str) (args : list str) : (str * str * list str) + err :=
  let '(opt, optarg) := match split1 61 opt with None => (opt, None) | Some (a, b) => (a, Some b) end in
  match long_has_args opt longs with
  | inr e => inr e
  | inl (true, name) =>
      match optarg with
      | Some v => inl (dashes ++ name, v, args)
      | None =>
          match args with
          | [] => inr (Needs name)
          | v :: rest => inl (dashes ++ name, v, rest)
          end
      end
  | inl (false, name) =>
      match optarg with
      | None | Some [] => inl (dashes ++ name, [], args)
      | Some _ => inr (NoArg name)
      end
  end.

(** L124-128 short_has_arg *)
Fixpoint short_has_arg (c : N) (shorts : str) : option bool :=
  match shorts with
  | [] => None
  | x :: r =>
      if (N.eqb c x && negb (N.eqb x 58))%bool then Some (match r with y :: _ => N.eqb y 58 | [] => false end)
      else short_has_arg c r
  end.

(** L109-121 do_shorts *)
Fixpoint do_shorts (text : str) (shorts : str) (args : list str) : (list (str * str) * list str) + err :=
  match text with
  | [] => inl ([], args)
  | c :: r =>
      match short_has_arg c shorts with
      | None => inr (Unknown [c])
      | Some true =>
          match r with
          | [] =>
              match args with
              | [] => inr (Needs [c])
              | v :: rest => inl ([([45%N; c], v)], rest)
              end
          | _ => inl ([([45%N; c], r)], args)
          end
      | Some false =>
          match do_shorts r shorts args with
          | inr e => inr e
          | inl (opts, args) => inl (([45%N; c], []) :: opts, args)
          end
      end
  end.

(** L44-61, the loop *)
Fixpoint loop (fuel : nat) (all_first : bool) (shorts : str) (longs : list str) (args : list str) : (list (str * str) * list str) + err :=
  match fuel with
  | O => inr Fuel
  | S fuel =>
      match args with
      | [] => inl ([], [])
      | a :: rest =>
          if str_eqb a dashes then inl ([], rest)
          else if starts_with dashes a then
            match do_longs (skipn 2 a) longs rest with
            | inr e => inr e
            | inl (o, v, rest) =>
                match loop fuel all_first shorts longs rest with
                | inr e => inr e
                | inl (opts, pos) => inl ((o, v) :: opts, pos)
                end
            end
          else if starts_with [45%N] a then
            match do_shorts (skipn 1 a) shorts rest with
            | inr e => inr e
            | inl (os, rest) =>
                match loop fuel all_first shorts longs rest with
                | inr e => inr e
                | inl (opts, pos) => inl (os ++ opts, pos)
                end
            end
          else if all_first then inl ([], args)
          else
            match loop fuel all_first shorts longs rest with
            | inr e => inr e
            | inl (opts, pos) => inl (opts, a :: pos)
            end
      end
  end.

(** L17-61 gnu_getopt; the options in their order, then the other arguments *)
Definition gnu_getopt (args : list str) (shorts : str) (longs : list str) : (list (str * str) * list str) + err :=
  match shorts with
  | 43%N :: r => loop (S (length args)) true r longs args
  | _ => loop (S (length args)) false shorts longs args
  end.

(** pydev_runfiles.py L144-160: the options *)
Definition longs : list str :=
  [lit "verbosity="; lit "tests="; lit "port="; lit "config_file="; lit "jobs="; lit "split_jobs="; lit "include_tests=";
   lit "include_files="; lit "exclude_files="; lit "exclude_tests="; lit "coverage_output_dir="; lit "coverage_include="; lit "django="].

Inductive key := Verbosity | Port | Jobs | SplitJobs | CovDir | CovInc | IncTests | ExcFiles | IncFiles | ExcTests | Tests | Django | Config.

(** L162-207: the names compared, in their order *)
Definition key_of (o : str) : option key :=
  let is a b := (str_eqb o (lit a) || str_eqb o (lit b))%bool in
  if is "-v"%string "--verbosity"%string then Some Verbosity
  else if is "-p"%string "--port"%string then Some Port
  else if is "-j"%string "--jobs"%string then Some Jobs
  else if is "-s"%string "--split_jobs"%string then Some SplitJobs
  else if is "-d"%string "--coverage_output_dir"%string then Some CovDir
  else if is "-i"%string "--coverage_include"%string then Some CovInc
  else if is "-I"%string "--include_tests"%string then Some IncTests
  else if is "-E"%string "--exclude_files"%string then Some ExcFiles
  else if is "-F"%string "--include_files"%string then Some IncFiles
  else if is "-e"%string "--exclude_tests"%string then Some ExcTests
  else if is "-t"%string "--tests"%string then Some Tests
  else if str_eqb o (lit "--django") then Some Django
  else if is "-c"%string "--config_file"%string then Some Config
  else None.

(** A Configuration; while the options are read the verbosity is text *)
Record config (V : Type) := Config_ {
  dirs : list str;
  verbosity : V;
  port : option Z;
  jobs : Z;
  split_jobs : str;
  cov_dir : option str;
  cov_inc : option str;
  inc_tests : option (list str);
  exc_files : option (list str);
  inc_files : option (list str);
  exc_tests : option (list str);
  tests : option (list str);
  django : bool;
  files : list (str * list str)
}.
Arguments Config_ {V}.
Arguments dirs {V}. Arguments verbosity {V}. Arguments port {V}. Arguments jobs {V}. Arguments split_jobs {V}. Arguments cov_dir {V}.
Arguments cov_inc {V}. Arguments inc_tests {V}. Arguments exc_files {V}. Arguments inc_files {V}. Arguments exc_tests {V}.
Arguments tests {V}. Arguments django {V}. Arguments files {V}.

Fixpoint add (f t : str) (l : list (str * list str)) : list (str * list str) :=
  match l with
  | [] => [(f, [t])]
  | (g, ts) :: r => if str_eqb g f then (g, ts ++ [t]) :: r else (g, ts) :: add f t r
  end.

(** L220-227: the pair of a line *)
Definition pair_of (line : str) : list (str * str) :=
  match pieces 124 line with [f; t] => [(f, t)] | _ => [] end.

Definition add_all (ps : list (str * str)) (l : list (str * list str)) : list (str * list str) :=
  fold_left (fun l p => add (fst p) (snd p) l) ps l.

Definition yes (v : str) : bool := mem (strip v) [lit "true"; lit "True"; lit "1"].

(** L162-230, one option; None: ValueError or AssertionError *)
Definition apply (int : str -> option Z) (lines : str -> list str) (c : config (option str)) (o : str * str) : option (config (option str)) :=
  let v := snd o in
  let '(Config_ di ve po jo sp cd ci it ef fi et ts dj ft) := c in
  match key_of (fst o) with
  | Some Verbosity => Some (Config_ di (Some v) po jo sp cd ci it ef fi et ts dj ft)
  | Some Port => match int v with None => None | Some z => Some (Config_ di ve (Some z) jo sp cd ci it ef fi et ts dj ft) end
  | Some Jobs => match int v with None => None | Some z => Some (Config_ di ve po z sp cd ci it ef fi et ts dj ft) end
  | Some SplitJobs =>
      if mem v [lit "module"; lit "tests"] then Some (Config_ di ve po jo v cd ci it ef fi et ts dj ft) else None
  | Some CovDir => Some (Config_ di ve po jo sp (Some (strip v)) ci it ef fi et ts dj ft)
  | Some CovInc => Some (Config_ di ve po jo sp cd (Some (strip v)) it ef fi et ts dj ft)
  | Some IncTests => Some (Config_ di ve po jo sp cd ci (Some (pieces 44 v)) ef fi et ts dj ft)
  | Some ExcFiles => Some (Config_ di ve po jo sp cd ci it (Some (pieces 44 v)) fi et ts dj ft)
  | Some IncFiles => Some (Config_ di ve po jo sp cd ci it ef (Some (pieces 44 v)) et ts dj ft)
  | Some ExcTests => Some (Config_ di ve po jo sp cd ci it ef fi (Some (pieces 44 v)) ts dj ft)
  | Some Tests => Some (Config_ di ve po jo sp cd ci it ef fi et (Some (pieces 44 v)) dj ft)
  | Some Django => Some (Config_ di ve po jo sp cd ci it ef fi et ts (yes v) ft)
  | Some Config => Some (Config_ di ve po jo sp cd ci it ef fi et ts dj (add_all (flat_map pair_of (lines (strip v))) ft))
  | None => Some c
  end.

Definition defaults : config (option str) := Config_ [] None None 1%Z (lit "tests") None None None None None None None false [].

Definition apply_all int lines (opts : list (str * str)) : option (config (option str)) :=
  fold_left (fun acc o => match acc with None => None | Some c => apply int lines c o end) opts (Some defaults).

(** L104-282 parse_cmdline *)
Definition parse_cmdline (int : str -> option Z) (lines : str -> list str) (chosen : list (str * str)) (argv : list str) : option (config Z) :=
  match gnu_getopt (tl argv) [] longs with
  | inr _ => None
  | inl (opts, ds) =>
      match apply_all int lines opts with
      | None => None
      | Some (Config_ _ ve po jo sp cd ci it ef fi et ts dj ft) =>
          match match ve with None => Some 2%Z | Some v => int v end with
          | None => None
          | Some n =>
              let given := match ts with Some _ => true | None => false end in
              Some (Config_ (flat_map (pieces 124) ds) n po jo sp cd ci it (if given then None else ef) (if given then None else fi)
                      (if given then None else et) ts dj (add_all chosen ft))
          end
      end
  end.
