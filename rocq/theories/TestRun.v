(** Model of the runner of unit tests: which tests are found, chosen, run and reported (property C58).
    Sources: /repo/_pydev_runfiles/pydev_runfiles.py: parse_cmdline, PydevTestRunner;
    /repo/_pydev_runfiles/pydev_runfiles_parallel.py: execute_tests_in_parallel, CommunicationThread.GetTestsToRun;
    /repo/_pydev_runfiles/pydev_runfiles_parallel_client.py: run_client; /repo/_pydev_runfiles/pydev_runfiles_unittest.py: PydevTestResult.
    Not modelled: importing (what a file defines is given, and the same in each process), coverage, django, load_tests and
    the parsing of options. *)
From Coq Require Import String.
From Coq Require Import List NArith Bool Arith.
From Verif Require Import Base Dict Glob.
Import ListNotations.
Open Scope list_scope.

Definition is_nil {A : Type} (l : list A) : bool := match l with [] => true | _ => false end.
Definition mem (x : str) (l : list str) : bool := existsb (str_eqb x) l.

(** * Files *)
(** What is on the disk: a file, or a directory with its entries in the order of os.walk. *)
Inductive node := File (name : str) | Folder (name : str) (l : list node).
(** __is_valid_py_file, L349-358 *)
Definition valid_py_file (n : str) : bool := negb (starts_with (lit "__init__.") n) && (ends_with (lit ".py") n || ends_with (lit ".pyw") n).
Definition inits : list str := [lit "__init__.py"; lit "__init__.pyo"; lit "__init__.pyc"; lit "__init__.pyw"; lit "__init__$py.class"].
Definition has_init (l : list node) : bool := existsb (fun x => match x with File n => mem n inits | Folder _ _ => false end) l.
Definition join_path (root n : str) : str := root ++ lit "/" ++ n.
(** find_import_files, L391-421: the files of a directory, then those of the directories in it which have an __init__ file.  A directory
    called as an __init__ file is not taken for one. *)
Definition files_of (path : str) (l : list node) : list str :=
  flat_map (fun x => match x with File n => if valid_py_file n then [join_path path n] else [] | Folder _ _ => [] end) l.
Fixpoint walk (path : str) (x : node) : list str :=
  match x with
  | File _ => []
  | Folder _ l => files_of path l ++ flat_map (fun x => match x with Folder n l' => if has_init l' then walk (join_path path n) x else [] | File _ => [] end) l
  end.
(** The files and directories of the command line: for those which do not exist, None. *)
Definition found (p : str * option node) : list str := match p with (path, Some (Folder n l)) => walk path (Folder n l) | (path, Some (File _)) => [path] | (_, None) => [] end.

Record config := Config {
  include_tests : list str; exclude_tests : list str; include_files : list str; exclude_files : list str;
  tests : list str; files_to_tests : list (str * list str); files_or_dirs : list (str * option node) }.
(** os.path.basename *)
Definition basename (p : str) : str := last (split_on 47 p) [].
(** find_import_files, L391-462, with the patterns *)
Definition import_files (fm : str -> str -> bool) (c : config) : list str :=
  let l := if is_nil (files_to_tests c) then flat_map found (files_or_dirs c) else keys (files_to_tests c) in
  if is_nil (exclude_files c) && is_nil (include_files c) then l
  else filter (fun f => (is_nil (include_files c) || existsb (fm (basename f)) (include_files c)) && negb (existsb (fm (basename f)) (exclude_files c))) l.

(** * Tests *)
(** A class: its name, what dir() lists for it (sorted) with whether it can be called. *)
Record class := Class { cname : str; attrs : list (str * bool) }.
(** The test cases a module has, in the order of dir(module). *)
Definition modul := list class.
Definition test := (str * str * str)%type.   (* the file, the name of the class and the method *)
Inductive suite := Case (t : test) | Suite (l : list suite).
Definition full (c m : str) : str := c ++ lit "." ++ m.
Definition callables (c : class) : list str := map fst (filter snd (attrs c)).
(** getTestCaseNames of unittest *)
Definition default_names (c : class) : list str := filter (starts_with (lit "test")) (callables c).
(** GetTestCaseNames.__call__, L544-564 *)
Definition chosen_names (classes methods : list str) (c : class) : list str :=
  if mem (cname c) classes then filter (starts_with (lit "test")) (callables c)
  else filter (fun m => mem (full (cname c) m) methods) (callables c).
(** loadTestsFromTestCase and loadTestsFromModule of unittest: runTest when there is no other *)
Definition load_class (names : class -> list str) (file : str) (c : class) : suite :=
  let l := names c in
  let l := if is_nil l && existsb (fun a => str_eqb (fst a) (lit "runTest")) (attrs c) then [lit "runTest"] else l in
  Suite (map (fun m => Case (file, cname c, m)) l).
Definition load_module (names : class -> list str) (file : str) (m : modul) : suite := Suite (map (load_class names file) m).
(** _decorate_test_suite, L566-586: whether there are tests *)
Fixpoint has_tests (s : suite) : bool := match s with Case _ => true | Suite l => existsb has_tests l end.
(** find_tests_from_modules, L588-632 *)
Definition is_class (t : str) : bool := length (split_on 46 t) =? 1.
Definition is_method (t : str) : bool := length (split_on 46 t) =? 2.
Definition find_tests (c : config) (modules : list (str * modul)) : list suite :=
  let names f := if negb (is_nil (files_to_tests c)) then chosen_names [] (match get str_eqb f (files_to_tests c) with Some l => l | None => [] end)
                 else if negb (is_nil (tests c)) then chosen_names (filter is_class (tests c)) (filter is_method (tests c)) else default_names in
  filter has_tests (map (fun m => load_module (names (fst m)) (fst m) (snd m)) modules).
(** __match_tests, L729-744 *)
Definition match_tests (l : list str) (cls m : str) : bool :=
  is_nil l || existsb (fun t => match split_on 46 t with [a] => str_eqb a cls | [a; b] => str_eqb a cls && str_eqb b m | _ => false end) l.
(** filter_tests, L634-703 *)
Definition keep (fm : str -> str -> bool) (c : config) (l : list str) (t : test) : bool :=
  let '(_, cls, m) := t in
  negb (existsb (fm m) (exclude_tests c)) && match_tests l cls m && (is_nil (include_tests c) || existsb (fm m) (include_tests c)).
Fixpoint filter_suite (k : test -> bool) (s : suite) : list suite :=
  match s with
  | Case t => if k t then [s] else []
  | Suite l => match flat_map (filter_suite k) l with [] => [] | l' => [Suite l'] end
  end.
(** The names given with tests are not used when there is a file with names (__init__, L307-324). *)
Definition effective_tests (c : config) : list str := if is_nil (files_to_tests c) then tests c else [].
Definition filter_tests (fm : str -> str -> bool) (c : config) (l : list suite) : list suite :=
  if is_nil (include_tests c) && is_nil (effective_tests c) && is_nil (exclude_tests c) then l
  else flat_map (filter_suite (keep fm c (effective_tests c))) l.
(** flatten_test_suite and the order in which a suite is run *)
Fixpoint flatten (s : suite) : list test := match s with Case t => [t] | Suite l => flat_map flatten l end.
(** run_tests, L755-786; [load]: what the file defines, None when it cannot be imported. *)
Definition modules (load : str -> option modul) (files : list str) : list (str * modul) :=
  flat_map (fun f => match load f with Some m => [(f, m)] | None => [] end) files.
Definition all_tests (fm : str -> str -> bool) (load : str -> option modul) (c : config) : list suite :=
  filter_tests fm c (find_tests c (modules load (import_files fm c))).
Definition run_single fm load c : list test := flat_map flatten (all_tests fm load c).
(** notifyTestsCollected: countTestCases *)
Definition collected fm load c : nat := length (run_single fm load c).

(** * Several processes *)
(** The batches, L61-103: the tests of each module, or each on its own; as texts. *)
Fixpoint group (l : list test) (acc : list (str * list test)) : list (str * list test) :=
  match l with
  | [] => acc
  | t :: r => let f := fst (fst t) in group r (set str_eqb f (match get str_eqb f acc with Some x => x | None => [] end ++ [t]) acc)
  end.
Definition batches (by_module : bool) (l : list test) : list (list test) := if by_module then map snd (group l []) else map (fun t => [t]) l.
Definition test_text (t : test) : str := let '(f, c, m) := t in f ++ lit "|" ++ full c m.
Definition queue_of (by_module : bool) (l : list test) : list (list str) := map (map test_text) (batches by_module l).
(** The number of processes, L74-76 and L85-87; with less than two the tests are not run in parallel (L105). *)
Definition jobs_used (by_module : bool) (jobs : nat) (l : list test) : nat := min jobs (length (batches by_module l)).
(** run_client, L128-166: a batch is run as the tests of its files. *)
Fixpoint to_files (l : list str) (acc : list (str * list str)) : list (str * list str) :=
  match l with
  | [] => acc
  | t :: r => to_files r (match split_on 124 t with [f; n] => set str_eqb f (match get str_eqb f acc with Some x => x | None => [] end ++ [n]) acc | _ => acc end)
  end.
Definition batch_config (l : list str) : config := Config [] [] [] [] [] (to_files l []) [].
Definition run_batch fm load (l : list str) : list test := run_single fm load (batch_config l).
(** The processes ask for batches, in any order, until they are given none (GetTestsToRun, L168-180); one may die before it has run all of its batch. *)
Record pool := Pool { queue : list (list str); over : list nat; ran : list test }.
Inductive ask := Asks (i : nat) | Dies (i : nat) (n : nat).
Definition who (a : ask) : nat := match a with Asks i | Dies i _ => i end.
Definition serve fm load (p : pool) (a : ask) : pool :=
  if existsb (Nat.eqb (who a)) (over p) then p
  else match queue p with
       | [] => Pool [] (who a :: over p) (ran p)
       | b :: q => match a with
                   | Asks _ => Pool q (over p) (ran p ++ run_batch fm load b)
                   | Dies i n => Pool q (i :: over p) (ran p ++ firstn n (run_batch fm load b))
                   end
       end.
Definition run_pool fm load by_module (l : list test) (asks : list ask) : pool := fold_left (serve fm load) asks (Pool (queue_of by_module l) [] []).
(** execute_tests_in_parallel returns when all have exited (L131-139). *)
Definition finished (jobs : nat) (p : pool) : bool := forallb (fun i => existsb (Nat.eqb i) (over p)) (seq 0 jobs).

(** run_tests, L789-805: the tests which were run; not in parallel under the debugger (L48-54). *)
Definition executed fm load (c : config) (jobs : nat) (by_module debugged : bool) (asks : list ask) : list test :=
  let l := run_single fm load c in
  if (1 <? jobs) && negb debugged && (1 <? jobs_used by_module jobs l) then ran (run_pool fm load by_module l asks) else l.

(** * Reports *)
(** What unittest calls for one test; the texts are those of the exceptions.  [held]: the test is an _ErrorHolder, made for a class or module.
    addSkip, addExpectedFailure and addUnexpectedSuccess are not overridden. *)
Inductive call := AddError (held : bool) (name text : str) | AddFailure (name text : str) | AddSubTest (description : str) (err : option str) | AddOther.
Inductive cond := Ok | Fail | Err | Skip.
Inductive note := Started (file name : str) | Result (c : cond) (contents : list str) (file name : str).
(** The lists of PydevTestResult which startTest empties; None before the first test. *)
Record result := Res { errors : option (list str); failures : option (list str) }.
(** _reportErrors, L92-120.  The file of an _ErrorHolder is searched in the text: [guess]. *)
Definition report (guess : str -> str) (errs fails : list str) (file : option str) (name : str) : note :=
  let contents := errs ++ fails in
  let file := match file with Some f => f | None => guess (concat contents) end in
  Result (match errs, fails with _ :: _, [] => Err | [], _ :: _ => Fail | _, _ => Err end) contents file name.
Definition add (o : option (list str)) (s : str) : option (list str) := option_map (fun l => l ++ [s]) o.
Definition on_call guess (t : test) (r : result) (c : call) : result * list note :=
  let '(f, cls, m) := t in
  match c with
  | AddError held n s => match held, errors r with false, Some _ => (Res (add (errors r) s) (failures r), []) | _, _ => (r, [report guess [s] [] (if held then None else Some f) n]) end
  | AddFailure n s => match failures r with Some _ => (Res (errors r) (add (failures r) s), []) | None => (r, [report guess [] [s] (Some f) n]) end
  | AddSubTest d (Some s) => (r, [report guess [s] [] (Some f) (full cls m ++ lit " " ++ d)])
  | AddSubTest d None => (r, [])
  | AddOther => (r, [])
  end.
Fixpoint on_calls guess t (r : result) (l : list call) : result * list note :=
  match l with [] => (r, []) | c :: l => let '(r, n) := on_call guess t r c in let '(r, n') := on_calls guess t r l in (r, n ++ n') end.
Definition held_list (o : option (list str)) : list str := match o with Some l => l | None => [] end.
(** startTest L36-49, the calls, and stopTest L67-90; [skipped]: the outcome of the test lists a skip. *)
Definition run_test guess (r : result) (t : test) (l : list call) (skipped : bool) : result * list note :=
  let '(f, cls, m) := t in
  let '(r, n) := on_calls guess t (Res (Some []) (Some [])) l in
  (r, Started f (full cls m) :: n ++
    [if skipped then Result Skip [] f (full cls m)
     else if is_nil (held_list (errors r)) && is_nil (held_list (failures r)) then Result Ok [] f (full cls m)
     else report guess (held_list (errors r)) (held_list (failures r)) (Some f) (full cls m)]).
(** A run: for each test what unittest calls. *)
Fixpoint run_all guess (r : result) (l : list (test * list call * bool)) : list note :=
  match l with [] => [] | (t, c, k) :: l => let '(r, n) := run_test guess r t c k in n ++ run_all guess r l end.
(** ServerComm.run of the client, L45-80: what is waiting is sent at once, until the end; [sizes]: how many were waiting each time. *)
Inductive message (A : Type) := Notification (x : A) | Kill.
Arguments Notification {A}. Arguments Kill {A}.
Definition payload {A} (l : list (message A)) : list A := flat_map (fun x => match x with Notification x => [x] | Kill => [] end) l.
Fixpoint send {A} (waiting : list (message A)) (sizes : list nat) : list (list A) :=
  match sizes with
  | [] => []
  | n :: r => let now := firstn (S n) waiting in
      match now with
      | [] => []
      | _ => payload now :: (if existsb (fun x => match x with Kill => true | _ => false end) now then [] else send (skipn (S n) waiting) r)
      end
  end.
