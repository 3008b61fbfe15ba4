(** Property C78: a program started by the debugger finds what it finds without the debugger. *)
From Coq Require Import String.
From Coq Require Import List NArith Bool Arith.
From Verif Require Import Base StartEnv.
Import ListNotations.
Open Scope list_scope.

(** Specification: Python without the debugger.  The directory of the script, after following links, is the first entry of
    sys.path; for a module it is the current directory. *)
Definition plain_script (W : world) (rest args : list str) (file : str) : view :=
  View (Proc (dirn W (absn W (target W file)) :: rest) (file :: args) 9) 9 (lit "__main__") file.

Definition plain_module (cwd : str) (rest args : list str) (origin : str) : view :=
  View (Proc (cwd :: rest) (origin :: args) 9) 9 (lit "__main__") origin.

(** What python -m runs for a name: the file of the module, or __main__.py of the package. *)
Definition runs_as (W : world) (m origin : str) : Prop :=
  lookup W m = Module origin \/
  (exists d, (lookup W m = Package d \/ lookup W m = Namespace d) /\ lookup W (m ++ lit ".__main__") = Module origin).

(** An import takes the first entry of sys.path which has the module; the empty entry is the current directory. *)
Definition import_from (has : str -> bool) (cwd : str) (p : list str) : option str :=
  find has (map (fun e => if str_eqb e [] then cwd else e) p).

(** A script: a file, neither a directory nor an archive. *)
Definition script (W : world) (file : str) : Prop := isfile W file = true /\ isdir W file = false /\ archive W file = false.

(** The file system and the import system agree on packages. *)
Definition coherent (W : world) : Prop :=
  (forall d, dirn W (join d (lit "__init__.py")) = d) /\
  (forall m f, lookup W m = Module f -> ends_with (lit "__init__.py") f = false) /\
  (forall m d, lookup W m = Package d ->
     lookup W (m ++ lit ".__main__") =
       if isfile W (join d (lit "__main__.py")) then Module (join d (lit "__main__.py")) else Missing).

Lemma load_same t p : load_debugger t p = p.
Proof. unfold load_debugger. now rewrite str_eqb_refl. Qed.

(** A script runs with its own arguments, as the main module, in the names of that module, and its directory is the first
    which is searched. *)
Theorem script_started W prog this_dir safe rest args file :
  script W file ->
  exists v a, debugged W prog this_dir safe rest args false file = Runs v a /\
    argv (vproc v) = argv (vproc (plain_script W rest args file)) /\
    vname v = vname (plain_script W rest args file) /\ vfile v = vfile (plain_script W rest args file) /\
    main (vproc v) = globals v /\ hd [] (path (vproc v)) = dirn W (absn W file).
Proof.
  intros (hf & hd & ha). unfold debugged. rewrite load_same. unfold debug_script, run_path, has_importer.
  rewrite hd. cbn [andb]. rewrite hd, ha, hf. cbn [orb]. unfold run_temp.
  eexists _, _. split; [reflexivity|]. cbn. auto.
Qed.

(** Its imports find what they find without the debugger, if the debugger's own directory has no module of that name. *)
Theorem script_imports W prog this_dir rest args file has cwd v a :
  script W file -> target W file = file -> this_dir <> [] -> has this_dir = false ->
  debugged W prog this_dir false rest args false file = Runs v a ->
  import_from has cwd (path (vproc v)) = import_from has cwd (path (vproc (plain_script W rest args file))).
Proof.
  intros (hf & hd & ha) ht hne hh. unfold debugged. rewrite load_same. unfold debug_script, run_path, has_importer.
  rewrite hd. cbn [andb]. rewrite hd, ha, hf. cbn [orb]. unfold run_temp. intros h. injection h as <- _.
  cbn [plain_script vproc path]. rewrite ht. unfold import_from. cbn [map find].
  match goal with |- context [has ?x] => destruct (has x); [reflexivity|] end.
  unfold drop_entry. cbn [path]. destruct (str_eqb_spec this_dir []) as [e|_]; [congruence|]. cbn [negb andb].
  destruct (starts_with this_dir (absn W file)); [reflexivity|]. cbn [map find].
  destruct (str_eqb_spec this_dir []) as [e|_]; [congruence|]. now rewrite hh.
Qed.

(** An archive runs like a script, and is itself searched first; besides the debugger's directory, the one in which the archive
    lies has come into sys.path.  When the program has ended the archive is taken out once. *)
Theorem archive_started W prog this_dir rest args file has cwd :
  isdir W file = false -> archive W file = true -> file <> [] -> this_dir <> [] ->
  has this_dir = false -> has (if str_eqb (dirn W (absn W file)) [] then cwd else dirn W (absn W file)) = false ->
  exists v a, debugged W prog this_dir false rest args false file = Runs v a /\
    argv (vproc v) = file :: args /\ vname v = lit "__main__" /\ main (vproc v) = globals v /\
    import_from has cwd (path (vproc v)) = import_from has cwd (file :: rest) /\
    (forall x, count_occ str_eq_dec (path (prog v (vproc v))) x =
               count_occ str_eq_dec (path a) x +
               (if str_eq_dec file x then (if in_dec str_eq_dec file (path (prog v (vproc v))) then 1 else 0) else 0)).
Proof.
  intros hd ha hf hne hh hdir. unfold debugged. rewrite load_same. unfold debug_script, run_path, has_importer.
  rewrite hd. cbn [andb]. rewrite hd, ha. cbn [orb]. unfold run_temp.
  eexists _, _. split; [reflexivity|]. cbn [vproc argv vname main globals set0 path].
  split; [reflexivity|]. split; [reflexivity|]. split; [reflexivity|]. split.
  - unfold import_from. cbn [map find]. destruct (str_eqb_spec file []) as [e|_]; [congruence|].
    destruct (has file); [reflexivity|]. unfold str in *. rewrite hdir. unfold drop_entry. cbn [path].
    destruct (str_eqb_spec this_dir []) as [e|_]; [congruence|]. cbn [negb andb].
    destruct (starts_with this_dir (absn W file)); [reflexivity|]. cbn [map find].
    destruct (str_eqb_spec this_dir []) as [e|_]; [congruence|]. now rewrite hh.
  - intros x. match goal with |- context [prog ?v ?p] => generalize (path (prog v p)) end. intros l.
    induction l as [|y l IH]; cbn [remove1 count_occ].
    + cbn [in_dec]. destruct (str_eq_dec file x); reflexivity.
    + destruct (str_eqb_spec y file) as [->|n].
      * destruct (in_dec str_eq_dec file (file :: l)) as [_|c]; [|destruct c; now left].
        destruct (str_eq_dec file x); [|now rewrite Nat.add_0_r]. now rewrite Nat.add_1_r.
      * cbn [count_occ]. destruct (in_dec str_eq_dec file (y :: l)) as [i|i].
        -- destruct i as [e|i]; [congruence|]. destruct (in_dec str_eq_dec file l) as [_|c]; [|contradiction].
           destruct (str_eq_dec y x); rewrite IH; reflexivity.
        -- destruct (in_dec str_eq_dec file l) as [c|_]; [destruct i; now right|].
           destruct (str_eq_dec y x); rewrite IH; reflexivity.
Qed.

(** A module runs with the file of the module as sys.argv[0], like with python -m. *)
Theorem module_started W prog this_dir safe rest args m origin cwd :
  coherent W -> runs_as W m origin ->
  exists v a, debugged W prog this_dir safe rest args true m = Runs v a /\
    argv (vproc v) = argv (vproc (plain_module cwd rest args origin)) /\
    vname v = vname (plain_module cwd rest args origin) /\ vfile v = vfile (plain_module cwd rest args origin) /\
    main (vproc v) = globals v /\ main a = main (prog v (vproc v)).
Proof.
  intros (hj & hm & hp) hr. unfold debugged. rewrite load_same. unfold debug_module.
  assert (e : module_file W m = Some origin /\ details W m = Some origin).
  { unfold module_file, get_fullname, get_package_dir, details. destruct hr as [h|(d & [h|h] & h')]; rewrite h.
    - now rewrite (hm _ _ h).
    - assert (e : ends_with (lit "__init__.py") (join d (lit "__init__.py")) = true).
      { apply ends_with_spec. exists (d ++ [47%N]). unfold join. now rewrite <- app_assoc. }
      rewrite e, hj. rewrite (hp _ _ h) in h' |- *.
      destruct (isfile W (join d (lit "__main__.py"))); [|discriminate]. injection h' as <-. auto.
    - rewrite h'. auto. }
  destruct e as (-> & e). unfold run_module. rewrite e. eexists _, _. split; [reflexivity|]. cbn. auto.
Qed.

(** Its imports find what they find with python -m, as long as the current directory stays. *)
Theorem module_imports W prog this_dir rest args m origin has cwd v a :
  coherent W -> runs_as W m origin -> this_dir <> [] -> ~ In [] rest -> cwd <> [] -> has this_dir = false ->
  debugged W prog this_dir false rest args true m = Runs v a ->
  import_from has cwd (path (vproc v)) = import_from has cwd (path (vproc (plain_module cwd rest args origin))).
Proof.
  intros hc hr hne hin hcwd hh. unfold debugged. rewrite load_same. unfold debug_module.
  destruct (module_file W m) as [f|]; [|discriminate]. unfold run_module. destruct (details W m) as [o|]; [|discriminate].
  intros h. injection h as <- _. cbn [path vproc plain_module].
  assert (e : existsb (fun x => str_eqb x []) (this_dir :: rest) = false).
  { apply not_true_is_false. intros h. apply existsb_exists in h as (x & [<-|i] & h); apply str_eqb_eq in h; [congruence|].
    now subst x. }
  cbn [existsb] in e. unfold str in *. rewrite e.
  unfold drop_entry. rewrite str_eqb_refl. cbn [negb andb]. unfold import_from. cbn [map find].
  rewrite str_eqb_refl. destruct (str_eqb_spec cwd []) as [e'|_]; [congruence|]. destruct (has cwd); [reflexivity|].
  destruct (str_eqb_spec this_dir []) as [e'|_]; [congruence|]. now rewrite hh.
Qed.

(** What cannot be found is not run, as without the debugger. *)
Theorem missing_not_run W prog this_dir safe rest args :
  (forall m, lookup W m = Missing -> debugged W prog this_dir safe rest args true m = Fails) /\
  (forall f, isfile W f = false -> isdir W f = false -> archive W f = false ->
     debugged W prog this_dir safe rest args false f = Fails).
Proof.
  split.
  - intros m h. unfold debugged, debug_module, module_file, get_fullname, get_package_dir. now rewrite h.
  - intros f h1 h2 h3. unfold debugged, debug_script, run_path, has_importer. rewrite h2. cbn [andb]. now rewrite h2, h3, h1.
Qed.

(** When the script has ended, sys.argv[0] is the one of the start again, and its other arguments are what it left. *)
Theorem argv_restored W prog this_dir safe rest args file v a :
  script W file -> debugged W prog this_dir safe rest args false file = Runs v a ->
  path a = path (prog v (vproc v)) /\ tl (argv a) = tl (argv (prog v (vproc v))) /\
  (argv (prog v (vproc v)) <> [] -> hd [] (argv a) = file).
Proof.
  intros (hf & hd & ha). unfold debugged. rewrite load_same. unfold debug_script, run_path, has_importer.
  rewrite hd. cbn [andb]. rewrite hd, ha, hf. cbn [orb]. unfold run_temp. intros h. injection h as <- <-.
  cbn [path argv vproc set0].
  match goal with |- context [argv ?p] => destruct (argv p) as [|x l]; cbn; auto end.
  split; [reflexivity|]. split; [reflexivity|]. congruence.
Qed.

(** Witnesses. *)
Definition world1 : world :=
  World (fun f => f) (fun f => match f with
                               | _ => if starts_with (lit "/p/m/") f then lit "/p/m" else if starts_with (lit "/p/") f then lit "/p"
                                      else if starts_with (lit "/link/") f then lit "/link" else lit "/other" end)
    (fun f => if str_eqb f (lit "/link/a.py") then lit "/p/a.py" else f)
    (fun f => str_eqb f (lit "/p/m") || str_eqb f (lit "/p"))
    (fun f => str_eqb f (lit "/p/a.py") || str_eqb f (lit "/link/a.py") || str_eqb f (lit "/p/m/__main__.py"))
    (fun f => str_eqb f (lit "/z/a.zip"))
    (fun m => if str_eqb m (lit "mod") then Module (lit "/p/mod.py") else Missing).

Definition idle : view -> proc -> proc := fun _ p => p.

Example script1 :
  script world1 (lit "/p/a.py") /\ target world1 (lit "/p/a.py") = lit "/p/a.py" /\
  debugged world1 idle (lit "/dbg") false [lit "/lib"] [lit "x"] false (lit "/p/a.py") =
    Runs (View (Proc [lit "/p"; lit "/dbg"; lit "/lib"] [lit "/p/a.py"; lit "x"] 2) 2 (lit "__main__") (lit "/p/a.py"))
         (Proc [lit "/p"; lit "/dbg"; lit "/lib"] [lit "/p/a.py"; lit "x"] 1).
Proof. vm_compute. auto. Qed.

Example archive1 :
  isdir world1 (lit "/z/a.zip") = false /\ archive world1 (lit "/z/a.zip") = true /\
  debugged world1 idle (lit "/dbg") false [lit "/lib"] [lit "x"] false (lit "/z/a.zip") =
    Runs (View (Proc [lit "/z/a.zip"; lit "/other"; lit "/dbg"; lit "/lib"] [lit "/z/a.zip"; lit "x"] 2) 2 (lit "__main__")
               (lit "/z/a.zip/__main__.py"))
         (Proc [lit "/other"; lit "/dbg"; lit "/lib"] [lit "/z/a.zip"; lit "x"] 1).
Proof. vm_compute. auto. Qed.

(** A world with modules and packages which meets the conditions. *)
Fixpoint after_slash (s : str) : str := match s with [] => [] | c :: r => if N.eqb c 47 then r else after_slash r end.

Definition world2 : world :=
  World (fun f => f) (fun f => rev (after_slash (rev f)))
    (fun f => f) (fun _ => false) (fun f => str_eqb f (lit "/p/pkg/__main__.py")) (fun _ => false)
    (fun m => if str_eqb m (lit "pkg") then Package (lit "/p/pkg")
              else if str_eqb m (lit "pkg.__main__") then Module (lit "/p/pkg/__main__.py") else Missing).

Lemma coherent2 : coherent world2.
Proof.
  repeat split.
  - intros d. unfold world2, join. cbn [dirn]. rewrite !rev_app_distr. cbn. apply rev_involutive.
  - intros m f. unfold world2. cbn [lookup]. destruct (str_eqb m (lit "pkg")); [discriminate|].
    destruct (str_eqb m (lit "pkg.__main__")); [|discriminate]. intros h. injection h as <-. reflexivity.
  - intros m d. unfold world2. cbn [lookup isfile]. destruct (str_eqb_spec m (lit "pkg")) as [->|_].
    + intros h. injection h as <-. reflexivity.
    + destruct (str_eqb m (lit "pkg.__main__")); discriminate.
Qed.

Example module1 :
  runs_as world2 (lit "pkg") (lit "/p/pkg/__main__.py") /\
  debugged world2 idle (lit "/dbg") false [lit "/lib"] [lit "x"] true (lit "pkg") =
    Runs (View (Proc [[]; lit "/dbg"; lit "/lib"] [lit "/p/pkg/__main__.py"; lit "x"] 1) 1 (lit "__main__")
               (lit "/p/pkg/__main__.py"))
         (Proc [[]; lit "/dbg"; lit "/lib"] [lit "/p/pkg/__main__.py"; lit "x"] 1).
Proof.
  split; [|vm_compute; reflexivity]. right. exists (lit "/p/pkg"). split; [left|]; vm_compute; reflexivity.
Qed.

(** Finding: the directory of the debugger stays in sys.path, before the other entries: a module of the program's libraries
    which is called like one in there is not found. *)
Theorem own_dir_refuted :
  exists W rest file this_dir has v a, script W file /\ target W file = file /\
    debugged W idle this_dir false rest [] false file = Runs v a /\
    import_from has (lit "/") (path (vproc v)) <> import_from has (lit "/") (path (vproc (plain_script W rest [] file))).
Proof.
  exists world1, [lit "/lib"], (lit "/p/a.py"), (lit "/dbg"), (fun d => str_eqb d (lit "/dbg") || str_eqb d (lit "/lib")).
  eexists _, _. split; [vm_compute; auto|]. split; [vm_compute; reflexivity|]. split; [vm_compute; reflexivity|].
  vm_compute. discriminate.
Qed.

(** Finding: when Python was told not to put the directory of the main program into sys.path, the debugger removes the first
    entry of PYTHONPATH if the path of the script starts with it. *)
Theorem safe_path_refuted :
  exists W rest file this_dir v a e, script W file /\ In e rest /\
    debugged W idle this_dir true rest [] false file = Runs v a /\ ~ In e (path (vproc v)).
Proof.
  exists (World (fun f => f) (fun _ => lit "/p/app") (fun f => f) (fun _ => false) (fun _ => true) (fun _ => false) (fun _ => Missing)),
    [lit "/p"; lit "/lib"], (lit "/p/app/a.py"), (lit "/dbg").
  eexists _, _, (lit "/p"). split; [vm_compute; auto|]. split; [now left|]. split; [vm_compute; reflexivity|].
  vm_compute. intros [h|[h|[]]]; discriminate.
Qed.

(** Finding: for a script which is a symbolic link the directory of the link is searched, not the one of the script. *)
Theorem link_refuted :
  exists W rest file this_dir has v a, script W file /\ has this_dir = false /\
    debugged W idle this_dir false rest [] false file = Runs v a /\
    import_from has (lit "/") (path (vproc v)) <> import_from has (lit "/") (path (vproc (plain_script W rest [] file))).
Proof.
  exists world1, [lit "/lib"], (lit "/link/a.py"), (lit "/dbg"), (fun d => str_eqb d (lit "/p")).
  eexists _, _. split; [vm_compute; auto|]. split; [vm_compute; reflexivity|]. split; [vm_compute; reflexivity|].
  vm_compute. discriminate.
Qed.

(** Finding: a directory with a __main__.py is run, but sys.argv[0] is not the directory. *)
Theorem dir_argv_refuted :
  exists W dir this_dir v a, isdir W dir = true /\ debugged W idle this_dir false [] [] false dir = Runs v a /\
    hd [] (argv (vproc v)) <> dir.
Proof.
  exists world1, (lit "/p/m"), (lit "/dbg"). eexists _, _. split; [vm_compute; reflexivity|].
  split; [vm_compute; reflexivity|]. vm_compute. discriminate.
Qed.

(** Finding: when the script has ended - while its other threads still run - the module __main__ of sys.modules is no longer
    the one in whose names the program runs. *)
Theorem main_gone_refuted :
  exists W file this_dir v a, script W file /\ debugged W idle this_dir false [] [] false file = Runs v a /\
    main (vproc v) = globals v /\ main a <> globals v.
Proof.
  exists world1, (lit "/p/a.py"), (lit "/dbg"). eexists _, _. split; [vm_compute; auto|].
  split; [vm_compute; reflexivity|]. split; [reflexivity|]. vm_compute. discriminate.
Qed.

(** Finding: for a module the search follows the program when it changes the current directory; python -m searches in the
    directory of the start. *)
Theorem chdir_refuted :
  exists W m origin rest this_dir has cwd cwd' v a, runs_as W m origin /\ has this_dir = false /\
    debugged W idle this_dir false rest [] true m = Runs v a /\
    import_from has cwd' (path (vproc v)) <> import_from has cwd' (path (vproc (plain_module cwd rest [] origin))).
Proof.
  exists world1, (lit "mod"), (lit "/p/mod.py"), [lit "/lib"], (lit "/dbg"), (fun d => str_eqb d (lit "/p")), (lit "/p"), (lit "/tmp").
  eexists _, _. split; [left; vm_compute; reflexivity|]. split; [vm_compute; reflexivity|]. split; [vm_compute; reflexivity|].
  vm_compute. discriminate.
Qed.

Print Assumptions script_started.
Print Assumptions script_imports.
Print Assumptions archive_started.
Print Assumptions module_started.
Print Assumptions module_imports.
Print Assumptions missing_not_run.
Print Assumptions argv_restored.
Print Assumptions own_dir_refuted.
Print Assumptions safe_path_refuted.
Print Assumptions link_refuted.
Print Assumptions dir_argv_refuted.
Print Assumptions main_gone_refuted.
Print Assumptions chdir_refuted.
