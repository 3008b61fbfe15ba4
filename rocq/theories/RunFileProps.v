(** Property C83: a file run again in the console finds its modules gone, and the console as it was afterwards. *)
From Coq Require Import String.
From Coq Require Import List NArith Bool Lia.
From Verif Require Import Base RunFile.
Import ListNotations.
Open Scope list_scope.

(** Specification. *)
(** A part of a dotted name. *)
Definition component (name part : str) : Prop :=
  ~ In 46%N part /\
  exists a b, name = a ++ part ++ b /\ (a = [] \/ exists a', a = a' ++ [46%N]) /\ (b = [] \/ exists b', b = 46%N :: b').

(** A path of the Python installation or of the debugger. *)
Definition of_library (prefix : str) (pysrc : option str) (path : str) : Prop :=
  (exists r, path = prefix ++ r) \/ (exists p r, pysrc = Some p /\ path = p ++ r).

(** A module of the user: with a path not of the library, loaded after the first run, and no part of its name is listed. *)
Definition of_user (prefix : str) (pysrc : option str) (first : outside) (m : str * option str) : Prop :=
  ~ In (fst m) (map fst (modules first)) /\
  (exists path, snd m = Some path /\ ~ of_library prefix pysrc path) /\
  ~ (exists names part, umd_names first = Some names /\ In part (pieces 44 names) /\ component (fst m) part).

(** Deleting is switched on. *)
Definition enabled (o : outside) : Prop := exists s, umd_enabled o = Some s /\ lower s = lit "true".

(** What a program run by the call sees when it starts: whatever the program, what it makes of this is there in the end. *)
Definition starts_at prefix pysrc dir_ok (c : call) (o : outside) (d : option deleter) (start : outside) : Prop :=
  forall p, let r := fst (fst (runfile prefix pysrc dir_ok (Call (filename c) (args c) (wdir c) p) o d)) in
    modules r = modules (fst (p start)) /\ cwd r = cwd (fst (p start)) /\
    umd_enabled r = umd_enabled (fst (p start)) /\ umd_names r = umd_names (fst (p start)).

(** Lists and text. *)
Lemma mem_iff x l : mem x l = true <-> In x l.
Proof.
  unfold mem. rewrite existsb_exists. split.
  - intros (y & i & e). destruct (str_eqb_spec x y) as [->|n]; [exact i|discriminate].
  - intros i. exists x. split; [exact i|]. destruct (str_eqb_spec x x) as [_|n]; [reflexivity|congruence].
Qed.

Lemma pieces_nonempty c s : pieces c s <> [].
Proof. destruct s as [|x r]; cbn [pieces]; [discriminate|]. destruct (N.eqb x c); [discriminate|]. destruct (pieces c r); discriminate. Qed.

Lemma pieces_app c w b : ~ In c w -> (b = [] \/ exists b', b = c :: b') ->
  pieces c (w ++ b) = w :: match b with [] => [] | _ :: b' => pieces c b' end.
Proof.
  intros hw hb. induction w as [|x w IH].
  - destruct hb as [->|(b' & ->)]; cbn [app pieces]; [reflexivity|]. now rewrite N.eqb_refl.
  - cbn [app pieces]. destruct (N.eqb_spec x c) as [->|n]; [exfalso; apply hw; now left|].
    rewrite IH by (intros i; apply hw; now right). reflexivity.
Qed.

Lemma pieces_sep c a s : exists l, pieces c (a ++ c :: s) = l ++ pieces c s.
Proof.
  induction a as [|x a (l & IH)].
  - exists [[]]. cbn [app pieces]. now rewrite N.eqb_refl.
  - cbn [app pieces]. rewrite IH. destruct (N.eqb x c); [now exists ([] :: l)|]. destruct l as [|w l].
    + exfalso. clear - IH.
      assert (h : forall s a, length (pieces c s) < length (pieces c (a ++ c :: s))).
      { clear. intros s a. induction a as [|x a IH]; cbn [app pieces].
        - rewrite N.eqb_refl. cbn [length]. lia.
        - destruct (N.eqb x c); [cbn [length]; lia|]. destruct (pieces c (a ++ c :: s)); cbn [length] in *; lia. }
      specialize (h s a). rewrite IH in h. cbn [app] in h. lia.
    + exists ((x :: w) :: l). reflexivity.
Qed.

Lemma pieces_in name part : In part (pieces 46 name) <-> component name part.
Proof.
  split.
  - intros h. assert (g : ~ In 46%N part /\ exists a b, name = a ++ part ++ b /\ (a = [] \/ exists a', a = a' ++ [46%N]) /\ (b = [] \/ exists b', b = 46%N :: b')).
    2: exact g.
    assert (k : forall name, match pieces 46 name with
                | [] => False
                | w :: ws => ~ In 46%N w /\ (exists b, name = w ++ b /\ (b = [] \/ exists b', b = 46%N :: b')) /\
                    forall part, In part ws -> ~ In 46%N part /\ exists a b, name = (a ++ [46%N]) ++ part ++ b /\ (b = [] \/ exists b', b = 46%N :: b')
                end).
    { clear. induction name as [|x r IH]; cbn [pieces].
      - split; [intros []|]. split; [exists []; auto|]. intros part [].
      - destruct (pieces 46 r) as [|w ws] eqn:E; [destruct IH|]. destruct IH as (h1 & (b & e & hb) & h3). destruct (N.eqb_spec x 46) as [->|n].
        + split; [intros []|]. split; [exists (46%N :: r); split; [reflexivity|right; now exists r]|].
          intros part [<-|i].
          * split; [exact h1|]. exists [], b. split; [cbn [app]; now rewrite <- e|exact hb].
          * destruct (h3 part i) as (g1 & a & b2 & e2 & g2). split; [exact g1|]. exists (46%N :: a), b2. split; [cbn [app] in *; now rewrite e2|exact g2].
        + split; [intros [e2|i]; [now apply n|now apply h1]|]. split; [exists b; split; [cbn [app]; now rewrite e|exact hb]|].
          intros part i. destruct (h3 part i) as (g1 & a & b2 & e2 & g2). split; [exact g1|]. exists (x :: a), b2. split; [cbn [app] in *; now rewrite e2|exact g2]. }
    specialize (k name). destruct (pieces 46 name) as [|w ws]; [destruct k|]. destruct k as (h1 & (b & e & hb) & h3). destruct h as [<-|i].
    + split; [exact h1|]. exists [], b. auto.
    + destruct (h3 part i) as (g1 & a & b2 & e2 & g2). split; [exact g1|]. exists (a ++ [46%N]), b2. split; [exact e2|]. split; [right; now exists a|exact g2].
  - intros (hd & a & b & -> & ha & hb). destruct ha as [->|(a' & ->)].
    + cbn [app]. rewrite pieces_app by assumption. now left.
    + rewrite <- app_assoc. cbn [app]. destruct (pieces_sep 46 a' (part ++ b)) as (l & ->). apply in_or_app. right.
      rewrite pieces_app by assumption. now left.
Qed.

Lemma ignored_iff prefix pysrc o name path :
  ignored prefix (new_deleter pysrc o) name path = true <->
  of_library prefix pysrc path \/ (exists names part, umd_names o = Some names /\ In part (pieces 44 names) /\ component name part).
Proof.
  unfold ignored, new_deleter. cbn [pathlist namelist]. rewrite orb_true_iff, !existsb_exists. split.
  - intros [(p & i & e)|(part & i & e)].
    + left. apply starts_with_spec in e as (r & ->). destruct i as [<-|i]; [left; now exists r|]. right. destruct pysrc as [q|]; [|destruct i].
      destruct i as [->|[]]. now exists p, r.
    + right. apply mem_iff in e. destruct (umd_names o) as [names|]; [|destruct e]. exists names, part. split; [reflexivity|]. split; [exact e|]. now apply pieces_in.
  - intros [[(r & ->)|(p & r & -> & ->)]|(names & part & -> & i & h)].
    + left. exists prefix. split; [now left|apply starts_with_app].
    + left. exists p. split; [right; now left|apply starts_with_app].
    + right. exists part. split; [now apply pieces_in|now apply mem_iff].
Qed.

Lemma stays_iff prefix pysrc o m : stays prefix (new_deleter pysrc o) m = true <-> ~ of_user prefix pysrc o m.
Proof.
  unfold stays, of_user. cbn [new_deleter previous]. destruct m as [name path]. cbn [fst snd].
  destruct (mem name (map fst (modules o))) eqn:E.
  - apply mem_iff in E. split; [|reflexivity]. intros _ (h & _). now apply h.
  - assert (hn : ~ In name (map fst (modules o))) by (intros i; apply mem_iff in i; congruence). destruct path as [path|].
    + destruct (ignored prefix (new_deleter pysrc o) name path) eqn:I; fold (new_deleter pysrc o); rewrite ?I.
      * split; [|reflexivity]. intros _ (_ & (p & e & h1) & h2). injection e as <-. apply ignored_iff in I as [h|h]; [now apply h1|now apply h2].
      * split; [discriminate|]. intros h. exfalso. apply h. split; [exact hn|]. split.
        -- exists path. split; [reflexivity|]. intros l. assert (ignored prefix (new_deleter pysrc o) name path = true) by (apply ignored_iff; now left). congruence.
        -- intros l. assert (ignored prefix (new_deleter pysrc o) name path = true) by (apply ignored_iff; now right). congruence.
    + split; [|reflexivity]. intros _ (_ & (p & e & _) & _). discriminate.
Qed.

Lemma enabled_iff o : str_eqb (lower (match umd_enabled o with None => [] | Some s => s end)) (lit "true") = true <-> enabled o.
Proof.
  unfold enabled. destruct (umd_enabled o) as [s|].
  - destruct (str_eqb_spec (lower s) (lit "true")) as [e|n]; split; auto.
    + intros _. now exists s.
    + discriminate.
    + intros (s' & e & h). injection e as <-. contradiction.
  - split; [discriminate|]. intros (s & e & _). discriminate.
Qed.

(** The start of a program. *)
Definition moved (c : call) (o : outside) : outside :=
  match wdir c with None => o | Some w => Outside (modules o) (argv o) (file o) w (umd_enabled o) (umd_names o) end.
Definition ok_dir (dir_ok : str -> bool) (c : call) : Prop := forall w, wdir c = Some w -> dir_ok w = true.

Lemma runfile_eq prefix pysrc dir_ok c o d : ok_dir dir_ok c ->
  runfile prefix pysrc dir_ok c o d =
  let start := moved c (named c (fst (clean prefix pysrc o d))) in
  let d1 := snd (clean prefix pysrc o d) in
  match prog c start with
  | (o4, true) => (o4, d1, true)
  | (o4, false) => let '(o5, failed) := finish (file (fst (clean prefix pysrc o d))) o4 in (o5, d1, failed)
  end.
Proof.
  intros h. unfold runfile, moved. destruct (clean prefix pysrc o d) as [o1 d1]. cbn [fst snd].
  unfold ok_dir in h. destruct (wdir c) as [w|]; [rewrite (h w eq_refl)|]; reflexivity.
Qed.

Lemma finish_keeps old o : let r := fst (finish old o) in
  modules r = modules o /\ cwd r = cwd o /\ umd_enabled r = umd_enabled o /\ umd_names r = umd_names o /\ argv r = [[]].
Proof. unfold finish. destruct old as [[|s]|]; cbn; destruct (file o); cbn; repeat split. Qed.

Lemma start_eq prefix pysrc dir_ok c o d : ok_dir dir_ok c ->
  starts_at prefix pysrc dir_ok c o d (moved c (named c (fst (clean prefix pysrc o d)))).
Proof.
  intros h p. rewrite runfile_eq by exact h. cbv zeta. cbn [prog]. change (moved _ (named _ _)) with (moved c (named c (fst (clean prefix pysrc o d)))).
  destruct (p (moved c (named c (fst (clean prefix pysrc o d))))) as [o4 [|]]; cbn [fst]; [repeat split|].
  pose proof (finish_keeps (file (fst (clean prefix pysrc o d))) o4) as k. cbv zeta in k.
  destruct (finish (file (fst (clean prefix pysrc o d))) o4) as [o5 f]. cbn [fst] in *. tauto.
Qed.

(** The program sees its name and arguments, its file and its directory. *)
Theorem run_start prefix pysrc dir_ok c o d : ok_dir dir_ok c ->
  exists start, starts_at prefix pysrc dir_ok c o d start /\
    argv start = filename c :: match args c with None => [] | Some a => words a end /\
    file start = Some (VText (filename c)) /\
    cwd start = match wdir c with None => cwd o | Some w => w end /\
    (umd_enabled start, umd_names start) = (umd_enabled o, umd_names o).
Proof.
  intros h. exists (moved c (named c (fst (clean prefix pysrc o d)))). split; [now apply start_eq|].
  assert (k : cwd (fst (clean prefix pysrc o d)) = cwd o /\ umd_enabled (fst (clean prefix pysrc o d)) = umd_enabled o /\
              umd_names (fst (clean prefix pysrc o d)) = umd_names o).
  { unfold clean. destruct (str_eqb _ _); [destruct d|]; repeat split. }
  destruct k as (k1 & k2 & k3). unfold moved. destruct (wdir c); cbn [argv file cwd umd_enabled umd_names named]; rewrite ?k1, ?k2, ?k3; repeat split.
Qed.

(** Arguments are separated by blanks. *)
Definition plain (w : str) : Prop := w <> [] /\ Forall (fun x => blank x = false) w.

Lemma words_plain cur w s : Forall (fun x => blank x = false) w -> words_ cur (w ++ s) = words_ (rev w ++ cur) s.
Proof.
  revert cur. induction w as [|x w IH]; intros cur h; [reflexivity|]. inversion h as [|? ? h1 h2]; subst. cbn [app words_]. rewrite h1, IH by exact h2.
  cbn [rev]. now rewrite <- app_assoc.
Qed.

Lemma words_blank b s : Forall (fun x => blank x = true) b -> words_ [] (b ++ s) = words_ [] s.
Proof. induction b as [|x b IH]; intros h; [reflexivity|]. inversion h as [|? ? h1 h2]; subst. cbn [app words_]. rewrite h1. now apply IH. Qed.

Theorem arguments_split (ws : list (str * str)) before last :
  Forall (fun x => blank x = true) before ->
  Forall (fun w => plain (fst w) /\ snd w <> [] /\ Forall (fun x => blank x = true) (snd w)) ws ->
  Forall (fun x => blank x = false) last ->
  words (before ++ flat_map (fun w => fst w ++ snd w) ws ++ last) = map fst ws ++ match last with [] => [] | _ => [last] end.
Proof.
  intros hb h hl. unfold words. rewrite words_blank by exact hb. clear hb before. induction ws as [|[w b] ws IH].
  - cbn [flat_map app map]. rewrite <- (app_nil_r last) at 1. rewrite words_plain by exact hl. rewrite app_nil_r. cbn [words_].
    destruct last as [|x l]; [reflexivity|]. destruct (rev (x :: l)) as [|y r] eqn:E.
    + apply (f_equal (@rev N)) in E. rewrite rev_involutive in E. discriminate E.
    + rewrite <- E, rev_involutive. reflexivity.
  - inversion h as [|? ? ((h1 & h2) & h3 & h4) h5]; subst. cbn [fst snd] in *. cbn [flat_map map fst snd app]. rewrite <- !app_assoc, words_plain by exact h2.
    rewrite app_nil_r. destruct b as [|x b]; [contradiction|]. inversion h4 as [|? ? h6 h7]; subst. cbn [app words_]. rewrite h6.
    destruct (rev w) as [|y r] eqn:E.
    + exfalso. apply h1. rewrite <- (rev_involutive w), E. reflexivity.
    + rewrite <- E, rev_involutive. f_equal. rewrite words_blank by exact h7. now apply IH.
Qed.

(** Sessions. *)
Lemma runfile_deleter prefix pysrc dir_ok c o d : snd (fst (runfile prefix pysrc dir_ok c o d)) = snd (clean prefix pysrc o d).
Proof.
  unfold runfile. destruct (clean prefix pysrc o d) as [o1 d1]. cbn [snd].
  assert (k : forall o3, snd (fst (match prog c o3 with
      | (o4, true) => (o4, d1, true)
      | (o4, false) => let '(o5, failed) := finish (file o1) o4 in (o5, d1, failed)
      end)) = d1).
  { intros o3. destruct (prog c o3) as [o4 [|]]; [reflexivity|]. destruct (finish (file o1) o4). reflexivity. }
  destruct (wdir c) as [w|]; [|apply k]. destruct (dir_ok w); [apply k|reflexivity].
Qed.

Lemma session_app prefix pysrc dir_ok a b o :
  session prefix pysrc dir_ok (a ++ b) o = fold_left (do_step prefix pysrc dir_ok) b (session prefix pysrc dir_ok a o).
Proof. unfold session. apply fold_left_app. Qed.

(** No run with deleting switched on. *)
Definition none_yet prefix pysrc dir_ok (steps : list step) (o : outside) : Prop :=
  forall a c b, steps = a ++ Run c :: b -> ~ enabled (fst (session prefix pysrc dir_ok a o)).

Lemma none_deleter prefix pysrc dir_ok steps o : none_yet prefix pysrc dir_ok steps o -> snd (session prefix pysrc dir_ok steps o) = None.
Proof.
  induction steps as [|s steps IH] using rev_ind; intros h; [reflexivity|].
  assert (h' : none_yet prefix pysrc dir_ok steps o) by (intros a c b ->; apply (h a c (b ++ [s])); now rewrite <- app_assoc).
  specialize (IH h'). rewrite session_app. cbn [fold_left]. destruct s as [c|f]; cbn [do_step snd]; [|exact IH].
  rewrite runfile_deleter, IH. unfold clean.
  destruct (str_eqb (lower _) (lit "true")) eqn:E; [|reflexivity]. exfalso. apply (h steps c []); [reflexivity|]. now apply enabled_iff.
Qed.

Lemma deleter_stays prefix pysrc dir_ok steps od d : snd od = Some d -> snd (fold_left (do_step prefix pysrc dir_ok) steps od) = Some d.
Proof.
  revert od. induction steps as [|s steps IH]; intros od h; [exact h|]. cbn [fold_left]. apply IH. destruct s as [c|f]; cbn [do_step snd]; [|exact h].
  rewrite runfile_deleter, h. unfold clean. destruct (str_eqb _ _); reflexivity.
Qed.

(** From the second run on, a program starts with the modules there are but those of the user, whatever happened in between. *)
Theorem modules_fresh prefix pysrc dir_ok a c0 b o c :
  let first := fst (session prefix pysrc dir_ok a o) in
  let now := session prefix pysrc dir_ok (a ++ Run c0 :: b) o in
  none_yet prefix pysrc dir_ok a o -> enabled first -> enabled (fst now) -> ok_dir dir_ok c ->
  exists start, starts_at prefix pysrc dir_ok c (fst now) (snd now) start /\
    forall m, In m (modules start) <-> In m (modules (fst now)) /\ ~ of_user prefix pysrc first m.
Proof.
  intros first now hn he hn' hd.
  assert (hdel : snd now = Some (new_deleter pysrc first)).
  { unfold now. rewrite session_app. cbn [fold_left]. apply deleter_stays. cbn [do_step]. rewrite runfile_deleter, none_deleter by exact hn. fold first.
    unfold clean. replace (str_eqb _ _) with true by (symmetry; now apply enabled_iff). reflexivity. }
  exists (moved c (named c (fst (clean prefix pysrc (fst now) (snd now))))). split; [now apply start_eq|]. intros m.
  assert (hm : modules (moved c (named c (fst (clean prefix pysrc (fst now) (snd now))))) = delete prefix (new_deleter pysrc first) (modules (fst now))).
  { rewrite hdel. unfold clean. replace (str_eqb (lower _) (lit "true")) with true by (symmetry; now apply enabled_iff). unfold moved. now destruct (wdir c). }
  rewrite hm. unfold delete. rewrite filter_In, stays_iff. reflexivity.
Qed.

(** Nothing is deleted in the first run nor when deleting is switched off. *)
Theorem modules_kept prefix pysrc dir_ok steps o c :
  let now := session prefix pysrc dir_ok steps o in
  none_yet prefix pysrc dir_ok steps o \/ ~ enabled (fst now) -> ok_dir dir_ok c ->
  exists start, starts_at prefix pysrc dir_ok c (fst now) (snd now) start /\ modules start = modules (fst now).
Proof.
  intros now h hd. exists (moved c (named c (fst (clean prefix pysrc (fst now) (snd now))))). split; [now apply start_eq|].
  assert (hm : modules (fst (clean prefix pysrc (fst now) (snd now))) = modules (fst now)).
  { unfold clean. destruct (str_eqb (lower _) (lit "true")) eqn:E; [|reflexivity]. apply enabled_iff in E. destruct h as [h|h]; [|contradiction].
    assert (hs : snd now = None) by now apply none_deleter. rewrite hs. reflexivity. }
  unfold moved. destruct (wdir c); exact hm.
Qed.

(** When the program ends, sys.argv is empty again and __file__ is the one of before. *)
Theorem file_restored prefix pysrc dir_ok c o d : ok_dir dir_ok c -> file o <> Some VNone ->
  (forall s, snd (prog c s) = false /\ file (fst (prog c s)) <> None) ->
  let r := runfile prefix pysrc dir_ok c o d in
  snd r = false /\ argv (fst (fst r)) = [[]] /\ file (fst (fst r)) = file o.
Proof.
  intros hd hf hp r. unfold r. rewrite runfile_eq by exact hd. cbv zeta.
  assert (hfile : file (fst (clean prefix pysrc o d)) = file o) by (unfold clean; destruct (str_eqb _ _); [destruct d|]; reflexivity).
  rewrite hfile. specialize (hp (moved c (named c (fst (clean prefix pysrc o d))))).
  destruct (prog c (moved c (named c (fst (clean prefix pysrc o d))))) as [o4 raised]. cbn [fst snd] in hp. destruct hp as [-> hp].
  unfold finish. destruct (file o) as [[|s]|]; [contradiction| |].
  - cbn. repeat split.
  - destruct (file o4); [|contradiction]. cbn. repeat split.
Qed.

(** Findings. *)
Definition nothing : outside := Outside [] [[]] None [] (Some (lit "True")) None.

(** A program which raises leaves its arguments and __file__ behind. *)
Theorem left_behind_refuted : exists c o, ok_dir (fun _ => true) c /\
  let r := runfile (lit "/usr") None (fun _ => true) c o None in
  snd r = true /\ file o = None /\ file (fst (fst r)) = Some (VText (lit "/p/t.py")) /\ argv (fst (fst r)) = [lit "/p/t.py"].
Proof. exists (Call (lit "/p/t.py") None None (fun s => (s, true))), nothing. split; [intros w e; discriminate|]. repeat split. Qed.

(** __file__ with the value None is deleted; a program which deletes __file__ makes the call fail in the end. *)
Theorem none_file_refuted :
  (exists c o, file o = Some VNone /\ file (fst (fst (runfile (lit "/usr") None (fun _ => true) c o None))) = None) /\
  (exists c o, (forall s, snd (prog c s) = false) /\ snd (runfile (lit "/usr") None (fun _ => true) c o None) = true).
Proof.
  split.
  - exists (Call (lit "/p/t.py") None None (fun s => (s, false))), (Outside [] [] (Some VNone) [] None None). split; reflexivity.
  - exists (Call (lit "/p/t.py") None None (fun s => (Outside (modules s) (argv s) None (cwd s) (umd_enabled s) (umd_names s), false))), nothing.
    split; reflexivity.
Qed.

(** A project in a directory whose name only begins like that of the installation is taken for a part of it: its modules stay. *)
Theorem alike_directory_refuted : exists prefix path o, enabled o /\ ~ (exists r, path = prefix ++ lit "/" ++ r) /\
  let load s := (Outside (modules s ++ [(lit "m", Some path)]) (argv s) (file s) (cwd s) (umd_enabled s) (umd_names s), false) in
  let od := session prefix None (fun _ => true) [Run (Call (lit "t.py") None None load)] o in
  In (lit "m", Some path) (modules (fst (clean prefix None (fst od) (snd od)))).
Proof.
  exists (lit "/opt/py"), (lit "/opt/pyproject/m.py"), nothing. split; [now exists (lit "True")|]. split.
  - intros (r & e). cbn in e. discriminate e.
  - cbv. now left.
Qed.

(** Quotation marks do not keep an argument together. *)
Theorem quotes_refuted : exists a, words a = [lit "-m"; [34%N; 97%N]; [98%N; 34%N]] /\ a = lit "-m " ++ [34; 97; 32; 98; 34]%N.
Proof. eexists. split; [|reflexivity]. reflexivity. Qed.

(** Concrete cases. *)
Definition loads (s : outside) : outside * bool :=
  (Outside (modules s ++ [(lit "m", Some (lit "/p/m.py")); (lit "pkg.keep", Some (lit "/p/k.py")); (lit "zlib", None); (lit "json", Some (lit "/usr/json.py"))])
     (argv s) (file s) (cwd s) (umd_enabled s) (umd_names s), false).
Definition start0 : outside := Outside [(lit "os", Some (lit "/p/os.py"))] [[]] None [] (Some (lit "True")) (Some (lit "a,keep")).
Definition call0 : call := Call (lit "/p/t.py") (Some (lit "x  yz")) (Some (lit "/p")) loads.

Example fresh_case :
  let now := session (lit "/usr") None (fun _ => true) [Run call0] start0 in
  none_yet (lit "/usr") None (fun _ => true) [] start0 /\ enabled start0 /\ enabled (fst now) /\
  map fst (modules (fst now)) = [lit "os"; lit "m"; lit "pkg.keep"; lit "zlib"; lit "json"] /\
  map fst (modules (fst (clean (lit "/usr") None (fst now) (snd now)))) = [lit "os"; lit "pkg.keep"; lit "zlib"; lit "json"].
Proof.
  split; [intros [|? ?] c b e; discriminate e|]. split; [now exists (lit "True")|]. split; [now exists (lit "True")|]. split; reflexivity.
Qed.
Example start_case : ok_dir (fun _ => true) call0 /\ argv (moved call0 (named call0 start0)) = [lit "/p/t.py"; lit "x"; lit "yz"].
Proof. split; [intros w _; reflexivity|reflexivity]. Qed.
Example restored_case :
  file start0 <> Some VNone /\ file (fst (fst (runfile (lit "/usr") None (fun _ => true) call0 start0 None))) = None.
Proof. split; [discriminate|reflexivity]. Qed.
Example kept_case : ~ enabled (Outside [] [] None [] (Some (lit "no")) None).
Proof. intros (s & e & h). injection e as <-. discriminate h. Qed.
Example split_case : words (lit " x  yz ") = [lit "x"; lit "yz"].
Proof. reflexivity. Qed.

Print Assumptions run_start.
Print Assumptions arguments_split.
Print Assumptions modules_fresh.
Print Assumptions modules_kept.
Print Assumptions file_restored.
Print Assumptions left_behind_refuted.
Print Assumptions none_file_refuted.
Print Assumptions alike_directory_refuted.
Print Assumptions quotes_refuted.
