(** C22: file names translated between the client and the server. *)
From Coq Require Import String List NArith Bool Lia.
From Verif Require Import Base Dict PathMap.
Import ListNotations.

(** ** Specification *)

(** The directory denoted by a root: backslashes on Windows, one separator at the end. *)
Definition dir (win : bool) (p : str) : str :=
  let q := if win then repl slash bslash p else p in
  if ends_with [sep win] q then q else q ++ [sep win].

(** A root as a user writes it: not relative, at most one separator at the end, and on a system with
    slashes not ending in a backslash. *)
Definition plain_root (win : bool) (p : str) : Prop :=
  starts_with [46%N] p = false /\ (ends_sep p = true -> ends_sep (removelast p) = false) /\
  (win = false -> ends_with [bslash] p = false).

(** How names on the client are compared: without regard to case for a Windows client of another system,
    exactly for a client of a Windows process, otherwise as in the process. *)
Definition client_mode (E : env) (cw : bool) : mode :=
  match cw, server_win E with
  | true, false => NWin
  | false, true => NNone
  | _, _ => smode E
  end.

Definition prefix (a b : str) : Prop := exists r, b = a ++ r.

(** Mappings without overlap: of two different mappings, neither client root is inside the other, and
    neither server root is inside the other (compared as the systems compare names).  When the systems
    differ, names on the one with slashes have no backslash. *)
Definition good (E : env) (cw : bool) (paths : list (str * str)) : Prop :=
  (smode E = NWin -> server_win E = true) /\
  (forall c s, In (c, s) paths -> plain_root cw c /\ plain_root (server_win E) s) /\
  (cw <> server_win E -> forall c s, In (c, s) paths ->
     (cw = false -> ~ In bslash c) /\ (server_win E = false -> ~ In bslash s)) /\
  (forall c s c' s', In (c, s) paths -> In (c', s') paths ->
     prefix (norm (client_mode E cw) (dir cw c)) (norm (client_mode E cw) (dir cw c')) -> (c, s) = (c', s')) /\
  (forall c s c' s', In (c, s) paths -> In (c', s') paths ->
     prefix (norm (smode E) (dir (server_win E) s)) (norm (smode E) (dir (server_win E) s')) -> (c, s) = (c', s')).

(** absolute_path and get_path_with_real_case only change how the server writes the name [f]. *)
Definition stable_name (E : env) (f : str) : Prop :=
  forall g, norm (smode E) g = norm (smode E) f ->
    norm (smode E) (absolute E g) = norm (smode E) f /\ norm (smode E) (realcase E g) = norm (smode E) f.

(** The same name with the separators of the other system. *)
Definition with_seps (from to : bool) (f : str) : str := if Bool.eqb from to then f else repl (sep from) (sep to) f.

(** ** Facts *)

Lemma cmode_spec E cw : cmode E cw = client_mode E cw.
Proof. unfold cmode, client_mode. destruct cw, (server_win E); reflexivity. Qed.

Lemma low_low c : low (low c) = low c.
Proof.
  unfold low. destruct (N.leb_spec 65 c), (N.leb_spec c 90); cbn [andb]; auto.
  2,3,4: destruct (N.leb_spec 65 c), (N.leb_spec c 90); cbn [andb]; auto; lia.
  destruct (N.leb_spec 65 (c+32)), (N.leb_spec (c+32) 90); cbn [andb]; auto; lia.
Qed.
Lemma low_not c d : low c = d -> (d < 65)%N \/ (d = 92)%N -> c = d.
Proof.
  unfold low. destruct (N.leb_spec 65 c), (N.leb_spec c 90); cbn [andb]; intros; lia.
Qed.
Lemma normc_idem m c : normc m (normc m c) = normc m c.
Proof.
  destruct m; cbn [normc]; auto using low_low.
  destruct (N.eqb_spec c slash); [reflexivity|].
  destruct (N.eqb_spec (low c) slash) as [e|]; auto using low_low.
  apply low_not in e; [contradiction|left; reflexivity].
Qed.
Lemma norm_idem m s : norm m (norm m s) = norm m s.
Proof. unfold norm. rewrite map_map. apply map_ext, normc_idem. Qed.
Lemma norm_app m a b : norm m (a ++ b) = norm m a ++ norm m b.
Proof. apply map_app. Qed.
Lemma norm_length m s : length (norm m s) = length s.
Proof. apply map_length. Qed.

Lemma repl_app a b x y : repl a b (x ++ y) = repl a b x ++ repl a b y.
Proof. apply map_app. Qed.
Lemma repl_id a b s : ~ In a s -> repl a b s = s.
Proof.
  unfold repl. intros H. rewrite <- (map_id s) at 2. apply map_ext_in. intros c Hc.
  destruct (N.eqb_spec c a); congruence.
Qed.
Lemma repl_not_in a b s : a <> b -> ~ In a (repl a b s).
Proof.
  unfold repl. intros Hab H. apply in_map_iff in H. destruct H as (c & E & _).
  destruct (N.eqb_spec c a); congruence.
Qed.
Lemma repl_back a b s : ~ In b s -> repl b a (repl a b s) = s.
Proof.
  intros H. unfold repl. rewrite map_map. rewrite <- (map_id s) at 2. apply map_ext_in.
  intros c Hc. destruct (N.eqb_spec c a) as [->|n].
  - now rewrite N.eqb_refl.
  - destruct (N.eqb_spec c b); congruence.
Qed.
Lemma repl_repl a b s : a <> b -> repl a b (repl a b s) = repl a b s.
Proof. intros. apply repl_id, repl_not_in; auto. Qed.

Lemma ends_last c r x : ends_with [c] (r ++ [x]) = N.eqb c x.
Proof.
  unfold ends_with. rewrite rev_app_distr. cbn [rev app starts_with]. now rewrite andb_true_r.
Qed.
Lemma ends_sep_last r x : ends_sep (r ++ [x]) = N.eqb slash x || N.eqb bslash x.
Proof. unfold ends_sep. now rewrite !ends_last. Qed.
Lemma ends_sep_repl s : ends_sep (repl slash bslash s) = ends_sep s.
Proof.
  destruct s as [|x s _] using rev_ind; [reflexivity|].
  rewrite repl_app. cbn [repl map]. rewrite !ends_sep_last.
  rewrite (N.eqb_sym slash x). destruct (N.eqb_spec x slash) as [->|n]; [reflexivity|].
  destruct (N.eqb_spec slash x); [congruence|reflexivity].
Qed.
Lemma ends_sep_true s : ends_sep s = true -> exists r x, s = r ++ [x] /\ (x = slash \/ x = bslash).
Proof.
  destruct s as [|x s _] using rev_ind; [discriminate|]. rewrite ends_sep_last.
  intros H. exists s, x. split; auto. apply orb_true_iff in H. destruct H as [H|H]; apply N.eqb_eq in H; auto.
Qed.

Lemma starts_dot_app p x : starts_with [46%N] (p ++ x) = false -> p <> [] -> starts_with [46%N] p = false.
Proof. destruct p as [|c p]; [congruence|]. cbn [app starts_with]. auto. Qed.
Lemma starts_dot_repl p b : starts_with [46%N] p = false -> b <> 46%N -> starts_with [46%N] (repl slash b p) = false.
Proof.
  destruct p as [|c p]; auto. cbn [repl map starts_with]. rewrite !andb_true_r. intros H Hb.
  destruct (N.eqb_spec c slash); auto. destruct (N.eqb_spec 46 b); congruence.
Qed.

Lemma fix_dir_true E win p : plain_root win p -> ends_sep p = true -> fix_path E p (sep win) true = dir win p.
Proof.
  intros (H1 & H2 & H3) He. unfold fix_path. rewrite H1, He. unfold dir.
  destruct (ends_sep_true _ He) as (r & x & -> & Hx).
  destruct win; cbn [sep]; change (N.eqb bslash slash) with false; change (N.eqb slash slash) with true; cbn iota.
  - rewrite repl_app. cbn [repl map]. rewrite ends_last.
    destruct Hx as [-> | ->]; reflexivity.
  - specialize (H3 eq_refl). rewrite ends_last in *. destruct Hx as [-> | ->]; [reflexivity|].
    rewrite N.eqb_refl in H3. discriminate.
Qed.

Lemma ends_one_false win q : ends_sep q = false -> ends_with [sep win] q = false.
Proof. unfold ends_sep. intros H. apply orb_false_iff in H. destruct win; tauto. Qed.

Lemma fix_dir_add E win q : starts_with [46%N] q = false -> ends_sep q = false ->
  fix_path E (fix_path E q (sep win) false) (sep win) true = dir win q.
Proof.
  intros Hd He.
  assert (A : fix_path E q (sep win) false = if win then repl slash bslash q else q).
  { unfold fix_path. rewrite Hd, He. destruct win; reflexivity. }
  rewrite A. unfold dir.
  destruct win; unfold fix_path; cbn [sep].
  - rewrite starts_dot_repl by (auto; discriminate). rewrite ends_sep_repl, He.
    change (N.eqb bslash slash) with false. cbn iota.
    rewrite (ends_one_false true) by (now rewrite ends_sep_repl).
    rewrite repl_app, repl_repl by discriminate. reflexivity.
  - rewrite Hd, He. change (N.eqb slash slash) with true. cbn iota.
    rewrite (ends_one_false false) by auto. reflexivity.
Qed.

Lemma fix_dir_false E win p : plain_root win p ->
  fix_path E (fix_path E p (sep win) false) (sep win) true = dir win p.
Proof.
  intros (H1 & H2 & H3). destruct (ends_sep p) eqn:He.
  2: now apply fix_dir_add.
  specialize (H2 eq_refl).
  destruct (ends_sep_true _ He) as (r & x & -> & Hx).
  rewrite removelast_last in H2.
  assert (Hr : starts_with [46%N] r = false).
  { destruct r; [reflexivity|]. eapply starts_dot_app; eauto. discriminate. }
  assert (A : fix_path E (r ++ [x]) (sep win) false = fix_path E r (sep win) false).
  { unfold fix_path. now rewrite H1, He, Hr, H2, removelast_last. }
  rewrite A, fix_dir_add by auto.
  unfold dir. destruct win; cbn [sep].
  - rewrite repl_app. cbn [repl map]. rewrite ends_last.
    rewrite (ends_one_false true) by (now rewrite ends_sep_repl).
    destruct Hx as [-> | ->]; reflexivity.
  - rewrite ends_last. specialize (H3 eq_refl). rewrite ends_last in H3.
    rewrite (ends_one_false false) by auto.
    destruct Hx as [-> | ->]; [reflexivity|]. rewrite N.eqb_refl in H3. discriminate.
Qed.

(** The entries with a separator at the end are the directories of the roots. *)
Definition dir_entry (E : env) (cw : bool) (m : str * str) : entry :=
  mk_entry E cw (dir cw (fst m)) (dir (server_win E) (snd m)).
Lemma build_with_sep E cw paths :
  (forall c s, In (c, s) paths -> plain_root cw c /\ plain_root (server_win E) s) ->
  fst (build E cw paths) = map (dir_entry E cw) paths.
Proof.
  induction paths as [|[p0 p1] r IH]; intros H; [reflexivity|].
  cbn [build map]. destruct (build E cw r) as [w wo] eqn:B. cbn [fst] in IH.
  rewrite <- IH by (intros; apply H; now right).
  destruct (H p0 p1 (or_introl eq_refl)) as [H0 H1].
  unfold dir_entry. cbn [fst snd].
  destruct (ends_sep p0) eqn:E0, (ends_sep p1) eqn:E1; cbn [andb fst];
    rewrite ?fix_dir_true, ?fix_dir_false by auto; reflexivity.
Qed.
Lemma entries_split E cw paths :
  (forall c s, In (c, s) paths -> plain_root cw c /\ plain_root (server_win E) s) ->
  exists wo, entries E cw paths = map (dir_entry E cw) paths ++ wo.
Proof.
  intros H. unfold entries. rewrite <- build_with_sep by auto. destruct (build E cw paths) as [w wo].
  now exists wo.
Qed.

Lemma prefix_cases a b c : prefix a c -> prefix b c -> prefix a b \/ prefix b a.
Proof.
  intros [x ->] [y E]. revert b y E. induction a as [|u a IH]; intros b y E.
  - left. now exists b.
  - destruct b as [|v b]; [right; now exists (u :: a)|].
    cbn [app] in E. inversion E; subst. destruct (IH _ _ H1) as [[r ->]|[r ->]].
    + left. now exists r.
    + right. now exists r.
Qed.

Lemma find_unique {A} (f : A -> bool) (l : list A) x :
  In x l -> f x = true -> (forall y, In y l -> f y = true -> y = x) -> find f l = Some x.
Proof.
  induction l as [|y l IH]; [contradiction|]. intros Hi Hx Hu. cbn [find].
  destruct (f y) eqn:E.
  - f_equal. apply Hu; auto. now left.
  - apply IH; auto. destruct Hi as [->|]; [congruence|auto]. intros z Hz. apply Hu. now right.
Qed.
Lemma find_app {A} (f : A -> bool) l r x : find f l = Some x -> find f (l ++ r) = Some x.
Proof. induction l as [|y l IH]; [discriminate|]. cbn [find app]. destruct (f y); auto. Qed.

Lemma find_server E cw paths c s g : good E cw paths -> In (c, s) paths ->
  prefix (norm (smode E) (dir (server_win E) s)) g ->
  find (fun e => starts_with (nserver e) g) (entries E cw paths) = Some (dir_entry E cw (c, s)).
Proof.
  intros (_ & Hp & _ & _ & Hs) Hi Hg.
  destruct (entries_split E cw paths Hp) as [wo ->]. apply find_app, find_unique.
  - now apply in_map.
  - cbn. now apply starts_with_spec.
  - intros y Hy Hf. apply in_map_iff in Hy. destruct Hy as ([c' s'] & <- & Hy).
    cbn in Hf. apply starts_with_spec in Hf.
    destruct (prefix_cases _ _ _ Hg Hf) as [P|P].
    + now rewrite (Hs _ _ _ _ Hi Hy P).
    + now rewrite (Hs _ _ _ _ Hy Hi P).
Qed.
Lemma find_client E cw paths c s g : good E cw paths -> In (c, s) paths ->
  prefix (norm (cmode E cw) (dir cw c)) g ->
  find (fun e => starts_with (nclient e) g) (entries E cw paths) = Some (dir_entry E cw (c, s)).
Proof.
  rewrite cmode_spec. intros (_ & Hp & _ & Hc & _) Hi Hg.
  destruct (entries_split E cw paths Hp) as [wo ->]. apply find_app, find_unique.
  - now apply in_map.
  - cbn. rewrite cmode_spec. now apply starts_with_spec.
  - intros y Hy Hf. apply in_map_iff in Hy. destruct Hy as ([c' s'] & <- & Hy).
    cbn in Hf. rewrite cmode_spec in Hf. apply starts_with_spec in Hf.
    destruct (prefix_cases _ _ _ Hg Hf) as [P|P].
    + now rewrite (Hc _ _ _ _ Hi Hy P).
    + now rewrite (Hc _ _ _ _ Hy Hi P).
Qed.

Lemma dir_in win p x : In x (dir win p) -> x <> sep win ->
  In x p /\ (win = true -> x <> slash).
Proof.
  intros H Hx. unfold dir in H.
  assert (A : In x (if win then repl slash bslash p else p)).
  { destruct (ends_with _ _); auto. apply in_app_iff in H. destruct H as [H|[H|[]]]; auto. congruence. }
  destruct win.
  - split.
    + unfold repl in A. apply in_map_iff in A. destruct A as (c & Hc & Hi).
      destruct (N.eqb_spec c slash); [exfalso; apply Hx; now subst|]. now subst.
    + intros _ ->. revert A. apply repl_not_in. discriminate.
  - split; [auto|discriminate].
Qed.

(** The roots have the separators of their systems only. *)
Lemma client_dir_seps E cw paths c s : good E cw paths -> In (c, s) paths -> cw <> server_win E ->
  ~ In (sep (server_win E)) (dir cw c).
Proof.
  intros (_ & _ & Hb & _) Hi Hn H. destruct (Hb Hn _ _ Hi) as [Hb1 _].
  destruct cw, (server_win E); try congruence.
  - apply dir_in in H; [|discriminate]. destruct H as [_ H]. now apply H.
  - apply dir_in in H; [|discriminate]. now apply Hb1.
Qed.
Lemma normc_sep m c win : normc m c = sep win -> m <> NWin \/ win = false -> c = sep win.
Proof.
  destruct m; cbn [normc]; intros H Ho; auto.
  - apply low_not; auto. destruct win; [now right|now left].
  - destruct Ho as [Ho| ->]; [congruence|]. cbn [sep] in *. destruct (N.eqb_spec c slash); [auto|].
    apply low_not; auto. now left.
Qed.
Lemma server_dir_seps E cw paths c s : good E cw paths -> In (c, s) paths -> cw <> server_win E ->
  ~ In (sep cw) (norm (smode E) (dir (server_win E) s)).
Proof.
  intros (Hm & _ & Hb & _) Hi Hn H. destruct (Hb Hn _ _ Hi) as [_ Hb2].
  unfold norm in H. apply in_map_iff in H. destruct H as (x & Hx & H).
  apply normc_sep in Hx.
  2: { destruct cw, (server_win E); try congruence; [left|right]; auto. intros e. specialize (Hm e). congruence. }
  subst x. destruct cw, (server_win E); try congruence.
  - apply dir_in in H; [|discriminate]. now apply Hb2.
  - apply dir_in in H; [|discriminate]. destruct H as [_ H]. now apply H.
Qed.

Lemma client_seps_app E cw a b : client_seps E cw (a ++ b) = client_seps E cw a ++ client_seps E cw b.
Proof. unfold client_seps. destruct (Bool.eqb _ _); auto. apply repl_app. Qed.
Lemma server_seps_app E cw a b : server_seps E cw (a ++ b) = server_seps E cw a ++ server_seps E cw b.
Proof. unfold server_seps. destruct (Bool.eqb _ _); auto. apply repl_app. Qed.
Lemma client_seps_id E cw a : (cw <> server_win E -> ~ In (sep (server_win E)) a) -> client_seps E cw a = a.
Proof.
  unfold client_seps. intros H. destruct (Bool.eqb_spec cw (server_win E)); auto. apply repl_id. auto.
Qed.
Lemma server_seps_id E cw a : (cw <> server_win E -> ~ In (sep cw) a) -> server_seps E cw a = a.
Proof.
  unfold server_seps. intros H. destruct (Bool.eqb_spec cw (server_win E)); auto. apply repl_id. auto.
Qed.
Lemma sep_diff a b : a <> b -> sep a <> sep b.
Proof. destruct a, b; intros H; try congruence; discriminate. Qed.
Lemma client_seps_twice E cw a : client_seps E cw (client_seps E cw a) = client_seps E cw a.
Proof.
  apply client_seps_id. intros Hn. unfold client_seps. destruct (Bool.eqb_spec cw (server_win E)); [congruence|].
  apply repl_not_in, sep_diff. intros e; apply n; now rewrite e.
Qed.
Lemma server_client_seps E cw a : (cw <> server_win E -> ~ In (sep cw) a) -> server_seps E cw (client_seps E cw a) = a.
Proof.
  unfold server_seps, client_seps. intros H. destruct (Bool.eqb_spec cw (server_win E)); auto.
  apply repl_back. auto.
Qed.
Lemma client_server_seps E cw a : client_seps E cw (server_seps E cw (client_seps E cw a)) = client_seps E cw a.
Proof.
  unfold server_seps, client_seps. destruct (Bool.eqb_spec cw (server_win E)); auto.
  apply repl_back. apply repl_not_in, sep_diff. intros e; apply n; now rewrite e.
Qed.

Lemma split_at {A} (a r : list A) n : n = length a -> skipn n (a ++ r) = r.
Proof. intros ->. induction a; auto. Qed.

Lemma to_server_mapped E cw paths c s g root rel :
  good E cw paths -> In (c, s) paths ->
  client_seps E cw g = root ++ rel -> norm (cmode E cw) root = norm (cmode E cw) (dir cw c) ->
  to_server E cw paths g = absolute E (norm (smode E) (dir (server_win E) s) ++ server_seps E cw rel).
Proof.
  intros G Hi Hg Hr. unfold to_server. rewrite Hg, norm_app, Hr.
  rewrite (find_client _ _ _ c s) by (auto; eexists; reflexivity).
  cbn [dir_entry mk_entry nserver nclient fst snd].
  rewrite split_at by (now rewrite norm_length, <- (norm_length (cmode E cw)), <- Hr, norm_length).
  rewrite server_seps_app. f_equal. f_equal. apply server_seps_id.
  intros. eapply server_dir_seps; eauto.
Qed.

Lemma to_client_mapped E cw paths c s f root rel :
  good E cw paths -> In (c, s) paths ->
  realcase E (absolute E f) = root ++ rel ->
  norm (smode E) root = norm (smode E) (dir (server_win E) s) ->
  norm (smode E) (absolute E f) = norm (smode E) (root ++ rel) ->
  to_client E cw paths f = (dir cw c ++ client_seps E cw rel, true).
Proof.
  intros G Hi Hf Hr Ha. unfold to_client. rewrite Ha, norm_app, Hr.
  rewrite (find_server _ _ _ c s) by (auto; eexists; reflexivity).
  cbn [dir_entry mk_entry iclient nserver fst snd]. rewrite Hf.
  rewrite split_at by (now rewrite norm_length, <- (norm_length (smode E)), <- Hr, norm_length).
  rewrite client_seps_app. f_equal. f_equal. apply client_seps_id.
  intros. eapply client_dir_seps; eauto.
Qed.

Lemma norm_split m p a b : norm m p = norm m a ++ b -> exists r t, p = r ++ t /\ norm m r = norm m a /\ norm m t = b.
Proof.
  revert p; induction a as [|x a IH]; intros p H.
  - exists [], p. auto.
  - destruct p as [|y p]; [discriminate|]. cbn [norm map app] in H. inversion H; subst.
    destruct (IH _ H2) as (r & t & -> & Hr & Ht). exists (y :: r), t. repeat split; auto.
    + cbn [norm map]. unfold norm in Hr. now rewrite H1, Hr.
Qed.

Lemma dir_last win p : exists q, dir win p = q ++ [sep win].
Proof.
  unfold dir. destruct (ends_with _ _) eqn:H; [|eexists; reflexivity].
  apply ends_with_spec in H. destruct H as [q ->]. now exists q.
Qed.
Lemma fix_bare E win p : plain_root win p -> fix_path E p (sep win) false = removelast (dir win p).
Proof.
  intros (H1 & H2 & H3). unfold fix_path, dir. rewrite H1.
  destruct (ends_sep p) eqn:He.
  - destruct (ends_sep_true _ He) as (r & x & -> & Hx). rewrite removelast_last.
    destruct win; cbn [sep].
    + change (N.eqb bslash slash) with false. cbn iota. rewrite repl_app. cbn [repl map].
      rewrite ends_last. destruct Hx as [-> | ->]; cbn [N.eqb Pos.eqb slash bslash];
        rewrite removelast_last; reflexivity.
    + specialize (H3 eq_refl). rewrite ends_last in H3. change (N.eqb slash slash) with true. cbn iota.
      rewrite ends_last. destruct Hx as [-> | ->]; [|rewrite N.eqb_refl in H3; discriminate].
      rewrite N.eqb_refl. now rewrite removelast_last.
  - destruct win; cbn [sep].
    + change (N.eqb bslash slash) with false. cbn iota.
      rewrite (ends_one_false true) by (now rewrite ends_sep_repl). now rewrite removelast_last.
    + change (N.eqb slash slash) with true. cbn iota.
      rewrite (ends_one_false false) by auto. now rewrite removelast_last.
Qed.
Lemma entries_server E cw paths e :
  (forall c s, In (c, s) paths -> plain_root cw c /\ plain_root (server_win E) s) ->
  In e (entries E cw paths) ->
  exists c s, In (c, s) paths /\ (nserver e = norm (smode E) (dir (server_win E) s) \/
                                 nserver e = norm (smode E) (removelast (dir (server_win E) s))).
Proof.
  intros H Hi. unfold entries in Hi. pose proof (build_with_sep E cw paths H) as B.
  destruct (build E cw paths) as [w wo] eqn:Hb. cbn [fst] in B. apply in_app_iff in Hi. destruct Hi as [Hi|Hi].
  - rewrite B in Hi. apply in_map_iff in Hi. destruct Hi as ([c s] & <- & Hi). exists c, s. auto.
  - clear B. revert w wo Hb Hi. induction paths as [|[p0 p1] r IH]; intros w wo Hb Hi.
    + inversion Hb; subst. contradiction.
    + cbn [build] in Hb. destruct (build E cw r) as [w' wo'].
      assert (IH' : In e wo' -> exists c s, In (c, s) ((p0, p1) :: r) /\
         (nserver e = norm (smode E) (dir (server_win E) s) \/ nserver e = norm (smode E) (removelast (dir (server_win E) s)))).
      { intros Hw. destruct (IH (fun c s Hc => H c s (or_intror Hc)) w' wo' eq_refl Hw) as (c & s & Hc & He).
        exists c, s. split; auto. now right. }
      destruct (ends_sep p0 && ends_sep p1); inversion Hb; subst; auto.
      destruct Hi as [<-|Hi]; auto. exists p0, p1. split; [now left|]. right.
      cbn [mk_entry nserver]. destruct (H p0 p1 (or_introl eq_refl)). now rewrite fix_bare.
Qed.

(** ** Theorems *)

(** A server file below a mapped root is shown to the client below the client root, and that name is
    translated back to the same file. *)
Theorem path_server_round_trip E cw paths c s f :
  good E cw paths -> In (c, s) paths -> stable_name E f ->
  prefix (norm (smode E) (dir (server_win E) s)) (norm (smode E) f) ->
  (cw <> server_win E -> ~ In (sep cw) (realcase E (absolute E f))) ->
  exists g, to_client E cw paths f = (g, true) /\ prefix (dir cw c) g /\
            norm (smode E) (to_server E cw paths g) = norm (smode E) f.
Proof.
  intros G Hi Hst [r Hp] Hsep.
  assert (Ha : norm (smode E) (absolute E f) = norm (smode E) f) by (apply Hst; auto).
  assert (Hr : norm (smode E) (realcase E (absolute E f)) = norm (smode E) f) by (apply Hst; auto).
  destruct (norm_split (smode E) (realcase E (absolute E f)) (dir (server_win E) s) r) as (root & rel & Hf & Hroot & Hrel).
  { now rewrite Hr. }
  exists (dir cw c ++ client_seps E cw rel). split; [|split].
  - apply (to_client_mapped E cw paths c s f root rel); auto. now rewrite Ha, <- Hf, Hr.
  - eexists; reflexivity.
  - rewrite (to_server_mapped E cw paths c s _ (dir cw c) (client_seps E cw rel)); auto.
    + rewrite server_client_seps.
      2: { intros Hn Hin. apply (Hsep Hn). rewrite Hf. apply in_app_iff. auto. }
      assert (Hq : norm (smode E) (norm (smode E) (dir (server_win E) s) ++ rel) = norm (smode E) f).
      { rewrite norm_app, norm_idem, Hrel, Hp. reflexivity. }
      destruct (Hst _ Hq) as [-> _]. reflexivity.
    + rewrite client_seps_app, client_seps_twice. f_equal. apply client_seps_id.
      intros. eapply client_dir_seps; eauto.
Qed.

(** A client file below a mapped root is looked for below the server root, with the same relative name. *)
Theorem path_client_lands E cw paths c s root rel :
  good E cw paths -> In (c, s) paths ->
  norm (client_mode E cw) root = norm (client_mode E cw) (dir cw c) ->
  (cw <> server_win E -> ~ In (sep (server_win E)) (root ++ rel)) ->
  to_server E cw paths (root ++ rel) =
  absolute E (norm (smode E) (dir (server_win E) s) ++ with_seps cw (server_win E) rel).
Proof.
  intros G Hi Hr Hsep. rewrite <- cmode_spec in Hr.
  rewrite (to_server_mapped E cw paths c s _ root rel); auto.
  now apply client_seps_id.
Qed.

(** … and the server file found there is shown to the client under the name the client used. *)
Theorem path_client_round_trip E cw paths c s root rel sroot :
  good E cw paths -> In (c, s) paths ->
  norm (client_mode E cw) root = norm (client_mode E cw) (dir cw c) ->
  (cw <> server_win E -> ~ In (sep (server_win E)) (root ++ rel)) ->
  let f := norm (smode E) (dir (server_win E) s) ++ with_seps cw (server_win E) rel in
  stable_name E f ->
  realcase E (absolute E (absolute E f)) = sroot ++ with_seps cw (server_win E) rel ->
  to_client E cw paths (to_server E cw paths (root ++ rel)) = (dir cw c ++ rel, true).
Proof.
  intros G Hi Hr Hsep f Hst Hreal.
  rewrite (path_client_lands E cw paths c s root rel) by auto. fold f.
  assert (A1 : norm (smode E) (absolute E f) = norm (smode E) f) by (apply Hst; auto).
  assert (A2 : norm (smode E) (absolute E (absolute E f)) = norm (smode E) f) by (apply Hst; auto).
  assert (A3 : norm (smode E) (realcase E (absolute E (absolute E f))) = norm (smode E) f) by (apply Hst; auto).
  rewrite Hreal in A3. unfold f in A3 at 1. rewrite !norm_app, norm_idem in A3.
  apply app_inv_tail in A3.
  rewrite (to_client_mapped E cw paths c s _ sroot (with_seps cw (server_win E) rel)); auto.
  - f_equal. f_equal. change (with_seps cw (server_win E) rel) with (server_seps E cw rel).
    assert (Hrel : client_seps E cw rel = rel).
    { apply client_seps_id. intros Hn Hin. apply (Hsep Hn). apply in_app_iff. auto. }
    rewrite <- Hrel at 1. now rewrite client_server_seps.
  - rewrite A2. unfold f. now rewrite !norm_app, norm_idem, A3.
Qed.

(** A server file whose name does not begin with a root (taken without its last separator) keeps its name
    (up to separators). *)
Theorem path_unmapped E cw paths f :
  (forall c s, In (c, s) paths -> plain_root cw c /\ plain_root (server_win E) s /\
     ~ prefix (norm (smode E) (removelast (dir (server_win E) s))) (norm (smode E) (absolute E f))) ->
  to_client E cw paths f = (with_seps (server_win E) cw (realcase E (absolute E f)), false).
Proof.
  intros H. unfold to_client.
  destruct (find _ _) as [e|] eqn:F.
  - apply find_some in F. destruct F as [Hi F]. exfalso. apply starts_with_spec in F.
    destruct (entries_server E cw paths e) as (c & s & Hin & He); auto.
    { intros c s Hcs. split; apply (H c s Hcs). }
    destruct (H c s Hin) as (_ & _ & Hn). apply Hn. destruct F as [r F].
    destruct He as [He|He]; rewrite F, He.
    + destruct (dir_last (server_win E) s) as [q Hq]. rewrite Hq, removelast_last, norm_app.
      exists (norm (smode E) [sep (server_win E)] ++ r). now rewrite app_assoc.
    + now exists r.
  - unfold client_seps, with_seps. destruct cw, (server_win E); reflexivity.
Qed.

(** The caches never show: whatever was translated and set up before, a translation gives what the
    functions without caches give for the mappings and systems set last. *)
Definition inv (E : env) (s : state) : Prop :=
  (forall f r, get str_eqb f (srv_cache s) = Some r -> r = to_server E (cw s) (paths s) f) /\
  (forall f r, get str_eqb f (cli_cache s) = Some r -> r = to_client E (cw s) (paths s) f) /\
  (forall f r, get str_eqb f (orig_cache s) = Some r -> r = (realcase E (absolute E f), false)).

Lemma to_server_seps E cw paths f : to_server E cw paths (client_seps E cw f) = to_server E cw paths f.
Proof. unfold to_server. now rewrite client_seps_twice. Qed.

Lemma inv_setup E s ps : inv E s -> inv E (setup s ps).
Proof. intros (_ & _ & H). repeat split; cbn; auto; discriminate. Qed.
Lemma inv_step E s x : inv E s -> inv E (step E s x).
Proof.
  intros I. pose proof I as (I1 & I2 & I3). destruct x as [ps|w|f|f]; cbn [step].
  - now apply inv_setup.
  - unfold set_ide_os. destruct (Bool.eqb w (cw s)); auto. repeat split; cbn; auto; discriminate.
  - unfold map_to_server. destruct (paths s) eqn:Hp; auto.
    destruct (get str_eqb f (srv_cache s)) eqn:G; auto.
    rewrite <- Hp in *. repeat split; cbn [srv_cache cli_cache orig_cache cw PathMap.paths fst]; auto.
    intros g r. rewrite (get_set _ str_eqb_spec). destruct (str_eqb_spec g (client_seps E (cw s) f)) as [->|n]; auto.
    intros [= <-]. now rewrite to_server_seps.
  - unfold map_to_client. destruct (paths s) eqn:Hp.
    + destruct (get str_eqb f (orig_cache s)) eqn:G; auto.
      repeat split; cbn [srv_cache cli_cache orig_cache cw PathMap.paths fst]; rewrite ?Hp; auto.
      intros g r. rewrite (get_set _ str_eqb_spec). destruct (str_eqb_spec g f) as [->|n]; auto.
      now intros [= <-].
    + rewrite <- Hp in *. destruct (get str_eqb f (cli_cache s)) eqn:G; auto.
      repeat split; cbn [srv_cache cli_cache orig_cache cw PathMap.paths fst]; auto.
      intros g r. rewrite (get_set _ str_eqb_spec). destruct (str_eqb_spec g f) as [->|n]; auto.
      now intros [= <-].
Qed.

(** The mappings and the client's system set last. *)
Fixpoint last_paths (ps : list (str * str)) (ops : list op) : list (str * str) :=
  match ops with [] => ps | Setup p :: r => last_paths p r | _ :: r => last_paths ps r end.
Fixpoint last_os (w : bool) (ops : list op) : bool :=
  match ops with [] => w | SetOs w' :: r => last_os w' r | _ :: r => last_os w r end.

Lemma run_last E ops : forall s,
  paths (fold_left (step E) ops s) = last_paths (paths s) ops /\ cw (fold_left (step E) ops s) = last_os (cw s) ops.
Proof.
  induction ops as [|x ops IH]; intros s; [auto|]. cbn [fold_left last_paths last_os].
  destruct (IH (step E s x)) as [-> ->]. destruct x as [ps|w|f|f]; cbn [step].
  - auto.
  - unfold set_ide_os. destruct (Bool.eqb_spec w (cw s)); subst; auto.
  - unfold map_to_server. destruct (paths s) eqn:Hp; [|destruct (get str_eqb f (srv_cache s))];
      cbn; rewrite ?Hp; auto.
  - unfold map_to_client. destruct (paths s) eqn:Hp;
      [destruct (get str_eqb f (orig_cache s))|destruct (get str_eqb f (cli_cache s))]; cbn; rewrite ?Hp; auto.
Qed.

Theorem path_history E ps ops f :
  let s := run E ps ops in
  let ps' := last_paths ps ops in
  let w := last_os (server_win E) ops in
  snd (map_to_server E s f) = (match ps' with [] => f | _ => to_server E w ps' f end) /\
  snd (map_to_client E s f) = (match ps' with [] => (realcase E (absolute E f), false) | _ => to_client E w ps' f end).
Proof.
  intros s ps' w.
  assert (I : inv E s).
  { unfold s, run. assert (I0 : inv E (init E ps)) by (repeat split; cbn; discriminate).
    revert I0. generalize (init E ps). induction ops as [|x ops IH]; intros s0 I0; auto.
    cbn [fold_left]. apply IH. now apply inv_step. }
  destruct (run_last E ops (init E ps)) as [Hp Hw]. change (fold_left (step E) ops (init E ps)) with s in *.
  cbn [init paths cw] in Hp, Hw. fold ps' in Hp. fold w in Hw.
  destruct I as (I1 & I2 & I3). rewrite <- Hp, <- Hw. split.
  - unfold map_to_server. destruct (paths s) eqn:P; auto. rewrite <- P in *.
    destruct (get str_eqb f (srv_cache s)) eqn:G; cbn [snd]; auto.
  - unfold map_to_client. destruct (paths s) eqn:P.
    + destruct (get str_eqb f (orig_cache s)) eqn:G; cbn [snd]; auto.
    + rewrite <- P in *. destruct (get str_eqb f (cli_cache s)) eqn:G; cbn [snd]; auto.
Qed.

(** ** Examples and limits *)

Local Open Scope string_scope. Local Open Scope list_scope.

(** A Unix process and a Unix or Windows client; a Windows process. *)
Definition unix : env := Env false NNone (fun f => f) (fun f => f) (fun _ => true) (fun f => f).
Definition windows : env := Env true NWin (fun f => f) (fun f => f) (fun _ => true) (fun f => f).

Example ex_unix_windows :
  to_client unix true [(lit "C:\My", lit "/srv/app")] (lit "/srv/app/pkg/Mod.py") = (lit "C:\My\pkg\Mod.py", true) /\
  to_server unix true [(lit "C:\My", lit "/srv/app")] (lit "c:\my\pkg\Mod.py") = lit "/srv/app/pkg/Mod.py".
Proof. split; reflexivity. Qed.
Example ex_windows_unix :
  to_client windows false [(lit "/home/me/", lit "D:\App")] (lit "d:\app\Pkg\Mod.py") = (lit "/home/me/Pkg/Mod.py", true) /\
  to_server windows false [(lit "/home/me/", lit "D:\App")] (lit "/home/me/Pkg/Mod.py") = lit "d:\app\Pkg\Mod.py".
Proof. split; reflexivity. Qed.

Lemma prefix_dec a b : starts_with a b = false -> ~ prefix a b.
Proof. intros H P. apply starts_with_spec in P. congruence. Qed.

(** Two mappings meeting the hypotheses. *)
Definition two : list (str * str) := [(lit "C:\My", lit "/srv/app"); (lit "C:\Lib\", lit "/usr/lib")].
Example ex_good : good unix true two /\ stable_name unix (lit "/srv/app/pkg/Mod.py").
Proof.
  split; [|intros g H; cbn in *; auto].
  split; [discriminate|]. split; [|split; [|split]].
  - intros c s [H|[H|[]]]; inversion H; subst; repeat split; intros; try reflexivity; discriminate.
  - intros _ c s [H|[H|[]]]; inversion H; subst; (split; [discriminate|]);
      intros _ Hin; vm_compute in Hin; intuition discriminate.
  - intros c s c' s' [H|[H|[]]] [H'|[H'|[]]]; inversion H; inversion H'; subst; auto;
      intros P; exfalso; revert P; apply prefix_dec; reflexivity.
  - intros c s c' s' [H|[H|[]]] [H'|[H'|[]]]; inversion H; inversion H'; subst; auto;
      intros P; exfalso; revert P; apply prefix_dec; reflexivity.
Qed.

(** Files of a directory whose name merely begins like the root are translated too. *)
Theorem path_sibling_refuted : exists paths f g,
  In (lit "/c/app", lit "/srv/app") paths /\ ~ prefix (lit "/srv/app/") f /\ to_client unix false paths f = (g, true) /\
  g = lit "/c/app2/x.py".
Proof.
  exists [(lit "/c/app", lit "/srv/app")], (lit "/srv/app2/x.py"), (lit "/c/app2/x.py").
  split; [now left|]. split; [now apply prefix_dec|]. split; reflexivity.
Qed.

(** With one client root inside another the first mapping wins, not the closest, and a name may come back
    as another file. *)
Theorem path_overlap_refuted : exists paths f g,
  to_client unix false paths f = (g, true) /\ to_server unix false paths g <> f.
Proof.
  exists [(lit "/c/sub", lit "/t"); (lit "/c", lit "/s")], (lit "/s/sub/x.py"), (lit "/c/sub/x.py").
  split; [reflexivity|discriminate].
Qed.

(** A Unix file name with a backslash does not come back from a Windows client. *)
Theorem path_backslash_refuted : exists f g,
  to_client unix true [(lit "C:\My", lit "/srv")] f = (g, true) /\
  to_server unix true [(lit "C:\My", lit "/srv")] g <> f.
Proof. exists (lit "/srv/a\b.py"), (lit "C:\My\a\b.py"). split; [reflexivity|discriminate]. Qed.

Print Assumptions path_server_round_trip.
Print Assumptions path_client_lands.
Print Assumptions path_client_round_trip.
Print Assumptions path_unmapped.
Print Assumptions path_history.
Print Assumptions path_sibling_refuted.
Print Assumptions path_overlap_refuted.
Print Assumptions path_backslash_refuted.
