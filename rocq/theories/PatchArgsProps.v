(** C25: rewriting the command line of a Python subprocess. *)
From Coq Require Import String List NArith Bool Lia.
From Verif Require Import Base WinArgs WinArgsProps PatchArgs.
Import ListNotations.
Local Open Scope string_scope.
Local Open Scope list_scope.

(** ** Specification: the command line of the Python interpreter *)

(** Letters of options without a value *)
Definition letters (l : str) : Prop := forall c, In c l -> ~ In c (lit "WXQcm").
Definition long_names : list str := [lit "--check-hash-based-pycs"; lit "--jit"].
Definition short (a : str) : Prop := forall n r, In n long_names -> a <> n ++ r.

(** A sequence of interpreter options: flags, options with their value in the same or the next argument. *)
Inductive interp_opts : list str -> Prop :=
| io_nil : interp_opts []
| io_flags l r : l <> [] -> letters l -> short (45%N :: l) -> interp_opts r -> interp_opts ((45%N :: l) :: r)
| io_joined l c v r : letters l -> In c (lit "WXQ") -> v <> [] -> short (45%N :: l ++ c :: v) ->
    interp_opts r -> interp_opts ((45%N :: l ++ c :: v) :: r)
| io_next l c v r : letters l -> In c (lit "WXQ") -> short (45%N :: l ++ [c]) ->
    interp_opts r -> interp_opts ((45%N :: l ++ [c]) :: v :: r)
| io_long_eq n v r : In n long_names -> v <> [] -> interp_opts r -> interp_opts ((n ++ v) :: r)
| io_long_next n v r : In n long_names -> interp_opts r -> interp_opts (n :: v :: r).

(** The program to run: a file, a module or code, with its own arguments. *)
Definition program (f : str) : Prop := (forall r, f <> 45%N :: r) /\ (forall r, f <> r ++ lit "pydevd.py").

(** A name that counts as a Python interpreter. *)
Definition python_name (W : world) (exe : str) : Prop :=
  exists n a b, In n [lit "python"; lit "jython"; lit "pypy"] /\ base_lower W exe = a ++ n ++ b.
Definition unquoted_name (exe : str) : Prop := forall r, exe <> r ++ [39%N] /\ exe <> r ++ [34%N].

(** ** Facts *)

Lemma contains_spec p s : contains p s = true <-> exists a b, s = a ++ p ++ b.
Proof.
  induction s as [|c s IH]; cbn [contains].
  - rewrite orb_false_r, starts_with_spec. split.
    + intros [r ->]. now exists [], r.
    + intros (a & b & H). symmetry in H. apply app_eq_nil in H. destruct H as [_ H].
      apply app_eq_nil in H. destruct H as [-> ->]. now exists [].
  - rewrite orb_true_iff, IH, starts_with_spec. split.
    + intros [[r ->]|(a & b & ->)]; [now exists [], r|now exists (c :: a), b].
    + intros (a & b & H). destruct a as [|x a].
      * left. now exists b.
      * right. inversion H; subst. now exists a, b.
Qed.

Lemma is_python_spec W exe : unquoted_name exe -> is_python W exe = true <-> python_name W exe.
Proof.
  intros H. unfold is_python.
  assert (E : ends_with [39%N] exe || ends_with [dq] exe = false).
  { destruct (ends_with [39%N] exe) eqn:A; [|destruct (ends_with [dq] exe) eqn:B; auto];
      [apply ends_with_spec in A; destruct A as [r A]|apply ends_with_spec in B; destruct B as [r B]];
      exfalso; destruct (H r); auto. }
  rewrite E. unfold python_name. rewrite existsb_exists. split.
  - intros (n & Hn & Hc). apply contains_spec in Hc. destruct Hc as (a & b & Hc). now exists n, a, b.
  - intros (n & a & b & Hn & Hc). exists n. split; auto. apply contains_spec. now exists a, b.
Qed.

Lemma remove_quotes_txt W args : win W = false -> remove_quotes W (map Txt args) = Some args.
Proof.
  intros H. induction args as [|a r IH]; [reflexivity|]. cbn [map remove_quotes]. rewrite IH.
  unfold unquote. now rewrite H.
Qed.

Lemma flag_in c : is_flag c = true <-> In c (lit "WXQcm").
Proof.
  unfold is_flag. rewrite existsb_exists. split.
  - intros (x & Hx & E). apply N.eqb_eq in E. now subst.
  - intros H. exists c. split; auto. apply N.eqb_refl.
Qed.
Lemma letters_cons c l : letters (c :: l) -> is_flag c = false /\ letters l.
Proof.
  intros H. split.
  - destruct (is_flag c) eqn:E; auto. apply flag_in in E. exfalso. apply (H c); auto. now left.
  - intros x Hx. apply H. now right.
Qed.
Lemma split_letters l : letters l -> split_flag l = None.
Proof.
  induction l as [|c l IH]; auto. intros H. apply letters_cons in H. destruct H as [H1 H2].
  cbn [split_flag]. now rewrite H1, IH.
Qed.
Lemma split_flag_at l c v : letters l -> In c (lit "WXQcm") -> split_flag (l ++ c :: v) = Some (l, c, v).
Proof.
  intros H Hc. induction l as [|x l IH]; cbn [app split_flag].
  - apply flag_in in Hc. now rewrite Hc.
  - apply letters_cons in H. destruct H as [H1 H2]. now rewrite H1, IH.
Qed.
Lemma dash_letters l : letters l -> letters (45%N :: l).
Proof. intros H x [<-|Hx]; [vm_compute; intuition discriminate|auto]. Qed.

Lemma split_dash l c v : letters l -> In c (lit "WXQcm") -> split_flag (45%N :: l ++ c :: v) = Some (45%N :: l, c, v).
Proof. intros. apply (split_flag_at (45%N :: l)); auto using dash_letters. Qed.

Lemma short_false a : short a -> existsb (fun p => starts_with p a) long_with_value = false.
Proof.
  intros H. destruct (existsb _ _) eqn:E; auto. apply existsb_exists in E. destruct E as (n & Hn & E).
  apply starts_with_spec in E. destruct E as [r E]. exfalso. eapply H; eauto.
Qed.

Lemma long_true n v : In n long_names -> existsb (fun p => starts_with p (n ++ v)) long_with_value = true.
Proof. intros H. apply existsb_exists. exists n. split; auto. apply starts_with_app. Qed.
Lemma long_exact n v : In n long_names -> v <> [] -> existsb (str_eqb (n ++ v)) long_with_value = false.
Proof.
  intros H Hv. destruct (existsb _ _) eqn:E; auto. apply existsb_exists in E. destruct E as (m & Hm & E).
  apply str_eqb_eq in E. exfalso.
  assert (Heq : n = m).
  { assert (L : forall a b, In a long_names -> In b long_names -> hd_error (skipn 2 a) = hd_error (skipn 2 b) -> a = b).
    { intros a b [<-|[<-|[]]] [<-|[<-|[]]] Hh; auto; discriminate. }
    apply L; auto. rewrite <- E.
    destruct H as [<-|[<-|[]]]; reflexivity. }
  rewrite <- Heq in E. apply Hv. rewrite <- (app_nil_r n) in E at 2. now apply app_inv_head in E.
Qed.
Lemma long_self n : In n long_names -> existsb (str_eqb n) long_with_value = true.
Proof. intros [<-|[<-|[]]]; reflexivity. Qed.
Lemma long_dash n v : In n long_names -> starts_with [45%N] (n ++ v) = true /\ str_eqb (n ++ v) [45%N] = false.
Proof. intros [<-|[<-|[]]]; split; reflexivity. Qed.

Lemma dash_start l : starts_with [45%N] (45%N :: l) = true.
Proof. reflexivity. Qed.
Lemma dash_ne l : l <> [] -> str_eqb (45%N :: l) [45%N] = false.
Proof. intros H. apply str_eqb_neq. congruence. Qed.

Lemma value_flag c : In c (lit "WXQ") -> In c (lit "WXQcm") /\ N.eqb c 109 = false /\ N.eqb c 99 = false.
Proof. cbn. intros [<-|[<-|[<-|[]]]]; repeat split; auto; cbn; auto. Qed.

(** The options are passed over. *)
Lemma scan_opts o : interp_opts o -> forall pre l, scan pre (o ++ l) false = scan (pre ++ o) l false.
Proof.
  induction 1 as [|l r Hl Hlt Hs _ IH|l c v r Hlt Hc Hv Hs _ IH|l c v r Hlt Hc Hs _ IH|n v r Hn Hv _ IH|n v r Hn _ IH];
    intros pre tl.
  - now rewrite app_nil_r.
  - cbn [app scan]. rewrite dash_start, dash_ne, short_false, split_letters by auto using dash_letters.
    rewrite IH. now rewrite <- app_assoc.
  - cbn [app scan]. destruct (value_flag c Hc) as (Hc' & Hm & Hk).
    rewrite dash_start, dash_ne, short_false, split_dash by (auto using dash_letters; destruct l; discriminate).
    rewrite Hm, Hk. destruct v; [congruence|]. rewrite IH. now rewrite <- app_assoc.
  - cbn [app scan]. destruct (value_flag c Hc) as (Hc' & Hm & Hk).
    rewrite dash_start, dash_ne, short_false, split_dash by (auto using dash_letters; destruct l; discriminate).
    rewrite Hm, Hk. rewrite IH. now rewrite <- !app_assoc.
  - cbn [app scan]. destruct (long_dash n v Hn) as [-> ->]. rewrite long_true, long_exact by auto.
    rewrite IH. now rewrite <- app_assoc.
  - cbn [app scan]. pose proof (long_dash n [] Hn) as D. rewrite app_nil_r in D. destruct D as [-> ->].
    pose proof (long_true n [] Hn) as L. rewrite app_nil_r in L. rewrite L, long_self by auto.
    rewrite IH. now rewrite <- !app_assoc.
Qed.

Lemma scan_exe exe o l : interp_opts o -> scan [] (exe :: o ++ l) true = scan (exe :: o) l false.
Proof. intros H. cbn [scan app]. now rewrite scan_opts. Qed.

Lemma patch_start W exe o l : win W = false -> is_python W exe = true -> interp_opts o ->
  patch_args W (map Txt (exe :: o ++ l)) =
  match scan (exe :: o) l false with
  | Nothing => None
  | FCode pre flag code rest => if has_port W then Some (pre ++ [flag; wrap_code W code] ++ rest) else None
  | FModule pre flag m rest =>
      Some (pre ++ (match flag with [] => [] | _ => [flag] end) ++
            pydevd W :: lit "--module" :: opts W ++ [lit "--file"; m] ++ rest)
  | FFile pre f rest => Some (pre ++ pydevd W :: opts W ++ [lit "--file"; f] ++ rest)
  end.
Proof.
  intros Hw Hp Ho. unfold patch_args. rewrite remove_quotes_txt by auto. rewrite Hp, Hw, scan_exe by auto. cbn [negb].
  destruct (scan _ _ _); auto. destruct (has_port W); auto.
Qed.

(** ** Theorems, first for systems other than Windows *)

(** A script: interpreter options stay in front, pydevd runs the file with the program's own arguments. *)
Theorem patch_file W exe o f rest :
  win W = false -> unquoted_name exe -> python_name W exe -> interp_opts o -> program f ->
  patch_args W (map Txt (exe :: o ++ f :: rest)) =
  Some (exe :: o ++ pydevd W :: opts W ++ [lit "--file"; f] ++ rest).
Proof.
  intros Hw Hu Hp Ho [Hf1 Hf2]. rewrite patch_start by (auto; now apply is_python_spec). cbn [scan].
  destruct (starts_with [45%N] f) eqn:S.
  { apply starts_with_spec in S. destruct S as [r S]. exfalso. now apply (Hf1 r). }
  destruct (ends_with (lit "pydevd.py") f) eqn:E; auto.
  apply ends_with_spec in E. destruct E as [r E]. exfalso. now apply (Hf2 r).
Qed.

(** A module: "-m name" possibly after other flags in the same argument, or "-mname". *)
Theorem patch_module W exe o l m rest :
  win W = false -> unquoted_name exe -> python_name W exe -> interp_opts o -> letters l ->
  (short (45%N :: l ++ [109%N]) ->
   patch_args W (map Txt (exe :: o ++ (45%N :: l ++ [109%N]) :: m :: rest)) =
   Some (exe :: o ++ (match l with [] => [] | _ => [45%N :: l] end) ++
         pydevd W :: lit "--module" :: opts W ++ [lit "--file"; m] ++ rest)) /\
  (m <> [] -> short (45%N :: l ++ 109%N :: m) ->
   patch_args W (map Txt (exe :: o ++ (45%N :: l ++ 109%N :: m) :: rest)) =
   Some (exe :: o ++ (match l with [] => [] | _ => [45%N :: l] end) ++
         pydevd W :: lit "--module" :: opts W ++ [lit "--file"; m] ++ rest)).
Proof.
  intros Hw Hu Hp Ho Hl.
  assert (Hm : In 109%N (lit "WXQcm")) by (cbn; auto 10).
  split.
  - intros Hs. rewrite patch_start by (auto; now apply is_python_spec). cbn [scan].
    rewrite dash_start, dash_ne, short_false, split_dash by (auto using dash_letters; destruct l; discriminate).
    change (N.eqb 109 109) with true. cbn iota. destruct l as [|x l]; [reflexivity|].
    rewrite dash_ne by discriminate. reflexivity.
  - intros Hne Hs. rewrite patch_start by (auto; now apply is_python_spec). cbn [scan].
    rewrite dash_start, dash_ne, short_false, split_dash by (auto using dash_letters; destruct l; discriminate).
    change (N.eqb 109 109) with true. cbn iota. destruct m as [|y m]; [congruence|].
    destruct l as [|x l]; [reflexivity|]. rewrite dash_ne by discriminate. reflexivity.
Qed.

(** Code: "-c code" or "-ccode": the code is wrapped, everything else stays. *)
Theorem patch_code W exe o l code rest :
  win W = false -> unquoted_name exe -> python_name W exe -> interp_opts o -> letters l ->
  has_port W = true ->
  (short (45%N :: l ++ [99%N]) ->
   patch_args W (map Txt (exe :: o ++ (45%N :: l ++ [99%N]) :: code :: rest)) =
   Some (exe :: o ++ (45%N :: l ++ [99%N]) :: wrap_code W code :: rest)) /\
  (code <> [] -> short (45%N :: l ++ 99%N :: code) ->
   patch_args W (map Txt (exe :: o ++ (45%N :: l ++ 99%N :: code) :: rest)) =
   Some (exe :: o ++ (45%N :: l ++ [99%N]) :: wrap_code W code :: rest)).
Proof.
  intros Hw Hu Hp Ho Hl Hport.
  assert (Hm : In 99%N (lit "WXQcm")) by (cbn; auto 10).
  split.
  - intros Hs. rewrite patch_start by (auto; now apply is_python_spec). cbn [scan].
    rewrite dash_start, dash_ne, short_false, split_dash by (auto using dash_letters; destruct l; discriminate).
    change (N.eqb 99 109) with false. change (N.eqb 99 99) with true. cbn iota. now rewrite Hport.
  - intros Hne Hs. rewrite patch_start by (auto; now apply is_python_spec). cbn [scan].
    rewrite dash_start, dash_ne, short_false, split_dash by (auto using dash_letters; destruct l; discriminate).
    change (N.eqb 99 109) with false. change (N.eqb 99 99) with true. cbn iota.
    destruct code as [|y code]; [congruence|]. now rewrite Hport.
Qed.

(** Anything which is not a Python interpreter, has an argument of an unexpected type, or already runs the
    debugger, is returned unchanged. *)
Theorem patch_unchanged W :
  (forall exe rest, unquoted_name (unquote W exe) -> ~ python_name W (unquote W exe) ->
     patch_args W (Txt exe :: rest) = None) /\
  (forall args, In Bad args -> patch_args W args = None) /\
  patch_args W [] = None /\
  (forall exe o f rest, win W = false -> unquoted_name exe -> interp_opts o ->
     (f = [45%N] \/ (starts_with [45%N] f = false /\ exists d, f = d ++ lit "pydevd.py")) ->
     patch_args W (map Txt (exe :: o ++ f :: rest)) = None).
Proof.
  split; [|split; [|split]].
  - intros exe rest Hu Hn. unfold patch_args. cbn [remove_quotes].
    destruct (remove_quotes W rest) as [l|]; auto.
    destruct (is_python W (unquote W exe)) eqn:P; auto. apply is_python_spec in P; tauto.
  - intros args H. unfold patch_args.
    assert (E : remove_quotes W args = None); [|now rewrite E].
    induction args as [|a r IH]; [contradiction|]. destruct H as [->|H]; [reflexivity|].
    cbn [remove_quotes]. destruct a; auto; now rewrite IH.
  - reflexivity.
  - intros exe o f rest Hw Hu Ho Hf.
    destruct (is_python W exe) eqn:P.
    + rewrite patch_start by auto. cbn [scan]. destruct Hf as [->|[S [d ->]]]; [reflexivity|].
      rewrite S. replace (ends_with (lit "pydevd.py") (d ++ lit "pydevd.py")) with true; auto.
      symmetry. apply ends_with_spec. now exists d.
    + unfold patch_args. rewrite remove_quotes_txt by auto. now rewrite P.
Qed.

(** For every argument list: what is returned contains all the arguments before and after the program in
    place and in order. *)
Lemma scan_shape l : forall pre ig,
  match scan pre l ig with
  | Nothing => True
  | FFile p f rest => exists o, p = pre ++ o /\ l = o ++ f :: rest
  | FModule p flag m rest => exists o q, p = pre ++ o /\ (flag = q \/ (flag = [] /\ q = [45%N])) /\
      (l = o ++ (q ++ [109%N]) :: m :: rest \/ l = o ++ (q ++ 109%N :: m) :: rest)
  | FCode p flag code rest => exists o q, p = pre ++ o /\ flag = q ++ [99%N] /\
      (l = o ++ (q ++ [99%N]) :: code :: rest \/ l = o ++ (q ++ 99%N :: code) :: rest)
  end.
Proof.
  assert (Sp : forall s p c r, split_flag s = Some (p, c, r) -> s = p ++ c :: r).
  { induction s as [|x s IH]; intros p c r; cbn [split_flag]; [discriminate|].
    destruct (is_flag x); [intros [= <- <- <-]; reflexivity|].
    destruct (split_flag s) as [[[p' c'] r']|]; [|discriminate]. intros [= <- <- <-].
    now rewrite (IH _ _ _ eq_refl). }
  assert (Wk : forall pre a r ig, match scan (pre ++ [a]) r ig with
    | Nothing => True
    | FFile p f rest => exists o, p = (pre ++ [a]) ++ o /\ r = o ++ f :: rest
    | FModule p flag m rest => exists o q, p = (pre ++ [a]) ++ o /\ (flag = q \/ (flag = [] /\ q = [45%N])) /\
        (r = o ++ (q ++ [109%N]) :: m :: rest \/ r = o ++ (q ++ 109%N :: m) :: rest)
    | FCode p flag code rest => exists o q, p = (pre ++ [a]) ++ o /\ flag = q ++ [99%N] /\
        (r = o ++ (q ++ [99%N]) :: code :: rest \/ r = o ++ (q ++ 99%N :: code) :: rest)
    end -> match scan (pre ++ [a]) r ig with
    | Nothing => True
    | FFile p f rest => exists o, p = pre ++ o /\ a :: r = o ++ f :: rest
    | FModule p flag m rest => exists o q, p = pre ++ o /\ (flag = q \/ (flag = [] /\ q = [45%N])) /\
        (a :: r = o ++ (q ++ [109%N]) :: m :: rest \/ a :: r = o ++ (q ++ 109%N :: m) :: rest)
    | FCode p flag code rest => exists o q, p = pre ++ o /\ flag = q ++ [99%N] /\
        (a :: r = o ++ (q ++ [99%N]) :: code :: rest \/ a :: r = o ++ (q ++ 99%N :: code) :: rest)
    end).
  { intros pre a r ig. destruct (scan (pre ++ [a]) r ig); auto.
    - intros (o & -> & ->). exists (a :: o). now rewrite <- app_assoc.
    - intros (o & q & -> & Hq & H). exists (a :: o), q. rewrite <- app_assoc. cbn [app].
      split; auto. split; auto. destruct H as [-> | ->]; auto.
    - intros (o & q & -> & Hq & H). exists (a :: o), q. rewrite <- app_assoc. cbn [app].
      split; auto. split; auto. destruct H as [-> | ->]; auto. }
  induction l as [|a r IH]; intros pre ig; [exact I|]. cbn [scan].
  destruct ig; [apply Wk, IH|].
  destruct (starts_with [45%N] a).
  - destruct (str_eqb a [45%N]); [exact I|]. destruct (existsb _ _); [apply Wk, IH|].
    destruct (split_flag a) as [[[p c] rem]|] eqn:S; [|apply Wk, IH].
    apply Sp in S. destruct (N.eqb_spec c 109) as [->|n1].
    { assert (Hf : (if str_eqb p [45%N] then [] else p) = p \/
                   ((if str_eqb p [45%N] then [] else p) = [] /\ p = [45%N])).
      { destruct (str_eqb_spec p [45%N]); auto. }
      destruct rem as [|x rem].
      - destruct r as [|m rest]; [exact I|]. exists [], p. rewrite app_nil_r. subst. auto.
      - exists [], p. rewrite app_nil_r. subst. auto. }
    destruct (N.eqb_spec c 99) as [->|n2].
    { destruct rem as [|x rem].
      - destruct r as [|m rest]; [exact I|]. exists [], p. rewrite app_nil_r. subst. auto.
      - exists [], p. rewrite app_nil_r. subst. auto. }
    apply Wk, IH.
  - destruct (ends_with _ _); [exact I|]. exists []. now rewrite app_nil_r.
Qed.

Theorem patch_shape W args l : win W = false -> patch_args W (map Txt args) = Some l ->
  (exists o f rest, args = o ++ f :: rest /\ l = o ++ pydevd W :: opts W ++ [lit "--file"; f] ++ rest) \/
  (exists o q fl m rest,
     (args = o ++ (q ++ [109%N]) :: m :: rest \/ args = o ++ (q ++ 109%N :: m) :: rest) /\
     (fl = [q] \/ (fl = [] /\ (q = [45%N] \/ q = []))) /\
     l = o ++ fl ++ pydevd W :: lit "--module" :: opts W ++ [lit "--file"; m] ++ rest) \/
  (exists o q code rest,
     (args = o ++ (q ++ [99%N]) :: code :: rest \/ args = o ++ (q ++ 99%N :: code) :: rest) /\
     l = o ++ (q ++ [99%N]) :: wrap_code W code :: rest).
Proof.
  intros Hw H. unfold patch_args in H. rewrite remove_quotes_txt in H by auto.
  destruct args as [|exe r]; [discriminate|]. destruct (is_python W exe); [|discriminate]. cbn [negb] in H.
  rewrite Hw in H. pose proof (scan_shape (exe :: r) [] true) as Sh.
  destruct (scan [] (exe :: r) true) as [|p f rest|p flag m rest|p flag code rest]; [discriminate| | |].
  - destruct Sh as (o & -> & E). left. exists o, f, rest. split; auto. now inversion H.
  - destruct Sh as (o & q & -> & Hq & E). right. left.
    exists o, q, (match flag with [] => [] | _ => [flag] end), m, rest. split; auto. split.
    + destruct flag as [|x flag].
      * right. split; auto. destruct Hq as [<-|[_ ->]]; auto.
      * left. destruct Hq as [<-|[Hq _]]; [auto|discriminate].
    + now inversion H.
  - destruct Sh as (o & q & -> & -> & E). right. right. exists o, q, code, rest.
    destruct (has_port W); [|discriminate]. split; auto. now inversion H.
Qed.

(** ** Windows: the same arguments, quoted *)

Definition posix (W : world) : world := World false (base_lower W) (pydevd W) (opts W) (has_port W) (wrap_code W).

(** No argument has quotes around it. *)
Definition no_outer_quotes (a : str) : Prop := ~ exists w, a = dq :: w ++ [dq].

Lemma unquote_id W a : no_outer_quotes a -> unquote W a = a.
Proof.
  intros H. unfold unquote.
  destruct (win W && _ && _ && starts_with [dq] a && ends_with [dq] a) eqn:E; auto.
  apply andb_true_iff in E. destruct E as [E E2]. apply andb_true_iff in E. destruct E as [E E1].
  apply andb_true_iff in E. destruct E as [_ E0]. apply PeanoNat.Nat.ltb_lt in E0.
  apply starts_with_spec in E1. destruct E1 as [r ->]. apply ends_with_spec in E2. destruct E2 as [w E2].
  exfalso. destruct w as [|x w].
  - inversion E2; subst. cbn in E0. lia.
  - inversion E2; subst. apply H. now exists w.
Qed.
Lemma remove_quotes_id W args : Forall no_outer_quotes args -> remove_quotes W (map Txt args) = Some args.
Proof.
  induction 1 as [|a r Ha _ IH]; [reflexivity|]. cbn [map remove_quotes]. now rewrite IH, unquote_id.
Qed.

Theorem patch_windows W args l : win W = true -> Forall no_outer_quotes args ->
  patch_args (posix W) (map Txt args) = Some l -> Forall plain_end l -> last_ok l ->
  exists p, patch_args W (map Txt args) = Some p /\ to_args (join p) = l.
Proof.
  intros Hw Hq Hp Hl1 Hl2. exists (map quote_arg l). split.
  - unfold patch_args in *. rewrite remove_quotes_id by auto. rewrite remove_quotes_txt in Hp by auto.
    destruct args as [|exe r]; [discriminate|].
    change (is_python (posix W) exe) with (is_python W exe) in Hp.
    destruct (is_python W exe); [|discriminate]. cbn [negb posix win] in *. rewrite Hw.
    change (has_port (posix W)) with (has_port W) in Hp.
    change (pydevd (posix W)) with (pydevd W) in Hp. change (opts (posix W)) with (opts W) in Hp.
    change (wrap_code (posix W)) with (wrap_code W) in Hp.
    destruct (scan [] (exe :: r) true); try discriminate; try (inversion Hp; subst; reflexivity).
    destruct (has_port W); [|discriminate]. now inversion Hp.
  - now apply win_args_round_trip.
Qed.

(** ** Examples and limits *)

Definition w0 : world := World false (fun s => s) (lit "/x/pydevd.py") [lit "--port"; lit "5"] true (fun c => lit "attach;" ++ c).
Example ex_file :
  patch_args w0 (map Txt [lit "python3"; lit "-u"; lit "-X"; lit "dev"; lit "-Wc"; lit "--jit"; lit "off"; lit "a.py"; lit "-m"; lit "--file"]) =
  Some [lit "python3"; lit "-u"; lit "-X"; lit "dev"; lit "-Wc"; lit "--jit"; lit "off"; lit "/x/pydevd.py"; lit "--port"; lit "5"; lit "--file"; lit "a.py"; lit "-m"; lit "--file"].
Proof. reflexivity. Qed.
Example ex_file_hyp : interp_opts [lit "-u"; lit "-X"; lit "dev"; lit "--jit"; lit "off"] /\ program (lit "a.py").
Proof.
  split.
  - assert (S1 : forall a, starts_with (lit "--") a = false -> short a).
    { intros a H n r [<-|[<-|[]]] ->; discriminate. }
    apply (io_flags (lit "u")); [discriminate|intros c [<-|[]]; vm_compute; intuition discriminate|now apply S1|].
    apply (io_next [] 88%N (lit "dev")); [intros c []|cbn; auto|now apply S1|].
    apply (io_long_next (lit "--jit") (lit "off")); [right; now left|constructor].
  - split; intros r H; [discriminate|]. apply (f_equal (@rev N)) in H. rewrite rev_app_distr in H. discriminate.
Qed.
Example ex_module :
  patch_args w0 (map Txt [lit "python"; lit "-qm"; lit "pkg"; lit "x"]) =
  Some [lit "python"; lit "-q"; lit "/x/pydevd.py"; lit "--module"; lit "--port"; lit "5"; lit "--file"; lit "pkg"; lit "x"].
Proof. reflexivity. Qed.
Example ex_code :
  patch_args w0 (map Txt [lit "python"; lit "-Icprint(1)"; lit "x"]) =
  Some [lit "python"; lit "-Ic"; lit "attach;print(1)"; lit "x"].
Proof. reflexivity. Qed.

Definition w1 : world := World true (fun s => s) (lit "pydevd.py") [] true (fun c => c).

(** On Windows an argument which has quotes of its own around it loses them. *)
Theorem patch_win_quotes_refuted : exists a p,
  patch_args w1 (map Txt [lit "python"; lit "a.py"; a]) = Some p /\
  to_args (join p) = [lit "python"; lit "pydevd.py"; lit "--file"; lit "a.py"; lit "x"] /\ a <> lit "x".
Proof. exists (dq :: lit "x" ++ [dq]), (map quote_arg [lit "python"; lit "pydevd.py"; lit "--file"; lit "a.py"; lit "x"]).
  repeat split; try reflexivity. discriminate. Qed.

(** A Windows command line which is not patched although it starts Python loses its quotes: the arguments
    seen by the child change. *)
Theorem patch_win_str_refuted : exists s,
  to_args s = [lit "python"; lit "-"; lit "a b"] /\
  to_args (patch_arg_str_win w1 s) = [lit "python"; lit "-"; lit "a"; lit "b"].
Proof. exists (lit "python - " ++ dq :: lit "a b" ++ [dq]). split; reflexivity. Qed.

Print Assumptions patch_file.
Print Assumptions patch_module.
Print Assumptions patch_code.
Print Assumptions patch_unchanged.
Print Assumptions patch_shape.
Print Assumptions patch_windows.
Print Assumptions patch_win_quotes_refuted.
Print Assumptions patch_win_str_refuted.
