(** Property C63: debugging Django templates. *)
From Coq Require Import String.
From Coq Require Import List NArith Bool Lia.
From Verif Require Import Base Dict Django.
Import ListNotations.
Open Scope list_scope.

(** * Specification *)
(** The render method of a node of a template other than plain text and lists of nodes *)
Definition renders {V} (f : frame V) : Prop :=
  co_name f = lit "render" /\
  exists n, self f = Some n /\ (cls n = lit "Node" \/ In (lit "Node") (mro n)) /\ cls n <> lit "TextNode" /\ cls n <> lit "NodeList".
(** A node which has a line starts being rendered *)
Definition starts {V} (e : event V) (line : N) : Prop :=
  ev e = ECall /\ renders (fr e) /\ exists n, self (fr e) = Some n /\ lineno n = Some line.
(** Some template has a breakpoint *)
Definition some_break {V} (P : setup V) : Prop := exists file n h rest, In (file, (n, h) :: rest) (bps P).
(** The filters of files hide the code of the frame; what renders templates is not hidden while there are breakpoints in templates *)
Definition hidden {V} (P : setup V) (f : frame V) : Prop :=
  filters P = true /\ filtered f = true /\ ~ (some_break P /\ renders f).
(** A line with a Python breakpoint is reached *)
Definition at_python_break {V} (e : event V) : Prop := ev e = ELine /\ atbreak e = true.
(** The variable lookup of Django calls [f] *)
Definition looks_up {V} (f : frame V) : Prop :=
  co_name f = lit "_resolve_lookup" /\ exists n, self f = Some n /\ cls n = lit "Variable".
Definition method_of_context {V} (f : frame V) : Prop :=
  exists n, self f = Some n /\ (cls n = lit "BaseContext" \/ In (lit "BaseContext") (mro n)).
(** The value of a variable for Django: that of the innermost dictionary which has it *)
Fixpoint innermost {V} (k : str) (dicts : list (dict V)) : option V :=
  match dicts with
  | [] => None
  | d :: r => match innermost k r with Some v => Some v | None => get str_eqb k d end
  end.
(** The template frame shown for an event: the file and the line of the node, and each variable as Django sees it *)
Definition shows {V} (e : event V) (line : N) (p : place V) : Prop :=
  exists n dicts t, self (fr e) = Some n /\ context (fr e) = Some dicts /\ p = InTemplate t /\
    tfile t = origin n /\ tline t = Some line /\ forall k, get str_eqb k (tlocals t) = innermost k dicts.
(** A node with a breakpoint starts being rendered; the condition is about the variables as Django sees them. *)
Definition at_template_break {V} (P : setup V) (e : event V) : Prop :=
  exists line n file lines h dicts, starts e line /\ self (fr e) = Some n /\ origin n = Some file /\
    get str_eqb (norm P file) (bps P) = Some lines /\ get N.eqb line lines = Some h /\
    context (fr e) = Some dicts /\ h (collect_context dicts) = true.
(** The frames are those of a program: what renders a node has the variable called context (see django_no_context_refuted), a
    breakpoint which is reached is one of the frame, and a file name is never that of code without a file; dictionaries have each
    key once. *)
Definition proper {V} (P : setup V) (e : event V) : Prop :=
  (renders (fr e) -> exists dicts, context (fr e) = Some dicts /\ Forall (fun d => NoDup (map fst d)) dicts) /\
  (atbreak e = true -> pybreaks (fr e) = true) /\ get str_eqb (lit "<string>") (bps P) = None.
(** The first event with [Q] *)
Definition first {E} (Q : E -> Prop) (evs : list E) (e : E) (post : list E) : Prop :=
  exists pre, evs = pre ++ e :: post /\ Forall (fun x => ~ Q x) pre /\ Q e.

(** * The frames *)
Lemma existsb_In (s : str) l : existsb (str_eqb s) l = true <-> In s l.
Proof.
  rewrite existsb_exists. split.
  - intros (x & I & H). apply str_eqb_eq in H. now subst.
  - intros I. exists s. now rewrite str_eqb_refl.
Qed.
Lemma inherits_spec n name : inherits n name = true <-> cls n = name \/ In name (mro n).
Proof.
  unfold inherits. rewrite orb_true_iff. cbn [existsb]. rewrite orb_true_iff, existsb_In, !str_eqb_eq. intuition.
Qed.
Lemma neqb_str a b : negb (str_eqb a b) = true <-> a <> b.
Proof. rewrite negb_true_iff. destruct (str_eqb_spec a b); split; intros; try congruence; auto. Qed.
Lemma render_spec {V} (f : frame V) : is_render_call f = true <-> renders f.
Proof.
  unfold is_render_call, renders. rewrite andb_true_iff, str_eqb_eq. destruct (self f) as [n|].
  - rewrite andb_true_iff, inherits_spec, negb_orb, andb_true_iff, !neqb_str. split.
    + intros (A & B & C & D). split; auto. exists n. auto.
    + intros (A & m & E & B & C & D). injection E as <-. auto.
  - split; [intros [_ H]; discriminate|]. intros (_ & n & E & _). discriminate.
Qed.
Lemma render_false {V} (f : frame V) : is_render_call f = false <-> ~ renders f.
Proof. rewrite <- render_spec. destruct (is_render_call f); split; intros; congruence. Qed.
Lemma resolve_spec {V} (f : frame V) : is_resolve_call (Some f) = true <-> looks_up f.
Proof.
  unfold is_resolve_call, looks_up. rewrite andb_true_iff, str_eqb_eq. destruct (self f) as [n|].
  - rewrite str_eqb_eq. split; [intros (A & B); split; auto; now exists n|]. intros (A & m & E & B). injection E as <-. auto.
  - split; [intros [_ H]; discriminate|]. intros (_ & n & E & _). discriminate.
Qed.
Lemma context_spec {V} (f : frame V) : is_context_get_call f = true <-> method_of_context f.
Proof.
  unfold is_context_get_call, method_of_context. destruct (self f) as [n|].
  - rewrite inherits_spec. split; [intros; now exists n|]. intros (m & E & B). injection E as <-. auto.
  - split; [discriminate|]. intros (n & E & _). discriminate.
Qed.
Lemma some_break_spec {V} (P : setup V) : has_line_breaks P = true <-> some_break P.
Proof.
  unfold has_line_breaks, some_break. rewrite existsb_exists. split.
  - intros ([file l] & I & H). cbn [snd] in H. destruct l as [|[n h] l]; [discriminate|]. now exists file, n, h, l.
  - intros (file & n & h & l & I). exists (file, (n, h) :: l). auto.
Qed.
Lemma skip_spec {V} (P : setup V) f : some_break P -> can_skip P f = negb (is_render_call f).
Proof. intros (file & n & h & l & I). unfold can_skip. destruct (bps P); [destruct I|]. auto. Qed.
Lemma hidden_spec {V} (P : setup V) f : apply_files_filter P f = true <-> hidden P f.
Proof.
  unfold apply_files_filter, hidden. rewrite !andb_true_iff, negb_true_iff, <- some_break_spec. split.
  - intros [[A B] C]. repeat split; auto. intros [D R]. apply render_spec in R. rewrite D in C. apply some_break_spec in D.
    rewrite (skip_spec P f D), R in C. discriminate.
  - intros (A & B & C). repeat split; auto. destruct (has_line_breaks P) eqn:D; auto.
    rewrite (skip_spec P f (proj1 (some_break_spec P) D)). rewrite negb_involutive. apply render_false. auto.
Qed.
Lemma hidden_false {V} (P : setup V) f : apply_files_filter P f = false <-> ~ hidden P f.
Proof. rewrite <- hidden_spec. destruct (apply_files_filter P f); split; intros; congruence. Qed.
Lemma filters_hidden {V} (P : setup V) f : filters P && apply_files_filter P f = apply_files_filter P f.
Proof. unfold apply_files_filter. now destruct (filters P). Qed.

(** * Variables *)
Lemma fold_set {V} (d res : dict V) k : NoDup (map fst d) ->
  get str_eqb k (fold_left (fun res kv => set str_eqb (fst kv) (snd kv) res) d res) =
  match get str_eqb k d with Some v => Some v | None => get str_eqb k res end.
Proof.
  revert res. induction d as [|[x v] d IH]; intros res N; auto.
  cbn [map fst] in N. apply NoDup_cons_iff in N. destruct N as [N1 N2]. cbn [fold_left fst snd]. rewrite IH by auto.
  cbn [get]. destruct (str_eqb_spec k x) as [->|Ne].
  - destruct (get str_eqb x d) eqn:G; [|apply (get_set_same _ str_eqb_spec)].
    exfalso. apply N1. apply (get_In _ str_eqb_spec) in G. apply (in_map fst) in G. exact G.
  - destruct (get str_eqb k d); auto. now rewrite (get_set_other _ str_eqb_spec) by auto.
Qed.
Lemma collect_innermost {V} (dicts : list (dict V)) k : Forall (fun d => NoDup (map fst d)) dicts ->
  get str_eqb k (collect_context dicts) = innermost k dicts.
Proof.
  intros F. unfold collect_context.
  assert (A : forall res, get str_eqb k (fold_left (fun res d => fold_left (fun res kv => set str_eqb (fst kv) (snd kv) res) d res) dicts res)
    = match innermost k dicts with Some v => Some v | None => get str_eqb k res end).
  { induction dicts as [|d r IH]; intros res; auto. apply Forall_cons_iff in F. destruct F as [F1 F2]. cbn [fold_left innermost].
    rewrite IH by auto. destruct (innermost k r); auto. now rewrite fold_set. }
  rewrite A. now destruct (innermost k dicts).
Qed.

(** C63: what is shown at a node is its file, its line and the variables as the template sees them *)
Theorem django_variables {V} (f : frame V) dicts t k :
  context f = Some dicts -> Forall (fun d => NoDup (map fst d)) dicts -> template_frame f = Some t ->
  get str_eqb k (tlocals t) = innermost k dicts.
Proof. intros C F T. unfold template_frame in T. rewrite C in T. injection T as <-. cbn [tlocals]. now apply collect_innermost. Qed.
Print Assumptions django_variables.

(** * Breakpoints *)
Lemma starts_call {V} (e : event V) line : starts e line <-> ev e = ECall /\ is_render_call (fr e) = true /\ template_line (fr e) = Some line.
Proof.
  unfold starts, template_line. rewrite render_spec. split.
  - intros (A & B & n & S & L). rewrite S. auto.
  - intros (A & B & C). split; auto. split; auto. destruct (self (fr e)) as [n|]; [|discriminate]. now exists n.
Qed.
Lemma shows_frame {V} (P : setup V) e line : proper P e -> starts e line ->
  exists t, template_frame (fr e) = Some t /\ tline t = Some line /\ shows e line (InTemplate t).
Proof.
  intros [Pc _] S. pose proof S as S0. apply starts_call in S0. destruct S0 as (K & R & L). destruct S as (_ & R' & n & Sn & Ln).
  destruct (Pc R') as (dicts & C & F). unfold template_frame. rewrite C. eexists. split; [reflexivity|]. split; [exact L|].
  exists n, dicts. eexists. split; [exact Sn|]. split; [exact C|]. split; [reflexivity|]. cbn [tfile tline tlocals]. unfold template_file. rewrite Sn.
  split; auto. split; auto. intros k. now apply collect_innermost.
Qed.
Lemma found_spec {V} (P : setup V) e : proper P e ->
  match get_breakpoint P e with
  | Fails => False
  | Break h t => exists line, starts e line /\ template_frame (fr e) = Some t /\ (h (tlocals t) = true <-> at_template_break P e)
  | NoBreak => ~ at_template_break P e
  end.
Proof.
  intros Pp. pose proof Pp as (Pc & _ & Ps). unfold get_breakpoint.
  destruct (is_call (ev e) && is_render_call (fr e)) eqn:K.
  2:{ intros (line & n & file & lines & h & dicts & S & _). apply starts_call in S. destruct S as (A & B & _). rewrite A, B in K. discriminate. }
  apply andb_true_iff in K. destruct K as [K R]. assert (Kc : ev e = ECall) by (destruct (ev e); auto; discriminate).
  assert (N : forall lines, get str_eqb (lookup_name P (fr e)) (bps P) = lines ->
    at_template_break P e -> exists line ls h dicts, starts e line /\ lines = Some ls /\ get N.eqb line ls = Some h /\ context (fr e) = Some dicts
       /\ h (collect_context dicts) = true).
  { intros lines G (line & n & file & ls & h & dicts & S & Sn & O & Gf & Gl & C & H). exists line, ls, h, dicts. split; auto. split; auto.
    rewrite <- G. unfold lookup_name, template_file. rewrite Sn, O. auto. }
  destruct (get str_eqb (lookup_name P (fr e)) (bps P)) as [lines|] eqn:G.
  2:{ intros H. destruct (N _ eq_refl H) as (line & ls & h & dicts & _ & E & _). discriminate. }
  destruct (Pc (proj1 (render_spec _) R)) as (dicts & C & F).
  destruct lines as [|l0 lr] eqn:EL.
  { intros H. destruct (N _ eq_refl H) as (line & ls & h & dicts' & _ & E & Gl & _). injection E as <-. discriminate. }
  rewrite <- EL in *. clear l0 lr EL.
  destruct (template_frame (fr e)) as [t|] eqn:T; [|unfold template_frame in T; rewrite C in T; discriminate].
  assert (Tl : tlocals t = collect_context dicts) by (unfold template_frame in T; rewrite C in T; now injection T as <-).
  destruct (template_line (fr e)) as [line|] eqn:L.
  2:{ intros (line & n & file & ls & h & ds & S & _). apply starts_call in S. destruct S as (_ & _ & S). congruence. }
  assert (S : starts e line) by (apply starts_call; auto).
  destruct (get N.eqb line lines) as [h|] eqn:Gl.
  - exists line. split; auto. split; auto. rewrite Tl. split.
    + intros H. destruct S as (S1 & S2 & n & Sn & Ln). unfold lookup_name, template_file in G. rewrite Sn in G.
      destruct (origin n) as [file|] eqn:O; [|rewrite Ps in G; discriminate].
      exists line, n, file, lines, h, dicts. repeat split; auto; [apply S2|apply S2|]. now exists n.
    + intros H. destruct (N _ eq_refl H) as (line' & ls & h' & ds & S' & E & Gl' & C' & H'). injection E as <-.
      apply starts_call in S'. destruct S' as (_ & _ & S'). assert (line' = line) as -> by congruence. rewrite Gl in Gl'. injection Gl' as <-.
      rewrite C in C'. now injection C' as <-.
  - intros H. destruct (N _ eq_refl H) as (line' & ls & h' & ds & S' & E & Gl' & _). injection E as <-.
    apply starts_call in S'. destruct S' as (_ & _ & S'). congruence.
Qed.
(** Without a breakpoint in any template none is found *)
Lemma no_break_found {V} (P : setup V) e : has_line_breaks P = false -> ~ at_template_break P e.
Proof.
  intros H (line & n & file & lines & h & dicts & _ & _ & _ & G & Gl & _). apply (get_In _ str_eqb_spec) in G.
  assert (X : has_line_breaks P = true); [|congruence]. apply some_break_spec. destruct lines as [|[a b] l]; [discriminate|]. now exists (norm P file), a, b, l.
Qed.
Lemma break_starts {V} (P : setup V) e : at_template_break P e -> exists line, starts e line.
Proof. intros (line & n & file & lines & h & dicts & S & _). now exists line. Qed.

(** * One event *)
Definition python_stop {V} (P : setup V) (e : event V) : Prop := at_python_break e /\ ~ hidden P (fr e).
Lemma line_break {V} (e : event V) : is_line (ev e) && atbreak e = true <-> at_python_break e.
Proof. unfold at_python_break. rewrite andb_true_iff. destruct (ev e); cbn [is_line]; intuition; discriminate. Qed.
Lemma line_break_false {V} (e : event V) : is_line (ev e) && atbreak e = false <-> ~ at_python_break e.
Proof. rewrite <- line_break. destruct (is_line (ev e) && atbreak e); split; intros; congruence. Qed.
Lemma call_not_break {V} (e : event V) : ev e = ECall -> ~ at_python_break e.
Proof. intros H [A _]. congruence. Qed.

(** The breakpoints, whatever the step *)
Lemma trace_break {V} (P : setup V) e d :
  proper P e -> dead d = false -> left_out P e d = false -> skipped P e d = false ->
  (at_python_break e -> trace P e d = (suspended false (leaving e d), Some (InCode (fr e)))) /\
  (at_template_break P e -> exists line p, starts e line /\ trace P e d = (suspended true (leaving e d), Some p) /\ shows e line p) /\
  (~ at_python_break e -> ~ at_template_break P e -> trace P e d = finish P e (steps P e (step d) (at_frame d) (leaving e d))).
Proof.
  intros Pp D L S. unfold trace. rewrite D, L, S. cbn [orb].
  split; [|split].
  - intros B. apply line_break in B. now rewrite B.
  - intros B. destruct (break_starts _ _ B) as [line St].
    assert (NB : is_line (ev e) && atbreak e = false) by (apply line_break_false, call_not_break; apply St).
    rewrite NB. destruct (has_line_breaks P) eqn:HL; [|now apply no_break_found in B].
    pose proof (found_spec P e Pp) as F. destruct (get_breakpoint P e) as [|h t|]; [contradiction| |contradiction].
    destruct F as (line' & S' & T & E). rewrite (proj2 E B). exists line', (InTemplate t). split; auto. split; auto.
    destruct (shows_frame P e line' Pp S') as (t' & T' & _ & Sh). congruence.
  - intros NB NT. apply line_break_false in NB. rewrite NB. destruct (has_line_breaks P) eqn:HL; auto.
    pose proof (found_spec P e Pp) as F. destruct (get_breakpoint P e) as [|h t|]; auto; [|contradiction].
    destruct F as (line' & S' & T & E). destruct (h (tlocals t)); auto. now destruct (NT (proj1 E eq_refl)).
Qed.
Lemma trace_out {V} (P : setup V) e d : left_out P e d = true -> trace P e d = (d, None).
Proof. intros H. unfold trace. now rewrite H, orb_true_r. Qed.
Lemma trace_skipped {V} (P : setup V) e d : dead d = false -> skipped P e d = true -> left_out P e d = false -> trace P e d = (leaving e d, None).
Proof. intros D S L. unfold trace. now rewrite D, L, S. Qed.

(** * Up to the next stop *)
Lemma run_first {V} (P : setup V) (Q : event V -> Prop) (good : event V -> place V -> dbg -> Prop) d evs :
  (forall e, In e evs -> ~ Q e -> trace P e d = (d, None)) ->
  (forall e, In e evs -> Q e -> exists p d', trace P e d = (d', Some p) /\ good e p d') ->
  (forall e post, first Q evs e post -> exists p d', run P evs d = (d', Some (p, e, post)) /\ good e p d') /\
  (Forall (fun e => ~ Q e) evs -> run P evs d = (d, None)).
Proof.
  intros A B. split.
  - intros e post (pre & -> & F & HQ). induction pre as [|x pre IH]; cbn [app run] in *.
    + destruct (B e (or_introl eq_refl) HQ) as (p & d' & T & G). rewrite T. eauto.
    + apply Forall_cons_iff in F. destruct F as [F1 F2]. rewrite (A x (or_introl eq_refl) F1). apply IH; auto.
      * intros y I. apply B. now right.
      * intros y I. apply A. now right.
  - intros F. induction evs as [|x evs IH]; auto. apply Forall_cons_iff in F. destruct F as [F1 F2]. cbn [run].
    rewrite (A x (or_introl eq_refl) F1). apply IH; auto; intros y I; [apply A|apply B]; now right.
Qed.

(** What is shown at a stop: the line with the Python breakpoint, or the node *)
Definition stopped {V} (e : event V) (p : place V) (d : dbg) : Prop :=
  (at_python_break e /\ p = InCode (fr e) /\ django d = false) \/ (exists line, starts e line /\ shows e line p /\ django d = true).
Lemma django_suspended m d : django (suspended m d) = m.
Proof. unfold suspended. now destruct (step d). Qed.
Lemma dead_suspended m d : dead (suspended m d) = dead d.
Proof. unfold suspended. now destruct (step d). Qed.
Lemma template_visible {V} (P : setup V) e : some_break P -> renders (fr e) -> ~ hidden P (fr e).
Proof. intros S R (_ & _ & H). auto. Qed.
Lemma break_some {V} (P : setup V) e : at_template_break P e -> some_break P.
Proof.
  intros B. destruct (has_line_breaks P) eqn:H; [now apply some_break_spec|]. now apply no_break_found in B.
Qed.
Lemma seen_skip {V} (P : setup V) e : proper P e ->
  (at_python_break e \/ some_break P /\ renders (fr e)) -> (if has_line_breaks P then can_skip P (fr e) else true) && negb (pybreaks (fr e)) = false.
Proof.
  intros (_ & Pb & _) [[_ B] | [S R]].
  - rewrite (Pb B). apply andb_false_r.
  - rewrite (proj2 (some_break_spec P) S), (skip_spec P _ S), (proj2 (render_spec _) R). auto.
Qed.

Definition run_stop {V} (P : setup V) (e : event V) : Prop := python_stop P e \/ at_template_break P e.
(** C63: a running program stops exactly at the Python breakpoints and at the nodes with a breakpoint whose condition holds *)
Theorem django_breakpoint {V} (P : setup V) evs d :
  Forall (proper P) evs -> step d = Run -> dead d = false ->
  (forall e post, first (run_stop P) evs e post -> exists p d', run P evs d = (d', Some (p, e, post)) /\ stopped e p d') /\
  (Forall (fun e => ~ run_stop P e) evs -> run P evs d = (d, None)).
Proof.
  intros Fp Hs Hd. rewrite Forall_forall in Fp. apply run_first.
  - intros e I N. specialize (Fp e I).
    destruct (left_out P e d) eqn:L; [now apply trace_out|].
    assert (Hid : ~ hidden P (fr e)).
    { apply hidden_false. unfold left_out in L. rewrite filters_hidden, Hs in L. now rewrite andb_true_r in L. }
    assert (Le : leaving e d = d) by (unfold leaving; rewrite Hs; now destruct (is_return (ev e) && same_frame (at_frame d) (fr e))).
    destruct (skipped P e d) eqn:S; [rewrite trace_skipped; auto; now rewrite Le|].
    destruct (trace_break P e d Fp Hd L S) as (_ & _ & T). rewrite T.
    + rewrite Hs, Le. reflexivity.
    + intros B. apply N. left. now split.
    + intros B. apply N. now right.
  - intros e I H. specialize (Fp e I).
    assert (V0 : ~ hidden P (fr e)).
    { destruct H as [[_ H]|H]; auto. apply template_visible; [eapply break_some; eauto|]. destruct (break_starts _ _ H) as [l S]. apply S. }
    assert (L : left_out P e d = false) by (unfold left_out; rewrite filters_hidden, Hs, andb_true_r; now apply hidden_false).
    assert (S : skipped P e d = false).
    { unfold skipped. rewrite Hs. cbn [andb]. apply seen_skip; auto. destruct H as [[H _]|H]; auto. right. split; [eapply break_some; eauto|].
      destruct (break_starts _ _ H) as [l S]. apply S. }
    destruct (trace_break P e d Fp Hd L S) as (T1 & T2 & _). destruct H as [[H _]|H].
    + rewrite (T1 H). do 2 eexists. split; [reflexivity|]. left. now rewrite django_suspended.
    + destruct (T2 H) as (line & p & St & T & Sh). rewrite T. do 2 eexists. split; [reflexivity|]. right. exists line. now rewrite django_suspended.
Qed.
Print Assumptions django_breakpoint.

Definition over_stop {V} (P : setup V) (e : event V) : Prop := python_stop P e \/ exists line, starts e line.
Lemma finish_node {V} (P : setup V) e d stop line : proper P e -> starts e line ->
  exists p, finish P e (d, stop, is_call (ev e) && is_render_call (fr e)) = (suspended true d, Some p) /\ shows e line p.
Proof.
  intros Pp S. destruct (shows_frame P e line Pp S) as (t & T & L & Sh). apply starts_call in S. destruct S as (A & B & _).
  unfold finish. rewrite A, B, T, L. cbn [is_call andb]. eauto.
Qed.
Lemma finish_no_node {V} (P : setup V) e d : proper P e -> (forall line, ~ starts e line) ->
  finish P e (d, false, is_call (ev e) && is_render_call (fr e)) = (d, None).
Proof.
  intros (Pc & _) N. unfold finish. destruct (is_call (ev e) && is_render_call (fr e)) eqn:K; auto.
  apply andb_true_iff in K. destruct K as [K R]. assert (Kc : ev e = ECall) by (destruct (ev e); auto; discriminate).
  destruct (Pc (proj1 (render_spec _) R)) as (dicts & C & _). unfold template_frame. rewrite C. cbn [tline].
  destruct (template_line (fr e)) as [l|] eqn:L; auto. exfalso. apply (N l). apply starts_call. auto.
Qed.
(** One event of a step over from a template *)
Lemma trace_over {V} (P : setup V) e d : proper P e -> some_break P -> django d = true -> step d = Over -> at_frame d = Template -> dead d = false ->
  (~ over_stop P e -> trace P e d = (d, None)) /\
  (over_stop P e -> exists p d', trace P e d = (d', Some p) /\ (stopped e p d' /\ dead d' = false)).
Proof.
  intros Pp Sb Hj Hs Ha Hd.
  assert (LO : left_out P e d = apply_files_filter P (fr e)) by (unfold left_out; rewrite filters_hidden, Hs; apply andb_true_r).
  assert (Le : leaving e d = d) by (unfold leaving; rewrite Ha; cbn [same_frame]; now rewrite andb_false_r).
  assert (Sk : skipped P e d = negb (is_render_call (fr e)) && negb (pybreaks (fr e))).
  { unfold skipped. rewrite Hs, Ha, (proj2 (some_break_spec P) Sb), (skip_spec P _ Sb). reflexivity. }
  assert (St : steps P e (step d) (at_frame d) d = (d, false, is_call (ev e) && is_render_call (fr e))).
  { unfold steps. rewrite Hs. unfold cmd_step_over. now rewrite Hj. }
  split.
  - intros N. destruct (left_out P e d) eqn:L; [now apply trace_out|].
    assert (Hid : ~ hidden P (fr e)) by (apply hidden_false; congruence).
    destruct (skipped P e d) eqn:S; [rewrite trace_skipped; auto; now rewrite Le|].
    destruct (trace_break P e d Pp Hd L S) as (_ & _ & T). rewrite T.
    + rewrite Le, St. apply finish_no_node; auto. intros line H. apply N. right. eauto.
    + intros B. apply N. left. now split.
    + intros B. apply N. right. eapply break_starts; eauto.
  - intros H.
    assert (V0 : ~ hidden P (fr e)) by (destruct H as [[_ H]|[line H]]; auto; apply template_visible; auto; apply H).
    assert (L : left_out P e d = false) by (rewrite LO; now apply hidden_false).
    assert (S : skipped P e d = false).
    { rewrite Sk. destruct Pp as (_ & Pb & _). destruct H as [[[_ B] _]|[line H]]; [rewrite (Pb B); apply andb_false_r|].
      apply starts_call in H. destruct H as (_ & R & _). now rewrite R. }
    destruct (trace_break P e d Pp Hd L S) as (T1 & T2 & T3). rewrite Le, ?St in *.
    destruct H as [[H _]|[line H]].
    + rewrite (T1 H). do 2 eexists. split; [reflexivity|]. split; [left; now rewrite django_suspended|now rewrite dead_suspended].
    + destruct (finish_node P e d false line Pp H) as (p & Fi & Sh).
      assert (NP : ~ at_python_break e) by (apply call_not_break; apply H).
      unfold trace in *. rewrite Hd, L, S, Le in *. cbn [orb] in *. rewrite (proj2 (line_break_false e) NP) in *.
      rewrite St, Fi, (proj2 (some_break_spec P) Sb) in *.
      pose proof (found_spec P e Pp) as F. destruct (get_breakpoint P e) as [|h t|]; [| |contradiction].
      * do 2 eexists. split; [reflexivity|]. split; [|now rewrite dead_suspended]. right. exists line. now rewrite django_suspended.
      * destruct F as (line' & S' & T & _). destruct (shows_frame P e line' Pp S') as (t' & T' & _ & Sh').
        assert (t' = t) as -> by congruence.
        destruct (h (tlocals t)); do 2 eexists; (split; [reflexivity|]); (split; [|now rewrite dead_suspended]); right.
        -- exists line'. now rewrite django_suspended.
        -- exists line. now rewrite django_suspended.
Qed.
(** C63: step over from a place in a template stops at the next node which starts being rendered, or at a Python breakpoint before *)
Theorem django_over {V} (P : setup V) evs d :
  Forall (proper P) evs -> some_break P -> django d = true -> step d = Over -> at_frame d = Template -> dead d = false ->
  (forall e post, first (over_stop P) evs e post -> exists p d', run P evs d = (d', Some (p, e, post)) /\ (stopped e p d' /\ dead d' = false)) /\
  (Forall (fun e => ~ over_stop P e) evs -> run P evs d = (d, None)).
Proof.
  intros Fp Sb Hj Hs Ha Hd. rewrite Forall_forall in Fp.
  apply (run_first P (over_stop P) (fun e p d' => stopped e p d' /\ dead d' = false)); intros e I; apply trace_over; auto.
Qed.
Print Assumptions django_over.

(** * Step into *)
(** With step into a frame is only left out if its caller is hidden too *)
Definition both_hidden {V} (P : setup V) (e : event V) : Prop := hidden P (fr e) /\ forall b, hd_error (stack e) = Some b -> hidden P b.
(** A line of a function which the variable lookup of Django has called *)
Definition enters {V} (P : setup V) (e : event V) : Prop :=
  ev e = ELine /\ ~ hidden P (fr e) /\ (exists b, hd_error (stack e) = Some b /\ looks_up b) /\ ~ method_of_context (fr e).
(** Such a function returns, and the code of the lookup is not hidden *)
Definition comes_back {V} (P : setup V) (e : event V) (b : frame V) : Prop :=
  ev e = EReturn /\ hd_error (stack e) = Some b /\ looks_up b /\ ~ hidden P b /\ ~ method_of_context (fr e).
Definition into_stop {V} (P : setup V) (e : event V) : Prop :=
  (at_python_break e /\ ~ both_hidden P e) \/ (exists line, starts e line) \/ enters P e \/ (exists b, comes_back P e b).
Definition stopped_into {V} (P : setup V) (e : event V) (p : place V) (d : dbg) : Prop :=
  stopped e p d \/
  (enters P e /\ p = InCode (fr e) /\ django d = false /\ resolved d = true) \/
  (exists b, comes_back P e b /\ p = InCode b /\ django d = false /\ resolved d = true).
Lemma left_out_near {V} (P : setup V) e d : step d = Into \/ step d = Return -> left_out P e d = true <-> both_hidden P e.
Proof.
  intros Hs. unfold left_out, both_hidden. rewrite filters_hidden, andb_true_iff, hidden_spec.
  destruct Hs as [-> | ->]; (destruct (stack e) as [|b r]; cbn [hd_error]; (split; intros [A B]; (split; [exact A|])));
    try (intros b' E; discriminate); auto; try (intros b' E; injection E as <-; now apply hidden_spec); apply hidden_spec, B; auto.
Qed.
Lemma trace_into {V} (P : setup V) e d : proper P e -> some_break P -> django d = true -> step d = Into -> dead d = false ->
  (~ into_stop P e -> trace P e d = (d, None)) /\
  (into_stop P e -> exists p d', trace P e d = (d', Some p) /\ (stopped_into P e p d' /\ dead d' = false)).
Proof.
  intros Pp Sb Hj Hs Hd.
  assert (LO := left_out_near P e d (or_introl Hs)).
  assert (Le : leaving e d = d) by (unfold leaving; rewrite Hs; now destruct (is_return (ev e) && same_frame (at_frame d) (fr e))).
  assert (Sk : skipped P e d = false) by (unfold skipped; now rewrite Hs).
  set (stop0 := match ev e, stack e with ELine, _ => negb (apply_files_filter P (fr e)) | EReturn, b :: _ => negb (apply_files_filter P b) | _, _ => false end).
  set (stop := stop0 && is_resolve_call (hd_error (stack e)) && negb (is_context_get_call (fr e))).
  assert (St : steps P e (step d) (at_frame d) d = (if stop then with_resolved true d else d, stop, is_call (ev e) && is_render_call (fr e))).
  { unfold steps. rewrite Hs. unfold cmd_step_into. now rewrite Hj. }
  assert (Sp : stop = true <-> enters P e \/ exists b, comes_back P e b).
  { unfold stop, stop0. rewrite !andb_true_iff, negb_true_iff. split.
    - intros [[A B] C]. assert (Cx : ~ method_of_context (fr e)) by (rewrite <- context_spec; congruence).
      destruct (ev e) eqn:K; [discriminate| |].
      + left. split; auto. apply negb_true_iff, hidden_false in A. split; auto. split; auto.
        destruct (stack e) as [|b r]; [discriminate|]. exists b. split; auto. now apply resolve_spec.
      + right. destruct (stack e) as [|b r] eqn:S; [discriminate|]. exists b. unfold comes_back. rewrite S. cbn [hd_error].
        apply negb_true_iff, hidden_false in A. split; auto. split; auto. split; [now apply resolve_spec|]. auto.
    - intros [(K & Hh & (b & Hb & R) & Cx)|(b & K & Hb & R & Hh & Cx)].
      + rewrite K. apply hidden_false in Hh. rewrite Hh, Hb. split; [split|]; auto; [now apply resolve_spec|].
        rewrite <- context_spec in Cx. now apply not_true_iff_false.
      + rewrite K, Hb. destruct (stack e) as [|b' r]; [discriminate|]. injection Hb as ->. apply hidden_false in Hh. rewrite Hh.
        split; [split|]; auto; [now apply resolve_spec|]. rewrite <- context_spec in Cx. now apply not_true_iff_false. }
  assert (Vis : into_stop P e -> left_out P e d = false).
  { intros H. apply not_true_iff_false. rewrite LO. intros [H1 H2].
    destruct H as [[_ H]|[[line H]|[H|[b H]]]].
    - apply H. now split.
    - apply (template_visible P e Sb); auto. apply H.
    - now apply H in H1.
    - destruct H as (_ & Hb & _ & Hh & _). now apply H2 in Hb. }
  assert (Fi : ~ at_python_break e -> (forall line, ~ starts e line) -> stop = true ->
               exists p d', finish P e (with_resolved true d, true, is_call (ev e) && is_render_call (fr e)) = (d', Some p) /\ (stopped_into P e p d' /\ dead d' = false)).
  { intros _ NS H. apply Sp in H. destruct H as [H|[b H]].
    - assert (K : ev e = ELine) by apply H. unfold finish. rewrite K. cbn [is_call andb]. do 2 eexists. split; [reflexivity|].
      split; [|now rewrite dead_suspended]. right. left. split; auto. split; auto. rewrite django_suspended. split; auto.
      unfold suspended. cbn [step with_resolved]. now rewrite Hs.
    - assert (K : ev e = EReturn) by apply H. assert (B : hd_error (stack e) = Some b) by apply H. unfold finish. rewrite K. cbn [is_call andb].
      destruct (stack e) as [|b' r] eqn:Es; [discriminate|]. injection B as ->. do 2 eexists. split; [reflexivity|].
      split; [|now rewrite dead_suspended]. right. right. exists b. split; auto. split; auto. rewrite django_suspended. split; auto.
      unfold suspended. cbn [step with_resolved]. now rewrite Hs. }
  assert (NoStop : stop = false -> forall line, starts e line -> stop0 = false).
  { intros _ line H. unfold stop0. destruct H as (K & _). now rewrite K. }
  split.
  - intros N. destruct (left_out P e d) eqn:L; [now apply trace_out|].
    destruct (trace_break P e d Pp Hd L Sk) as (_ & _ & T). rewrite T.
    + rewrite Le, St. assert (stop = false) as ->.
      { apply not_true_iff_false. rewrite Sp. intros [H|H]; apply N; right; right; auto. }
      apply finish_no_node; auto. intros line H. apply N. right. left. eauto.
    + intros B. apply N. left. split; auto. rewrite <- LO. congruence.
    + intros B. apply N. right. left. eapply break_starts; eauto.
  - intros H. pose proof (Vis H) as L.
    destruct (trace_break P e d Pp Hd L Sk) as (T1 & T2 & T3). rewrite Le, St in *.
    destruct H as [[H _]|H].
    + rewrite (T1 H). do 2 eexists. split; [reflexivity|]. split; [left; left; now rewrite django_suspended|now rewrite dead_suspended].
    + destruct (is_line (ev e) && atbreak e) eqn:LB.
      { apply line_break in LB. rewrite (T1 LB). do 2 eexists. split; [reflexivity|]. split; [left; left; now rewrite django_suspended|now rewrite dead_suspended]. }
      apply line_break_false in LB.
      assert (Stop : stop = true -> ev e <> ECall).
      { intros X K. unfold stop, stop0 in X. rewrite K in X. discriminate. }
      destruct H as [[line H]|H].
      * assert (stop = false) as Ef by (apply not_true_iff_false; intros X; apply Stop in X; apply X, H). rewrite Ef in *.
        destruct (finish_node P e d false line Pp H) as (p & Fn & Sh).
        unfold trace in *. rewrite Hd, L, Sk, Le in *. cbn [orb] in *. rewrite (proj2 (line_break_false e) LB) in *.
        rewrite St, Fn, (proj2 (some_break_spec P) Sb) in *.
        pose proof (found_spec P e Pp) as F. destruct (get_breakpoint P e) as [|h t|]; [| |contradiction].
        -- do 2 eexists. split; [reflexivity|]. split; [|now rewrite dead_suspended]. left. right. exists line. now rewrite django_suspended.
        -- destruct F as (line' & S' & T & _). destruct (shows_frame P e line' Pp S') as (t' & T' & _ & Sh').
           assert (t' = t) as -> by congruence.
           destruct (h (tlocals t)); do 2 eexists; (split; [reflexivity|]); (split; [|now rewrite dead_suspended]); left; right.
           ++ exists line'. now rewrite django_suspended.
           ++ exists line. now rewrite django_suspended.
      * assert (S1 : stop = true) by (apply Sp; auto). pose proof (Stop S1) as NC.
        assert (NS : forall line, ~ starts e line) by (intros line [K _]; auto).
        rewrite T3; auto.
        -- rewrite S1. apply Fi; auto.
        -- intros B. destruct (break_starts _ _ B) as [line X]. now apply NS in X.
Qed.
(** C63: step into from a place in a template stops at the next node which starts being rendered, or before in a function of the program
    which the lookup of a variable calls *)
Theorem django_into {V} (P : setup V) evs d :
  Forall (proper P) evs -> some_break P -> django d = true -> step d = Into -> dead d = false ->
  (forall e post, first (into_stop P) evs e post -> exists p d', run P evs d = (d', Some (p, e, post)) /\ (stopped_into P e p d' /\ dead d' = false)) /\
  (Forall (fun e => ~ into_stop P e) evs -> run P evs d = (d, None)).
Proof.
  intros Fp Sb Hj Hs Hd. rewrite Forall_forall in Fp.
  apply (run_first P (into_stop P) (fun e p d' => stopped_into P e p d' /\ dead d' = false)); intros e I; apply trace_into; auto.
Qed.
Print Assumptions django_into.

(** * Stepping through a template *)
(** The nodes which start being rendered, in order *)
Inductive nodes {V} : list (event V) -> list (event V) -> Prop :=
  | NodesNil : nodes [] []
  | NodesSkip e r l : (forall line, ~ starts e line) -> nodes r l -> nodes (e :: r) l
  | NodesTake e r l line : starts e line -> nodes r l -> nodes (e :: r) (e :: l).
Lemma nodes_first {V} (P : setup V) evs l : Forall (fun e => ~ at_python_break e) evs -> nodes evs l ->
  match l with
  | [] => Forall (fun e => ~ over_stop P e) evs
  | e :: l' => exists post, first (over_stop P) evs e post /\ nodes post l' /\ exists pre, evs = pre ++ e :: post
  end.
Proof.
  intros F N. induction N as [|e r l H N IH|e r l line H N IH].
  - constructor.
  - apply Forall_cons_iff in F. destruct F as [F1 F2]. specialize (IH F2).
    assert (NO : ~ over_stop P e) by (intros [[X _]|[line X]]; [now apply F1 in X|now apply H in X]).
    destruct l as [|e' l]; [now constructor|]. destruct IH as (post & (pre & E & Fp & Q) & N' & _). exists post. split; [|split; auto].
    + exists (e :: pre). split; [now rewrite E|]. split; auto.
    + exists (e :: pre). now rewrite E.
  - exists r. split; [|split; auto].
    + exists []. split; auto. split; [constructor|]. right. eauto.
    + now exists [].
Qed.
(** C63: stepping over again and again from a place in a template goes through the nodes in the order in which they are rendered, leaving
    none out; what is shown at each is its file, its line and its variables *)
Theorem django_walk {V} (P : setup V) n evs l d :
  Forall (proper P) evs -> Forall (fun e => ~ at_python_break e) evs -> nodes evs l -> some_break P ->
  django d = true -> step d = Over -> at_frame d = Template -> dead d = false ->
  Forall2 (fun e p => exists line, starts e line /\ shows e line p) (firstn (S n) l) (session P (repeat Over n) evs d).
Proof.
  revert evs l d. induction n as [|n IH]; intros evs l d Fp Fb N Sb Hj Hs Ha Hd;
    destruct (django_over P evs d Fp Sb Hj Hs Ha Hd) as [A B]; pose proof (nodes_first P evs l Fb N) as F; destruct l as [|e l].
  - cbn [session repeat firstn]. rewrite (B F). constructor.
  - destruct F as (post & Fi & N' & pre & E). destruct (A e post Fi) as (p & d' & R & [S _]). cbn [session repeat firstn]. rewrite R.
    constructor; [|constructor]. destruct S as [[S _]|(line & S & Sh & _)]; eauto.
    rewrite Forall_forall in Fb. exfalso. apply (Fb e); auto. rewrite E. apply in_elt.
  - cbn [session repeat firstn]. rewrite (B F). constructor.
  - destruct F as (post & Fi & N' & pre & E). destruct (A e post Fi) as (p & d' & R & [S Hd']). cbn [repeat]. cbn [session]. rewrite R.
    destruct S as [[S _]|(line & St & Sh & Hj')].
    { rewrite Forall_forall in Fb. exfalso. apply (Fb e); auto. rewrite E. apply in_elt. }
    change (firstn (S (S n)) (e :: l)) with (e :: firstn (S n) l). constructor; eauto.
    pose proof Sh as (m & dicts & t & _ & _ & -> & _).
    rewrite E, Forall_app in Fp, Fb. destruct Fp as [_ Fp], Fb as [_ Fb]. apply Forall_cons_iff in Fp, Fb.
    apply (IH post l); auto; try apply Fp; try apply Fb; unfold resume; cbn [shown_frame]; auto.
Qed.
Print Assumptions django_walk.

(** C63: a function entered from a template is stepped through line by line, and when it returns to the lookup of the variable, stepping
    over goes on in the template, as step into does *)
Theorem django_back {V} (P : setup V) d f pre e post :
  Forall (proper P) (pre ++ e :: post) -> some_break P ->
  django d = false -> resolved d = true -> step d = Over -> at_frame d = Real f -> dead d = false ->
  Forall (fun x => fid (fr x) <> f /\ ~ python_stop P x /\ ~ at_template_break P x /\
                   ~ (ev x = EReturn /\ exists b, hd_error (stack x) = Some b /\ looks_up b)) pre ->
  fid (fr e) = f -> ~ hidden P (fr e) ->
  (ev e = ELine -> exists d', run P (pre ++ e :: post) d = (d', Some (InCode (fr e), e, post)) /\ django d' = false /\ resolved d' = true) /\
  (ev e = EReturn -> (exists b, hd_error (stack e) = Some b /\ looks_up b /\ fid b <> f) ->
     (forall x rest, first (into_stop P) post x rest -> exists p d', run P (pre ++ e :: post) d = (d', Some (p, x, rest)) /\ stopped_into P x p d') /\
     (Forall (fun x => ~ into_stop P x) post -> snd (run P (pre ++ e :: post) d) = None)).
Proof.
  intros Fp Sb Hj Hr Hs Ha Hd F Hf Hv. apply Forall_app in Fp. destruct Fp as [Fpre Fp]. apply Forall_cons_iff in Fp. destruct Fp as [Pe Fpost].
  assert (Hpre : run P (pre ++ e :: post) d = run P (e :: post) d).
  { clear Pe Fpost. induction pre as [|x pre IH]; auto. apply Forall_cons_iff in F, Fpre. destruct F as [(F1 & F2 & F3 & F4) F], Fpre as [Px Fpre].
    cbn [app run]. assert (T : trace P x d = (d, None)); [|rewrite T; now apply IH].
    assert (SF : same_frame (at_frame d) (fr x) = false) by (rewrite Ha; cbn [same_frame]; apply N.eqb_neq; congruence).
    assert (Le : leaving x d = d) by (unfold leaving; rewrite SF; now rewrite andb_false_r).
    destruct (left_out P x d) eqn:L; [now apply trace_out|].
    assert (Hid : ~ hidden P (fr x)) by (apply hidden_false; unfold left_out in L; rewrite filters_hidden, Hs in L; now rewrite andb_true_r in L).
    destruct (skipped P x d) eqn:S; [rewrite trace_skipped; auto; now rewrite Le|].
    destruct (trace_break P x d Px Hd L S) as (_ & _ & T). rewrite T; auto; [|intros B; apply F2; now split].
    rewrite Le, Hs. unfold steps, cmd_step_over. rewrite Hj, Hr.
    assert (is_return (ev x) && true && is_resolve_call (hd_error (stack x)) = false) as ->.
    { apply not_true_iff_false. rewrite !andb_true_iff. intros [[K _] R]. apply F4. split; [destruct (ev x); auto; discriminate|].
      destruct (stack x) as [|b r]; [discriminate|]. exists b. split; auto. now apply resolve_spec. }
    rewrite SF. reflexivity. }
  rewrite Hpre. cbn [run].
  assert (L : left_out P e d = false) by (unfold left_out; rewrite filters_hidden, Hs, andb_true_r; now apply hidden_false).
  assert (SF : same_frame (at_frame d) (fr e) = true) by (rewrite Ha; cbn [same_frame]; apply N.eqb_eq; congruence).
  assert (S : skipped P e d = false) by (unfold skipped; now rewrite Hs, SF).
  destruct (trace_break P e d Pe Hd L S) as (T1 & T2 & T3).
  split.
  - intros K. assert (Le : leaving e d = d) by (unfold leaving; now rewrite K). rewrite Le in *.
    assert (NT : ~ at_template_break P e) by (intros B; destruct (break_starts _ _ B) as [l [X _]]; congruence).
    destruct (is_line (ev e) && atbreak e) eqn:LB.
    + apply line_break in LB. rewrite (T1 LB). eexists. split; [reflexivity|]. rewrite django_suspended. split; auto. unfold suspended. now rewrite Hs.
    + apply line_break_false in LB. rewrite (T3 LB NT). rewrite Hs. unfold steps, cmd_step_over. rewrite Hj, K. cbn [is_return andb is_line].
      rewrite SF. cbn [andb orb]. unfold finish. rewrite K. eexists. split; [reflexivity|]. rewrite django_suspended. split; auto. unfold suspended. now rewrite Hs.
  - intros K (b & Hb & Rb & Nb).
    assert (Le : leaving e d = with_step Into NoFrame d) by (unfold leaving; now rewrite K, SF, Hs).
    assert (NT : ~ at_template_break P e) by (intros B; destruct (break_starts _ _ B) as [l [X _]]; congruence).
    assert (NB : ~ at_python_break e) by (intros [X _]; congruence).
    rewrite (T3 NB NT), Le, Hs. unfold steps, cmd_step_over. cbn [django with_step resolved]. rewrite Hj, Hr, K, Hb. cbn [is_return andb].
    rewrite (proj2 (resolve_spec b) Rb). destruct (stack e) as [|b' r] eqn:Es; [discriminate|]. injection Hb as ->. cbn [at_frame step dead with_step].
    assert (G : forall stop, finish P e (Dbg true Into (Real (fid b)) false (dead d), stop, false) =
      (if stop then (suspended false (Dbg true Into (Real (fid b)) false (dead d)), Some (InCode b)) else (Dbg true Into (Real (fid b)) false (dead d), None))).
    { intros stop. unfold finish. rewrite K, Es. reflexivity. }
    cbn [same_frame]. assert ((fid b =? fid (fr e))%N = false) as -> by (apply N.eqb_neq; congruence). cbn [andb].
    rewrite G. destruct (django_into P post (Dbg true Into (Real (fid b)) false (dead d)) Fpost Sb eq_refl eq_refl Hd) as [I1 I2]. split.
    + intros x rest Fx. destruct (I1 x rest Fx) as (p & d' & R & So & _). exists p, d'. auto.
    + intros Fx. now rewrite (I2 Fx).
Qed.
Print Assumptions django_back.

(** C63: the variables of a template cannot be changed: the program goes on with the old value, and that is what the client is told *)
Theorem django_set_variable {V E} (eval : E -> dict V -> option V) t name expr :
  snd (set_variable eval t name expr) = t /\ fst (set_variable eval t name expr) = get str_eqb name (tlocals t) /\
  fst (change_variable eval t name expr) = None.
Proof.
  unfold set_variable, change_variable, call_change_variable, change_variable_accepts_scope. destruct (eval expr (tlocals t)); auto.
Qed.
Print Assumptions django_set_variable.
(** Not so: the variable has the value which was asked for *)
Theorem django_set_variable_refuted : exists (eval : N -> dict N -> option N) (t : tframe N) name expr v,
  eval expr (tlocals t) = Some v /\ innermost name (tdicts t) <> None /\
  innermost name (tdicts (snd (set_variable eval t name expr))) <> Some v /\ fst (set_variable eval t name expr) <> Some v.
Proof.
  exists (fun x _ => Some x), (TFrame None None [[(lit "x", 1%N)]] [(lit "x", 1%N)]), (lit "x"), 2%N, 2%N.
  split; [reflexivity|]. split; [discriminate|]. split; discriminate.
Qed.
Print Assumptions django_set_variable_refuted.
(** C63: the method which is not reached would do it: the program sees the new value and the other variables as before *)
Theorem django_change_method {V} (dicts : list (dict V)) name v k :
  innermost k (change_in_dicts name v dicts) =
  if str_eqb k name then match innermost k dicts with Some _ => Some v | None => None end else innermost k dicts.
Proof.
  assert (G : forall d : dict V, get str_eqb k (map (fun kv => if str_eqb (fst kv) name then (fst kv, v) else kv) d) =
    if str_eqb k name then match get str_eqb k d with Some _ => Some v | None => None end else get str_eqb k d).
  { induction d as [|[x y] d IH]; cbn [map get fst]; [now destruct (str_eqb k name)|].
    destruct (str_eqb_spec x name) as [->|Nx]; cbn [get fst].
    - destruct (str_eqb_spec k name) as [->|Nk]; auto.
    - rewrite IH. destruct (str_eqb_spec k x) as [->|Nk]; auto. now rewrite (proj2 (str_eqb_neq _ _) Nx). }
  unfold change_in_dicts. induction dicts as [|d r IH]; cbn [map innermost]; [now destruct (str_eqb k name)|].
  rewrite IH, G. destruct (str_eqb k name); destruct (innermost k r); auto.
Qed.
Print Assumptions django_change_method.

(** C63: step return from a template stops at no node, only at breakpoints *)
Theorem django_return {V} (P : setup V) evs t e0 line d :
  Forall (proper P) evs -> some_break P -> starts e0 line -> django d = true -> dead d = false ->
  let Q e := (at_python_break e /\ ~ both_hidden P e) \/ at_template_break P e in
  (forall e post, first Q evs e post -> exists p d', run P evs (resume P Return (InTemplate t) e0 d) = (d', Some (p, e, post)) /\ stopped e p d') /\
  (Forall (fun e => ~ Q e) evs -> snd (run P evs (resume P Return (InTemplate t) e0 d)) = None).
Proof.
  intros Fp Sb S0 Hj Hd Q. rewrite Forall_forall in Fp.
  assert (R : resume P Return (InTemplate t) e0 d = with_step Return Template d).
  { unfold resume. cbn [shown_frame return_frame]. rewrite filters_hidden.
    assert (apply_files_filter P (fr e0) = false) as -> by (apply hidden_false, template_visible; auto; apply S0). reflexivity. }
  rewrite R. set (d1 := with_step Return Template d).
  assert (A1 : at_frame d1 = Template) by reflexivity. assert (A2 : step d1 = Return) by reflexivity.
  assert (H : (forall e post, first Q evs e post -> exists p d', run P evs d1 = (d', Some (p, e, post)) /\ stopped e p d') /\
              (Forall (fun e => ~ Q e) evs -> run P evs d1 = (d1, None))).
  2:{ destruct H as [A B]. split; auto. intros F. now rewrite (B F). }
  assert (Le : forall e : event V, leaving e d1 = d1) by (intros e; unfold leaving; rewrite A1; cbn [same_frame]; now rewrite andb_false_r).
  assert (LO : forall e, left_out P e d1 = true <-> both_hidden P e) by (intros e; apply left_out_near; now right).
  assert (Hd1 : dead d1 = false) by auto.
  apply (run_first P Q stopped).
  - intros e I N. specialize (Fp e I). destruct (left_out P e d1) eqn:L; [now apply trace_out|].
    destruct (skipped P e d1) eqn:S; [rewrite trace_skipped; auto; now rewrite Le|].
    destruct (trace_break P e d1 Fp Hd1 L S) as (_ & _ & T). rewrite T, Le.
    + unfold steps. rewrite A1, A2. cbn [same_frame]. now rewrite andb_false_r.
    + intros B. apply N. left. split; auto. rewrite <- LO. congruence.
    + intros B. apply N. now right.
  - intros e I H. specialize (Fp e I).
    assert (L : left_out P e d1 = false).
    { apply not_true_iff_false. rewrite LO. destruct H as [[_ H]|H]; auto. intros [X _]. destruct (break_starts _ _ H) as [l S].
      eapply template_visible; eauto. apply S. }
    assert (S : skipped P e d1 = false).
    { unfold skipped. rewrite A1, A2. cbn [same_frame negb andb]. apply seen_skip; auto. destruct H as [[H _]|H]; auto.
      right. split; auto. destruct (break_starts _ _ H) as [l S]. apply S. }
    destruct (trace_break P e d1 Fp Hd1 L S) as (T1 & T2 & _). rewrite Le in *. destruct H as [[H _]|H].
    + rewrite (T1 H). do 2 eexists. split; [reflexivity|]. left. now rewrite django_suspended.
    + destruct (T2 H) as (l & p & St & T & Sh). rewrite T. do 2 eexists. split; [reflexivity|]. right. exists l. now rewrite django_suspended.
Qed.
Print Assumptions django_return.

(** * A program *)
Definition user_node (l : N) : node := Node (lit "VariableNode") [lit "Node"; lit "object"] (Some (lit "/t.html")) (Some l).
Definition text_node : node := Node (lit "TextNode") [lit "Node"; lit "object"] (Some (lit "/t.html")) (Some 1%N).
Definition ctx : list (dict N) := [[(lit "x", 1%N); (lit "y", 5%N)]; [(lit "x", 2%N)]].
Definition f_view : frame N := Frame 1 (lit "view") None None false false.
Definition f_node (i l : N) : frame N := Frame i (lit "render") (Some (user_node l)) (Some ctx) true false.
Definition f_text (i : N) : frame N := Frame i (lit "render") (Some text_node) (Some ctx) true false.
Definition f_look (i : N) : frame N := Frame i (lit "_resolve_lookup") (Some (Node (lit "Variable") [lit "object"] None None)) None true false.
Definition f_name (i : N) : frame N := Frame i (lit "full_name") (Some (Node (lit "Person") [lit "object"] None None)) None false false.
(** A node of line 3 is rendered, which looks up a variable, which calls a function of the program; then text; then a node of line 4 *)
Definition rendering : list (event N) :=
  [Event ECall (f_node 2 3) [f_view] false; Event ELine (f_node 2 3) [f_view] false; Event ECall (f_look 3) [f_node 2 3; f_view] false;
   Event ECall (f_name 4) [f_look 3; f_node 2 3; f_view] false; Event ELine (f_name 4) [f_look 3; f_node 2 3; f_view] false;
   Event ELine (f_name 4) [f_look 3; f_node 2 3; f_view] false; Event EReturn (f_name 4) [f_look 3; f_node 2 3; f_view] false;
   Event EReturn (f_look 3) [f_node 2 3; f_view] false; Event EReturn (f_node 2 3) [f_view] false;
   Event ECall (f_text 5) [f_view] false; Event EReturn (f_text 5) [f_view] false;
   Event ECall (f_node 6 4) [f_view] false; Event EReturn (f_node 6 4) [f_view] false].
Definition with_break : setup N := Setup N (fun x => x) [(lit "/t.html", [(3%N, fun v => match get str_eqb (lit "x") v with Some 2%N => true | _ => false end)])] true.
Definition where_is (p : place N) : option N * option N :=
  match p with InTemplate t => (tline t, get str_eqb (lit "x") (tlocals t)) | InCode f => (None, Some (fid f)) end.
(** The breakpoint of line 3 is hit, its condition holds of the inner x; step over goes to line 4. *)
Example rendering_over : map where_is (session with_break [Over; Over] rendering fresh) = [(Some 3%N, Some 2%N); (Some 4%N, Some 2%N)].
Proof. vm_compute. reflexivity. Qed.
(** Step into goes to the function, over which one steps back into the template. *)
Example rendering_into : map where_is (session with_break [Into; Over; Over] rendering fresh) =
  [(Some 3%N, Some 2%N); (None, Some 4%N); (None, Some 4%N); (Some 4%N, Some 2%N)].
Proof. vm_compute. reflexivity. Qed.
Example rendering_return : map where_is (session with_break [Return] rendering fresh) = [(Some 3%N, Some 2%N)].
Proof. vm_compute. reflexivity. Qed.
Lemma with_break_some : some_break with_break.
Proof. do 4 eexists. left. reflexivity. Qed.
Lemma rendering_proper P : get str_eqb (lit "<string>") (bps P) = None -> Forall (proper P) rendering.
Proof.
  intros H. assert (G : forall k f s, (renders f -> context f = Some ctx) -> proper P (Event k f s false)).
  { intros k f s C. split; [|split; auto; discriminate]. intros R. exists ctx. split; [now apply C|].
    unfold ctx. repeat (apply Forall_cons; [|]); try apply Forall_nil; cbn [map fst];
      repeat (apply NoDup_cons; [intros I; repeat (destruct I as [I|I]; [discriminate|]); destruct I|]); apply NoDup_nil. }
  unfold rendering. repeat (apply Forall_cons; [apply G; intros R; try reflexivity; exfalso; destruct R as [R _]; discriminate R|]). apply Forall_nil.
Qed.
(** A case for django_over, django_into and django_walk: the state after the first stop *)
Example rendering_case : Forall (proper with_break) rendering /\ some_break with_break /\ exists e post, first (over_stop with_break) rendering e post.
Proof.
  split; [now apply rendering_proper|]. split; [apply with_break_some|]. do 2 eexists. exists []. split; [reflexivity|]. split; [constructor|].
  right. exists 3%N. split; [reflexivity|]. split; [apply render_spec; reflexivity|]. eexists. split; reflexivity.
Qed.
(** A case for django_breakpoint: the condition holds for the inner value *)
Example rendering_break : at_template_break with_break (Event ECall (f_node 2 3) [f_view] false).
Proof.
  exists 3%N, (user_node 3), (lit "/t.html"). do 3 eexists. split; [split; [reflexivity|]; split; [apply render_spec; reflexivity|]; eexists; split; reflexivity|].
  do 4 (split; [reflexivity|]). split; [reflexivity|]. vm_compute. reflexivity.
Qed.
(** A case for django_variables: the inner x hides the outer one *)
Example rendering_variables : innermost (lit "x") ctx = Some 2%N /\ innermost (lit "y") ctx = Some 5%N.
Proof. split; reflexivity. Qed.

(** Not so: step over stops at the next node when the breakpoints of the templates were removed meanwhile *)
Theorem django_over_refuted : exists (P : setup N) evs d e line,
  Forall (proper P) evs /\ bps P = [] /\ django d = true /\ step d = Over /\ at_frame d = Template /\ dead d = false /\ In e evs /\ starts e line /\
  session P [] evs d = [].
Proof.
  exists (Setup N (fun x => x) [] false), rendering, (Dbg true Over Template false false), (Event ECall (f_node 2 3) [f_view] false), 3%N.
  split; [now apply rendering_proper|]. do 5 (split; [reflexivity|]). split; [now left|].
  split; [split; [reflexivity|]; split; [apply render_spec; reflexivity|]; eexists; split; reflexivity|]. vm_compute. reflexivity.
Qed.
Print Assumptions django_over_refuted.
(** Not so: step return stops at a node rendered after the one it was asked at *)
Theorem django_return_refuted : exists (P : setup N) evs d e line t,
  Forall (proper P) evs /\ some_break P /\ django d = true /\ dead d = false /\ In e evs /\ starts e line /\
  session P [] evs (resume P Return (InTemplate t) (Event ECall (f_node 2 3) [f_view] false) d) = [].
Proof.
  exists with_break, (skipn 1 rendering), (Dbg true Into NoFrame false false), (Event ECall (f_node 6 4) [f_view] false), 4%N, (TFrame None None [] []).
  split; [apply (Forall_impl _ (fun a H => H)); pose proof (rendering_proper with_break eq_refl) as H; apply Forall_cons_iff in H; apply H|].
  split; [apply with_break_some|]. do 2 (split; [reflexivity|]). split; [cbn [skipn rendering In]; tauto|].
  split; [split; [reflexivity|]; split; [apply render_spec; reflexivity|]; eexists; split; reflexivity|]. vm_compute. reflexivity.
Qed.
Print Assumptions django_return_refuted.
(** Not so: a node whose method calls its argument by another name than context does not disturb debugging: at a breakpoint in its
    file, even at another line, the thread is no longer debugged *)
Theorem django_no_context_refuted : exists (P : setup N) e d,
  starts e 7 /\ ~ at_template_break P e /\ step d = Run /\ dead d = false /\ dead (fst (trace P e d)) = true.
Proof.
  set (e := Event ECall (Frame 9 (lit "render") (Some (user_node 7)) None true false) [f_view] false).
  exists with_break, e, fresh. split; [split; [reflexivity|]; split; [apply render_spec; reflexivity|]; eexists; split; reflexivity|].
  split. { intros (line & n & file & lines & h & dicts & _ & _ & _ & _ & _ & C & _). discriminate. }
  repeat split.
Qed.
Print Assumptions django_no_context_refuted.
