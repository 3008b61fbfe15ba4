(** What is typed into an interactive console is run whole, once and in order (property C85). *)
From Coq Require Import String.
From Coq Require Import List NArith Bool Lia.
From Verif Require Import Base RunFile RunFileProps ConsoleIn.
Import ListNotations.
Open Scope list_scope.

(** * The console of a process of its own *)

(** Specification.  Texts typed one after another make one text with newlines between them. *)
Definition glue (l : list str) : str := match l with [] => [] | x :: r => fold_left (fun a b => a ++ 10%N :: b) r x end.
(** A text is done when it does not end with a backslash and Python does not wait for more of it. *)
Definition ended (compile : str -> verdict) (s : str) : Prop := (~ exists r, s = r ++ [92%N]) /\ compile s <> Part.
(** One command: it is done with its last text and not before. *)
Definition one_command (done : str -> Prop) (l : list str) : Prop :=
  l <> [] /\ done (glue l) /\ forall p q, l = p ++ q -> p <> [] -> q <> [] -> ~ done (glue p).
Definition unfinished (done : str -> Prop) (l : list str) : Prop := forall p q, l = p ++ q -> p <> [] -> ~ done (glue p).
(** What was typed, with true for a single line *)
Definition typed (es : list event) : list (str * bool) :=
  flat_map (fun e => match e with ExecLine s => [(s, true)] | ExecMultipleLines s => [(s, false)] | _ => [] end) es.
Definition undisturbed (es : list event) : Prop := ~ In Interrupt es /\ ~ In Late es.
Definition command_of (g : list (str * bool)) : fragment := Fragment (glue (map fst g)) (forallb snd g).
(** What becomes of a command *)
Definition became (one several : str -> verdict) (f : fragment) (o : fate) : Prop :=
  let v := (if single f then one else several) (text f) in
  (v = Whole -> o = Ran (text f)) /\ (v = Wrong -> o = Told (text f)) /\ (v = Part -> o = Nothing (text f)) /\ (v = Breaks -> o = Raised (text f)).

Lemma glue_snoc l x : l <> [] -> glue (l ++ [x]) = glue l ++ 10%N :: x.
Proof. destruct l as [|y r]; [congruence|]. intros _. cbn [app glue]. rewrite fold_left_app. reflexivity. Qed.

Lemma forallb_snoc {A} (p : A -> bool) l x : forallb p (l ++ [x]) = if p x then forallb p l else false.
Proof. rewrite forallb_app. cbn [forallb]. destruct (p x), (forallb p l); reflexivity. Qed.

Lemma append_command g s b : g <> [] -> append (command_of g) (Fragment s b) = command_of (g ++ [(s, b)]).
Proof.
  intros h. unfold append, command_of. cbn [text single]. rewrite map_app. cbn [map fst].
  rewrite glue_snoc by (destruct g; [congruence|discriminate]). rewrite forallb_snoc. reflexivity.
Qed.

Lemma need_true compile s : (forall t, compile t <> Breaks) -> need_more_for_code compile s = Some true -> ~ ended compile s.
Proof.
  unfold need_more_for_code, ended. intros hb h [h1 h2]. destruct (ends_with [92%N] s) eqn:E.
  - apply ends_with_spec in E. contradiction.
  - destruct (compile s) eqn:E2; try discriminate. congruence.
Qed.
Lemma need_false compile s : need_more_for_code compile s = Some false -> ended compile s /\ compile s <> Breaks.
Proof.
  unfold need_more_for_code, ended. intros h. destruct (ends_with [92%N] s) eqn:E; [discriminate|].
  assert (~ exists r, s = r ++ [92%N]) by (intros hx; apply ends_with_spec in hx; congruence).
  destruct (compile s) eqn:E2; try discriminate; repeat split; try assumption; try congruence.
Qed.
Lemma need_none compile s : need_more_for_code compile s = None -> compile s = Breaks.
Proof. unfold need_more_for_code. destruct (ends_with [92%N] s); [discriminate|]. destruct (compile s); congruence. Qed.

Lemma unfinished_snoc done l x : unfinished done l -> ~ done (glue (l ++ [x])) -> unfinished done (l ++ [x]).
Proof.
  intros hu hn p q hpq hp. destruct q as [|z q'] using rev_ind.
  - rewrite app_nil_r in hpq. now subst.
  - rewrite app_assoc in hpq. apply app_inj_tail in hpq as [hl _]. now apply (hu p q').
Qed.
Lemma command_snoc done l x : unfinished done l -> done (glue (l ++ [x])) -> one_command done (l ++ [x]).
Proof.
  intros hu hd. repeat split; [now destruct l| assumption |]. intros p q hpq hp hq.
  destruct q as [|z q' _] using rev_ind; [congruence|]. rewrite app_assoc in hpq. apply app_inj_tail in hpq as [hl _].
  now apply (hu p q').
Qed.

Lemma run_snoc one several es e : run one several (es ++ [e]) = step one several (run one several es) e.
Proof. unfold run. now rewrite fold_left_app. Qed.
Lemma typed_snoc es e : typed (es ++ [e]) = typed es ++ typed [e].
Proof. unfold typed. now rewrite flat_map_app. Qed.

Definition held (rest : list (str * bool)) : option fragment := match rest with [] => None | _ => Some (command_of rest) end.

Lemma exec_case one c s b rest : (forall t, one t <> Breaks) -> buffer c = held rest -> unfinished (ended one) (map fst rest) ->
  let g := rest ++ [(s, b)] in
  (do_exec_code one (Fragment s b) c = (Console (held g) (queue c) (taken c) (fates c), true) /\ ~ ended one (glue (map fst g))
     /\ unfinished (ended one) (map fst g)) \/
  (do_exec_code one (Fragment s b) c = (Console None (queue c ++ [command_of g]) (taken c) (fates c), false) /\
     ended one (glue (map fst g)) /\ one_command (ended one) (map fst g)).
Proof.
  intros hb hbuf hu g. unfold do_exec_code. rewrite hbuf.
  assert (hE : match held rest with None => Fragment s b | Some b0 => append b0 (Fragment s b) end = command_of g).
  { unfold g, held. destruct rest as [|x r]; [unfold command_of; cbn; destruct b; reflexivity|]. now rewrite append_command. }
  rewrite hE. change (text (command_of g)) with (glue (map fst g)).
  assert (hg : map fst g = map fst rest ++ [s]) by (unfold g; rewrite map_app; reflexivity).
  assert (hh : held g = Some (command_of g)) by (unfold g; destruct rest; reflexivity).
  destruct (need_more_for_code one (glue (map fst g))) as [[|]|] eqn:E.
  - left. apply need_true in E; [|assumption]. rewrite hh. split; [reflexivity|]. split; [assumption|].
    rewrite hg in E |- *. now apply unfinished_snoc.
  - right. apply need_false in E as [E _]. split; [reflexivity|]. split; [assumption|]. rewrite hg in E |- *. now apply command_snoc.
  - apply need_none in E. now apply hb in E.
Qed.

Definition inv (one several : str -> verdict) (es : list event) (groups : list (list (str * bool))) (rest : list (str * bool)) : Prop :=
  let c := run one several es in
  typed es = concat groups ++ rest /\ Forall (fun g => one_command (ended one) (map fst g)) groups /\
  unfinished (ended one) (map fst rest) /\ taken c ++ queue c = map command_of groups /\ buffer c = held rest /\
  Forall2 (became one several) (taken c) (fates c).

Lemma undisturbed_snoc es e : undisturbed (es ++ [e]) -> undisturbed es /\ e <> Interrupt /\ e <> Late.
Proof.
  unfold undisturbed. intros [h1 h2]. rewrite in_app_iff in h1, h2. cbn [In] in h1, h2. split; [tauto|]. split; intros h; subst; tauto.
Qed.

Lemma became_run one several f : became one several f (run_command one several f).
Proof.
  unfold became, run_command, runsource. destruct (single f); [destruct (one (text f))|destruct (several (text f))]; repeat split; congruence.
Qed.

Lemma inv_run one several es : (forall t, one t <> Breaks) -> undisturbed es -> exists groups rest, inv one several es groups rest.
Proof.
  intros hb. induction es as [|e es IH] using rev_ind; intros hu.
  - exists (@nil (list (str * bool))), (@nil (str * bool)). unfold inv. cbn. repeat split; try constructor.
    intros p q hpq hp. destruct p; [congruence|discriminate].
  - apply undisturbed_snoc in hu as (hu & hI & hL). destruct (IH hu) as (groups & rest & ht & hg & hr & hq & hbuf & hf). clear IH.
    assert (hexec : forall (s : str) (b : bool), e = (if b then ExecLine s else ExecMultipleLines s) -> exists groups rest, inv one several (es ++ [e]) groups rest).
    { intros s b ->. unfold inv. rewrite run_snoc.
      assert (hs : step one several (run one several es) (if b then ExecLine s else ExecMultipleLines s) =
                   fst (do_exec_code one (Fragment s b) (run one several es))) by (destruct b; reflexivity).
      assert (hty : typed (es ++ [if b then ExecLine s else ExecMultipleLines s]) = typed es ++ [(s, b)])
        by (rewrite typed_snoc; destruct b; reflexivity).
      rewrite hs, hty, ht.
      destruct (exec_case one (run one several es) s b rest hb hbuf hr) as [(-> & h1 & h2)|(-> & h1 & h2)].
      - exists groups, (rest ++ [(s, b)]). cbn [fst taken queue buffer fates]. rewrite <- app_assoc. auto 10.
      - exists (groups ++ [rest ++ [(s, b)]]), []. cbn [fst taken queue buffer fates].
        rewrite concat_app, map_app. cbn [concat map]. rewrite !app_nil_r. repeat split; try assumption.
        + now rewrite <- app_assoc.
        + apply Forall_app. split; [assumption|]. constructor; [assumption|constructor].
        + intros p q hpq hp. destruct p; [congruence|discriminate].
        + now rewrite app_assoc, hq. }
    destruct e as [s|s| | |]; try congruence; [now apply (hexec s true) | now apply (hexec s false) |].
    exists groups, rest. unfold inv. rewrite run_snoc, typed_snoc. cbn [typed flat_map]. rewrite app_nil_r. cbn [step].
    destruct (queue (run one several es)) as [|f q] eqn:E; [rewrite E in *; auto 10|].
    cbn [taken queue buffer fates]. rewrite <- app_assoc. cbn [app]. repeat split; try assumption.
    apply Forall2_app; [assumption|]. constructor; [apply became_run|constructor].
Qed.

(** Without interrupts the commands are what was typed, cut after each text which makes a command whole: every text belongs to one command
    or to the unfinished rest, in order; they are taken in order, each once, and each is run or its error shown. *)
Theorem commands_whole : forall one several es, (forall t, one t <> Breaks) -> undisturbed es ->
  exists groups rest, typed es = concat groups ++ rest /\ Forall (fun g => one_command (ended one) (map fst g)) groups /\
    unfinished (ended one) (map fst rest) /\
    taken (run one several es) ++ queue (run one several es) = map command_of groups /\
    Forall2 (became one several) (taken (run one several es)) (fates (run one several es)).
Proof.
  intros one several es hb hu. destruct (inv_run one several es hb hu) as (groups & rest & h1 & h2 & h3 & h4 & _ & h5).
  exists groups, rest. auto.
Qed.

(** The answer is that more is needed just when the text goes on what is unfinished without making a command of it. *)
Theorem answers_more : forall one several es e (s : str) (b : bool), (forall t, one t <> Breaks) -> undisturbed es ->
  e = (if b then ExecLine s else ExecMultipleLines s) ->
  exists groups rest r, typed es = concat groups ++ rest /\ Forall (fun g => one_command (ended one) (map fst g)) groups /\
    unfinished (ended one) (map fst rest) /\ answer one (run one several es) e = Some r /\
    (r = true <-> ~ ended one (glue (map fst rest ++ [s]))).
Proof.
  intros one several es e s b hb hu ->. destruct (inv_run one several es hb hu) as (groups & rest & h1 & h2 & h3 & h4 & hbuf & h5).
  exists groups, rest, (snd (do_exec_code one (Fragment s b) (run one several es))). repeat split; try assumption.
  - destruct b; reflexivity.
  - destruct (exec_case one _ s b rest hb hbuf h3) as [(E & hn & _)|(E & hn & _)]; rewrite E; cbn [snd]; intros hr; [|discriminate].
    rewrite map_app in hn. exact hn.
  - destruct (exec_case one _ s b rest hb hbuf h3) as [(E & hn & _)|(E & hn & _)]; rewrite E; cbn [snd]; intros hr; [reflexivity|].
    rewrite map_app in hn. contradiction.
Qed.

(** An interrupt drops what is unfinished and nothing else. *)
Definition commands (c : console) : list fragment := taken c ++ queue c.
Lemma commands_step one several e X c d : buffer c = buffer d -> commands c = X ++ commands d ->
  buffer (step one several c e) = buffer (step one several d e) /\
  commands (step one several c e) = X ++ commands (step one several d e).
Proof.
  unfold commands. intros hb hc.
  assert (hexec : forall f, buffer (fst (do_exec_code one f c)) = buffer (fst (do_exec_code one f d)) /\
     taken (fst (do_exec_code one f c)) ++ queue (fst (do_exec_code one f c)) = X ++ taken (fst (do_exec_code one f d)) ++ queue (fst (do_exec_code one f d))).
  { intros f. unfold do_exec_code. rewrite hb. cbv zeta. destruct (need_more_for_code _ _) as [[|]|]; cbn [fst buffer taken queue]; split; try reflexivity; try assumption.
    rewrite app_assoc, hc, <- !app_assoc. reflexivity. }
  destruct e as [s|s| | |]; cbn [step]; try apply hexec; try (cbn [buffer taken queue]; auto).
  assert (htake : forall k, buffer (match queue k with [] => k | f :: q => Console (buffer k) q (taken k ++ [f]) (fates k ++ [run_command one several f]) end) = buffer k /\
     taken (match queue k with [] => k | f :: q => Console (buffer k) q (taken k ++ [f]) (fates k ++ [run_command one several f]) end) ++
     queue (match queue k with [] => k | f :: q => Console (buffer k) q (taken k ++ [f]) (fates k ++ [run_command one several f]) end) = taken k ++ queue k).
  { intros k. destruct (queue k) as [|f q] eqn:E; [rewrite E; auto|]. cbn [buffer taken queue]. rewrite <- app_assoc. auto. }
  destruct (htake c) as [a1 a2], (htake d) as [b1 b2]. rewrite a1, b1, a2, b2. auto.
Qed.
Theorem interrupt_drops : forall one several es1 es2 i, i = Interrupt \/ i = Late ->
  commands (run one several (es1 ++ i :: es2)) = commands (run one several es1) ++ commands (run one several es2).
Proof.
  intros one several es1 es2 i hi. unfold run at 1. rewrite fold_left_app. cbn [fold_left]. fold (run one several es1).
  assert (h : forall es c d, buffer c = buffer d -> commands c = commands (run one several es1) ++ commands d ->
     commands (fold_left (step one several) es c) = commands (run one several es1) ++ commands (fold_left (step one several) es d)).
  { intros es. induction es as [|e es IH]; intros c d hb hc; [exact hc|]. cbn [fold_left].
    destruct (commands_step one several e _ c d hb hc) as [h1 h2]. now apply IH. }
  apply h; destruct hi as [-> | ->]; try reflexivity; unfold commands; cbn; now rewrite app_nil_r.
Qed.

(** Lines typed one by one are run or their error is shown, never silently given up. *)
Theorem lines_never_lost : forall one several es, (forall s, ~ In (ExecMultipleLines s) es) ->
  Forall2 (fun f o => single f = true /\ (o = Ran (text f) /\ one (text f) = Whole \/ o = Told (text f) /\ one (text f) = Wrong))
    (taken (run one several es)) (fates (run one several es)).
Proof.
  intros one several es.
  assert (h : (forall s, ~ In (ExecMultipleLines s) es) ->
     (forall b, buffer (run one several es) = Some b -> single b = true) /\
     Forall (fun f => single f = true /\ (one (text f) = Whole \/ one (text f) = Wrong)) (queue (run one several es)) /\
     Forall2 (fun f o => single f = true /\ (o = Ran (text f) /\ one (text f) = Whole \/ o = Told (text f) /\ one (text f) = Wrong))
    (taken (run one several es)) (fates (run one several es))); [|apply h].
  induction es as [|e es IH] using rev_ind; intros hn.
  - cbn. repeat split; try constructor. discriminate.
  - destruct IH as (ib & iq & it). { intros s hs. apply (hn s). apply in_or_app. now left. }
    rewrite run_snoc. destruct e as [s|s| | |]; cbn [step].
    + unfold do_exec_code.
      assert (hs : single (match buffer (run one several es) with None => Fragment s true | Some b => append b (Fragment s true) end) = true).
      { destruct (buffer (run one several es)) as [b|] eqn:E; [|reflexivity]. cbn. now apply ib. }
      destruct (need_more_for_code _ _) as [[|]|] eqn:E; cbn [fst buffer queue taken fates].
      * repeat split; try assumption. intros b [= <-]. exact hs.
      * repeat split; try assumption; [discriminate|]. apply Forall_app. split; [assumption|]. constructor; [|constructor].
        split; [exact hs|]. apply need_false in E as [[_ E1] E2].
        match goal with |- one ?t = _ \/ _ => destruct (one t); [now left|congruence|now right|congruence] end.
      * repeat split; try assumption. intros b [= <-]. exact hs.
    + exfalso. apply (hn s). apply in_or_app. right. now left.
    + cbn [buffer queue taken fates]. repeat split; try assumption. discriminate.
    + destruct (queue (run one several es)) as [|f q] eqn:E; [rewrite E; auto|]. cbn [buffer queue taken fates].
      inversion iq as [|? ? [h1 h2] h3]; subst. repeat split; try assumption. apply Forall2_app; [assumption|].
      constructor; [|constructor]. split; [assumption|]. unfold run_command, runsource. rewrite h1. destruct h2 as [-> | ->]; auto.
    + cbn [buffer queue taken fates]. repeat split; try assumption. discriminate.
Qed.

(** Not so for several lines given at once: when they are wrong as one statement and unfinished as a program they are given up in silence. *)
Theorem several_refuted : exists one several s,
  answer one fresh (ExecMultipleLines s) = Some false /\ fates (run one several [ExecMultipleLines s; Take]) = [Nothing s] /\
  buffer (run one several [ExecMultipleLines s; Take]) = None.
Proof.
  exists (fun _ => Wrong), (fun _ => Part), (lit "x=1"%string ++ [10%N] ++ lit "for i in y:"%string). repeat split.
Qed.

(** A text which compiling breaks on is said to be done with, stays, and spoils the next command. *)
Theorem breaks_refuted : exists one s t, one s = Breaks /\ one t = Whole /\ answer one fresh (ExecLine s) = Some false /\
  commands (run one one [ExecLine s; ExecLine t]) = [Fragment (s ++ [10%N] ++ t) true].
Proof.
  exists (fun u => match u with [40%N] => Breaks | _ => Whole end), [40%N], [49%N]. repeat split.
Qed.

(** A late interrupt drops a line which was typed after the command it was meant for. *)
Theorem late_refuted : exists one es, one (lit "x = ("%string) = Part /\ one (lit "x = ("%string ++ [10%N] ++ lit "1)"%string) = Whole /\
  es = [ExecLine (lit "x = ("%string); Late; ExecLine (lit "1)"%string); Take] /\ fates (run one one es) = [Told (lit "1)"%string)].
Proof.
  exists (fun u => if str_eqb u (lit "x = ("%string) then Part else if str_eqb u (lit "1)"%string) then Wrong else Whole).
  eexists. repeat split.
Qed.

(** * What a command can change of sys *)

(** After every command, however it ends and whatever it did, the input is what it was, so are the outputs of the console of a frame. *)
Theorem streams_back : forall own out err p s,
  stdin (fst (add_exec own p s)) = stdin s /\
  (let s' := fst (push_io true own out err p s) in stdin s' = stdin s /\ stdout s' = stdout s /\ stderr s' = stderr s).
Proof.
  intros own out err p s. split.
  - unfold add_exec. cbv zeta. destruct (p _) as [s4 e]. reflexivity.
  - unfold push_io, add_exec. cbv zeta. destruct (p _) as [s4 e]. repeat split.
Qed.

(** What a command sees: its own input, and in the console of a frame its own outputs, else those which were there *)
Theorem streams_seen : forall own out err buffer_output p s, exists seen,
  fst (push_io buffer_output own out err p s) = fst (push_io buffer_output own out err (fun _ => p seen) s) /\
  stdin seen = own /\ (help_input s <> None -> help_input seen = Some own) /\
  (buffer_output = true -> stdout seen = out /\ stderr seen = err) /\
  (buffer_output = false -> stdout seen = stdout s /\ stderr seen = stderr s).
Proof.
  intros own out err bo p s.
  exists (System own (if bo then out else stdout s) (if bo then err else stderr s) (hook0 s) (hook0 s)
            (match help_input s with Some _ => Some own | None => None end)).
  split; [|split; [|split; [|split]]].
  - destruct s as [si so se h h0 [hi|]], bo; reflexivity.
  - reflexivity.
  - cbn [help_input]. destruct (help_input s); congruence.
  - intros ->. split; reflexivity.
  - intros ->. split; reflexivity.
Qed.

(** Of the outputs which are not redirected a command may leave what it wants. *)
Theorem unbuffered_kept : forall own out err p s s4 e, (forall x, p x = (s4, e)) ->
  stdout (fst (push_io false own out err p s)) = stdout s4 /\ stderr (fst (push_io false own out err p s)) = stderr s4.
Proof.
  intros own out err p s s4 e hp. unfold push_io, add_exec. cbv zeta. rewrite hp. cbn. destruct (help_input s); auto.
Qed.

(** The exception hook which a command leaves is the one the next command finds, and SystemExit alone is passed on. *)
Theorem hook_kept : forall own p q s s4 e, (forall x, q x = (s4, e)) -> exists seen, hook seen = hook s4 /\
  add_exec own p (fst (add_exec own q s)) = add_exec own (fun _ => p seen) (fst (add_exec own q s)).
Proof.
  intros own p q s s4 e hq. set (s' := fst (add_exec own q s)).
  assert (h : hook0 s' = hook s4).
  { unfold s', add_exec. cbv zeta. rewrite hq. destruct (help_input s); reflexivity. }
  exists (System own (stdout s') (stderr s') (hook0 s') (hook0 s') (match help_input s' with Some _ => Some own | None => None end)).
  split; [exact h|]. clear h. destruct s' as [si so se hk h0 [hi|]]; reflexivity.
Qed.
Theorem exit_passed : forall own p s s4 e, (forall x, p x = (s4, e)) ->
  snd (add_exec own p s) = match e with Ends m => Some m | Raises => Some false | Exits => None end.
Proof. intros own p s s4 e hp. unfold add_exec. cbv zeta. rewrite hp. reflexivity. Qed.

(** But a hook set before the first command is lost with it, and a hook set by a command replaces __excepthook__, which Python promises to
    be the original one; help() is left reading the input rather than what it read before. *)
Theorem hook_refuted : exists own p s, (forall x, p x = (x, Ends false)) /\ hook s = 7%N /\ hook (fst (add_exec own p s)) <> 7%N.
Proof. exists 1%N, (fun x => (x, Ends false)), (System 0 2 3 7 5 None)%N. repeat split. discriminate. Qed.
Theorem original_hook_refuted : exists own p s, hook s = hook0 s /\ (forall x, hook0 (fst (p x)) = hook0 x) /\
  hook0 (fst (add_exec own p s)) <> hook0 s.
Proof. exists 1%N, (fun x => (with_hook 9 x, Ends false)), (System 0 2 3 5 5 None)%N. repeat split. discriminate. Qed.
Theorem help_refuted : exists own p s, (forall x, p x = (x, Ends false)) /\ help_input s = Some 8%N /\ help_input (fst (add_exec own p s)) <> Some 8%N.
Proof. exists 1%N, (fun x => (x, Ends false)), (System 0 2 3 5 5 (Some 8))%N. repeat split. discriminate. Qed.

(** * The console of a stopped frame *)

Definition settled (compile : str -> verdict) (s : str) : Prop := compile s <> Part.
Definition acted (o : N * N * fate) : bool := match o with (_, _, Nothing _) => false | _ => true end.
Definition outcome_of (compile : str -> verdict) (t f : N) (g : list str) (o : N * N * fate) : Prop :=
  o = (t, f, match compile (glue g) with Whole => Ran (glue g) | Wrong => Told (glue g) | Part => Nothing (glue g) | Breaks => Raised (glue g) end).

Lemma joined_glue l : joined l = glue l.
Proof.
  assert (h : forall r x, fold_left (fun a b : str => a ++ 10%N :: b) r x = x ++ match r with [] => [] | _ => 10%N :: joined r end).
  { induction r as [|y r IH]; intros x; [cbn; now rewrite app_nil_r|]. cbn [fold_left]. rewrite IH, <- app_assoc. cbn [app joined].
    destruct r; [now rewrite app_nil_r|reflexivity]. }
  destruct l as [|x [|y r]]; [reflexivity|reflexivity|]. cbn [glue]. rewrite h. reflexivity.
Qed.

Lemma debug_run_from compile exits t f l : (forall s, compile s <> Breaks) -> (forall s, exits s = false) ->
  Forall (fun a => a_thread a = t /\ a_frame a = f) l ->
  forall c rest, fst (lines_for c (Asked t f [])) = rest -> unfinished (settled compile) rest ->
  exists groups rest', rest ++ map a_line l = concat groups ++ rest' /\ Forall (one_command (settled compile)) groups /\
    unfinished (settled compile) rest' /\
    Forall2 (outcome_of compile t f) groups (filter acted (snd (debug_run compile exits c l))).
Proof.
  intros hb he. induction l as [|a l IH]; intros hl c rest hc hu.
  - exists [], rest. cbn. rewrite app_nil_r. repeat split; try assumption; constructor.
  - inversion hl as [|? ? [ht hf] hl']; subst. destruct a as [t f s]. cbn [a_thread a_frame a_line] in *.
    cbn [debug_run]. unfold debug_push. cbn [a_thread a_frame a_line].
    assert (hlf : fst (lines_for c (Asked t f s)) = fst (lines_for c (Asked t f []))) by reflexivity.
    rewrite hlf. set (rest := fst (lines_for c (Asked t f []))) in *. rewrite joined_glue. unfold runsource.
    assert (hself : forall b, fst (lines_for (Some (Cache t f b)) (Asked t f [])) = b).
    { intros b. unfold lines_for. cbn [thread frame a_thread a_frame]. now rewrite !N.eqb_refl. }
    assert (hnil : unfinished (settled compile) []) by (intros p q hpq hp; destruct p; [congruence|discriminate]).
    destruct (compile (glue (rest ++ [s]))) eqn:E.
    + rewrite he. destruct (IH hl' (Some (Cache t f [])) [] (hself []) hnil) as (groups & rest' & h1 & h2 & h3 & h4).
      exists ((rest ++ [s]) :: groups), rest'. destruct (debug_run compile exits (Some (Cache t f [])) l) as [c2 fs]. cbn [snd filter acted] in *.
      cbn [map a_line concat]. cbn [app] in h1. rewrite <- !app_assoc. cbn [app]. rewrite <- h1. repeat split; try assumption.
      * constructor; [|assumption]. apply command_snoc; [assumption|]. unfold settled. congruence.
      * constructor; [|assumption]. unfold outcome_of. now rewrite E.
    + destruct (IH hl' (Some (Cache t f (rest ++ [s]))) (rest ++ [s]) (hself _)) as (groups & rest' & h1 & h2 & h3 & h4).
      { apply unfinished_snoc; [assumption|]. unfold settled. intros hx. now apply hx. }
      exists groups, rest'. destruct (debug_run compile exits (Some (Cache t f (rest ++ [s]))) l) as [c2 fs]. cbn [snd filter acted] in *.
      cbn [map a_line]. rewrite <- h1, <- app_assoc. repeat split; assumption.
    + destruct (IH hl' (Some (Cache t f [])) [] (hself []) hnil) as (groups & rest' & h1 & h2 & h3 & h4).
      exists ((rest ++ [s]) :: groups), rest'. destruct (debug_run compile exits (Some (Cache t f [])) l) as [c2 fs]. cbn [snd filter acted] in *.
      cbn [map a_line concat]. cbn [app] in h1. rewrite <- !app_assoc. cbn [app]. rewrite <- h1. repeat split; try assumption.
      * constructor; [|assumption]. apply command_snoc; [assumption|]. unfold settled. congruence.
      * constructor; [|assumption]. unfold outcome_of. now rewrite E.
    + now apply hb in E.
Qed.

(** Lines typed for one frame are run in it whole, once and in order. *)
Theorem frame_commands_whole : forall compile exits t f l, (forall s, compile s <> Breaks) -> (forall s, exits s = false) ->
  Forall (fun a => a_thread a = t /\ a_frame a = f) l ->
  exists groups rest, map a_line l = concat groups ++ rest /\ Forall (one_command (settled compile)) groups /\
    unfinished (settled compile) rest /\
    Forall2 (outcome_of compile t f) groups (filter acted (snd (debug_run compile exits None l))).
Proof.
  intros compile exits t f l hb he hl.
  assert (hnil : unfinished (settled compile) []) by (intros p q hpq hp; destruct p; [congruence|discriminate]).
  exact (debug_run_from compile exits t f l hb he hl None [] eq_refl hnil).
Qed.

(** Lines typed for one frame never become part of a command of another one. *)
Lemma debug_run_app compile exits l1 : forall c l2, debug_run compile exits c (l1 ++ l2) =
  (fst (debug_run compile exits (fst (debug_run compile exits c l1)) l2),
   snd (debug_run compile exits c l1) ++ snd (debug_run compile exits (fst (debug_run compile exits c l1)) l2)).
Proof.
  induction l1 as [|a l1 IH]; intros c l2.
  - cbn. now destruct (debug_run compile exits c l2).
  - cbn [app debug_run]. destruct (debug_push compile exits c a) as [[c' f] r]. rewrite IH.
    destruct (debug_run compile exits c' l1) as [c2 fs]. reflexivity.
Qed.
Lemma push_cache compile exits c a : exists b, fst (fst (debug_push compile exits c a)) = Some (Cache (a_thread a) (a_frame a) b).
Proof. unfold debug_push. cbv zeta. destruct (runsource _ _) as [s|s|s|s]; try (eexists; reflexivity). destruct (exits s); eexists; reflexivity. Qed.
Theorem frames_apart : forall compile exits l1 a b l2, (a_thread a, a_frame a) <> (a_thread b, a_frame b) ->
  snd (debug_run compile exits None (l1 ++ [a] ++ b :: l2)) =
  snd (debug_run compile exits None (l1 ++ [a])) ++ snd (debug_run compile exits None (b :: l2)).
Proof.
  intros compile exits l1 a b l2 hd. rewrite app_assoc, debug_run_app. cbn [snd]. f_equal.
  rewrite debug_run_app. cbn [fst]. set (c := fst (debug_run compile exits None l1)). cbn [debug_run].
  destruct (push_cache compile exits c a) as (k & hk). destruct (debug_push compile exits c a) as [[c' f] r]. cbn [fst] in *. subst c'.
  unfold debug_push.
  assert (h : fst (lines_for (Some (Cache (a_thread a) (a_frame a) k)) b) = fst (lines_for None b)).
  { unfold lines_for. cbn [thread frame]. destruct (N.eqb_spec (a_thread a) (a_thread b)) as [e1|]; [|reflexivity].
    destruct (N.eqb_spec (a_frame a) (a_frame b)) as [e2|]; [|reflexivity]. exfalso. apply hd. now rewrite e1, e2. }
  rewrite h. reflexivity.
Qed.

(** The answer more is true just when the lines wait for others. *)
Theorem frame_more : forall compile exits c a m, snd (debug_push compile exits c a) = Some m ->
  (m = true <-> exists s, snd (fst (debug_push compile exits c a)) = Nothing s) /\
  (m = true <-> compile (glue (fst (lines_for c a) ++ [a_line a])) = Part).
Proof.
  intros compile exits c a m. unfold debug_push. cbv zeta. rewrite joined_glue. unfold runsource.
  destruct (compile (glue (fst (lines_for c a) ++ [a_line a]))) eqn:E.
  - destruct (exits _); cbn [snd fst]; intros [= <-]. split; split; try discriminate. now intros [s hs].
  - cbn [snd fst]. intros [= <-]. split; split; auto. intros _. now eexists.
  - cbn [snd fst]. intros [= <-]. split; split; try discriminate. now intros [s hs].
  - cbn [snd fst]. intros [= <-]. split; split; try discriminate. now intros [s hs].
Qed.

(** The messages are the lines of what was written which are not blank, outputs before errors. *)
Definition visible (m : str) : Prop := exists c, In c m /\ c <> 32%N /\ ~ (9 <= c <= 13)%N.
Lemma ws_iff c : is_ws c = false <-> c <> 32%N /\ ~ (9 <= c <= 13)%N.
Proof.
  unfold is_ws. destruct (N.eqb_spec c 32) as [e|e], (N.leb_spec 9 c) as [h|h], (N.leb_spec c 13) as [h2|h2]; cbn [orb andb];
    split; intros hh; try discriminate; try (destruct hh; lia); try reflexivity; try (split; [assumption|lia]).
Qed.
Definition visible_ (m : str) : Prop := exists c, In c m /\ is_ws c = false.
Lemma visible_iff m : visible m <-> visible_ m.
Proof. unfold visible, visible_. split; intros (c & h & hw); exists c; (split; [assumption|]); now apply ws_iff. Qed.


Lemma lstrip_nil m : lstrip m = [] <-> ~ visible_ m.
Proof.
  unfold visible_. induction m as [|c m IH]; cbn [lstrip].
  - split; [intros _ (c & [] & _)|reflexivity].
  - destruct (is_ws c) eqn:E.
    + rewrite IH. split; intros h (d & hd & hw); apply h; [|exists d; split; [now right|assumption]].
      destruct hd as [<-|hd]; [congruence|]. now exists d.
    + split; [discriminate|]. intros h. exfalso. apply h. exists c. split; [now left|assumption].
Qed.
Lemma lstrip_visible m c : In c m -> is_ws c = false -> In c (lstrip m).
Proof. intros h hw. induction m as [|d m IH]; [destruct h|]. cbn [lstrip]. destruct (is_ws d) eqn:E; [|exact h]. destruct h as [<-|h]; [congruence|auto]. Qed.
Lemma nonblank_iff_ m : nonblank m = true <-> visible_ m.
Proof.
  unfold nonblank, strip, rstrip. split.
  - intros h. destruct (lstrip m) as [|d r] eqn:E; [now cbn in h|].
    assert (hd : ~ ~ visible_ m) by (intros hn; apply lstrip_nil in hn; congruence).
    clear h E. unfold visible_ in *. induction m as [|x m IH].
    + exfalso. apply hd. intros (c & [] & _).
    + destruct (is_ws x) eqn:Ex; [|exists x; split; [now left|assumption]]. destruct IH as (c & hc & hw).
      * intros hn. apply hd. intros (c & [<-|hc] & hw); [congruence|]. apply hn. now exists c.
      * exists c. split; [now right|assumption].
  - intros (c & hc & hw). assert (h1 := lstrip_visible m c hc hw). apply in_rev in h1.
    assert (h2 := lstrip_visible _ c h1 hw). apply in_rev in h2. destruct (rev (lstrip (rev (lstrip m)))); [destruct h2|reflexivity].
Qed.

Lemma nonblank_iff m : nonblank m = true <-> visible m.
Proof. rewrite visible_iff. apply nonblank_iff_. Qed.

Lemma pieces_glue l : l <> [] -> (forall m, In m l -> ~ In 10%N m) -> pieces newline (glue l) = l.
Proof.
  rewrite <- joined_glue. induction l as [|x [|y r] IH]; intros hn hl; [congruence| |].
  - cbn [joined]. rewrite <- (app_nil_r x) at 1. rewrite pieces_app; [reflexivity| |now left]. apply hl. now left.
  - change (joined (x :: y :: r)) with (x ++ newline :: joined (y :: r)). rewrite pieces_app; [| |right; now eexists].
    + rewrite IH; [reflexivity|discriminate|]. intros m hm. apply hl. now right.
    + apply hl. now left.
Qed.

(** [select k l r]: r are the visible ones of l, in order, as messages of kind k *)
Inductive select (k : kind) : list str -> list (kind * str) -> Prop :=
| select_nil : select k [] []
| select_yes m l r : visible m -> select k l r -> select k (m :: l) ((k, m) :: r)
| select_no m l r : ~ visible m -> select k l r -> select k (m :: l) r.

Lemma select_app k l1 l2 r1 r2 : select k l1 r1 -> select k l2 r2 -> select k (l1 ++ l2) (r1 ++ r2).
Proof. intros h h2. induction h; cbn [app]; [exact h2|now apply select_yes|now apply select_no]. Qed.
Lemma select_filter k l : select k l (flat_map (fun m => if nonblank m then [(k, m)] else []) l).
Proof.
  induction l as [|m l IH]; cbn [flat_map]; [constructor|]. destruct (nonblank m) eqn:E; cbn [app].
  - apply nonblank_iff in E. now constructor.
  - apply select_no; [|assumption]. intros h. apply nonblank_iff in h. congruence.
Qed.
Definition proper (l : list str) : Prop := l <> [] /\ forall m, In m l -> ~ In 10%N m.
Theorem messages_lines : forall context outs errs, Forall proper outs -> Forall proper errs ->
  exists ro re, messages false context (map glue outs) (map glue errs) = ro ++ re /\
    select Output (concat outs) ro /\ select Error (concat errs) re.
Proof.
  intros context outs errs ho he.
  assert (h : forall k ls, Forall proper ls -> select k (concat ls) (flat_map (add_console_message k) (map glue ls))).
  { intros k ls hl. induction hl as [|l ls [h1 h2] _ IH]; [constructor|]. cbn [map flat_map concat]. apply select_app; [|exact IH].
    unfold add_console_message. rewrite pieces_glue by assumption. apply select_filter. }
  exists (flat_map (add_console_message Output) (map glue outs)), (flat_map (add_console_message Error) (map glue errs)).
  split; [reflexivity|]. split; now apply h.
Qed.

(** A new console says first where it is. *)
Theorem context_first : forall context outs errs, ~ In 10%N context ->
  messages true context outs errs = (Output, lit "[Current context]: "%string ++ context) :: messages false context outs errs.
Proof.
  intros context outs errs hc. unfold messages. cbn [app]. unfold add_console_message at 1.
  set (m := lit "[Current context]: "%string ++ context).
  assert (hm : pieces newline m = [m]).
  { rewrite <- (app_nil_r m) at 1. rewrite pieces_app; [reflexivity| |now left]. unfold m. intros h. apply in_app_or in h as [h|h]; [|contradiction].
    cbn in h. repeat (destruct h as [h|h]; [discriminate|]). destruct h. }
  rewrite hm. cbn [flat_map]. replace (nonblank m) with true; [reflexivity|]. symmetry. apply nonblank_iff. exists 91%N. split; [now left|]. split; [discriminate|lia].
Qed.

(** One line written in parts, as print does with its arguments, becomes several messages, and the blanks between are lost. *)
Theorem print_refuted : exists outs, concat outs = lit "1 2"%string ++ [10%N] /\
  messages false [] outs [] = [(Output, lit "1"%string); (Output, lit "2"%string)].
Proof. exists [lit "1"%string; lit " "%string; lit "2"%string; [10%N]]. split; reflexivity. Qed.
(** After a command which ends with SystemExit the next line is run with it again. *)
Theorem exit_refuted : exists compile exits s t, compile s = Whole /\ compile t = Whole /\ exits s = true /\ exits t = false /\
  snd (debug_run compile exits None [Asked 1 1 s; Asked 1 1 t]) = [(1, 1, Ran s); (1, 1, Told (s ++ [10%N] ++ t))]%N.
Proof.
  exists (fun u => if mem [10%N] (map (fun c => [c]) u) then Wrong else Whole), (fun u => str_eqb u (lit "exit()"%string)), (lit "exit()"%string), (lit "x"%string).
  repeat split.
Qed.
(** Unfinished lines of a frame are lost when another frame is used in between. *)
Theorem other_frame_refuted : exists compile exits s t u, compile s = Part /\ compile (s ++ [10%N] ++ t) = Whole /\
  snd (debug_run compile exits None [Asked 1 1 s; Asked 1 2 u; Asked 1 1 t]) = [(1, 1, Nothing s); (1, 2, Ran u); (1, 1, Told t)]%N.
Proof.
  exists (fun u => if str_eqb u (lit "x = ("%string) then Part else if str_eqb u (lit "1)"%string) then Wrong else Whole), (fun _ => false),
    (lit "x = ("%string), (lit "1)"%string), (lit "y"%string). repeat split.
Qed.

(** Examples: the hypotheses hold for a case which is not trivial. *)
Definition py (u : str) : verdict :=
  if str_eqb u (lit "x = ("%string) then Part else if str_eqb u (lit "1)"%string) then Wrong else Whole.
Example typed_example :
  (forall t, py t <> Breaks) /\
  undisturbed [ExecLine (lit "x = ("%string); ExecLine (lit "1)"%string); Take; ExecLine (lit "y \"%string); ExecLine (lit "+ 1"%string)] /\
  commands (run py py [ExecLine (lit "x = ("%string); ExecLine (lit "1)"%string); Take; ExecLine (lit "y \"%string); ExecLine (lit "+ 1"%string)]) =
  [Fragment (lit "x = ("%string ++ 10%N :: lit "1)"%string) true; Fragment (lit "y \"%string ++ 10%N :: lit "+ 1"%string) true].
Proof.
  split; [|split; [|reflexivity]].
  - intros t. unfold py. destruct (str_eqb t _); [discriminate|]. destruct (str_eqb t _); discriminate.
  - split; intros h; repeat (destruct h as [h|h]; [discriminate|]); destruct h.
Qed.
Example frame_example :
  Forall (fun a => a_thread a = 1%N /\ a_frame a = 2%N) [Asked 1 2 (lit "x = ("%string); Asked 1 2 (lit "1)"%string)] /\
  snd (debug_run py (fun _ => false) None [Asked 1 2 (lit "x = ("%string); Asked 1 2 (lit "1)"%string)]) =
  [(1, 2, Nothing (lit "x = ("%string)); (1, 2, Ran (lit "x = ("%string ++ 10%N :: lit "1)"%string))]%N.
Proof. split; [repeat (constructor; [split; reflexivity|]); constructor|reflexivity]. Qed.
Example messages_example : Forall proper [[lit "a"%string; []; lit " b"%string]; [[]]] /\
  messages false [] (map glue [[lit "a"%string; []; lit " b"%string]; [[]]]) [] = [(Output, lit "a"%string); (Output, lit " b"%string)].
Proof.
  split; [|reflexivity].
  assert (h : forall m, existsb (N.eqb 10) m = false -> ~ In 10%N m).
  { intros m hf hi. assert (existsb (N.eqb 10) m = true) by (apply existsb_exists; exists 10%N; split; [assumption|reflexivity]). congruence. }
  repeat constructor; try discriminate; intros m hm; apply h; cbn in hm; repeat (destruct hm as [<-|hm]; [reflexivity|]); destruct hm.
Qed.

Print Assumptions commands_whole.
Print Assumptions answers_more.
Print Assumptions interrupt_drops.
Print Assumptions lines_never_lost.
Print Assumptions several_refuted.
Print Assumptions breaks_refuted.
Print Assumptions late_refuted.
Print Assumptions streams_back.
Print Assumptions streams_seen.
Print Assumptions unbuffered_kept.
Print Assumptions hook_kept.
Print Assumptions exit_passed.
Print Assumptions hook_refuted.
Print Assumptions original_hook_refuted.
Print Assumptions help_refuted.
Print Assumptions frame_commands_whole.
Print Assumptions frames_apart.
Print Assumptions frame_more.
Print Assumptions messages_lines.
Print Assumptions context_first.
Print Assumptions print_refuted.
Print Assumptions exit_refuted.
Print Assumptions other_frame_refuted.
