(** Property C64: debugging Jinja2 templates. *)
From Coq Require Import String.
From Coq Require Import List NArith Bool Lia.
From Verif Require Import Base Dict Glob GlobSpec GlobProps Jinja.
Import ListNotations.
Open Scope list_scope.

(** * Specification *)
(** The names which jinja2 gives to the functions it generates *)
Definition generated_name (n : str) : Prop :=
  n = lit "root" \/ n = lit "loop" \/ n = lit "macro" \/ exists b, n = lit "block_" ++ b.
(** The frame runs code generated from a template, and is at code for a line of it *)
Definition draws {V} (f : frame V) (line : N) : Prop :=
  exists t, tpl f = Some t /\ generated_name (co_name f) /\ In (line, lineno f) (debug_info t).
(** The template of the frame has a breakpoint at some line *)
Definition has_breaks {V} (P : setup V) (f : frame V) : Prop :=
  exists t file n h rest, tpl f = Some t /\ generated_name (co_name f) /\ filename t = Some file /\
    get str_eqb (norm P file) (bps P) = Some ((n, h) :: rest).
Definition some_break {V} (P : setup V) : Prop := exists file n h rest, In (file, (n, h) :: rest) (bps P).
(** The filters of files hide the code of the frame; a template with breakpoints is not hidden *)
Definition hidden {V} (P : setup V) (f : frame V) : Prop := filters P = true /\ filtered f = true /\ ~ has_breaks P f.
(** A generator which starts, goes on or gives a value: that is no call or return for the debugger *)
Definition passed_over {V} (e : event V) : Prop := generator (fr e) = true /\ (ev e = ECall \/ ev e = EReturn /\ final e = false).
Definition at_python_break {V} (e : event V) : Prop := ev e = ELine /\ atbreak e = true.
Definition at_template_break {V} (P : setup V) (e : event V) : Prop :=
  exists line t file lines h, ev e = ELine /\ draws (fr e) line /\ tpl (fr e) = Some t /\ filename t = Some file /\
    get str_eqb (norm P file) (bps P) = Some lines /\ get N.eqb line lines = Some h /\ h (collect_context (world P) (fr e)) = true.
(** What is shown at a line of a template *)
Definition shows {V} (P : setup V) (e : event V) (line : N) (p : place V) : Prop :=
  exists t, tpl (fr e) = Some t /\ draws (fr e) line /\ p = InTemplate (TFrame (filename t) (Some line) (collect_context (world P) (fr e))).
(** The events are those of a program: a line of the generated code is for one line of the template, and a breakpoint which is reached is
    one of the frame *)
Definition proper {V} (e : event V) : Prop :=
  (forall t, tpl (fr e) = Some t -> NoDup (map snd (debug_info t))) /\ (atbreak e = true -> pybreaks (fr e) = true).
(** The first event with [Q] *)
Definition first {E} (Q : E -> Prop) (evs : list E) (e : E) (post : list E) : Prop :=
  exists pre, evs = pre ++ e :: post /\ Forall (fun x => ~ Q x) pre /\ Q e.

(** ** Variables *)
(** The name a local variable of the generated code stands for: a number in front and what follows a second underscore are left out. *)
Definition real_name (r n : str) : Prop :=
  (exists d rest, d <> [] /\ Forall (fun c => is_digit c = true) d /\ r = d ++ lit "_" ++ n ++ rest /\ ~ In 95%N n /\
     (rest = [] \/ exists q, rest = lit "_" ++ q)) \/
  (n = r /\ ~ exists d q, d <> [] /\ Forall (fun c => is_digit c = true) d /\ r = d ++ lit "_" ++ q).
(** The local variable [x] with the value [v] is shown as [n] *)
Definition displayed {V} (W : values V) (x : str) (v : V) (n : str) : Prop :=
  ((~ exists r, x = lit "l_" ++ r) /\ n = x) \/
  (exists r, x = lit "l_" ++ r /\ truth W v = true /\ missing W v = false /\ real_name r n).
(** The value of a variable for the context *)
Definition context_value {V} (f : frame V) (k : str) : option V :=
  match ctx f with
  | Some c => match get str_eqb k (vars c) with Some v => Some v | None => get str_eqb k (parent c) end
  | None => None
  end.

(** * The frames *)
Lemma render_spec {V} (f : frame V) : is_render_call f = true <->
  (exists t, tpl f = Some t) /\ generated_name (co_name f) \/ exists b, co_name f = lit "block_" ++ b.
Proof.
  unfold is_render_call, generated_name. rewrite orb_true_iff, andb_true_iff, !orb_true_iff, !str_eqb_eq, starts_with_spec.
  destruct (tpl f) as [t|]; split; intros H.
  - destruct H as [[_ H]|H]; auto. left. split; eauto. tauto.
  - destruct H as [[_ H]|H]; auto. destruct H as [H|[H|[H|H]]]; auto 6.
  - destruct H as [[H _]|H]; auto. discriminate.
  - destruct H as [[[t H] _]|H]; auto. discriminate.
Qed.
Lemma find_line l n : NoDup (map snd l) -> forall m, option_map fst (find (fun p : N * N => (snd p =? n)%N) l) = Some m <-> In (m, n) l.
Proof.
  induction l as [|[a b] l IH]; intros ND m; cbn [find map snd In].
  - split; [discriminate|contradiction].
  - cbn [map snd] in ND. apply NoDup_cons_iff in ND. destruct ND as [N1 N2]. destruct (N.eqb_spec b n) as [->|Nb].
    + cbn [option_map fst]. split; [intros H; injection H as ->; auto|]. intros [H|H]; [injection H as ->; auto|].
      exfalso. apply N1. apply (in_map snd) in H. exact H.
    + rewrite IH by auto. split; auto. intros [H|H]; auto. congruence.
Qed.
Lemma draws_line {V} (e : event V) line : proper e -> draws (fr e) line <-> is_render_call (fr e) = true /\ template_line (fr e) = Some line.
Proof.
  intros (Pd & _). unfold draws, template_line. rewrite render_spec. destruct (tpl (fr e)) as [t|] eqn:T.
  - rewrite (find_line _ _ (Pd t eq_refl)). split.
    + intros (t' & E & G & I). injection E as <-. split; auto. left. eauto.
    + intros (G & I). exists t. split; auto. split; auto. destruct G as [[_ G]|G]; auto. unfold generated_name. auto.
  - split; [intros (t & E & _); discriminate|]. intros [_ H]. discriminate.
Qed.
Lemma some_break_spec {V} (P : setup V) : has_line_breaks P = true <-> some_break P.
Proof.
  unfold has_line_breaks, some_break. rewrite existsb_exists. split.
  - intros ([file l] & I & H). cbn [snd] in H. destruct l as [|[n h] l]; [discriminate|]. now exists file, n, h, l.
  - intros (file & n & h & l & I). exists (file, (n, h) :: l). auto.
Qed.
Lemma skip_spec {V} (P : setup V) f : can_skip P f = false <-> has_breaks P f.
Proof.
  unfold can_skip, has_breaks, file_breaks, template_file. rewrite negb_false_iff, andb_true_iff, render_spec.
  destruct (tpl f) as [t|] eqn:T.
  - destruct (filename t) as [file|] eqn:Fn.
    + split.
      * intros [G H]. destruct (get str_eqb (norm P file) (bps P)) as [[|[n h] l]|] eqn:Gt; try discriminate.
        exists t, file, n, h, l. split; auto. split; auto. destruct G as [[_ G]|G]; auto. unfold generated_name. auto.
      * intros (t' & file' & n & h & l & E & G & Fn' & Gt). injection E as <-. assert (file' = file) as -> by congruence. rewrite Gt. split; auto. left. eauto.
    + split; [intros [_ H]; discriminate|]. intros (t' & file' & n & h & l & E & _ & Fn' & _). congruence.
  - split; [intros [_ H]; discriminate|]. intros (t' & file' & n & h & l & E & _). discriminate.
Qed.
Lemma has_some {V} (P : setup V) f : has_breaks P f -> some_break P.
Proof. intros (t & file & n & h & l & _ & _ & _ & G). apply (get_In _ str_eqb_spec) in G. now exists (norm P file), n, h, l. Qed.
Lemma has_line {V} (P : setup V) f : has_breaks P f -> has_line_breaks P = true.
Proof. intros H. apply some_break_spec. eapply has_some; eauto. Qed.
Lemma hidden_spec {V} (P : setup V) f : apply_files_filter P f = true <-> hidden P f.
Proof.
  unfold apply_files_filter, hidden. rewrite !andb_true_iff, negb_true_iff. split.
  - intros [[A B] C]. repeat split; auto. intros H. rewrite (has_line P f H), (proj2 (skip_spec P f) H) in C. discriminate.
  - intros (A & B & C). repeat split; auto. destruct (can_skip P f) eqn:S; [apply andb_false_r|]. apply skip_spec in S. contradiction.
Qed.
Lemma hidden_false {V} (P : setup V) f : apply_files_filter P f = false <-> ~ hidden P f.
Proof. rewrite <- hidden_spec. destruct (apply_files_filter P f); split; intros; congruence. Qed.
Lemma filters_hidden {V} (P : setup V) f : filters P && apply_files_filter P f = apply_files_filter P f.
Proof. unfold apply_files_filter. now destruct (filters P). Qed.
Lemma has_visible {V} (P : setup V) f : has_breaks P f -> ~ hidden P f.
Proof. intros H (_ & _ & N). auto. Qed.

(** * Variables *)
Lemma fold_put {V} (d res : dict V) k : NoDup (map fst d) ->
  get str_eqb k (fold_left put d res) = match get str_eqb k d with Some v => Some v | None => get str_eqb k res end.
Proof.
  revert res. induction d as [|[x v] d IH]; intros res N; auto.
  cbn [map fst] in N. apply NoDup_cons_iff in N. destruct N as [N1 N2]. cbn [fold_left]. rewrite IH by auto. unfold put at 1. cbn [fst snd].
  cbn [get]. destruct (str_eqb_spec k x) as [->|Ne].
  - destruct (get str_eqb x d) eqn:G; [|apply (get_set_same _ str_eqb_spec)].
    exfalso. apply N1. apply (get_In _ str_eqb_spec) in G. apply (in_map fst) in G. exact G.
  - destruct (get str_eqb k d); auto. now rewrite (get_set_other _ str_eqb_spec) by auto.
Qed.
Lemma put_keys {V} (res : dict V) kv : NoDup (map fst res) -> NoDup (map fst (put res kv)).
Proof. intros N. unfold put. apply (NoDup_keys_set _ str_eqb_spec). exact N. Qed.
Lemma fold_put_keys {V} (d res : dict V) : NoDup (map fst res) -> NoDup (map fst (fold_left put d res)).
Proof. revert res. induction d as [|kv d IH]; intros res N; auto. cbn [fold_left]. apply IH, put_keys, N. Qed.
Lemma digits_spec d : all_digits d = true <-> d <> [] /\ Forall (fun c => is_digit c = true) d.
Proof.
  unfold all_digits. destruct d as [|c d]; [split; [discriminate|intros [H _]; congruence]|].
  rewrite forallb_forall, Forall_forall. split; [intros H; split; auto; discriminate|intros [_ H]; auto].
Qed.
Lemma digits_no_score d : Forall (fun c => is_digit c = true) d -> ~ In 95%N d.
Proof. rewrite Forall_forall. intros F I. specialize (F _ I). discriminate. Qed.
Lemma score_split d q : Forall (fun c => is_digit c = true) d -> split_on 95 (d ++ lit "_" ++ q) = d :: split_on 95 q.
Proof.
  intros F. change (lit "_" ++ q) with (95%N :: q). rewrite split_on_app, (split_on_one 95 d (digits_no_score d F)). reflexivity.
Qed.
Lemma head_piece n rest : ~ In 95%N n -> (rest = [] \/ exists q, rest = lit "_" ++ q) -> exists l, split_on 95 (n ++ rest) = n :: l.
Proof.
  intros Nn [-> | [q ->]].
  - rewrite app_nil_r, (split_on_one _ _ Nn). eauto.
  - change (lit "_" ++ q) with (95%N :: q). rewrite split_on_app, (split_on_one _ _ Nn). cbn [app]. eauto.
Qed.
Lemma real_name_fun r n : real_name r n -> real_var_name r = n.
Proof.
  intros [(d & rest & Nd & Fd & -> & Nn & Hr)|[-> H]]; unfold real_var_name.
  - rewrite score_split by auto. destruct (head_piece n rest Nn Hr) as [l ->]. rewrite (proj2 (digits_spec d)); auto.
  - destruct (split_on 95 r) as [|p0 [|p1 l]] eqn:S; auto. destruct (all_digits p0) eqn:D; auto. apply digits_spec in D. destruct D as [D1 D2].
    exfalso. apply H. exists p0, (join 95 (p1 :: l)). split; auto. split; auto. rewrite <- (join_split_on 95 r), S. reflexivity.
Qed.
Lemma split_free c s : Forall (fun p => ~ In c p) (split_on c s).
Proof.
  induction s as [|x s IH]; [constructor; auto|]. cbn [split_on]. destruct (N.eqb_spec x c) as [->|Ne]; [constructor; auto|].
  destruct (split_on c s) as [|h t]; [constructor; [|constructor]; intros [H|[]]; congruence|].
  apply Forall_cons_iff in IH. destruct IH as [A B]. constructor; auto. intros [H|H]; auto.
Qed.
Lemma real_name_ex r : real_name r (real_var_name r).
Proof.
  unfold real_var_name. pose proof (join_split_on 95 r) as J. pose proof (split_free 95 r) as F.
  destruct (split_on 95 r) as [|p0 [|p1 l]] eqn:S.
  - right. split; auto. now apply split_on_nonempty in S.
  - right. split; auto. intros (d & q & Nd & Fd & E). rewrite E, score_split in S by auto. injection S as _ S. now apply split_on_nonempty in S.
  - destruct (all_digits p0) eqn:D.
    + apply digits_spec in D. destruct D as [D1 D2]. left. exists p0, (match l with [] => [] | _ => lit "_" ++ join 95 l end).
      split; auto. split; auto. split.
      * rewrite <- J. cbn [join]. destruct l; [now rewrite app_nil_r|reflexivity].
      * apply Forall_cons_iff in F. destruct F as [_ F]. apply Forall_cons_iff in F. split; [apply F|]. destruct l; eauto.
    + right. split; auto. intros (d & q & Nd & Fd & E). rewrite E, score_split in S by auto. injection S as S1 _. subst p0.
      rewrite (proj2 (digits_spec d)) in D; auto. discriminate.
Qed.
Lemma shown_spec {V} (W : values V) x v n : shown_local W (x, v) = Some (n, v) <-> displayed W x v n.
Proof.
  unfold shown_local, displayed. rewrite <- starts_with_spec. destruct (starts_with (lit "l_") x) eqn:S; cbn [negb].
  - apply starts_with_spec in S. destruct S as [r ->]. change (skipn 2 (lit "l_" ++ r)) with r. split.
    + intros H. right. exists r. split; auto. destruct (truth W v); [|discriminate]. destruct (missing W v); [discriminate|].
      injection H as <-. split; auto. split; auto. apply real_name_ex.
    + intros [[H _]|(r' & E & A & B & C)]; [congruence|]. apply app_inv_head in E. subst r'. rewrite A, B. cbn [andb negb].
      now rewrite (real_name_fun _ _ C).
  - split.
    + intros H. injection H as <-. left. split; auto; congruence.
    + intros [[_ ->]|(r & -> & _)]; auto. now rewrite starts_with_app in S.
Qed.
Lemma shown_value {V} (W : values V) x v n w : shown_local W (x, v) = Some (n, w) -> w = v.
Proof.
  unfold shown_local. destruct (negb (starts_with (lit "l_") x)); [now intros H; injection H|].
  destruct (truth W v && negb (missing W v)); [|discriminate]. intros H. now injection H.
Qed.
(** The local variable shown as [k] is the last one which is *)
Definition local_value {V} (W : values V) (l : dict V) (k : str) (v : V) : Prop :=
  exists pre x post, l = pre ++ (x, v) :: post /\ displayed W x v k /\ Forall (fun yw => ~ displayed W (fst yw) (snd yw) k) post.
Lemma fold_locals {V} (W : values V) l res k v :
  get str_eqb k (fold_left (fun res kv => match shown_local W kv with Some kv => put res kv | None => res end) l res) = Some v <->
  local_value W l k v \/ (Forall (fun yw => ~ displayed W (fst yw) (snd yw) k) l /\ get str_eqb k res = Some v).
Proof.
  revert res. induction l as [|[x w] l IH]; intros res; cbn [fold_left].
  - split; [intros H; right; split; auto|]. intros [(pre & x & post & E & _)|[_ H]]; auto. now destruct pre.
  - rewrite IH. assert (Sh : forall kv, shown_local W (x, w) = Some kv -> snd kv = w) by (intros [n u] H; now apply shown_value in H).
    assert (D : forall kv, shown_local W (x, w) = Some kv -> displayed W x w (fst kv)).
    { intros [n u] H. pose proof (Sh _ H) as E. cbn [snd fst] in *. subst u. now apply shown_spec. }
    assert (U : forall n, displayed W x w n -> shown_local W (x, w) = Some (n, w)) by (intros n; apply shown_spec).
    split.
    + intros [(pre & y & post & -> & Dy & F)|[F H]].
      * left. exists ((x, w) :: pre), y, post. auto.
      * destruct (shown_local W (x, w)) as [[n u]|] eqn:S.
        -- pose proof (Sh _ eq_refl) as Eu. pose proof (D _ eq_refl) as Dn. cbn [snd fst] in Eu, Dn. subst u. unfold put in H. cbn [fst snd] in H.
           rewrite (get_set _ str_eqb_spec) in H. destruct (str_eqb_spec k n) as [->|Ne].
           ++ injection H as ->. left. exists [], x, l. auto.
           ++ right. split; auto. constructor; auto. cbn [fst snd]. intros Dk. apply U in Dk. congruence.
        -- right. split; auto. constructor; auto. cbn [fst snd]. intros Dk. apply U in Dk. congruence.
    + intros [(pre & y & post & E & Dy & F)|[F H]].
      * destruct pre as [|z pre]; cbn [app] in E.
        -- injection E as -> -> ->. right. split; auto. rewrite (U _ Dy). unfold put. apply (get_set_same _ str_eqb_spec).
        -- injection E as _ E. left. exists pre, y, post. auto.
      * apply Forall_cons_iff in F. destruct F as [F1 F2]. cbn [fst snd] in F1. right. split; auto.
        destruct (shown_local W (x, w)) as [[n u]|] eqn:S; auto. pose proof (D _ eq_refl) as Dn. cbn [fst] in Dn. unfold put. cbn [fst snd].
        rewrite (get_set_other _ str_eqb_spec); auto. congruence.
Qed.
Definition plain_dicts {V} (f : frame V) : Prop :=
  match ctx f with Some c => NoDup (map fst (vars c)) /\ NoDup (map fst (parent c)) | None => True end.
(** C64: the variables shown: those of the context with the values they have there, and for the other names the local variables *)
Theorem jinja_variables {V} (W : values V) (f : frame V) k v : plain_dicts f ->
  get str_eqb k (collect_context W f) = Some v <->
  context_value f k = Some v \/ (context_value f k = None /\ local_value W (locals f) k v).
Proof.
  intros Pl. unfold collect_context, plain_dicts, context_value in *.
  assert (L : get str_eqb k (fold_left (fun res kv => match shown_local W kv with Some kv => put res kv | None => res end) (locals f) []) = Some v <->
              local_value W (locals f) k v).
  { rewrite fold_locals. cbn [get]. split; [intros [H|[_ H]]; [auto|discriminate]|auto]. }
  destruct (ctx f) as [c|].
  - destruct Pl as [Pv Pp]. unfold context_items. rewrite fold_put by (apply fold_put_keys, Pp). rewrite fold_put by auto.
    destruct (get str_eqb k (vars c)) as [w|]; [|destruct (get str_eqb k (parent c)) as [w|]].
    + split; auto. intros [H|[H _]]; [auto|discriminate].
    + split; auto. intros [H|[H _]]; [auto|discriminate].
    + rewrite L. split; auto. intros [H|[_ H]]; [discriminate|auto].
  - cbn [fold_left]. rewrite L. split; auto. intros [H|[_ H]]; [discriminate|auto].
Qed.
Print Assumptions jinja_variables.

(** * One event *)
Definition python_stop {V} (P : setup V) (e : event V) : Prop := at_python_break e /\ ~ hidden P (fr e).
Lemma line_break {V} (e : event V) : is_line (ev e) && atbreak e = true <-> at_python_break e.
Proof. unfold at_python_break. rewrite andb_true_iff. destruct (ev e); cbn [is_line]; intuition; discriminate. Qed.
Lemma line_break_false {V} (e : event V) : is_line (ev e) && atbreak e = false <-> ~ at_python_break e.
Proof. rewrite <- line_break. destruct (is_line (ev e) && atbreak e); split; intros; congruence. Qed.
Lemma passed_spec {V} (e : event V) :
  generator (fr e) && match ev e with ECall => true | ELine => false | EReturn => negb (final e) end = true <-> passed_over e.
Proof.
  unfold passed_over. rewrite andb_true_iff. destruct (ev e); rewrite ?negb_true_iff; intuition; discriminate.
Qed.
Lemma line_passed {V} (e : event V) : ev e = ELine -> ~ passed_over e.
Proof. intros K [_ [H|[H _]]]; congruence. Qed.
(** With step into and step return a frame is only left out if its caller is hidden too *)
Definition both_hidden {V} (P : setup V) (e : event V) : Prop := hidden P (fr e) /\ forall b, hd_error (stack e) = Some b -> hidden P b.
Lemma left_out_far {V} (P : setup V) e d : step d = Run \/ step d = Over -> left_out P e d = true <-> hidden P (fr e) \/ passed_over e.
Proof.
  intros Hs. unfold left_out. rewrite orb_true_iff, passed_spec, filters_hidden, andb_true_iff, hidden_spec.
  destruct Hs as [-> | ->]; intuition.
Qed.
Lemma left_out_near {V} (P : setup V) e d : step d = Into \/ step d = Return -> left_out P e d = true <-> both_hidden P e \/ passed_over e.
Proof.
  intros Hs. unfold left_out, both_hidden. rewrite orb_true_iff, passed_spec, filters_hidden, andb_true_iff, hidden_spec.
  assert (A : match step d, stack e with Into, b :: _ | Return, b :: _ => apply_files_filter P b | _, _ => true end = true <->
              forall b, hd_error (stack e) = Some b -> hidden P b); [|now rewrite A].
  destruct Hs as [-> | ->]; (destruct (stack e) as [|b r]; cbn [hd_error];
    [split; auto; intros _ b' E; discriminate | rewrite hidden_spec; split; [intros H b' E; injection E as <-; auto | auto]]).
Qed.
Lemma break_draws {V} (P : setup V) e : at_template_break P e -> exists line, draws (fr e) line /\ ev e = ELine /\ has_breaks P (fr e).
Proof.
  intros (line & t & file & lines & h & K & D & T & F & G & Gl & _). exists line. split; auto. split; auto.
  destruct lines as [|[n h'] l]; [discriminate|]. exists t, file, n, h', l. split; auto. split; auto. now destruct D as (_ & _ & D & _).
Qed.
Lemma frame_shows {V} (P : setup V) e line : proper e -> draws (fr e) line -> shows P e line (InTemplate (template_frame (world P) (fr e))).
Proof.
  intros Pp D. pose proof D as D0. apply (draws_line e line Pp) in D0. destruct D0 as [_ L]. destruct D as (t & T & D).
  exists t. split; auto. split; [exists t; auto|]. unfold template_frame. rewrite L. unfold template_file. now rewrite T.
Qed.
Lemma break_spec {V} (P : setup V) e : proper e ->
  (if has_line_breaks P then match get_breakpoint P e with Some h => h (tlocals (template_frame (world P) (fr e))) | None => false end else false) = true
  <-> at_template_break P e.
Proof.
  intros Pp. cbn [tlocals template_frame]. split.
  - destruct (has_line_breaks P); [|discriminate]. unfold get_breakpoint. destruct (is_line (ev e) && is_render_call (fr e)) eqn:K; [|discriminate].
    apply andb_true_iff in K. destruct K as [K R]. destruct (template_line (fr e)) as [n|] eqn:L; [|discriminate].
    assert (D : draws (fr e) n) by (apply draws_line; auto). unfold file_breaks, template_file.
    destruct (tpl (fr e)) as [t|] eqn:T; [|discriminate]. destruct (filename t) as [file|] eqn:Fn; [|discriminate].
    destruct (get str_eqb (norm P file) (bps P)) as [lines|] eqn:G; [|discriminate]. destruct (get N.eqb n lines) as [h|] eqn:Gl; [|discriminate].
    intros H. exists n, t, file, lines, h. split; [destruct (ev e); auto; discriminate|]. auto 7.
  - intros B. pose proof B as (line & t & file & lines & h & K & D & T & F & G & Gl & H). destruct (break_draws P e B) as (_ & _ & _ & Hb).
    rewrite (has_line P _ Hb). unfold get_breakpoint. apply (draws_line e line Pp) in D. destruct D as [R L]. rewrite K, R, L. cbn [is_line andb].
    unfold file_breaks, template_file. rewrite T, F, G, Gl. exact H.
Qed.
Lemma trace_break {V} (P : setup V) e d :
  proper e -> dead d = false -> left_out P e d = false -> skipped P e d = false ->
  (at_python_break e -> trace P e d = (suspended false (leaving e d), Some (InCode (fr e)))) /\
  (~ at_python_break e -> at_template_break P e -> trace P e d = (suspended true (leaving e d), Some (InTemplate (template_frame (world P) (fr e))))) /\
  (~ at_python_break e -> ~ at_template_break P e ->
     trace P e d = match steps P e (step d) (at_frame d) (leaving e d) with None => (with_dead (leaving e d), None) | Some r => finish P e r end).
Proof.
  intros Pp D L S. unfold trace. rewrite D, L, S. cbn [orb]. pose proof (break_spec P e Pp) as B.
  split; [|split].
  - intros H. apply line_break in H. now rewrite H.
  - intros N H. apply line_break_false in N. rewrite N. apply B in H. now rewrite H.
  - intros N H. apply line_break_false in N. rewrite N. rewrite <- B in H. apply not_true_iff_false in H. now rewrite H.
Qed.
Lemma trace_out {V} (P : setup V) e d : left_out P e d = true -> trace P e d = (d, None).
Proof. intros H. unfold trace. now rewrite H, orb_true_r. Qed.
Lemma trace_skipped {V} (P : setup V) e d : dead d = false -> skipped P e d = true -> left_out P e d = false -> trace P e d = (leaving e d, None).
Proof. intros D S L. unfold trace. now rewrite D, L, S. Qed.
Lemma seen_skip {V} (P : setup V) e : proper e -> at_python_break e \/ has_breaks P (fr e) ->
  (if has_line_breaks P then can_skip P (fr e) else true) && negb (pybreaks (fr e)) = false.
Proof.
  intros (_ & Pb) [[_ B]|H]; [rewrite (Pb B); apply andb_false_r|]. now rewrite (has_line P _ H), (proj2 (skip_spec P _) H).
Qed.
(** A frame which is looked at although nothing is asked of it *)
Lemma skip_false {V} (P : setup V) f :
  (if has_line_breaks P then can_skip P f else true) && negb (pybreaks f) = false <-> has_breaks P f \/ pybreaks f = true.
Proof.
  rewrite andb_false_iff, negb_false_iff. split.
  - intros [H|H]; auto. left. destruct (has_line_breaks P); [|discriminate]. now apply skip_spec.
  - intros [H|H]; auto. left. rewrite (has_line P _ H). now apply skip_spec.
Qed.
Lemma jinja_suspended m d : jinja (suspended m d) = m.
Proof. unfold suspended. now destruct (step d). Qed.
Lemma dead_suspended m d : dead (suspended m d) = dead d.
Proof. unfold suspended. now destruct (step d). Qed.
Lemma inside_suspended m d : inside (suspended m d) = inside d.
Proof. unfold suspended. now destruct (step d). Qed.
Lemma from_suspended m d : call_from (suspended m d) = call_from d.
Proof. unfold suspended. now destruct (step d). Qed.
(** What is shown at a stop: the line with the Python breakpoint, or the line of the template *)
Definition stopped {V} (P : setup V) (e : event V) (p : place V) (d : dbg) : Prop :=
  (at_python_break e /\ p = InCode (fr e) /\ jinja d = false) \/ (exists line, shows P e line p /\ jinja d = true).
(** What else a stop leaves as it was *)
Definition keeps (d d' : dbg) : Prop := dead d' = dead d /\ inside d' = inside d /\ call_from d' = call_from d.
Lemma keeps_suspended m d : keeps d (suspended m d).
Proof. split; [apply dead_suspended|]. split; [apply inside_suspended|apply from_suspended]. Qed.

(** * Up to the next stop *)
Lemma run_first {V} (P : setup V) (Q : event V -> Prop) (good : event V -> place V -> dbg -> Prop) d evs :
  (forall e, In e evs -> ~ Q e -> trace P e d = (d, None)) ->
  (forall e, In e evs -> Q e -> exists p d', trace P e d = (d', Some p) /\ good e p d') ->
  (forall e post, first Q evs e post -> exists p d', run P evs d = (d', Some (p, e, post)) /\ good e p d') /\
  (Forall (fun e => ~ Q e) evs -> run P evs d = (d, None)).
Proof.
  intros A B. split.
  - intros e post (pre & -> & F & HQ). induction pre as [|x pre IH]; cbn [app run] in *.
    + destruct (B e (or_introl eq_refl) HQ) as (p & d' & T & G). rewrite T. eauto.
    + apply Forall_cons_iff in F. destruct F as [F1 F2]. rewrite (A x (or_introl eq_refl) F1). apply IH; auto.
      * intros y I. apply B. now right.
      * intros y I. apply A. now right.
  - intros F. induction evs as [|x evs IH]; auto. apply Forall_cons_iff in F. destruct F as [F1 F2]. cbn [run].
    rewrite (A x (or_introl eq_refl) F1). apply IH; auto; intros y I; [apply A|apply B]; now right.
Qed.
Lemma run_past {V} (P : setup V) pre post d : (forall e, In e pre -> trace P e d = (d, None)) -> run P (pre ++ post) d = run P post d.
Proof.
  induction pre as [|x pre IH]; intros H; auto. cbn [app run]. rewrite (H x (or_introl eq_refl)). apply IH. intros e I. apply H. now right.
Qed.

Definition run_stop {V} (P : setup V) (e : event V) : Prop := python_stop P e \/ at_template_break P e.
Lemma run_stop_visible {V} (P : setup V) e : run_stop P e -> ~ hidden P (fr e) /\ ~ passed_over e /\ (at_python_break e \/ has_breaks P (fr e)).
Proof.
  intros [[H N]|H].
  - split; auto. split; auto. apply line_passed, H.
  - destruct (break_draws P e H) as (line & _ & K & B). split; [now apply has_visible|]. split; auto. now apply line_passed.
Qed.
(** The breakpoints are seen to whatever the step *)
Lemma trace_run_stop {V} (P : setup V) e d : proper e -> dead d = false -> left_out P e d = false -> skipped P e d = false -> run_stop P e ->
  exists p d', trace P e d = (d', Some p) /\ stopped P e p d' /\ keeps (leaving e d) d'.
Proof.
  intros Pp D L S H. destruct (trace_break P e d Pp D L S) as (T1 & T2 & _).
  destruct (is_line (ev e) && atbreak e) eqn:LB.
  - apply line_break in LB. rewrite (T1 LB). do 2 eexists. split; [reflexivity|]. split; [left; rewrite jinja_suspended; auto|apply keeps_suspended].
  - apply line_break_false in LB. destruct H as [[H _]|H]; [contradiction|]. rewrite (T2 LB H). do 2 eexists. split; [reflexivity|].
    split; [|apply keeps_suspended]. right. destruct (break_draws P e H) as (line & Dr & _). exists line. rewrite jinja_suspended. split; auto.
    now apply frame_shows.
Qed.
(** C64: a running program stops exactly at the Python breakpoints and at the code of the lines of templates with a breakpoint whose
    condition holds *)
Theorem jinja_breakpoint {V} (P : setup V) evs d :
  Forall proper evs -> step d = Run -> dead d = false ->
  (forall e post, first (run_stop P) evs e post -> exists p d', run P evs d = (d', Some (p, e, post)) /\ stopped P e p d' /\ keeps d d') /\
  (Forall (fun e => ~ run_stop P e) evs -> run P evs d = (d, None)).
Proof.
  intros Fp Hs Hd. rewrite Forall_forall in Fp.
  assert (Le : forall e : event V, leaving e d = d)
    by (intros e; unfold leaving; rewrite Hs; now destruct (is_return (ev e) && same_frame (at_frame d) (fr e))).
  apply (run_first P (run_stop P) (fun e p d' => stopped P e p d' /\ keeps d d')).
  - intros e I N. specialize (Fp e I).
    destruct (left_out P e d) eqn:L; [now apply trace_out|].
    assert (Hid : ~ hidden P (fr e)) by (intros H; rewrite (proj2 (left_out_far P e d (or_introl Hs)) (or_introl H)) in L; discriminate).
    destruct (skipped P e d) eqn:S; [rewrite trace_skipped; auto; now rewrite Le|].
    destruct (trace_break P e d Fp Hd L S) as (_ & _ & T). rewrite T.
    + rewrite Hs, Le. reflexivity.
    + intros B. apply N. left. now split.
    + intros B. apply N. now right.
  - intros e I H. specialize (Fp e I). destruct (run_stop_visible P e H) as (V0 & V1 & V2).
    assert (L : left_out P e d = false) by (apply not_true_iff_false; rewrite (left_out_far P e d (or_introl Hs)); tauto).
    assert (S : skipped P e d = false) by (unfold skipped; rewrite Hs; cbn [andb]; now apply seen_skip).
    destruct (trace_run_stop P e d Fp Hd L S H) as (p & d' & T & St & K). rewrite Le in K. eauto.
Qed.
Print Assumptions jinja_breakpoint.

(** * Step over *)
(** A line of the template reached by the frame [g]; the template has breakpoints *)
Definition next_line {V} (P : setup V) (g : N) (e : event V) (line : N) : Prop :=
  ev e = ELine /\ fid (fr e) = g /\ draws (fr e) line /\ has_breaks P (fr e).
Definition over_stop {V} (P : setup V) (g : N) (e : event V) : Prop := run_stop P e \/ exists line, next_line P g e line.
(** The frame [g] ends *)
Definition ends {V} (P : setup V) (g : N) (e : event V) : Prop :=
  ev e = EReturn /\ fid (fr e) = g /\ ~ passed_over e /\ ~ hidden P (fr e) /\ (has_breaks P (fr e) \/ pybreaks (fr e) = true).
Lemma steps_over {V} (e : event V) d g : jinja d = true -> inside d = Some g -> ~ (ev e = EReturn /\ fid (fr e) = g) ->
  cmd_step_over e d (same_frame (at_frame d) (fr e) && is_line (ev e)) =
  Some (d, false, is_line (ev e) && is_render_call (fr e) && (g =? fid (fr e))%N).
Proof.
  intros Hj Hi N. unfold cmd_step_over. rewrite Hj, Hi. destruct (ev e); auto.
  destruct (N.eqb_spec g (fid (fr e))) as [E|_]; auto. exfalso. auto.
Qed.
Lemma finish_line {V} (P : setup V) e d g line : proper e -> next_line P g e line ->
  finish P e (d, false, is_line (ev e) && is_render_call (fr e) && (g =? fid (fr e))%N) =
    (suspended true d, Some (InTemplate (template_frame (world P) (fr e)))).
Proof.
  intros Pp (K & G & D & _). apply (draws_line e line Pp) in D. destruct D as [R L]. rewrite K, R, G, N.eqb_refl. cbn [is_line andb].
  unfold finish. now rewrite L.
Qed.
Lemma finish_none {V} (P : setup V) e d g : proper e -> (forall line, ~ (ev e = ELine /\ fid (fr e) = g /\ draws (fr e) line)) ->
  finish P e (d, false, is_line (ev e) && is_render_call (fr e) && (g =? fid (fr e))%N) = (d, None).
Proof.
  intros Pp N. unfold finish. destruct (is_line (ev e) && is_render_call (fr e) && (g =? fid (fr e))%N) eqn:E; auto.
  rewrite !andb_true_iff in E. destruct E as [[K R] G]. apply N.eqb_eq in G. destruct (template_line (fr e)) as [line|] eqn:L; auto.
  exfalso. apply (N line). split; [destruct (ev e); auto; discriminate|]. split; auto. now apply draws_line.
Qed.
(** The template of a frame is the same throughout *)
Definition same_template {V} (P : setup V) (g : N) (evs : list (event V)) : Prop := forall e, In e evs -> fid (fr e) = g -> has_breaks P (fr e).
Lemma trace_over {V} (P : setup V) e d g : proper e -> jinja d = true -> step d = Over -> at_frame d = Template -> dead d = false -> inside d = Some g ->
  (fid (fr e) = g -> has_breaks P (fr e)) ->
  (~ over_stop P g e -> ~ ends P g e -> trace P e d = (d, None)) /\
  (over_stop P g e -> exists p d', trace P e d = (d', Some p) /\ (stopped P e p d' /\ keeps d d')).
Proof.
  intros Pp Hj Hs Ha Hd Hi Sm.
  assert (Le : leaving e d = d) by (unfold leaving; rewrite Ha; cbn [same_frame]; now rewrite andb_false_r).
  assert (Sk : skipped P e d = (if has_line_breaks P then can_skip P (fr e) else true) && negb (pybreaks (fr e))) by (unfold skipped; now rewrite Hs, Ha).
  split.
  - intros N NE. destruct (left_out P e d) eqn:L; [now apply trace_out|].
    destruct (skipped P e d) eqn:S; [rewrite trace_skipped; auto; now rewrite Le|].
    assert (LO : ~ (hidden P (fr e) \/ passed_over e)) by (rewrite <- (left_out_far P e d (or_intror Hs)); congruence).
    destruct (trace_break P e d Pp Hd L S) as (_ & _ & T). rewrite T.
    + rewrite Le, Hs. unfold steps. rewrite (steps_over e d g Hj Hi).
      * apply finish_none; auto. intros line (K & G & D). apply N. right. exists line. split; auto.
      * intros [K G]. apply NE. split; auto. split; auto. split; [tauto|]. split; [tauto|]. symmetry in Sk. now apply skip_false in Sk.
    + intros B. apply N. left. left. split; auto.
    + intros B. apply N. left. now right.
  - intros H.
    assert (Vi : ~ hidden P (fr e) /\ ~ passed_over e /\ (at_python_break e \/ has_breaks P (fr e))).
    { destruct H as [H|(line & K & G & D & B)]; [now apply run_stop_visible|]. split; [now apply has_visible|]. split; auto. now apply line_passed. }
    destruct Vi as (V0 & V1 & V2).
    assert (L : left_out P e d = false) by (apply not_true_iff_false; rewrite (left_out_far P e d (or_intror Hs)); tauto).
    assert (S : skipped P e d = false) by (rewrite Sk; now apply seen_skip).
    destruct (trace_break P e d Pp Hd L S) as (T1 & T2 & T3).
    destruct H as [H|(line & Hl)].
    { destruct (trace_run_stop P e d Pp Hd L S H) as (p & d' & T & St & K). rewrite Le in K. eauto. }
    destruct (is_line (ev e) && atbreak e) eqn:LB.
    { apply line_break in LB. rewrite (T1 LB), Le. do 2 eexists. split; [reflexivity|]. split; [left; now rewrite jinja_suspended|apply keeps_suspended]. }
    apply line_break_false in LB.
    assert (Go : trace P e d = (suspended true d, Some (InTemplate (template_frame (world P) (fr e))))).
    { pose proof (break_spec P e Pp) as BS.
      destruct (if has_line_breaks P then match get_breakpoint P e with Some h => h (tlocals (template_frame (world P) (fr e))) | None => false end else false).
      - rewrite (T2 LB (proj1 BS eq_refl)). now rewrite Le.
      - rewrite T3; auto; [|intros B; apply BS in B; discriminate]. rewrite Le, Hs. unfold steps. rewrite (steps_over e d g Hj Hi).
        + now apply (finish_line P e d g line).
        + destruct Hl as (K & _). intros [X _]. congruence. }
    rewrite Go. do 2 eexists. split; [reflexivity|]. split; [|apply keeps_suspended]. right. exists line. rewrite jinja_suspended. split; auto.
    apply frame_shows; auto. apply Hl.
Qed.
(** C64: step over, from the second one on, stops at the next line of the template which the same frame reaches, or at a breakpoint before;
    so it does until the frame ends *)
Theorem jinja_over {V} (P : setup V) evs d g :
  Forall proper evs -> jinja d = true -> step d = Over -> at_frame d = Template -> dead d = false -> inside d = Some g ->
  same_template P g evs -> Forall (fun e => ~ ends P g e) evs ->
  (forall e post, first (over_stop P g) evs e post ->
     exists p d', run P evs d = (d', Some (p, e, post)) /\ (stopped P e p d' /\ keeps d d')) /\
  (Forall (fun e => ~ over_stop P g e) evs -> run P evs d = (d, None)).
Proof.
  intros Fp Hj Hs Ha Hd Hi Sm Fe. rewrite Forall_forall in Fp, Fe.
  apply (run_first P (over_stop P g) (fun e p d' => stopped P e p d' /\ keeps d d')); intros e I;
    destruct (trace_over P e d g (Fp e I) Hj Hs Ha Hd Hi (Sm e I)) as [A B]; auto.
Qed.
Print Assumptions jinja_over.

(** What the debugger takes for code of a template *)
Definition taken {V} (f : frame V) : Prop := (exists t, tpl f = Some t) /\ generated_name (co_name f) \/ exists b, co_name f = lit "block_" ++ b.
Lemma find_first {V} (l : list (frame V)) :
  (forall f rest, first taken l f rest -> find_render l = Some (fid f)) /\ (Forall (fun f => ~ taken f) l -> find_render l = None).
Proof.
  split.
  - intros f rest (pre & -> & F & T). apply render_spec in T. induction pre as [|x pre IH]; cbn [app find_render]; [now rewrite T|].
    apply Forall_cons_iff in F. destruct F as [F1 F2]. destruct (is_render_call x) eqn:R; auto. apply render_spec in R. contradiction.
  - induction l as [|x l IH]; intros F; auto. apply Forall_cons_iff in F. destruct F as [F1 F2]. cbn [find_render].
    destruct (is_render_call x) eqn:R; auto. apply render_spec in R. contradiction.
Qed.
(** C64: when the frame ends, stepping over goes on in the frame of a template which it was called from, be it through other code *)
Theorem jinja_over_out {V} (P : setup V) pre r post d g :
  Forall proper (pre ++ r :: post) -> jinja d = true -> step d = Over -> at_frame d = Template -> dead d = false -> inside d = Some g ->
  same_template P g pre -> Forall (fun e => ~ over_stop P g e /\ ~ ends P g e) pre ->
  ends P g r -> (exists b, hd_error (stack r) = Some b /\ has_event b = false) ->
  (forall f rest, first taken (stack r) f rest -> run P (pre ++ r :: post) d = run P post (with_inside (Some (fid f)) d)) /\
  (Forall (fun f => ~ taken f) (stack r) -> run P (pre ++ r :: post) d = run P post (with_inside None d)).
Proof.
  intros Fp Hj Hs Ha Hd Hi Sm F E (b & Hb & He). apply Forall_app in Fp. destruct Fp as [Fp Fr]. apply Forall_cons_iff in Fr. destruct Fr as [Pr _].
  rewrite Forall_forall in Fp, F.
  assert (R : run P (pre ++ r :: post) d = run P post (with_inside (find_render (stack r)) d)).
  { rewrite run_past.
    2:{ intros e I. destruct (F e I) as [F1 F2]. destruct (trace_over P e d g (Fp e I) Hj Hs Ha Hd Hi (Sm e I)) as [A _]; auto. }
    cbn [run]. destruct E as (K & G & NP & Vi & Sn).
    assert (L : left_out P r d = false) by (apply not_true_iff_false; rewrite (left_out_far P r d (or_intror Hs)); tauto).
    assert (S : skipped P r d = false) by (unfold skipped; rewrite Hs, Ha; cbn [same_frame negb andb]; now apply skip_false).
    assert (Le : leaving r d = d) by (unfold leaving; rewrite Ha; cbn [same_frame]; now rewrite andb_false_r).
    destruct (trace_break P r d Pr Hd L S) as (_ & _ & T).
    rewrite T; [|intros [X _]; congruence|intros B; destruct (break_draws P r B) as (_ & _ & X & _); congruence].
    rewrite Le, Hs. unfold steps, cmd_step_over. rewrite Hj, Hi, K, G, N.eqb_refl.
    destruct (stack r) as [|b' st]; [discriminate|]. injection Hb as ->. rewrite He. reflexivity. }
  rewrite R. destruct (find_first (stack r)) as [A B]. split; [intros f rest H; now rewrite (A f rest H)|intros H; now rewrite (B H)].
Qed.
Print Assumptions jinja_over_out.

(** Events of templates which the debugger looks at *)
Definition looked_at {V} (P : setup V) (e : event V) : Prop := ~ hidden P (fr e) /\ ~ passed_over e /\ (has_breaks P (fr e) \/ pybreaks (fr e) = true).
(** C64: the first step over in a thread does not stop at the next line of the template: it only takes note of the frame which reaches it,
    be it that of another template, and goes on from there *)
Theorem jinja_over_first {V} (P : setup V) pre e post d :
  Forall proper (pre ++ e :: post) -> jinja d = true -> step d = Over -> at_frame d = Template -> dead d = false -> inside d = None ->
  Forall (fun x => ~ run_stop P x /\ ~ (looked_at P x /\ taken (fr x))) pre ->
  ev e = ELine -> taken (fr e) -> has_breaks P (fr e) -> ~ run_stop P e ->
  run P (pre ++ e :: post) d = run P post (with_inside (Some (fid (fr e))) d).
Proof.
  intros Fp Hj Hs Ha Hd Hi F K Tk Hb N. apply Forall_app in Fp. destruct Fp as [Fp Fr]. apply Forall_cons_iff in Fr. destruct Fr as [Pe _].
  rewrite Forall_forall in Fp, F.
  assert (Le : forall x : event V, leaving x d = d) by (intros x; unfold leaving; rewrite Ha; cbn [same_frame]; now rewrite andb_false_r).
  assert (Sk : forall x, skipped P x d = (if has_line_breaks P then can_skip P (fr x) else true) && negb (pybreaks (fr x)))
    by (intros x; unfold skipped; now rewrite Hs, Ha).
  assert (G : forall x, proper x -> ~ run_stop P x -> left_out P x d = false -> skipped P x d = false ->
    trace P x d = match cmd_step_over x d false with None => (with_dead d, None) | Some r => finish P x r end).
  { intros x Px Nx L S. assert (LO : ~ (hidden P (fr x) \/ passed_over x)) by (rewrite <- (left_out_far P x d (or_intror Hs)); congruence).
    destruct (trace_break P x d Px Hd L S) as (_ & _ & T). rewrite T, Le, Hs.
    - unfold steps. now rewrite Ha.
    - intros B. apply Nx. left. split; auto.
    - intros B. apply Nx. now right. }
  rewrite run_past.
  - cbn [run].
    assert (L : left_out P e d = false).
    { apply not_true_iff_false. rewrite (left_out_far P e d (or_intror Hs)). intros [H|H]; [now apply has_visible in H|now apply line_passed in H]. }
    rewrite G; auto; [|rewrite Sk; apply skip_false; auto].
    unfold cmd_step_over. rewrite Hj, Hi. apply render_spec in Tk. rewrite Tk, K. reflexivity.
  - intros x I. destruct (F x I) as [F1 F2]. destruct (left_out P x d) eqn:L; [now apply trace_out|].
    destruct (skipped P x d) eqn:S; [rewrite trace_skipped; auto; now rewrite Le|].
    rewrite G; auto. unfold cmd_step_over. rewrite Hj, Hi. destruct (is_render_call (fr x)) eqn:R; auto.
    exfalso. apply F2. split; [|now apply render_spec].
    assert (LO : ~ (hidden P (fr x) \/ passed_over x)) by (rewrite <- (left_out_far P x d (or_intror Hs)); congruence).
    split; [tauto|]. split; [tauto|]. rewrite Sk in S. now apply skip_false in S.
Qed.
Print Assumptions jinja_over_first.

(** The lines of the template which the frame reaches, in order *)
Inductive lines_of {V} (P : setup V) (g : N) : list (event V) -> list (event V) -> Prop :=
  | LinesNil : lines_of P g [] []
  | LinesSkip e r l : (forall line, ~ next_line P g e line) -> lines_of P g r l -> lines_of P g (e :: r) l
  | LinesTake e r l line : next_line P g e line -> lines_of P g r l -> lines_of P g (e :: r) (e :: l).
Lemma lines_first {V} (P : setup V) g evs l :
  Forall (fun e => ~ at_python_break e /\ (at_template_break P e -> exists line, next_line P g e line)) evs -> lines_of P g evs l ->
  match l with
  | [] => Forall (fun e => ~ over_stop P g e) evs
  | e :: l' => exists post, first (over_stop P g) evs e post /\ lines_of P g post l' /\ exists pre, evs = pre ++ e :: post
  end.
Proof.
  intros F N. induction N as [|e r l H N IH|e r l line H N IH].
  - constructor.
  - apply Forall_cons_iff in F. destruct F as [[F1 F1'] F2]. specialize (IH F2).
    assert (NO : ~ over_stop P g e).
    { intros [[[X _]|X]|[line X]]; [now apply F1 in X| |now apply H in X]. destruct (F1' X) as [line Y]. now apply H in Y. }
    destruct l as [|e' l]; [now constructor|]. destruct IH as (post & (pre & E & Fp & Q) & N' & _). exists post. split; [|split; auto].
    + exists (e :: pre). split; [now rewrite E|]. split; auto.
    + exists (e :: pre). now rewrite E.
  - exists r. split; [|split; auto].
    + exists []. split; auto. split; [constructor|]. right. eauto.
    + now exists [].
Qed.
(** C64: stepping over again and again goes through the lines of the template which the frame reaches, leaving none out *)
Theorem jinja_walk {V} (P : setup V) g n evs l d :
  Forall proper evs -> Forall (fun e => ~ at_python_break e /\ (at_template_break P e -> exists line, next_line P g e line)) evs ->
  lines_of P g evs l -> same_template P g evs -> Forall (fun e => ~ ends P g e) evs ->
  jinja d = true -> step d = Over -> at_frame d = Template -> dead d = false -> inside d = Some g ->
  Forall2 (fun e p => exists line, shows P e line p) (firstn (S n) l) (session P (repeat Over n) evs d).
Proof.
  revert evs l d. induction n as [|n IH]; intros evs l d Fp Fb N Sm Fe Hj Hs Ha Hd Hi;
    destruct (jinja_over P evs d g Fp Hj Hs Ha Hd Hi Sm Fe) as [A B]; pose proof (lines_first P g evs l Fb N) as F; destruct l as [|e l].
  - cbn [session repeat firstn]. rewrite (B F). constructor.
  - destruct F as (post & Fi & N' & pre & E). destruct (A e post Fi) as (p & d' & R & [St _]). cbn [session repeat firstn]. rewrite R.
    constructor; [|constructor]. destruct St as [[St _]|(line & Sh & _)]; eauto.
    rewrite Forall_forall in Fb. exfalso. apply (Fb e); auto. rewrite E. apply in_elt.
  - cbn [session repeat firstn]. rewrite (B F). constructor.
  - destruct F as (post & Fi & N' & pre & E). destruct (A e post Fi) as (p & d' & R & [St (Kd & Ki & _)]). cbn [repeat]. cbn [session]. rewrite R.
    destruct St as [[St _]|(line & Sh & Hj')].
    { rewrite Forall_forall in Fb. exfalso. apply (Fb e); auto. rewrite E. apply in_elt. }
    change (firstn (S (S n)) (e :: l)) with (e :: firstn (S n) l). constructor; eauto.
    pose proof Sh as (t & _ & _ & ->).
    assert (Sm' : same_template P g post) by (intros x I; apply Sm; rewrite E, in_app_iff; right; now right).
    rewrite E, Forall_app in Fp, Fb, Fe. destruct Fp as [_ Fp], Fb as [_ Fb], Fe as [_ Fe]. apply Forall_cons_iff in Fp, Fb, Fe.
    apply (IH post l); auto; try apply Fp; try apply Fb; try apply Fe; unfold resume; cbn [shown_frame]; cbn; congruence.
Qed.
Print Assumptions jinja_walk.

(** * Step into *)
Definition seen {V} (P : setup V) (e : event V) : Prop := ~ both_hidden P e /\ ~ passed_over e.
Definition into_stop {V} (P : setup V) (e : event V) : Prop :=
  (at_python_break e /\ ~ both_hidden P e) \/ (exists line, (ev e = ELine \/ ev e = ECall) /\ draws (fr e) line /\ seen P e).
(** A template calls a function *)
Definition calls {V} (P : setup V) (e : event V) : Prop :=
  ev e = ECall /\ seen P e /\ exists b, hd_error (stack e) = Some b /\ context_call b = true.
Definition internal {V} (f : frame V) : Prop :=
  exists c, self_class f = Some c /\ In c [lit "LoopContext"; lit "TemplateReference"; lit "Macro"; lit "BlockReference"].
Lemma internal_spec {V} (f : frame V) : is_internal_function f = true <-> internal f.
Proof.
  unfold is_internal_function, internal. destruct (self_class f) as [c|].
  - rewrite existsb_exists. split.
    + intros (x & I & E). apply str_eqb_eq in E. subst x. eauto.
    + intros (x & E & I). injection E as <-. exists c. split; auto. apply str_eqb_refl.
  - split; [discriminate|]. intros (c & E & _). discriminate.
Qed.
Lemma break_into {V} (P : setup V) e : at_template_break P e -> into_stop P e.
Proof.
  intros H. destruct (break_draws P e H) as (line & D & K & B). right. exists line. split; auto. split; auto. split; [|now apply line_passed].
  intros [X _]. now apply has_visible in X.
Qed.
Lemma into_seen {V} (P : setup V) e : into_stop P e -> seen P e.
Proof. intros [[B H]|(line & _ & _ & H)]; auto. split; auto. apply line_passed, B. Qed.
Lemma trace_into {V} (P : setup V) e d : proper e -> stack e <> [] -> jinja d = true -> step d = Into -> at_frame d = NoFrame -> dead d = false ->
  call_from d = false ->
  (~ into_stop P e -> trace P e d = (d, None) \/ calls P e /\ trace P e d = (with_from true d, None)) /\
  (~ into_stop P e -> calls P e -> trace P e d = (with_from true d, None)) /\
  (into_stop P e -> exists p d', trace P e d = (d', Some p) /\ (stopped P e p d' /\ dead d' = false /\ inside d' = inside d)).
Proof.
  intros Pp Ne Hj Hs Ha Hd Hc.
  assert (LO := left_out_near P e d (or_introl Hs)).
  assert (Le : leaving e d = d) by (unfold leaving; rewrite Ha; cbn [same_frame]; now rewrite andb_false_r).
  assert (Sk : skipped P e d = false) by (unfold skipped; now rewrite Hs).
  destruct (stack e) as [|b st] eqn:Es; [congruence|]. clear Ne.
  assert (St : steps P e (step d) (at_frame d) d =
    Some (if is_call (ev e) && context_call b then with_from true d else d, false, (is_call (ev e) || is_line (ev e)) && is_render_call (fr e))).
  { rewrite Hs. unfold steps, cmd_step_into, called_by_template. rewrite Hj, Hc, Es. cbn [andb]. destruct (ev e); cbn [is_call is_line andb orb]; auto.
    - rewrite Hj. reflexivity.
    - destruct (context_call b); auto. destruct d; cbn in *; subst; reflexivity. }
  assert (Nofin : ~ into_stop P e -> seen P e -> forall d', finish P e (d', false, (is_call (ev e) || is_line (ev e)) && is_render_call (fr e)) = (d', None)).
  { intros N Se d'. unfold finish. destruct ((is_call (ev e) || is_line (ev e)) && is_render_call (fr e)) eqn:X; auto.
    apply andb_true_iff in X. destruct X as [X R]. destruct (template_line (fr e)) as [line|] eqn:L; auto. exfalso. apply N. right. exists line.
    split; [destruct (ev e); auto; discriminate|]. split; auto. now apply draws_line. }
  assert (Main : ~ into_stop P e -> left_out P e d = false -> trace P e d = (if is_call (ev e) && context_call b then with_from true d else d, None)).
  { intros N L. assert (Se : seen P e) by (unfold seen; split; intros H; assert (left_out P e d = true) by (apply LO; auto); congruence).
    destruct (trace_break P e d Pp Hd L Sk) as (_ & _ & T). rewrite T, Le, ?St.
    - now apply Nofin.
    - intros B. apply N. left. split; auto. apply Se.
    - intros B. apply N. now apply break_into. }
  split; [|split].
  - intros N. destruct (left_out P e d) eqn:L; [left; now apply trace_out|].
    rewrite (Main N eq_refl). destruct (is_call (ev e) && context_call b) eqn:X; auto. right. split; auto.
    apply andb_true_iff in X. destruct X as [X1 X2]. split; [destruct (ev e); auto; discriminate|].
    split; [unfold seen; split; intros H; assert (X : false = true) by (apply LO; auto); discriminate|].
    exists b. now rewrite Es.
  - intros N (K & [Se1 Se2] & b' & Hb & Cb). rewrite Es in Hb. injection Hb as <-.
    assert (L : left_out P e d = false) by (apply not_true_iff_false; rewrite LO; tauto).
    rewrite (Main N L), K, Cb. reflexivity.
  - intros H. destruct (into_seen P e H) as [Se1 Se2].
    assert (L : left_out P e d = false) by (apply not_true_iff_false; rewrite LO; tauto).
    destruct (trace_break P e d Pp Hd L Sk) as (T1 & T2 & T3). rewrite Le in *.
    destruct (is_line (ev e) && atbreak e) eqn:LB.
    { apply line_break in LB. rewrite (T1 LB). do 2 eexists. split; [reflexivity|]. rewrite dead_suspended, inside_suspended. split; auto. left. now rewrite jinja_suspended. }
    apply line_break_false in LB. destruct H as [[H _]|(line & K & D & _)]; [contradiction|].
    assert (Go : exists d', trace P e d = (suspended true d', Some (InTemplate (template_frame (world P) (fr e)))) /\ dead d' = dead d /\ inside d' = inside d).
    { pose proof (break_spec P e Pp) as BS.
      destruct (if has_line_breaks P then match get_breakpoint P e with Some h => h (tlocals (template_frame (world P) (fr e))) | None => false end else false).
      - exists d. rewrite (T2 LB (proj1 BS eq_refl)). auto.
      - exists (if is_call (ev e) && context_call b then with_from true d else d).
        rewrite T3; auto; [|intros B; apply BS in B; discriminate]. rewrite St.
        pose proof D as D0. apply (draws_line e line Pp) in D0. destruct D0 as [R Lt]. rewrite R. unfold finish. rewrite Lt.
        assert ((is_call (ev e) || is_line (ev e)) = true) as -> by (destruct K as [-> | ->]; auto). cbn [andb]. split; auto.
        destruct (is_call (ev e) && context_call b); auto. }
    destruct Go as (d' & T & Kd & Ki). rewrite T. do 2 eexists. split; [reflexivity|]. rewrite dead_suspended, inside_suspended, Kd, Ki. split; auto.
    right. exists line. rewrite jinja_suspended. split; auto. now apply frame_shows.
Qed.
(** C64: step into from a template stops at the next line of a template, whichever it is, or at a breakpoint before, unless a function of
    the program is called before *)
Theorem jinja_into {V} (P : setup V) pre e post d :
  Forall proper (pre ++ e :: post) -> Forall (fun x => stack x <> []) (pre ++ e :: post) ->
  jinja d = true -> step d = Into -> at_frame d = NoFrame -> dead d = false -> call_from d = false ->
  Forall (fun x => ~ into_stop P x /\ ~ calls P x) pre ->
  (into_stop P e -> exists p d', run P (pre ++ e :: post) d = (d', Some (p, e, post)) /\ (stopped P e p d' /\ dead d' = false /\ inside d' = inside d)) /\
  (~ into_stop P e -> ~ calls P e -> run P (pre ++ e :: post) d = run P post d).
Proof.
  intros Fp Fs Hj Hs Ha Hd Hc F. rewrite Forall_forall in Fp, Fs, F.
  assert (Pass : forall x, In x (pre ++ e :: post) -> ~ into_stop P x -> ~ calls P x -> trace P x d = (d, None)).
  { intros x I N C. destruct (trace_into P x d (Fp x I) (Fs x I) Hj Hs Ha Hd Hc) as (A & _ & _). destruct (A N) as [H|[H _]]; auto. contradiction. }
  rewrite run_past by (intros x I; destruct (F x I); apply Pass; auto; apply in_app_iff; auto).
  assert (I : In e (pre ++ e :: post)) by apply in_elt. cbn [run]. split.
  - intros H. destruct (trace_into P e d (Fp e I) (Fs e I) Hj Hs Ha Hd Hc) as (_ & _ & B). destruct (B H) as (p & d' & T & G). rewrite T. eauto.
  - intros N C. now rewrite (Pass e I N C).
Qed.
Print Assumptions jinja_into.

(** C64: a function which a template calls is stepped into: the thread stops at its first line *)
Theorem jinja_enter {V} (P : setup V) pre c l post d :
  Forall proper (pre ++ c :: l :: post) -> Forall (fun x => stack x <> []) (pre ++ c :: l :: post) ->
  jinja d = true -> step d = Into -> at_frame d = NoFrame -> dead d = false -> call_from d = false ->
  Forall (fun x => ~ into_stop P x /\ ~ calls P x) pre -> calls P c -> ~ into_stop P c ->
  ev l = ELine -> ~ both_hidden P l -> ~ taken (fr l) ->
  (~ internal (fr l) -> exists d', run P (pre ++ c :: l :: post) d = (d', Some (InCode (fr l), l, post)) /\ jinja d' = false /\ call_from d' = true) /\
  (internal (fr l) -> ~ at_python_break l -> run P (pre ++ c :: l :: post) d = run P post d).
Proof.
  intros Fp Fs Hj Hs Ha Hd Hc F C NC Kl Vl Tl. rewrite Forall_forall in Fp, Fs, F.
  assert (R : run P (pre ++ c :: l :: post) d = run P (l :: post) (with_from true d)).
  { rewrite run_past.
    - cbn [run]. assert (I : In c (pre ++ c :: l :: post)) by apply in_elt.
      destruct (trace_into P c d (Fp c I) (Fs c I) Hj Hs Ha Hd Hc) as (_ & B & _). now rewrite (B NC C).
    - intros x I. destruct (F x I) as [F1 F2]. assert (I' : In x (pre ++ c :: l :: post)) by (apply in_app_iff; auto).
      destruct (trace_into P x d (Fp x I') (Fs x I') Hj Hs Ha Hd Hc) as (A & _ & _). destruct (A F1) as [H|[H _]]; auto. contradiction. }
  rewrite R. cbn [run]. assert (Il : In l (pre ++ c :: l :: post)) by (apply in_app_iff; right; right; now left).
  set (d1 := with_from true d). assert (E1 : step d1 = Into) by auto. assert (E2 : at_frame d1 = NoFrame) by auto. assert (E3 : dead d1 = false) by auto.
  assert (E4 : jinja d1 = true) by auto. assert (E5 : call_from d1 = true) by auto.
  assert (L : left_out P l d1 = false).
  { apply not_true_iff_false. rewrite (left_out_near P l d1 (or_introl E1)). intros [H|H]; auto. now apply line_passed in H. }
  assert (Sk : skipped P l d1 = false) by (unfold skipped; now rewrite E1).
  assert (Le : leaving l d1 = d1) by (unfold leaving; rewrite Kl; reflexivity).
  assert (Rl : is_render_call (fr l) = false) by (apply not_true_iff_false; now rewrite render_spec).
  assert (NT : ~ at_template_break P l).
  { intros B. destruct (break_draws P l B) as (line & D & _). apply Tl. destruct D as (t & T & G & _). left. eauto. }
  destruct (trace_break P l d1 (Fp l Il) E3 L Sk) as (T1 & _ & T3). rewrite Le in *.
  split.
  - intros NI. assert (In0 : is_internal_function (fr l) = false) by (apply not_true_iff_false; now rewrite internal_spec).
    destruct (is_line (ev l) && atbreak l) eqn:LB.
    + apply line_break in LB. rewrite (T1 LB). eexists. split; [reflexivity|]. rewrite jinja_suspended, from_suspended. auto.
    + apply line_break_false in LB. rewrite (T3 LB NT), E1, E2. unfold steps, cmd_step_into. rewrite E4, E5, In0, Rl, Kl. cbn [is_call is_line andb orb negb].
      unfold finish. rewrite Kl. eexists. split; [reflexivity|]. rewrite jinja_suspended, from_suspended. auto.
  - intros In1 NB. apply internal_spec in In1. rewrite (T3 NB NT), E1, E2. unfold steps, cmd_step_into. rewrite E4, E5, In1, Rl, Kl. cbn [is_call is_line andb orb negb].
    unfold finish. f_equal. unfold d1, with_from. destruct d. cbn in *. now subst.
Qed.
Print Assumptions jinja_enter.

(** C64: a function called by a template is stepped through line by line, and when it returns to the template, stepping over goes on there
    as step into does *)
Theorem jinja_back {V} (P : setup V) d f pre e post :
  Forall proper (pre ++ e :: post) -> Forall (fun x => stack x <> []) (pre ++ e :: post) ->
  jinja d = false -> step d = Over -> at_frame d = Real f -> dead d = false ->
  Forall (fun x => fid (fr x) <> f /\ ~ run_stop P x /\ ~ (ev x = EReturn /\ exists b, hd_error (stack x) = Some b /\ context_call b = true)) pre ->
  fid (fr e) = f -> ~ hidden P (fr e) -> generator (fr e) = false -> ~ has_breaks P (fr e) ->
  (ev e = ELine -> exists d', run P (pre ++ e :: post) d = (d', Some (InCode (fr e), e, post)) /\ jinja d' = false) /\
  (ev e = EReturn -> (exists b, hd_error (stack e) = Some b /\ context_call b = true) ->
     exists d', run P (pre ++ e :: post) d = run P post d' /\ jinja d' = true /\ step d' = Into /\ at_frame d' = NoFrame /\ dead d' = false /\ call_from d' = false /\
       forall g rest, first taken (fr e :: stack e) g rest -> inside d' = Some (fid g)).
Proof.
  intros Fp Fs Hj Hs Ha Hd F Hf Hv Hg Hb. rewrite Forall_forall in Fp, Fs, F.
  assert (Hpre : run P (pre ++ e :: post) d = run P (e :: post) d).
  { apply run_past. intros x I. destruct (F x I) as (F1 & F2 & F3). assert (I' : In x (pre ++ e :: post)) by (apply in_app_iff; auto).
    assert (SF : same_frame (at_frame d) (fr x) = false) by (rewrite Ha; cbn [same_frame]; apply N.eqb_neq; congruence).
    assert (Le : leaving x d = d) by (unfold leaving; rewrite SF; now rewrite andb_false_r).
    destruct (left_out P x d) eqn:L; [now apply trace_out|].
    assert (LO : ~ (hidden P (fr x) \/ passed_over x)) by (rewrite <- (left_out_far P x d (or_intror Hs)); congruence).
    destruct (skipped P x d) eqn:S; [rewrite trace_skipped; auto; now rewrite Le|].
    destruct (trace_break P x d (Fp x I') Hd L S) as (_ & _ & T). rewrite T; [|intros B; apply F2; left; split; auto|intros B; apply F2; now right].
    rewrite Le, Hs. unfold steps, cmd_step_over, called_by_template. rewrite Hj, SF. cbn [andb].
    destruct (ev x) eqn:K; auto. pose proof (Fs x I') as Nx. destruct (stack x) as [|b st] eqn:Es; [congruence|].
    destruct (context_call b) eqn:Cb; auto. exfalso. apply F3. split; auto. exists b. auto. }
  rewrite Hpre. cbn [run]. assert (I : In e (pre ++ e :: post)) by apply in_elt.
  assert (L : left_out P e d = false).
  { apply not_true_iff_false. rewrite (left_out_far P e d (or_intror Hs)). intros [H|[H _]]; [auto|congruence]. }
  assert (SF : same_frame (at_frame d) (fr e) = true) by (rewrite Ha; cbn [same_frame]; apply N.eqb_eq; congruence).
  assert (S : skipped P e d = false) by (unfold skipped; now rewrite Hs, SF).
  assert (NT : ~ at_template_break P e) by (intros B; destruct (break_draws P e B) as (_ & _ & _ & X); auto).
  destruct (trace_break P e d (Fp e I) Hd L S) as (T1 & _ & T3).
  split.
  - intros K. assert (Le : leaving e d = d) by (unfold leaving; now rewrite K). rewrite Le in *.
    destruct (is_line (ev e) && atbreak e) eqn:LB.
    + apply line_break in LB. rewrite (T1 LB). eexists. split; [reflexivity|]. apply jinja_suspended.
    + apply line_break_false in LB. rewrite (T3 LB NT). rewrite Hs. unfold steps, cmd_step_over. rewrite Hj, K, SF. cbn [is_line andb].
      unfold finish. rewrite K. eexists. split; [reflexivity|]. apply jinja_suspended.
  - intros K (b & Hbk & Cb).
    assert (Le : leaving e d = with_step Into NoFrame d) by (unfold leaving; now rewrite K, SF, Hs).
    assert (NB : ~ at_python_break e) by (intros [X _]; congruence).
    rewrite (T3 NB NT), Le, Hs. unfold steps, cmd_step_over, called_by_template. cbn [jinja with_step]. rewrite Hj, K.
    destruct (stack e) as [|b' st]; [discriminate|]. injection Hbk as ->. rewrite Cb. unfold finish.
    eexists. split; [reflexivity|]. cbn [jinja step at_frame dead call_from inside with_step]. repeat (split; auto).
    intros g rest Fg. exact (proj1 (find_first _) g rest Fg).
Qed.
Print Assumptions jinja_back.
(** C64: so does stepping into, without a stop in the code of Jinja2 between them *)
Theorem jinja_back_into {V} (P : setup V) d e b st post :
  proper e -> jinja d = false -> step d = Into -> at_frame d = NoFrame -> dead d = false ->
  ev e = EReturn -> stack e = b :: st -> context_call b = true -> generator (fr e) = false -> ~ both_hidden P e -> ~ at_template_break P e ->
  exists d', run P (e :: post) d = run P post d' /\ jinja d' = true /\ step d' = Into /\ dead d' = false /\ call_from d' = false /\ inside d' = inside d.
Proof.
  intros Pp Hj Hs Ha Hd K Es Cb Hg Nh NT.
  assert (L : left_out P e d = false).
  { apply not_true_iff_false. rewrite (left_out_near P e d (or_introl Hs)). intros [H|[H _]]; [auto|congruence]. }
  assert (S : skipped P e d = false) by (unfold skipped; now rewrite Hs).
  destruct (trace_break P e d Pp Hd L S) as (_ & _ & T3).
  assert (NB : ~ at_python_break e) by (intros [X _]; congruence).
  assert (Le : leaving e d = d) by (unfold leaving; rewrite Hs; destruct (_ && _); reflexivity).
  cbn [run]. rewrite (T3 NB NT), Le, Hs. unfold steps, cmd_step_into, called_by_template. rewrite Hj, K, Es, Cb. cbv beta iota zeta. unfold finish.
  eexists. split; [reflexivity|]. cbn [jinja step dead call_from inside]. repeat (split; auto).
Qed.
Print Assumptions jinja_back_into.

(** C64: step return from a template stops only at breakpoints *)
Theorem jinja_return {V} (P : setup V) evs t e0 d :
  Forall proper evs -> has_breaks P (fr e0) -> jinja d = true -> dead d = false ->
  let Q e := (at_python_break e /\ ~ both_hidden P e) \/ at_template_break P e in
  (forall e post, first Q evs e post -> exists p d', run P evs (resume P Return (InTemplate t) e0 d) = (d', Some (p, e, post)) /\ stopped P e p d') /\
  (Forall (fun e => ~ Q e) evs -> snd (run P evs (resume P Return (InTemplate t) e0 d)) = None).
Proof.
  intros Fp B0 Hj Hd Q. rewrite Forall_forall in Fp.
  assert (R : resume P Return (InTemplate t) e0 d = with_step Return Template d).
  { unfold resume. cbn [shown_frame return_frame]. rewrite filters_hidden.
    assert (apply_files_filter P (fr e0) = false) as -> by (apply hidden_false, has_visible; auto). reflexivity. }
  rewrite R. set (d1 := with_step Return Template d).
  assert (A1 : at_frame d1 = Template) by reflexivity. assert (A2 : step d1 = Return) by reflexivity. assert (A3 : dead d1 = false) by auto.
  assert (H : (forall e post, first Q evs e post -> exists p d', run P evs d1 = (d', Some (p, e, post)) /\ stopped P e p d') /\
              (Forall (fun e => ~ Q e) evs -> run P evs d1 = (d1, None))).
  2:{ destruct H as [A B]. split; auto. intros F. now rewrite (B F). }
  assert (Le : forall e : event V, leaving e d1 = d1) by (intros e; unfold leaving; rewrite A1; cbn [same_frame]; now rewrite andb_false_r).
  assert (LO : forall e, left_out P e d1 = true <-> both_hidden P e \/ passed_over e) by (intros e; apply left_out_near; now right).
  apply (run_first P Q (stopped P)).
  - intros e I N. specialize (Fp e I). destruct (left_out P e d1) eqn:L; [now apply trace_out|].
    destruct (skipped P e d1) eqn:S; [rewrite trace_skipped; auto; now rewrite Le|].
    destruct (trace_break P e d1 Fp A3 L S) as (_ & _ & T). rewrite T.
    + rewrite Le, A2, A1. unfold steps. cbn [same_frame]. now rewrite andb_false_r.
    + intros B. apply N. left. split; auto. intros H. rewrite (proj2 (LO e) (or_introl H)) in L. discriminate.
    + intros B. apply N. now right.
  - intros e I H. specialize (Fp e I).
    assert (Vi : ~ both_hidden P e /\ ~ passed_over e /\ (at_python_break e \/ has_breaks P (fr e))).
    { destruct H as [[B N]|H]; [split; auto; split; auto; apply line_passed, B|]. destruct (break_draws P e H) as (_ & _ & K & B).
      split; [|split; auto; now apply line_passed]. intros [X _]. now apply has_visible in X. }
    destruct Vi as (V0 & V1 & V2).
    assert (L : left_out P e d1 = false) by (apply not_true_iff_false; rewrite LO; tauto).
    assert (S : skipped P e d1 = false) by (unfold skipped; rewrite A2, A1; cbn [same_frame negb andb]; now apply seen_skip).
    destruct (trace_break P e d1 Fp A3 L S) as (T1 & T2 & _). rewrite Le in *.
    destruct (is_line (ev e) && atbreak e) eqn:LB.
    + apply line_break in LB. rewrite (T1 LB). do 2 eexists. split; [reflexivity|]. left. now rewrite jinja_suspended.
    + apply line_break_false in LB. destruct H as [[H _]|H]; [contradiction|]. rewrite (T2 LB H). do 2 eexists. split; [reflexivity|].
      right. destruct (break_draws P e H) as (line & Dr & _). exists line. rewrite jinja_suspended. split; auto. now apply frame_shows.
Qed.
Print Assumptions jinja_return.

(** C64: the variables of a template cannot be changed, whatever the value and the method which would do it *)
Theorem jinja_set_variable {V E} (method : tframe V -> str -> V -> tframe V) (eval : E -> dict V -> option V) t name expr :
  change_variable method eval t name expr = (None, t).
Proof. unfold change_variable, change_variable_accepts_scope. now destruct (eval expr (tlocals t)). Qed.
Print Assumptions jinja_set_variable.
(** Not so: a value which can be computed is given to the variable *)
Theorem jinja_set_variable_refuted : exists (method : tframe N -> str -> N -> tframe N) (eval : N -> dict N -> option N) t name expr v,
  eval expr (tlocals t) = Some v /\ get str_eqb name (tlocals (method t name v)) = Some v /\
  get str_eqb name (tlocals (snd (change_variable method eval t name expr))) <> Some v.
Proof.
  exists (fun t name v => TFrame (tfile t) (tline t) (set str_eqb name v (tlocals t))), (fun x _ => Some x).
  exists (TFrame None None [(lit "x", 1%N)]), (lit "x"), 2%N, 2%N. split; [reflexivity|]. split; [reflexivity|discriminate].
Qed.
Print Assumptions jinja_set_variable_refuted.

(** * What does not hold *)
Definition numbers : values N := Values N (fun v => negb (v =? 0)%N) (fun v => (v =? 99)%N).
Definition t1 : template := Tpl (Some (lit "/t/a.html")) [(1, 10); (2, 11); (3, 12); (4, 13)]%N.
Definition t2 : template := Tpl (Some (lit "/t/b.html")) [(1, 10); (2, 11); (3, 12)]%N.
Definition P1 : setup N := Setup N (fun s => s) [(lit "/t/a.html", [(1, fun _ => true)])]%N false numbers.
(** The frame of the function which renders the template, at a line *)
Definition root (n : N) (t : template) (line : N) : frame N :=
  Frame n (lit "root") (Some t) line [] None false None false true false false.
Definition code (n : N) (name : string) : frame N := Frame n (lit name) None 1 [] None false None false false false false.
Definition context_frame (n : N) : frame N := Frame n (lit "call") None 1 [] None true (Some (lit "Context")) false false true false.
Definition at_line (f : frame N) (st : list (frame N)) : event N := Event ELine f st false false.
Definition place_line {V} (p : place V) : option (option str * option N) := match p with InTemplate t => Some (tfile t, tline t) | InCode _ => None end.
Definition main := code 1 "main".
(** Not so: the first step over stops at the next line (line 2 is left out) *)
Theorem jinja_over_refuted : exists (P : setup N) evs,
  Forall (fun e => exists line, next_line P 2 e line) evs /\ length evs = 4 /\
  map place_line (session P [Over; Over] evs fresh) =
    [Some (Some (lit "/t/a.html"), Some 1%N); Some (Some (lit "/t/a.html"), Some 3%N); Some (Some (lit "/t/a.html"), Some 4%N)].
Proof.
  exists P1, (map (fun n => at_line (root 2 t1 n) [main]) [10; 11; 12; 13]%N). split; [|split; reflexivity].
  repeat (constructor; [eexists; split; [reflexivity|]; split; [reflexivity|]; split;
    [exists t1; split; [reflexivity|]; split; [left; reflexivity|cbn; tauto] |
     exists t1, (lit "/t/a.html"), 1%N, (fun _ => true), []; split; [reflexivity|]; split; [left; reflexivity|split; reflexivity]]|]).
  constructor.
Qed.
Print Assumptions jinja_over_refuted.
(** Not so: step over stops at the next line in a later rendering (the frame of the first one, which has ended, is waited for) *)
Theorem jinja_over_stale_refuted : exists (P : setup N) evs1 evs2,
  Forall (fun e => ev e = ELine -> exists line, next_line P 2 e line) evs1 /\ Forall (fun e => exists line, next_line P 3 e line) evs2 /\ length evs2 = 4 /\
  map place_line (session P [Over; Run; Over] (evs1 ++ evs2) fresh) =
    [Some (Some (lit "/t/a.html"), Some 1%N); Some (Some (lit "/t/a.html"), Some 3%N); Some (Some (lit "/t/a.html"), Some 1%N)].
Proof.
  exists P1, (map (fun n => at_line (root 2 t1 n) [main]) [10; 11; 12; 13]%N), (map (fun n => at_line (root 3 t1 n) [main]) [10; 11; 12; 13]%N).
  split; [|split; [|split; reflexivity]].
  - repeat (constructor; [intros _; eexists; split; [reflexivity|]; split; [reflexivity|]; split;
    [exists t1; split; [reflexivity|]; split; [left; reflexivity|cbn; tauto] |
     exists t1, (lit "/t/a.html"), 1%N, (fun _ => true), []; split; [reflexivity|]; split; [left; reflexivity|split; reflexivity]]|]).
    constructor.
  - repeat (constructor; [eexists; split; [reflexivity|]; split; [reflexivity|]; split;
    [exists t1; split; [reflexivity|]; split; [left; reflexivity|cbn; tauto] |
     exists t1, (lit "/t/a.html"), 1%N, (fun _ => true), []; split; [reflexivity|]; split; [left; reflexivity|split; reflexivity]]|]).
    constructor.
Qed.
Print Assumptions jinja_over_stale_refuted.
(** Not so: step over from the end of a template goes on in the one which includes it (that one has no breakpoints) *)
Theorem jinja_over_outer_refuted : exists (P : setup N) evs d,
  jinja d = true /\ step d = Over /\ at_frame d = Template /\ inside d = Some 3%N /\
  (exists e, In e evs /\ ends P 3 e) /\ (exists e line, In e evs /\ ev e = ELine /\ draws (fr e) line /\ fid (fr e) = 2%N) /\
  session P [] evs d = [].
Proof.
  exists P1, [Event EReturn (root 3 t1 13) [root 2 t2 10; main] false true; at_line (root 2 t2 11) [main]; at_line (root 2 t2 12) [main]], (Dbg true Over Template false (Some 3%N) false).
  split; [reflexivity|]. split; [reflexivity|]. split; [reflexivity|]. split; [reflexivity|]. split; [|split; [|reflexivity]].
  - eexists. split; [left; reflexivity|]. split; [reflexivity|]. split; [reflexivity|]. split; [intros [_ [H|[_ H]]]; discriminate|].
    split; [intros [H _]; discriminate|]. left.
    exists t1, (lit "/t/a.html"), 1%N, (fun _ => true), []. split; [reflexivity|]. split; [left; reflexivity|split; reflexivity].
  - eexists. exists 2%N. split; [right; left; reflexivity|]. split; [reflexivity|]. split; [|reflexivity].
    exists t2. split; [reflexivity|]. split; [left; reflexivity|cbn; tauto].
Qed.
Print Assumptions jinja_over_outer_refuted.
(** Not so: step into stops in the function of the program which a template calls (its name begins with block_) *)
Theorem jinja_enter_refuted : exists (P : setup N) c l d,
  jinja d = true /\ step d = Into /\ at_frame d = NoFrame /\ dead d = false /\ call_from d = false /\
  calls P c /\ ev l = ELine /\ fid (fr l) = fid (fr c) /\ tpl (fr l) = None /\ ~ hidden P (fr l) /\ ~ internal (fr l) /\
  session P [] [c; l] d = [].
Proof.
  exists P1, (Event ECall (code 5 "block_user") [context_frame 4; root 2 t1 11; main] false false), (at_line (code 5 "block_user") [context_frame 4; root 2 t1 11; main]),
    (Dbg true Into NoFrame false None false).
  do 5 (split; [reflexivity|]). split; [|split; [reflexivity|split; [reflexivity|split; [reflexivity|split; [intros [H _]; discriminate|split; [|reflexivity]]]]]].
  - split; [reflexivity|]. split; [split; [intros [[H _] _]; discriminate|intros [H _]; discriminate]|]. eexists. split; reflexivity.
  - intros (c & H & _). discriminate.
Qed.
Print Assumptions jinja_enter_refuted.
(** Not so: step return from a template stops in what rendered it *)
Theorem jinja_return_refuted : exists (P : setup N) e0 evs d,
  has_breaks P (fr e0) /\ (exists e, In e evs /\ ev e = EReturn /\ fid (fr e) = fid (fr e0) /\ ~ passed_over e) /\
  (exists e, In e evs /\ ev e = ELine /\ In (fid (fr e)) (map fid (stack e0)) /\ ~ hidden P (fr e)) /\
  session P [] evs (resume P Return (InTemplate (template_frame numbers (fr e0))) e0 d) = [].
Proof.
  exists P1, (at_line (root 2 t1 10) [main]), [Event EReturn (root 2 t1 13) [main] false true; at_line main []], (Dbg true Into NoFrame false None false).
  split; [|split; [|split; [|reflexivity]]].
  - exists t1, (lit "/t/a.html"), 1%N, (fun _ => true), []. split; [reflexivity|]. split; [left; reflexivity|split; reflexivity].
  - eexists. split; [left; reflexivity|]. split; [reflexivity|]. split; [reflexivity|]. intros [_ [H|[_ H]]]; discriminate.
  - eexists. split; [right; left; reflexivity|]. split; [reflexivity|]. split; [now left|]. intros [H _]. discriminate.
Qed.
Print Assumptions jinja_return_refuted.
(** Not so: the variable of a loop is shown with the value it has: a value which is false is not shown, a name with an underscore is cut,
    and the variable of the same name outside the loop is shown instead.  A loop of jinja2 (from version 2.9 on) keeps its variable name in
    the local variable l_1_name. *)
Theorem jinja_variables_refuted : exists (name : str) (f : frame N) (v : N),
  locals f = [(lit "l_1_" ++ name, v)] /\ v <> 99%N /\ get str_eqb name (collect_context numbers f) <> Some v.
Proof.
  exists (lit "item"), (Frame 2 (lit "root") (Some t1) 11 [(lit "l_1_item", 0%N)] None false None false true false false), 0%N.
  split; [reflexivity|]. split; discriminate.
Qed.
Print Assumptions jinja_variables_refuted.
Theorem jinja_variables_name_refuted : exists (name : str) (f : frame N) (v : N),
  locals f = [(lit "l_1_" ++ name, v)] /\ truth numbers v = true /\ missing numbers v = false /\ ctx f = None /\
  get str_eqb name (collect_context numbers f) <> Some v.
Proof.
  exists (lit "my_item"), (Frame 2 (lit "root") (Some t1) 11 [(lit "l_1_my_item", 5%N)] None false None false true false false), 5%N.
  do 3 (split; [reflexivity|]). split; [reflexivity|discriminate].
Qed.
Print Assumptions jinja_variables_name_refuted.
Theorem jinja_variables_outer_refuted : exists (name : str) (f : frame N) (v : N),
  locals f = [(lit "l_1_" ++ name, v)] /\ truth numbers v = true /\ missing numbers v = false /\ ~ In 95%N name /\
  get str_eqb name (collect_context numbers f) <> Some v.
Proof.
  exists (lit "item"), (Frame 2 (lit "root") (Some t1) 11 [(lit "l_1_item", 5%N)] (Some (Ctx [(lit "item", 7%N)] [])) false None false true false false), 5%N.
  do 3 (split; [reflexivity|]). split; [cbn; intuition; discriminate|discriminate].
Qed.
Print Assumptions jinja_variables_outer_refuted.
(** C64: where none of this is the case the variable of a loop is shown with its value *)
Theorem jinja_loop_variable {V} (W : values V) (f : frame V) pre d name v post :
  plain_dicts f -> locals f = pre ++ (lit "l_" ++ d ++ lit "_" ++ name, v) :: post ->
  d <> [] -> Forall (fun c => is_digit c = true) d -> ~ In 95%N name -> truth W v = true -> missing W v = false ->
  context_value f name = None -> Forall (fun yw => ~ displayed W (fst yw) (snd yw) name) post ->
  get str_eqb name (collect_context W f) = Some v.
Proof.
  intros Pl L Nd Fd Nn Tv Mv C F. apply jinja_variables; auto. right. split; auto. exists pre, (lit "l_" ++ d ++ lit "_" ++ name), post.
  split; auto. split; auto. right. exists (d ++ lit "_" ++ name). split; auto. split; auto. split; auto. left. exists d, []. rewrite app_nil_r. auto 7.
Qed.
Print Assumptions jinja_loop_variable.

(** * Examples: the hypotheses can be met *)
Definition loop_frame (v : N) : frame N :=
  Frame 2 (lit "root") (Some t1) 11 [(lit "context_x", 3%N); (lit "l_1_item", v)] (Some (Ctx [(lit "user", 7%N); (lit "n", 1%N)] [(lit "n", 2%N)])) false None false true false false.
Example variables_example : plain_dicts (loop_frame 5) /\
  map (fun k => get str_eqb k (collect_context numbers (loop_frame 5))) [lit "item"; lit "user"; lit "n"; lit "context_x"; lit "l_1_item"] =
  [Some 5%N; Some 7%N; Some 2%N; Some 3%N; None].
Proof.
  split; [|reflexivity]. split; cbn [map fst vars parent]; repeat constructor; cbn; intuition discriminate.
Qed.
Example proper_example : Forall proper (map (fun n => at_line (root 2 t1 n) [main]) [10; 11; 12; 13]%N).
Proof.
  repeat constructor; cbn; try discriminate; intros t H; injection H as <-; cbn; repeat constructor; cbn; intuition discriminate.
Qed.
Definition over1 : dbg := Dbg true Over Template false (Some 2%N) false.
Example over_example : map place_line (session P1 [Over; Over; Over] (map (fun n => at_line (root 2 t1 n) [main]) [11; 99; 12; 13]%N) over1) =
  [Some (Some (lit "/t/a.html"), Some 2%N); Some (Some (lit "/t/a.html"), Some 3%N); Some (Some (lit "/t/a.html"), Some 4%N)].
Proof. reflexivity. Qed.
(** Step into a function, over its lines, and back *)
Definition fn := code 5 "get_user".
Definition st5 := [context_frame 4; root 2 t1 11; main].
Definition visit : list (event N) :=
  [at_line (root 2 t1 10) [main]; at_line (root 2 t1 11) [main]; Event ECall fn st5 false false; at_line fn st5; at_line fn st5; Event EReturn fn st5 false false;
   at_line (root 2 t1 12) [main]; at_line (root 2 t1 13) [main]].
Example visit_example : map place_line (session P1 [Into; Into; Over; Over; Over] visit fresh) =
  [Some (Some (lit "/t/a.html"), Some 1%N); Some (Some (lit "/t/a.html"), Some 2%N); None; None; Some (Some (lit "/t/a.html"), Some 3%N);
   Some (Some (lit "/t/a.html"), Some 4%N)].
Proof. reflexivity. Qed.
Example back_into_example :
  map place_line (session P1 [Into; Into; Into; Into; Into] visit fresh) =
  [Some (Some (lit "/t/a.html"), Some 1%N); Some (Some (lit "/t/a.html"), Some 2%N); None; None; Some (Some (lit "/t/a.html"), Some 3%N);
   Some (Some (lit "/t/a.html"), Some 4%N)] /\
  context_call (context_frame 4) = true /\ stack (Event EReturn fn st5 false false) = context_frame 4 :: tl st5 /\ generator fn = false.
Proof. repeat split; reflexivity. Qed.
