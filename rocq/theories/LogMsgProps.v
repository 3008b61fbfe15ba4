(** C21: a log point prints the message as written. *)
From Coq Require Import List NArith ZArith Bool String Lia Arith.
From Verif Require Import Base LogMsg.
Import ListNotations.

(** * Specification: a message is made of text without opening brace and of placeholders with balanced contents *)
Inductive balanced : str -> Prop :=
| b_nil : balanced []
| b_char c s : c <> c_open -> c <> c_close -> balanced s -> balanced (c :: s)
| b_nest a s : balanced a -> balanced s -> balanced (c_open :: a ++ c_close :: s).
Inductive piece := Text (s : str) | Hole (e : str).
Definition piece_ok (p : piece) : Prop := match p with Text s => ~ In c_open s | Hole e => balanced e end.
Definition write (p : piece) : str := match p with Text s => s | Hole e => c_open :: e ++ [c_close] end.
Definition message (ps : list piece) : str := flat_map write ps.
(** what the user expects to see; an empty placeholder shows nothing *)
Definition shown (value : str -> str) (p : piece) : str :=
  match p with Text s => s | Hole e => match strip e with [] => [] | v => value v end end.
Definition expected (value : str -> str) (ps : list piece) : str := flat_map (shown value) ps.

Definition holes (ps : list piece) : list str :=
  flat_map (fun p => match p with Hole e => match strip e with [] => [] | v => [v] end | Text _ => [] end) ps.
Definition format (ps : list piece) : str :=
  flat_map (fun p => match p with Hole e => match strip e with [] => [] | v => lit "%s" end | Text s => s end) ps.

Lemma open_close : c_open <> c_close. Proof. discriminate. Qed.

Lemma extract_bal e : balanced e -> forall r l acc, extract_var (e ++ r) l acc = extract_var r l (acc ++ e).
Proof.
  induction 1 as [|c s H1 H2 Hs IH|a s Ha IHa Hs IHs]; intros r l acc; cbn [app].
  - now rewrite app_nil_r.
  - cbn [extract_var]. destruct (N.eqb_spec c c_open); [congruence|]. destruct (N.eqb_spec c c_close); [congruence|]. rewrite IH, <- app_assoc. reflexivity.
  - cbn [extract_var]. rewrite N.eqb_refl. rewrite <- app_assoc. cbn [app]. rewrite IHa. cbn [extract_var].
    replace (N.eqb c_close c_open) with false by reflexivity. rewrite N.eqb_refl. rewrite IHs. f_equal. rewrite <- !app_assoc. reflexivity.
Qed.

Lemma extract_text s : ~ In c_open s -> forall n r fmt vars, (List.length s <= n)%nat ->
  extract_list n (s ++ r) fmt vars = extract_list (n - List.length s) r (fmt ++ s) vars.
Proof.
  induction s as [|c s IH]; intros H n r fmt vars L; cbn [app List.length].
  - now rewrite app_nil_r, Nat.sub_0_r.
  - destruct n; [simpl in L; lia|]. cbn [extract_list]. destruct (N.eqb_spec c c_open); [subst; simpl in H; tauto|].
    rewrite IH by first [simpl in *; tauto | simpl in *; lia]. rewrite <- app_assoc. reflexivity.
Qed.

Lemma extract_more : forall n s fmt vars, (List.length s <= n)%nat -> forall m, (List.length s <= m)%nat -> extract_list n s fmt vars = extract_list m s fmt vars.
Proof.
  assert (V : forall s l acc v r, extract_var s l acc = Some (v, r) -> (List.length r < List.length s)%nat).
  { induction s as [|c s IH]; intros l acc v r; cbn [extract_var]; [discriminate|]. cbn [List.length].
    destruct (N.eqb c c_open); [intros H; apply IH in H; lia|]. destruct (N.eqb c c_close); [|intros H; apply IH in H; lia].
    destruct l; [intros [= <- <-]; lia|intros H; apply IH in H; lia]. }
  induction n as [|n IH]; intros s fmt vars L m M.
  - destruct s; [destruct m; auto|simpl in L; lia].
  - destruct s as [|c s]; [destruct m; auto|]. destruct m as [|m]; [simpl in M; lia|]. cbn [extract_list].
    destruct (N.eqb c c_open).
    + destruct (extract_var s 0 []) as [[v r]|] eqn:E; auto. apply V in E. simpl in L, M. destruct v; apply IH; lia.
    + simpl in L, M. apply IH; lia.
Qed.

Lemma extract_pieces ps : Forall piece_ok ps -> forall n fmt vars, (List.length (message ps) <= n)%nat ->
  extract_list n (message ps) fmt vars = Some (fmt ++ format ps, vars ++ holes ps).
Proof.
  induction 1 as [|p ps Hp Hps IH]; intros n fmt vars L; cbn [message flat_map format holes].
  - rewrite !app_nil_r. destruct n; auto.
  - fold (message ps). destruct p as [s|e]; cbn [write piece_ok] in *.
    + cbn [message flat_map write] in L. fold (message ps) in L. rewrite app_length in L.
      rewrite extract_text by (auto; lia). rewrite IH by lia. fold (format ps) (holes ps). rewrite <- app_assoc. reflexivity.
    + cbn [message flat_map write] in L. fold (message ps) in L. cbn [app List.length] in L. rewrite !app_length in L. cbn [List.length] in L.
      destruct n; [lia|]. cbn [app extract_list]. rewrite N.eqb_refl. rewrite <- app_assoc. rewrite extract_bal by auto. cbn [app extract_var].
      replace (N.eqb c_close c_open) with false by reflexivity. rewrite N.eqb_refl. fold (format ps) (holes ps).
      destruct (strip e) as [|c v] eqn:E.
      * rewrite IH by lia. reflexivity.
      * rewrite IH by lia. rewrite <- !app_assoc. reflexivity.
Qed.

Lemma format_text s : ~ In c_pct s -> forall r vals, py_format (s ++ r) None vals = option_map (app s) (py_format r None vals).
Proof.
  induction s as [|c s IH]; intros H r vals; cbn [app]; [destruct (py_format r None vals); auto|].
  cbn [py_format]. destruct (N.eqb_spec c c_pct); [subst; simpl in H; tauto|]. rewrite IH by (simpl in H; tauto). destruct (py_format r None vals); auto.
Qed.

Lemma format_eval ps value : (forall s, In (Text s) ps -> ~ In c_pct s) ->
  py_format (format ps) None (map value (holes ps)) = Some (expected value ps).
Proof.
  induction ps as [|p ps IH]; intros H; [reflexivity|]. cbn [format holes expected flat_map]. fold (format ps) (holes ps) (expected value ps).
  assert (IH' : py_format (format ps) None (map value (holes ps)) = Some (expected value ps)) by (apply IH; intros; apply H; right; auto).
  destruct p as [s|e]; cbn [shown].
  - rewrite format_text by (apply H; left; auto). cbn [app]. rewrite IH'. reflexivity.
  - destruct (strip e) as [|c v]; [exact IH'|]. cbn [app map]. change (lit "%s" ++ format ps) with (37%N :: 115%N :: format ps).
    cbn [py_format]. change (N.eqb 37 c_pct) with true. cbv iota. change (N.eqb 115 c_pct) with false. cbv iota. change (N.eqb 115 115 && negb false) with true. cbv iota. rewrite IH'. reflexivity.
Qed.

(** no percent sign is needed to be absent when nothing is formatted *)
Lemma no_holes ps : holes ps = [] -> format ps = expected (fun _ => []) ps.
Proof.
  induction ps as [|p ps IH]; auto. cbn [holes format expected flat_map]. fold (format ps) (holes ps) (expected (fun _ => []) ps).
  destruct p as [s|e]; cbn [shown].
  - cbn [app]. intros H. now rewrite IH.
  - destruct (strip e); [|discriminate]. cbn [app]. auto.
Qed.
Lemma expected_no_holes ps v1 v2 : holes ps = [] -> expected v1 ps = expected v2 ps.
Proof.
  induction ps as [|p ps IH]; auto. cbn [holes expected flat_map]. fold (holes ps) (expected v1 ps) (expected v2 ps).
  destruct p as [s|e]; cbn [shown].
  - cbn [app]. intros H. now rewrite IH.
  - destruct (strip e); [|discriminate]. cbn [app]. auto.
Qed.

(** * Theorems *)
(** A message evaluates to its text with each placeholder replaced, provided that there is no placeholder or no percent
    sign in the text, and each placeholder is a single expression. *)
Theorem log_message (items : str -> list str) (value : str -> str) (ps : list piece) :
  Forall piece_ok ps ->
  (forall e, In e (holes ps) -> items e = [e]) ->
  (holes ps = [] \/ forall s, In (Text s) ps -> ~ In c_pct s) ->
  eval items value (convert (message ps)) = Some (expected value ps).
Proof.
  intros Hok Hit Hp. unfold convert. rewrite extract_pieces by auto. cbn [app].
  assert (M : flat_map items (holes ps) = holes ps).
  { revert Hit. generalize (holes ps). induction l as [|e l IH]; cbn [flat_map]; auto. intros H. rewrite (H e) by (left; auto). cbn [app]. rewrite IH; auto. intros; apply H; right; auto. }
  destruct (holes ps) as [|h hs] eqn:E.
  - cbn [eval]. rewrite (no_holes ps E). f_equal. now apply expected_no_holes.
  - destruct Hp as [Hp|Hp]; [discriminate|]. cbn [eval]. rewrite M, <- E. now apply format_eval.
Qed.

(** Every message is of that form, or it is reported as unbalanced. *)
Fixpoint joinc (parts : list str) : str := match parts with [] => [] | [p] => p | p :: r => p ++ c_close :: joinc r end.

Lemma extract_var_inv : forall s l acc v r, extract_var s l acc = Some (v, r) ->
  exists parts, List.length parts = S l /\ Forall balanced parts /\ s = joinc parts ++ c_close :: r /\ v = strip (acc ++ joinc parts).
Proof.
  induction s as [|c s IH]; intros l acc v r; cbn [extract_var]; [discriminate|].
  destruct (N.eqb_spec c c_open) as [->|n1].
  - intros H. apply IH in H. destruct H as (parts & L & B & E & V). destruct parts as [|p1 [|p2 parts]]; try discriminate.
    inversion B as [|? ? B1 B']; subst. inversion B' as [|? ? B2 B'']; subst.
    exists ((c_open :: p1 ++ c_close :: p2) :: parts). split; [simpl in *; lia|]. split; [constructor; auto; now constructor|].
    destruct parts as [|p3 parts]; cbn [joinc app]; rewrite <- ?app_assoc; cbn [app]; rewrite <- ?app_assoc; cbn [app]; auto.
  - destruct (N.eqb_spec c c_close) as [->|n2].
    + destruct l as [|l].
      * intros [= <- <-]. exists [[]]. cbn. rewrite app_nil_r. repeat split; auto. constructor; auto. constructor.
      * intros H. apply IH in H. destruct H as (parts & L & B & E & V). exists ([] :: parts).
        split; [simpl in *; lia|]. split; [constructor; auto; constructor|]. destruct parts as [|p parts]; [discriminate|].
        cbn [joinc app] in *. rewrite E. split; [reflexivity|]. rewrite V, <- app_assoc. reflexivity.
    + intros H. apply IH in H. destruct H as (parts & L & B & E & V). destruct parts as [|p parts]; [discriminate|].
      inversion B as [|? ? B1 B']; subst. exists ((c :: p) :: parts). split; [simpl in *; lia|]. split; [constructor; auto; now constructor|].
      destruct parts; cbn [joinc app]; rewrite <- ?app_assoc; auto.
Qed.

Lemma extract_list_inv : forall n s fmt vars f v, extract_list n s fmt vars = Some (f, v) ->
  exists ps, Forall piece_ok ps /\ message ps = s.
Proof.
  induction n as [|n IH]; intros s fmt vars f v; cbn [extract_list].
  - destruct s; [|discriminate]. intros _. exists []. auto.
  - destruct s as [|c s]; [intros _; exists []; auto|]. destruct (N.eqb_spec c c_open) as [->|n1].
    + destruct (extract_var s 0 []) as [[x r]|] eqn:E; [|discriminate]. apply extract_var_inv in E.
      destruct E as (parts & L & B & Es & _). destruct parts as [|p [|]]; try discriminate. inversion_clear B. cbn [joinc] in Es.
      intros Hx. assert (X : exists ps, Forall piece_ok ps /\ message ps = r) by (destruct x; eapply IH; eauto).
      destruct X as (ps & A & M). exists (Hole p :: ps). split; [constructor; auto|]. cbn [message flat_map write]. fold (message ps). rewrite M, Es. cbn [app]. now rewrite <- app_assoc.
    + intros H. apply IH in H. destruct H as (ps & A & M). exists (Text [c] :: ps). split; [constructor; auto; cbn; intros [e|[]]; congruence|].
      cbn [message flat_map write]. fold (message ps). now rewrite M.
Qed.

Theorem log_unbalanced (msg : str) :
  (exists ps, Forall piece_ok ps /\ message ps = msg) \/
  ((~ exists ps, Forall piece_ok ps /\ message ps = msg) /\ convert msg = Const (lit "Unbalanced braces in: " ++ msg)).
Proof.
  unfold convert. destruct (extract_list (List.length msg) msg [] []) as [[f v]|] eqn:E.
  - left. eapply extract_list_inv; eauto.
  - right. split; [|auto]. intros (ps & A & M). subst msg. rewrite extract_pieces in E by auto. discriminate.
Qed.

(** A percent sign in the text of a message with placeholders breaks it. *)
Theorem log_percent_refuted : exists ps, Forall piece_ok ps /\ (forall value, eval (fun e => [e]) value (convert (message ps)) = None) /\
  message ps = lit "100% {x}".
Proof.
  exists [Text (lit "100% "); Hole (lit "x")]. split; [|split; [intros value; reflexivity|reflexivity]].
  constructor; [cbn; intuition discriminate|]. constructor; [|constructor]. cbn. repeat constructor; discriminate.
Qed.
(** or shows other text: "50%% of {x}" loses one of the signs *)
Theorem log_double_percent_refuted : exists ps, Forall piece_ok ps /\
  forall value, eval (fun e => [e]) value (convert (message ps)) = Some (lit "50% of " ++ value (lit "x")) /\
  expected value ps = lit "50%% of " ++ value (lit "x").
Proof.
  exists [Text (lit "50%% of "); Hole (lit "x")]. split.
  - constructor; [cbn; intuition discriminate|]. constructor; [|constructor]. cbn. repeat constructor; discriminate.
  - intros value. split; [|cbn; now rewrite app_nil_r]. exact (f_equal (fun x => Some (lit "50% of " ++ x)) (app_nil_r (value (lit "x")))).
Qed.
(** A placeholder with a comma at top level counts as several values. *)
Theorem log_comma_refuted : exists ps items, Forall piece_ok ps /\ items (lit "a, b") = [lit "a"; lit "b"] /\
  forall value, eval items value (convert (message ps)) = None.
Proof.
  exists [Hole (lit "a, b")], (fun e => if str_eqb e (lit "a, b") then [lit "a"; lit "b"] else [e]).
  split; [|split; [reflexivity|intros value; reflexivity]]. constructor; [|constructor]. cbn. repeat constructor; discriminate.
Qed.

(** * Examples *)
Example ex_log : eval (fun e => [e]) (fun e => lit "<" ++ e ++ lit ">") (convert (lit "a } b {x} and { {1: 2}[1] }{}.")) = Some (lit "a } b <x> and <{1: 2}[1]>.").
Proof. vm_compute. reflexivity. Qed.
Example ex_pieces : let ps := [Text (lit "n = "); Hole (lit " d[{1}] "); Text (lit "!")] in
  Forall piece_ok ps /\ holes ps = [lit "d[{1}]"] /\ (forall s, In (Text s) ps -> ~ In c_pct s).
Proof.
  cbn. split; [|split; [reflexivity|]].
  - repeat (apply Forall_cons || apply Forall_nil); cbn; try (intuition discriminate).
    repeat (apply b_char; [discriminate|discriminate|]). apply (b_nest [49%N] (lit "] ")); repeat constructor; discriminate.
  - intros s [E|[E|[E|[]]]]; inversion E; cbn; intuition discriminate.
Qed.
Example ex_unbalanced : convert (lit "a {b") = Const (lit "Unbalanced braces in: a {b"). Proof. reflexivity. Qed.

Print Assumptions log_message.
Print Assumptions log_unbalanced.
Print Assumptions log_percent_refuted.
Print Assumptions log_double_percent_refuted.
Print Assumptions log_comma_refuted.
