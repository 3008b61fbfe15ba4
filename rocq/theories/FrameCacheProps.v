(** Property C62: whenever a frame starts or is resumed, the breakpoints in its code are seen to. *)
From Coq Require Import List PeanoNat NArith Bool Lia.
From Verif Require Import Base Dict FrameCache.
Import ListNotations.
Open Scope list_scope.

(** * Specification *)
(** A breakpoint at a line is seen to: the frame is traced, or its code has a call there. *)
Definition seen_to (c : code) (d : decision) (n : N) : Prop :=
  d = Traced \/ (exists calls, d = Replaced calls /\ In n calls) \/ (d = Left /\ exists calls, c_calls c = Some calls /\ In n calls).
Definition quiet (a : act) : Prop := match a with SetBreaks _ _ | SetFunctions _ => False | _ => True end.
Definition of_thread (t : N) (a : act) : Prop := match a with Start t' _ _ _ | Finish t' => t' = t | _ => False end.
(** In the state [s], after anything that may have happened, a thread begins to evaluate a frame; with other threads going on, but
    no breakpoints being changed, it decides [d]. *)
Inductive evaluates (codes : N -> code) : state -> N -> bool -> bool -> decision -> Prop :=
  | eval_known pre t c stepping can_skip s' d :
      step codes (run codes start pre) (Start t c stepping can_skip) = (s', Some (t, c, d)) ->
      evaluates codes (run codes start pre) c stepping can_skip d
  | eval_new pre mid t c stepping can_skip s' s'' t' c' d :
      step codes (run codes start pre) (Start t c stepping can_skip) = (s', None) ->
      Forall quiet mid -> Forall (fun a => ~ of_thread t a) mid ->
      step codes (run codes start (pre ++ Start t c stepping can_skip :: mid)) (Finish t) = (s'', Some (t', c', d)) ->
      evaluates codes (run codes start pre) c stepping can_skip d.

(** * The invariant *)
Definition good_info (codes : N -> code) (s : state) (c : N) (i : info) : Prop :=
  i_mtime i <= mtime s /\ i_skip i = c_skip (codes c)
  /\ (i_mtime i = mtime s -> changed s = false -> exists force, compute (codes c) (breaks s (c_file (codes c))) (functions s (c_name (codes c))) = Some (i_found i, i_new i, force)).
Definition good_job (codes : N -> code) (s : state) (j : job) : Prop :=
  match j_phase j with
  | Begun => True
  | HasTime m => m <= mtime s
  | HasBreaks m b => m <= mtime s /\ (m = mtime s -> changed s = false -> b = breaks s (c_file (codes (j_code j))))
  end.
Definition good (codes : N -> code) (s : state) : Prop :=
  (forall c i, get N.eqb c (infos s) = Some i -> good_info codes s c i) /\ (forall t j, In (t, j) (jobs s) -> good_job codes s j).
Lemma set_incl {V} k (v : V) d x : In x (set N.eqb k v d) -> x = (k, v) \/ In x d.
Proof.
  induction d as [|[a b] d IH]; cbn [set]; [intros [<-|[]]; auto|]. destruct (N.eqb_spec k a) as [->|]; cbn [In].
  - intros [<-|H]; auto.
  - intros [<-|H]; [auto|]. destruct (IH H); auto.
Qed.
Lemma good_with_job codes s t j : good codes s -> good_job codes s j -> good codes (with_job t j s).
Proof.
  intros [G1 G2] G. split; [exact G1|]. intros t' j' H. cbn [with_job jobs] in H. apply set_incl in H as [H|H]; [injection H as -> ->; exact G|exact (G2 _ _ H)].
Qed.
Lemma good_step codes s a : good codes s -> good codes (fst (step codes s a)).
Proof.
  intros G. pose proof G as [G1 G2]. destruct a as [t c st k|t|t|t|f b|g|]; cbn [step].
  - destruct st; [exact G|]. destruct (get N.eqb c (infos s)) as [i|]; [destruct (Nat.eqb _ _); [exact G|]|]; apply good_with_job; try exact G; exact I.
  - destruct (get N.eqb t (jobs s)) as [[c k [|m|m b]]|]; try exact G. apply good_with_job; [exact G|]. cbn. lia.
  - destruct (get N.eqb t (jobs s)) as [[c k [|m|m b]]|] eqn:E; try exact G. apply good_with_job; [exact G|].
    apply (get_In _ N.eqb_spec) in E. apply G2 in E. cbn [good_job j_phase j_code] in *. auto.
  - destruct (get N.eqb t (jobs s)) as [[c k [|m|m b]]|] eqn:E; try exact G.
    apply (get_In _ N.eqb_spec) in E. apply G2 in E. cbn [good_job j_phase j_code] in E. destruct E as [E1 E2].
    assert (J : forall t' j', In (t', j') (del N.eqb t (jobs s)) -> In (t', j') (jobs s)) by (intros t' j'; apply del_incl).
    destruct (compute (codes c) b _) as [[[found new] force]|] eqn:CO; cbn [fst]; (split; [|intros t' j' H; exact (G2 t' j' (J _ _ H))]).
    + intros c' i H. cbn [infos] in H. rewrite (get_set _ N.eqb_spec) in H. destruct (N.eqb_spec c' c) as [->|].
      * injection H as <-. split; [exact E1|]. split; [reflexivity|]. cbn [i_mtime i_found i_new mtime changed breaks functions]. intros M C.
        exists force. rewrite <- (E2 M C). exact CO.
      * exact (G1 _ _ H).
    + exact G1.
  - split; cbn [fst infos jobs].
    + intros c i H. destruct (G1 _ _ H) as (A & B & _). split; [exact A|]. split; [exact B|]. discriminate.
    + intros t j H. apply G2 in H. unfold good_job in *. destruct (j_phase j); auto. destruct H as [H _]. split; [exact H|]. discriminate.
  - split; cbn [fst infos jobs].
    + intros c i H. destruct (G1 _ _ H) as (A & B & _). split; [exact A|]. split; [exact B|]. discriminate.
    + intros t j H. apply G2 in H. unfold good_job in *. destruct (j_phase j); auto. destruct H as [H _]. split; [exact H|]. discriminate.
  - split; cbn [fst infos jobs].
    + intros c i H. destruct (G1 _ _ H) as (A & B & _). split; [cbn [mtime]; lia|]. split; [exact B|]. cbn [mtime]. lia.
    + intros t j H. apply G2 in H. unfold good_job in *. destruct (j_phase j); cbn [mtime] in *; auto. destruct H as [H _]. split; lia.
Qed.
Lemma good_run codes l : forall s, good codes s -> good codes (run codes s l).
Proof. induction l as [|a l IH]; intros s G; [exact G|]. apply IH. now apply good_step. Qed.
Lemma good_start codes : good codes start.
Proof. split; [discriminate|intros t j []]. Qed.

(** * One evaluation *)
Definition decided (codes : N -> code) (s : state) (c : N) (can_skip : bool) (d : decision) : Prop :=
  match compute (codes c) (breaks s (c_file (codes c))) (functions s (c_name (codes c))) with
  | None => d = Failed
  | Some (found, new, force) => exists f, (f = force \/ f = false) /\ d = decide can_skip (Info 0 (c_skip (codes c)) found new) f
  end.
Lemma decide_info k m m' b found new f : decide k (Info m b found new) f = decide k (Info m' b found new) f.
Proof. reflexivity. Qed.
(** A thread which began and was not disturbed has read the breakpoints as they are. *)
Definition on_it (codes : N -> code) (s0 : state) (t c : N) (k : bool) (s : state) : Prop :=
  (forall f, breaks s f = breaks s0 f) /\ (forall f, functions s f = functions s0 f)
  /\ exists p, get N.eqb t (jobs s) = Some (Job c k p) /\ (forall m b, p = HasBreaks m b -> b = breaks s0 (c_file (codes c))).
Lemma on_it_step codes s0 t c k s a : on_it codes s0 t c k s -> quiet a -> ~ of_thread t a -> on_it codes s0 t c k (fst (step codes s a)).
Proof.
  intros (B & FN & p & J & P) Q O.
  assert (W : forall t' j', t' <> t -> on_it codes s0 t c k (with_job t' j' s)).
  { intros t' j' X. split; [exact B|]. split; [exact FN|]. exists p. split; [|exact P]. cbn [with_job jobs]. rewrite (get_set_other _ N.eqb_spec) by exact X. exact J. }
  assert (H : on_it codes s0 t c k s) by (split; [exact B|split; [exact FN|eauto]]).
  destruct a as [t' c' st k'|t'|t'|t'|f b|g|]; cbn [step quiet of_thread] in *; try contradiction.
  - destruct st; [exact H|]. destruct (get N.eqb c' (infos s)) as [i|]; [destruct (Nat.eqb _ _); [exact H|]|]; apply W; congruence.
  - destruct (N.eqb_spec t' t) as [->|X].
    + rewrite J. destruct p as [|m|m b]; try exact H. split; [exact B|]. split; [exact FN|]. eexists. cbn [fst with_job jobs]. rewrite (get_set_same _ N.eqb_spec).
      split; [reflexivity|]. discriminate.
    + destruct (get N.eqb t' (jobs s)) as [[c1 k1 [|m|m b]]|]; try exact H. now apply W.
  - destruct (N.eqb_spec t' t) as [->|X].
    + rewrite J. destruct p as [|m|m b]; try exact H. split; [exact B|]. split; [exact FN|]. eexists. cbn [fst with_job jobs]. rewrite (get_set_same _ N.eqb_spec).
      split; [reflexivity|]. intros m' b Y. injection Y as _ <-. apply B.
    + destruct (get N.eqb t' (jobs s)) as [[c1 k1 [|m|m b]]|]; try exact H. now apply W.
  - destruct (get N.eqb t' (jobs s)) as [[c1 k1 [|m|m b]]|]; try exact H.
    destruct (compute _ _ _) as [[[found new] force]|]; cbn [fst];
      (split; [exact B|split; [exact FN|exists p; split; [cbn [jobs]; rewrite (get_del_other _ N.eqb_spec) by congruence; exact J|exact P]]]).
  - split; [exact B|]. split; [exact FN|]. exists p. split; [exact J|exact P].
Qed.
Lemma on_it_run codes s0 t c k mid : Forall quiet mid -> Forall (fun a => ~ of_thread t a) mid -> forall s, on_it codes s0 t c k s -> on_it codes s0 t c k (run codes s mid).
Proof.
  induction mid as [|a mid IH]; intros Q O s H; [exact H|]. inversion Q; inversion O; subst. apply IH; auto. now apply on_it_step.
Qed.
Lemma evaluates_decided codes s c stepping can_skip d : evaluates codes s c stepping can_skip d -> changed s = false ->
  stepping = true /\ d = Traced \/ decided codes s c can_skip d.
Proof.
  intros E CH. destruct E as [pre t c st k s' d H|pre mid t c st k s' s'' t' c' d H1 Q O H2].
  - set (s := run codes start pre) in *. pose proof (good_run codes pre start (good_start codes)) as [G _]. fold s in G.
    cbn [step] in H. destruct st; [injection H as _ <-; auto|]. right.
    destruct (get N.eqb c (infos s)) as [i|] eqn:GI; [|discriminate]. destruct (Nat.eqb_spec (i_mtime i) (mtime s)) as [M|]; [|discriminate].
    injection H as _ <-. destruct (G _ _ GI) as (_ & SK & V). destruct (V M CH) as (force & CO). unfold decided. rewrite CO.
    exists false. split; [auto|]. rewrite <- SK. destruct i; reflexivity.
  - right. set (s := run codes start pre) in *.
    assert (R : run codes start (pre ++ Start t c st k :: mid) = run codes (fst (step codes s (Start t c st k))) mid).
    { unfold run. rewrite fold_left_app. reflexivity. }
    rewrite R, H1 in H2. cbn [fst] in H2.
    assert (OI : on_it codes s t c k s').
    { cbn [step] in H1. destruct st; [discriminate|].
      assert (X : s' = with_job t (Job c k Begun) s).
      { destruct (get N.eqb c (infos s)) as [i|]; [destruct (Nat.eqb _ _); [discriminate|]|]; now injection H1 as <-. }
      rewrite X. split; [reflexivity|]. split; [reflexivity|]. exists Begun. cbn [with_job jobs]. rewrite (get_set_same _ N.eqb_spec). split; [reflexivity|]. discriminate. }
    apply (on_it_run codes s t c k mid Q O) in OI. destruct OI as (B & FN & p & J & P).
    cbn [step] in H2. rewrite J in H2. destruct p as [|m|m b]; try discriminate. rewrite (P m b eq_refl), FN in H2. unfold decided.
    destruct (compute (codes c) _ _) as [[[found new] force]|]; injection H2 as _ _ _ <-; [|reflexivity].
    exists force. split; [auto|]. reflexivity.
Qed.

Lemma mem_line_In n l : mem_line n l = true <-> In n l.
Proof. unfold mem_line. rewrite existsb_exists. split; [intros (x & I & E); apply N.eqb_eq in E as ->; exact I|intros I; exists n; now rewrite N.eqb_refl]. Qed.

(** * Theorems *)
(** Every breakpoint in the code of a frame which starts or is resumed is seen to; a function breakpoint makes it traced. *)
Theorem framecache_seen_to codes s c stepping can_skip d b n : evaluates codes s c stepping can_skip d -> changed s = false ->
  c_skip (codes c) = false -> breaks s (c_file (codes c)) = Some b -> In n b -> In n (c_lines (codes c)) -> seen_to (codes c) d n.
Proof.
  intros E CH SK HB I1 I2. destruct (evaluates_decided _ _ _ _ _ _ E CH) as [[_ ->]|D]; [now left|]. unfold decided in D. rewrite HB in D.
  unfold compute in D. rewrite SK in D. unfold seen_to. destruct (c_calls (codes c)) as [calls|] eqn:CA.
  - unfold compute_force in D.
    destruct (filter (fun m => mem_line m b) (c_lines (codes c))) as [|x r] eqn:F.
    { assert (X : In n (filter (fun m => mem_line m b) (c_lines (codes c)))) by (apply filter_In; split; [exact I2|now apply mem_line_In]). rewrite F in X. destruct X. }
    destruct D as (f & Hf & ->). unfold decide. cbn [i_skip i_found i_new]. destruct can_skip; [|now left].
    destruct f; [|now left]. destruct Hf as [Hf|]; [|discriminate]. symmetry in Hf. rewrite forallb_forall in Hf.
    right. right. split; [reflexivity|]. exists calls. split; [reflexivity|]. now apply mem_line_In, Hf.
  - destruct (functions s _).
    { destruct D as (f & Hf & ->). replace f with false by (destruct Hf; congruence). unfold decide. cbn [i_skip i_found i_new]. destruct can_skip; now left. }
    destruct b as [|b0 b]; [destruct I1|]. unfold generate in D.
    destruct (filter (fun m => mem_line m (c_lines (codes c))) (b0 :: b)) as [|x r] eqn:F.
    { assert (X : In n (filter (fun m => mem_line m (c_lines (codes c))) (b0 :: b))) by (apply filter_In; split; [exact I1|now apply mem_line_In]). rewrite F in X. destruct X. }
    destruct D as (f & Hf & ->). replace f with false by (destruct Hf; congruence). unfold decide. cbn [i_skip i_found i_new]. destruct can_skip; [|now left].
    destruct (c_inserts (codes c) (x :: r)); [|now left]. right. left. exists (x :: r). split; [reflexivity|]. rewrite <- F. apply filter_In.
    split; [exact I1|now apply mem_line_In].
Qed.
Theorem framecache_function codes s c stepping can_skip d : evaluates codes s c stepping can_skip d -> changed s = false ->
  c_skip (codes c) = false -> c_calls (codes c) = None -> functions s (c_name (codes c)) = true -> d = Traced.
Proof.
  intros E CH SK CA FB. destruct (evaluates_decided _ _ _ _ _ _ E CH) as [[_ ->]|D]; [reflexivity|]. unfold decided, compute in D. rewrite SK, CA, FB in D.
  destruct D as (f & Hf & ->). replace f with false by (destruct Hf; congruence). unfold decide. cbn [i_skip i_found i_new]. destruct can_skip; reflexivity.
Qed.
(** Code is replaced only for breakpoints it has, and only by code which could be made; code without any runs as it is. *)
Theorem framecache_replaced codes s c stepping can_skip calls : evaluates codes s c stepping can_skip (Replaced calls) -> changed s = false ->
  c_calls (codes c) = None /\ c_inserts (codes c) calls = true /\ calls <> []
  /\ exists b, breaks s (c_file (codes c)) = Some b /\ forall n, In n calls <-> In n b /\ In n (c_lines (codes c)).
Proof.
  intros E CH. destruct (evaluates_decided _ _ _ _ _ _ E CH) as [[_ X]|D]; [discriminate|]. unfold decided, compute in D.
  destruct (c_skip (codes c)) eqn:SK.
  { destruct D as (f & _ & D). discriminate. }
  destruct (c_calls (codes c)) as [calls'|] eqn:CA.
  { destruct (breaks s _) as [b|]; [|discriminate]. destruct (compute_force _ _ _) as [found force]. destruct D as (f & _ & D). unfold decide in D. cbn [i_skip i_found i_new] in D.
    destruct can_skip, found, f; discriminate. }
  split; [reflexivity|]. destruct (functions s _).
  { destruct D as (f & _ & D). unfold decide in D. cbn [i_skip i_found i_new] in D. destruct can_skip, f; discriminate. }
  destruct (breaks s _) as [[|b0 b]|]; try (destruct D as (f & _ & D); unfold decide in D; cbn [i_skip i_found i_new] in D; destruct can_skip; discriminate).
  unfold generate in D. destruct (filter (fun m => mem_line m (c_lines (codes c))) (b0 :: b)) as [|x r] eqn:F.
  { destruct D as (f & _ & D). unfold decide in D. cbn [i_skip i_found i_new] in D. destruct can_skip; discriminate. }
  destruct D as (f & _ & D). unfold decide in D. cbn [i_skip i_found i_new] in D. destruct can_skip, f; try discriminate.
  destruct (c_inserts (codes c) (x :: r)) eqn:IN; [|discriminate]. injection D as ->. split; [exact IN|]. split; [discriminate|].
  exists (b0 :: b). split; [reflexivity|]. intros n. rewrite <- F, filter_In, mem_line_In. tauto.
Qed.
Theorem framecache_left codes s c d : evaluates codes s c false true d -> changed s = false ->
  c_skip (codes c) = true \/ (functions s (c_name (codes c)) = false
    /\ exists b, breaks s (c_file (codes c)) = Some b /\ forall n, In n b -> ~ In n (c_lines (codes c))) -> d = Left.
Proof.
  intros E CH H. destruct (evaluates_decided _ _ _ _ _ _ E CH) as [[X _]|D]; [discriminate|]. unfold decided, compute in D.
  destruct (c_skip (codes c)) eqn:SK.
  { destruct D as (f & _ & ->). reflexivity. }
  destruct H as [H|(FB & b & HB & N0)]; [discriminate|]. rewrite FB, HB in D. destruct (c_calls (codes c)) as [calls|].
  - unfold compute_force in D. destruct (filter (fun m => mem_line m b) (c_lines (codes c))) as [|x r] eqn:F.
    + destruct D as (f & _ & ->). reflexivity.
    + exfalso. assert (X : In x (x :: r)) by now left. rewrite <- F in X. apply filter_In in X as [X1 X2]. apply mem_line_In in X2. exact (N0 _ X2 X1).
  - destruct b as [|b0 b]; [destruct D as (f & _ & ->); reflexivity|]. unfold generate in D.
    destruct (filter (fun m => mem_line m (c_lines (codes c))) (b0 :: b)) as [|x r] eqn:F.
    + destruct D as (f & _ & ->). reflexivity.
    + exfalso. assert (X : In x (x :: r)) by now left. rewrite <- F in X. apply filter_In in X as [X1 X2]. apply mem_line_In in X2. exact (N0 _ X1 X2).
Qed.
(** Evaluating a frame fails only for a generator whose code was replaced, when the file has no entry for its breakpoints. *)
Theorem framecache_failed codes s c stepping can_skip : evaluates codes s c stepping can_skip Failed -> changed s = false ->
  stepping = false /\ c_skip (codes c) = false /\ c_calls (codes c) <> None /\ breaks s (c_file (codes c)) = None.
Proof.
  intros E CH. assert (ST : stepping = false).
  { clear CH. remember Failed as d eqn:HD. destruct E as [? ? ? st ? ? ? H|? ? ? ? st ? ? ? ? ? ? H]; cbn [step] in H; destruct st; try reflexivity; [injection H as _ H; congruence|discriminate]. }
  split; [exact ST|]. destruct (evaluates_decided _ _ _ _ _ _ E CH) as [[_ X]|D]; [discriminate|]. unfold decided, compute in D.
  destruct (c_skip (codes c)); [destruct D as (f & _ & D); discriminate|]. split; [reflexivity|].
  assert (ND : forall m b fo n f, Failed <> decide can_skip (Info m b fo n) f).
  { intros m b fo n f. unfold decide. cbn [i_skip i_found i_new]. destruct b, can_skip, fo, f, n; discriminate. }
  destruct (c_calls (codes c)) as [calls|].
  - split; [discriminate|]. destruct (breaks s _) as [b|]; [|reflexivity]. destruct (compute_force _ _ _). destruct D as (f & _ & D). now apply ND in D.
  - destruct (functions s _); [destruct D as (f & _ & D); now apply ND in D|].
    destruct (breaks s _) as [[|b0 b]|]; try (destruct D as (f & _ & D); now apply ND in D). destruct (generate _ _). destruct D as (f & _ & D). now apply ND in D.
Qed.

(** While stepping into everything every frame is traced; and so is one a plugin wants to see, unless its evaluation fails. *)
Theorem framecache_stepping codes s c can_skip d : evaluates codes s c true can_skip d -> d = Traced.
Proof.
  intros E. remember true as st eqn:HS. destruct E as [? ? ? st ? ? ? H|? ? ? ? st ? ? ? ? ? ? H]; subst st; cbn [step] in H; [injection H as _ H; congruence|discriminate].
Qed.
Theorem framecache_plugin codes s c d : evaluates codes s c false false d -> changed s = false -> c_skip (codes c) = false -> d = Traced \/ d = Failed.
Proof.
  intros E CH SK. destruct (evaluates_decided _ _ _ _ _ _ E CH) as [[_ ->]|D]; [now left|]. unfold decided in D.
  destruct (compute _ _ _) as [[[found new] force]|]; [|now right]. destruct D as (f & _ & ->). left. unfold decide. cbn [i_skip]. now rewrite SK.
Qed.

(** * Concrete cases *)
Definition some_codes (c : N) : code :=
  if (c =? 0)%N then Code 7 1 [3%N; 4%N; 5%N] false (fun _ => true) None
  else if (c =? 1)%N then Code 7 1 [3%N; 4%N; 5%N] false (fun _ => true) (Some [4%N])
  else Code 7 2 [8%N] false (fun _ => false) None.
Ltac all_acts := repeat (apply Forall_cons; [cbn [quiet of_thread]; first [exact I|intros X; (discriminate X || destruct X)]|]); apply Forall_nil.
(** A thread reads the breakpoints while they are being changed; what it stores is not used later. *)
Definition race : list act :=
  [SetBreaks 7 (Some [4%N]); Bump; Start 1 0 false true; ReadTime 1; ReadBreaks 1; SetBreaks 7 (Some [4%N; 5%N; 8%N]); Bump; Finish 1].
Example ex_race : evaluates some_codes (run some_codes start race) 0 false true (Replaced [4%N; 5%N]) /\ changed (run some_codes start race) = false
  /\ breaks (run some_codes start race) 7 = Some [4%N; 5%N; 8%N]
  /\ get N.eqb 0%N (infos (run some_codes start race)) = Some (Info 1 false true (Some [4%N])).
Proof.
  split; [|repeat split].
  eapply (eval_new some_codes race [ReadTime 2; Start 3 0 false true; ReadTime 3; ReadBreaks 2; Bump] 2); [reflexivity| | |reflexivity].
  - all_acts.
  - all_acts.
Qed.
(** The same decision is found again as long as nothing changes; where calls cannot be inserted the frame is traced. *)
Example ex_again : evaluates some_codes (run some_codes start (race ++ [Start 2 0 false true; ReadTime 2; ReadBreaks 2; Finish 2])) 0 false true (Replaced [4%N; 5%N]).
Proof. eapply (eval_known some_codes _ 5). reflexivity. Qed.
Example ex_traced : evaluates some_codes (run some_codes start race) 2 false true Traced.
Proof. eapply (eval_new some_codes race [ReadTime 2; ReadBreaks 2] 2); [reflexivity|all_acts|all_acts|reflexivity]. Qed.
Example ex_left : evaluates some_codes (run some_codes start [SetBreaks 7 (Some [8%N]); Bump]) 0 false true Left.
Proof. eapply (eval_new some_codes _ [ReadTime 2; ReadBreaks 2] 2); [reflexivity|all_acts|all_acts|reflexivity]. Qed.
Example ex_function : evaluates some_codes (run some_codes start [SetFunctions (N.eqb 1); Bump]) 0 false true Traced.
Proof. eapply (eval_new some_codes _ [ReadTime 2; ReadBreaks 2] 2); [reflexivity|all_acts|all_acts|reflexivity]. Qed.

Example ex_stepping : evaluates some_codes (run some_codes start race) 0 true true Traced.
Proof. eapply (eval_known some_codes _ 5). reflexivity. Qed.
Example ex_plugin : evaluates some_codes (run some_codes start []) 0 false false Traced.
Proof. eapply (eval_new some_codes [] [ReadTime 2; ReadBreaks 2] 2); [reflexivity|all_acts|all_acts|reflexivity]. Qed.

(** * What does not hold *)
(** A generator which was started with a breakpoint cannot be resumed once all breakpoints of its file are removed: evaluating it fails. *)
Theorem framecache_failed_refuted : exists codes s c, changed s = false /\ c_skip (codes c) = false
  /\ (exists before, s = run codes before [SetBreaks (c_file (codes c)) None; Bump] /\ exists b, breaks before (c_file (codes c)) = Some b /\ exists n, In n b /\ c_calls (codes c) = Some [n])
  /\ evaluates codes s c false true Failed.
Proof.
  exists some_codes, (run some_codes start [SetBreaks 7 (Some [4%N]); Bump; SetBreaks 7 None; Bump]), 1%N. split; [reflexivity|]. split; [reflexivity|]. split.
  - exists (run some_codes start [SetBreaks 7 (Some [4%N]); Bump]). split; [reflexivity|]. exists [4%N]. split; [reflexivity|]. exists 4%N. split; [now left|reflexivity].
  - eapply (eval_new some_codes _ [ReadTime 2; ReadBreaks 2] 2); [reflexivity|all_acts|all_acts|reflexivity].
Qed.
(** A generator whose code has all the calls it needs stays untraced when it is resumed first, and is traced from the second time on. *)
Theorem framecache_again_refuted : exists codes s s' c t, evaluates codes s c false true Left /\ evaluates codes s' c false true Traced
  /\ s' = run codes s [Start t c false true; ReadTime t; ReadBreaks t; Finish t].
Proof.
  exists some_codes, (run some_codes start [SetBreaks 7 (Some [4%N]); Bump]). eexists. exists 1%N, 2%N. split; [|split; [|reflexivity]].
  - eapply (eval_new some_codes _ [ReadTime 2; ReadBreaks 2] 2); [reflexivity|all_acts|all_acts|reflexivity].
  - change (run some_codes (run some_codes start [SetBreaks 7 (Some [4%N]); Bump]) [Start 2 1 false true; ReadTime 2; ReadBreaks 2; Finish 2])
      with (run some_codes start [SetBreaks 7 (Some [4%N]); Bump; Start 2 1 false true; ReadTime 2; ReadBreaks 2; Finish 2]).
    eapply (eval_known some_codes _ 5). reflexivity.
Qed.
Print Assumptions framecache_seen_to.
Print Assumptions framecache_function.
Print Assumptions framecache_replaced.
Print Assumptions framecache_left.
Print Assumptions framecache_failed.
Print Assumptions framecache_failed_refuted.
Print Assumptions framecache_again_refuted.
Print Assumptions framecache_stepping.
Print Assumptions framecache_plugin.
