(** Property C77: stepping skips the functions which are marked with a comment, and only these. *)
From Coq Require Import String.
From Coq Require Import List NArith ZArith Bool Arith Lia.
From Verif Require Import Base PatchArgs PatchArgsProps EvalText DontTrace.
Import ListNotations.
Open Scope nat_scope.
Open Scope list_scope.

(** Specification. *)

(** A line with a mark: after some number sign there is the word @DontTrace. *)
Definition mark_on (line : str) : Prop := exists a b c, line = a ++ [35%N] ++ b ++ lit "@DontTrace" ++ c.

(** A decorator line: white space, then an at sign. *)
Definition deco (line : str) : Prop := exists w r, Forall (fun c => space Text c = true) w /\ line = w ++ [64%N] ++ r.

Definition deco_at (lines : list str) (i : nat) : Prop := exists l, nth_error lines i = Some l /\ deco l.

(** A mark on line [t] (counted from 0) reaches itself and the decorator lines right above and right below. *)
Definition reaches (lines : list str) (t k : nat) : Prop :=
  k = t \/ (k < t /\ forall i, k <= i < t -> deco_at lines i) \/ (t < k /\ forall i, t < i <= k -> deco_at lines i).

(** A function whose first line (counted from 1) is [first]: a mark reaches that line or the one above. *)
Definition marked (lines : list str) (first : nat) : Prop :=
  exists t l k, nth_error lines t = Some l /\ mark_on l /\ reaches lines t k /\ (first = k + 1 \/ first = k + 2).

(** A mark below which nothing but decorator lines comes, in particular one on the last line. *)
Definition at_end (lines : list str) : Prop :=
  exists t l, nth_error lines t = Some l /\ mark_on l /\ forall i x, t < i -> nth_error lines i = Some x -> deco x.

(** The client's text for switching the marks on. *)
Definition says_true (text : str) : Prop :=
  exists w1 w2, Forall (fun c => space Text c = true) w1 /\ Forall (fun c => space Text c = true) w2 /\
                text = w1 ++ lit "true" ++ w2.

Definition no_edit (f : N) (ops : list op) : Prop := forall l, ~ In (Edit f l) ops.
Definition no_command (ops : list op) : Prop := forall t, In (Command t) ops -> t = [].

(** Lemmas. *)

Lemma decorator_spec l : decorator l = true <-> deco l.
Proof.
  unfold deco. induction l as [|c l IH]; cbn [decorator].
  - split; [discriminate|]. intros (w & r & _ & e). destruct w; discriminate.
  - destruct (space Text c) eqn:E.
    + rewrite IH. split.
      * intros (w & r & hw & ->). exists (c :: w), r. split; [constructor; auto|reflexivity].
      * intros (w & r & hw & e). destruct w as [|x w].
        { injection e as -> _. discriminate. }
        injection e as <- ->. exists w, r. split; [now inversion hw|reflexivity].
    + split.
      * intros h. apply N.eqb_eq in h as ->. exists [], l. split; [constructor|reflexivity].
      * intros (w & r & hw & e). destruct w as [|x w].
        { injection e as -> _. reflexivity. }
        injection e as <- _. inversion hw; congruence.
Qed.

Lemma comment_spec l x : comment l = Some x -> exists a, ~ In 35%N a /\ l = a ++ x /\ exists r, x = 35%N :: r.
Proof.
  revert x. induction l as [|c l IH]; cbn [comment]; intros x h; [discriminate|].
  destruct (N.eqb_spec c 35) as [->|n].
  - injection h as <-. exists []. split; [intros []|]. split; [reflexivity|now exists l].
  - destruct (IH _ h) as (a & ha & -> & hr). exists (c :: a). split; [|split; [reflexivity|exact hr]].
    intros [e|i]; [now apply n|now apply ha].
Qed.

Lemma comment_none l : comment l = None -> ~ In 35%N l.
Proof.
  induction l as [|c l IH]; cbn [comment]; intros h; [intros []|].
  destruct (N.eqb_spec c 35) as [->|n]; [discriminate|]. intros [e|i]; [now apply n|now apply IH].
Qed.

Lemma split_first (a x b y : str) : ~ In 35%N a -> a ++ 35%N :: x = b ++ 35%N :: y -> exists d, 35%N :: x = d ++ 35%N :: y.
Proof.
  revert b. induction a as [|c a IH]; intros b ha e; cbn [app] in e.
  - exists b. exact e.
  - destruct b as [|d b]; cbn [app] in e.
    + injection e as -> _. destruct ha. now left.
    + injection e as -> e. apply (IH b); [|exact e]. intros i. apply ha. now right.
Qed.

Lemma tagged_spec l : tagged l = true <-> mark_on l.
Proof.
  unfold tagged, mark_on. destruct (comment l) as [x|] eqn:E.
  - apply comment_spec in E as (a & ha & -> & r & ->).
    change (35%N :: r) with ([35%N] ++ r). rewrite contains_spec. split.
    + intros (p & q & e). destruct p as [|y p].
      { unfold tag in e. change (lit "@DontTrace") with (64%N :: lit "DontTrace") in e. discriminate. }
      injection e as <- ->. exists a, p, q. reflexivity.
    + intros (p & q & s & e). cbn [app] in e. destruct (split_first _ _ _ _ ha e) as (d & hd).
      exists (d ++ [35%N] ++ q), s. cbn [app]. rewrite hd. rewrite <- !app_assoc. reflexivity.
  - apply comment_none in E. split; [discriminate|]. intros (p & q & s & ->). destruct E.
    apply in_or_app. right. now left.
Qed.

Lemma deco_at_nth (lines : list str) i : i < length lines -> (decorator (nth i lines []) = true <-> deco_at lines i).
Proof.
  intros h. rewrite decorator_spec. unfold deco_at. destruct (nth_error lines i) as [l|] eqn:E.
  - rewrite (nth_error_nth _ _ _ E). split; [eauto|]. intros (x & e & d). unfold str in *. assert (l = x) as -> by congruence. exact d.
  - apply nth_error_None in E. lia.
Qed.

Lemma up_spec lines n k : n <= length lines ->
  (In k (up lines n) <-> k < n /\ forall i, k <= i < n -> deco_at lines i).
Proof.
  induction n as [|n IH]; intros h; cbn [up].
  - split; [intros []|lia].
  - destruct (decorator (nth n lines [])) eqn:E.
    + apply deco_at_nth in E; [|lia]. cbn [In]. rewrite IH by lia. split.
      * intros [<-|(a & b)].
        { split; [lia|]. intros i hi. assert (i = n) as -> by lia. exact E. }
        split; [lia|]. intros i hi. destruct (Nat.eq_dec i n) as [->|]; [exact E|apply b; lia].
      * intros (a & b). destruct (Nat.eq_dec n k) as [|ne]; [now left|right]. split; [lia|]. intros i hi. apply b. lia.
    + split; [intros []|]. intros (a & b). exfalso.
      assert (d : deco_at lines n) by (apply b; lia). apply deco_at_nth in d; [congruence|lia].
Qed.

Lemma down_some lines fuel : forall j d, down lines j fuel = Some d -> length lines < j + fuel -> j <= length lines ->
  forall k, In k d <-> j <= k < length lines /\ forall i, j <= i <= k -> deco_at lines i.
Proof.
  induction fuel as [|f IH]; intros j d h hf hj k; [lia|]. cbn [down] in h.
  destruct (Nat.leb_spec j (length lines)); [|lia].
  destruct (nth_error lines j) as [l|] eqn:E; [|discriminate].
  assert (hl : j < length lines) by (apply nth_error_Some; congruence).
  destruct (decorator l) eqn:D.
  - apply decorator_spec in D. destruct (down lines (S j) f) as [d'|] eqn:E'; [|discriminate].
    injection h as <-. cbn [In]. rewrite (IH _ _ E') by lia. split.
    + intros [<-|(a & b)].
      * split; [lia|]. intros i hi. assert (i = j) as -> by lia. now exists l.
      * split; [lia|]. intros i hi. destruct (Nat.eq_dec i j) as [->|]; [now exists l|apply b; lia].
    + intros (a & b). destruct (Nat.eq_dec j k) as [|ne]; [now left|right]. split; [lia|]. intros i hi. apply b. lia.
  - injection h as <-. split; [intros []|]. intros (a & b). destruct (b j) as (x & ex & dx); [lia|].
    apply decorator_spec in dx. congruence.
Qed.

Lemma down_none lines fuel : forall j, length lines < j + fuel -> j <= length lines ->
  (down lines j fuel = None <-> forall i x, j <= i -> nth_error lines i = Some x -> deco x).
Proof.
  induction fuel as [|f IH]; intros j hf hj; [lia|]. cbn [down].
  destruct (Nat.leb_spec j (length lines)); [|lia].
  destruct (nth_error lines j) as [l|] eqn:E.
  - assert (hl : j < length lines) by (apply nth_error_Some; congruence).
    destruct (decorator l) eqn:D.
    + apply decorator_spec in D. specialize (IH (S j) ltac:(lia) ltac:(lia)).
      destruct (down lines (S j) f) as [d'|] eqn:E'; cbn [option_map].
      * split; [discriminate|]. intros a. assert (e : Some d' = None) by (apply IH; intros i x hi; apply a; lia). discriminate.
      * split; [|reflexivity]. intros _ i x hi hx. destruct (Nat.eq_dec i j) as [->|].
        { congruence. } destruct IH as [IH _]. apply (IH eq_refl i x); [lia|exact hx].
    + split; [discriminate|]. intros a. specialize (a j l (le_n _) E). apply decorator_spec in a. congruence.
  - apply nth_error_None in E. split; [|reflexivity]. intros _ i x hi hx.
    assert (i < length lines) by (apply nth_error_Some; congruence). lia.
Qed.

Lemma scan_from_some lines rest i : (exists pre, lines = pre ++ rest /\ length pre = i) ->
  forall ig, scan_from lines rest i = Some ig ->
  forall k, In k ig <-> exists t l, i <= t /\ nth_error lines t = Some l /\ mark_on l /\ reaches lines t k /\ k < length lines.
Proof.
  revert i. induction rest as [|l r IH]; intros i (pre & he & hi) ig h k.
  - cbn [scan_from] in h. injection h as <-. split; [intros []|]. intros (t & l & ht & hl & _).
    assert (t < length lines) by (apply nth_error_Some; congruence).
    rewrite he, app_nil_r in *. lia.
  - assert (hn : nth_error lines i = Some l).
    { rewrite he, <- hi. rewrite nth_error_app2 by lia. rewrite Nat.sub_diag. reflexivity. }
    assert (hlen : i < length lines) by (apply nth_error_Some; congruence).
    assert (hnext : exists pre0, lines = pre0 ++ r /\ length pre0 = S i).
    { exists (pre ++ [l]). split; [now rewrite <- app_assoc|]. rewrite app_length. cbn [length]. lia. }
    cbn [scan_from] in h. destruct (tagged l) eqn:T.
    + apply tagged_spec in T. destruct (down lines (S i) (S (length lines))) as [d|] eqn:Dn; [|discriminate].
      destruct (scan_from lines r (S i)) as [t'|] eqn:Sc; [|discriminate]. injection h as <-.
      pose proof (down_some _ _ _ _ Dn ltac:(lia) ltac:(lia)) as hd.
      pose proof (IH _ hnext _ Sc) as ht.
      cbn [In]. rewrite !in_app_iff, up_spec, hd, ht by lia. split.
      * intros [<-|[(a & b)|[(a & b)|(t & x & a)]]].
        -- exists i, l. repeat match goal with |- _ /\ _ => split end; auto. now left.
        -- exists i, l. repeat match goal with |- _ /\ _ => split end; auto; [right; now left|lia].
        -- exists i, l. repeat match goal with |- _ /\ _ => split end; auto; [|lia]. right. right. split; [lia|].
           intros j hj. apply b. lia.
        -- exists t, x. intuition lia.
      * intros (t & x & hit & hx & hm & hr & hk). destruct (Nat.eq_dec t i) as [->|ne].
        -- destruct hr as [->|[hr|(a & b)]]; [now left|right; now left|]. right. right. left. split; [lia|].
           intros j hj. apply b. lia.
        -- right. right. right. exists t, x. intuition lia.
    + rewrite (IH _ hnext _ h). split; intros (t & x & hit & hx & hm & hr & hk); exists t, x;
        repeat match goal with |- _ /\ _ => split end; auto; [lia|].
      destruct (Nat.eq_dec t i) as [->|ne]; [|lia]. apply tagged_spec in hm. congruence.
Qed.

Lemma scan_from_none lines rest i : (exists pre, lines = pre ++ rest /\ length pre = i) ->
  (scan_from lines rest i = None <->
   exists t l, i <= t /\ nth_error lines t = Some l /\ mark_on l /\ forall j x, t < j -> nth_error lines j = Some x -> deco x).
Proof.
  revert i. induction rest as [|l r IH]; intros i (pre & he & hi).
  - cbn [scan_from]. split; [discriminate|]. intros (t & l & ht & hl & _).
    assert (t < length lines) by (apply nth_error_Some; congruence).
    rewrite he, app_nil_r in *. lia.
  - assert (hn : nth_error lines i = Some l).
    { rewrite he, <- hi. rewrite nth_error_app2 by lia. rewrite Nat.sub_diag. reflexivity. }
    assert (hlen : i < length lines) by (apply nth_error_Some; congruence).
    assert (hnext : exists pre0, lines = pre0 ++ r /\ length pre0 = S i).
    { exists (pre ++ [l]). split; [now rewrite <- app_assoc|]. rewrite app_length. cbn [length]. lia. }
    specialize (IH _ hnext). cbn [scan_from]. destruct (tagged l) eqn:T.
    + apply tagged_spec in T. pose proof (down_none lines (S (length lines)) (S i) ltac:(lia) ltac:(lia)) as hd.
      destruct (down lines (S i) (S (length lines))) as [d|].
      * destruct (scan_from lines r (S i)) as [t'|]; cbn [option_map].
        -- split; [discriminate|]. intros (t & x & hit & hx & hm & ha). exfalso.
           destruct (Nat.eq_dec t i) as [->|ne].
           ++ assert (e : Some d = None) by (apply hd; intros j y hj; apply ha; lia). discriminate.
           ++ assert (e : Some t' = None) by (apply IH; exists t, x; repeat match goal with |- _ /\ _ => split end; auto; lia).
              discriminate.
        -- split; [intros _|reflexivity]. destruct IH as [IH _]. destruct (IH eq_refl) as (t & x & a & b).
           exists t, x. split; [lia|exact b].
      * split; [intros _|reflexivity]. exists i, l. repeat match goal with |- _ /\ _ => split end; auto.
        intros j x hj. destruct hd as [hd _]. apply (hd eq_refl). lia.
    + rewrite IH. split; intros (t & x & hit & hx & hm & ha); exists t, x;
        repeat match goal with |- _ /\ _ => split end; auto; [lia|].
      destruct (Nat.eq_dec t i) as [->|ne]; [|lia]. apply tagged_spec in hm. congruence.
Qed.

Lemma should_trace_spec ig first : should_trace ig first = false <-> exists k, In k ig /\ (first = k + 1 \/ first = k + 2).
Proof.
  unfold should_trace. rewrite negb_false_iff, orb_true_iff, !existsb_exists. split.
  - intros [(k & i & e)|(k & i & e)]; apply Z.eqb_eq in e; exists k; split; auto; lia.
  - intros (k & i & [e|e]); [right|left]; exists k; split; auto; apply Z.eqb_eq; lia.
Qed.

(** For every file: a function is taken as marked exactly if a mark reaches its first line or the line above. *)
Theorem marks_found lines ig first : scan lines = Some ig -> (should_trace ig first = false <-> marked lines first).
Proof.
  intros h. rewrite should_trace_spec.
  pose proof (scan_from_some lines lines 0 (ex_intro _ [] (conj eq_refl eq_refl)) ig h) as hs. split.
  - intros (k & i & e). apply hs in i as (t & l & _ & hl & hm & hr & _). exists t, l, k. auto.
  - intros (t & l & k & hl & hm & hr & e). exists k. split; [|exact e]. apply hs. exists t, l.
    repeat match goal with |- _ /\ _ => split end; auto; [lia|].
    assert (hlen : t < length lines) by (apply nth_error_Some; congruence).
    destruct hr as [->|[(a & _)|(a & b)]]; [exact hlen|lia|]. destruct (b k) as (x & ex & _); [lia|].
    apply nth_error_Some. congruence.
Qed.

(** Reading the marks of a file fails exactly if below some mark there are only decorator lines up to the end. *)
Theorem marks_fail lines : scan lines = None <-> at_end lines.
Proof.
  unfold scan. rewrite (scan_from_none lines lines 0 (ex_intro _ [] (conj eq_refl eq_refl))). split.
  - intros (t & l & _ & h). now exists t, l.
  - intros (t & l & h). exists t, l. split; [lia|exact h].
Qed.

Section Session.
Variable code : N -> N * nat.
Notation step := (step code).
Notation run := (run code).

(** After a reload the debugger knows nothing of the files. *)
Definition reloaded (st : state) : state := snd (step st Reload).

(** Invariant: what is kept about file [f] is what is in it; no frame of it among [P] has another answer. *)
Definition ok (P : N -> Prop) (f : N) (L : list str) (st : state) : Prop :=
  disk st f = L /\ (forall ig, cache st f = Some ig -> scan L = Some ig) /\ (forall l, lc st f = Some l -> l = L) /\
  (forall fr b, P fr -> fst (code fr) = f -> skips st fr = Some b ->
     exists ig, scan L = Some ig /\ b = negb (should_trace ig (snd (code fr)))).

Lemma upd_same A (m : N -> A) k v : upd m k v k = v.
Proof. unfold upd. now rewrite N.eqb_refl. Qed.
Lemma upd_other A (m : N -> A) k v x : x <> k -> upd m k v x = m x.
Proof. unfold upd. intros h. destruct (N.eqb_spec x k); congruence. Qed.

Lemma ask_ok P f L st g first r st1 : ok P f L st -> ask st g first = (r, st1) ->
  ok P f L st1 /\ hook st1 = hook st /\ skips st1 = skips st /\
  (g = f -> r = match scan L with Some ig => Some (should_trace ig first) | None => None end).
Proof.
  unfold ok. intros hok. pose proof hok as (hd & hc & hl & hs). unfold ask, getlines.
  destruct (cache st g) as [ig|] eqn:C.
  - intros h. injection h as <- <-. repeat match goal with |- _ /\ _ => split end; auto.
    intros ->. now rewrite (hc _ C).
  - destruct (lc st g) as [l|] eqn:E.
    + destruct (scan l) as [ig|] eqn:Sc; intros h; injection h as <- <-.
      * repeat match goal with |- _ /\ _ => split end; cbn; auto.
        -- intros ig'. destruct (N.eqb_spec f g) as [->|ne]; [rewrite upd_same|rewrite upd_other by auto; auto].
           intros e. injection e as <-. now rewrite <- (hl _ E).
        -- intros ->. now rewrite <- (hl _ E), Sc.
      * repeat match goal with |- _ /\ _ => split end; auto. intros ->. now rewrite <- (hl _ E), Sc.
    + destruct (scan (disk st g)) as [ig|] eqn:Sc; intros h; injection h as <- <-.
      * repeat match goal with |- _ /\ _ => split end; cbn; auto.
        -- intros ig'. destruct (N.eqb_spec f g) as [->|ne]; [rewrite upd_same|rewrite upd_other by auto; auto].
           intros e. injection e as <-. now rewrite <- hd.
        -- intros l. destruct (N.eqb_spec f g) as [->|ne]; [rewrite upd_same|rewrite upd_other by auto; auto]. congruence.
        -- intros ->. now rewrite <- hd, Sc.
      * repeat match goal with |- _ /\ _ => split end; cbn; auto.
        -- intros l. destruct (N.eqb_spec f g) as [->|ne]; [rewrite upd_same|rewrite upd_other by auto; auto]. congruence.
        -- intros ->. now rewrite <- hd, Sc.
Qed.

Lemma skip_ok P f L st fr r st1 : ok P f L st -> should_skip code st fr = (r, st1) ->
  ok P f L st1 /\ hook st1 = hook st /\
  (hook st = true -> P fr -> fst (code fr) = f ->
     r = match scan L with Some ig => Some (negb (should_trace ig (snd (code fr)))) | None => None end) /\
  (hook st = false -> r = Some false).
Proof.
  intros hok. unfold should_skip. destruct (hook st) eqn:H.
  - destruct (skips st fr) as [b|] eqn:K.
    + intros h. injection h as <- <-. repeat match goal with |- _ /\ _ => split end; auto; [|discriminate].
      intros _ hp hf. destruct hok as (_ & _ & _ & hs). destruct (hs fr b hp hf K) as (ig & -> & ->). reflexivity.
    + destruct (ask st (fst (code fr)) (snd (code fr))) as [[t|] st2] eqn:A; intros h; injection h as <- <-;
        pose proof (ask_ok _ _ _ _ _ _ _ _ hok A) as (h1 & h2 & h3 & h4).
      * repeat match goal with |- _ /\ _ => split end; try discriminate; try (cbn; congruence).
        -- destruct h1 as (hd & hc & hl & hs). unfold ok. repeat match goal with |- _ /\ _ => split end; cbn; auto.
           intros x b hp hf. destruct (N.eqb_spec x fr) as [->|ne]; [rewrite upd_same|rewrite upd_other by auto; eauto].
           intros e. injection e as <-. specialize (h4 hf). destruct (scan L) as [ig|]; [|discriminate].
           injection h4 as ->. now exists ig.
        -- intros _ hp hf. specialize (h4 hf). destruct (scan L) as [ig|]; [|discriminate]. now injection h4 as ->.
      * repeat match goal with |- _ /\ _ => split end; try discriminate; auto; [congruence|].
        intros _ hp hf. specialize (h4 hf). destruct (scan L) as [ig|]; [discriminate|reflexivity].
  - intros h. injection h as <- <-. repeat match goal with |- _ /\ _ => split end; auto. discriminate.
Qed.

Lemma step_ok P f L st o : ok P f L st -> (forall l, o <> Edit f l) -> ok P f L (snd (step st o)).
Proof.
  intros hok he. pose proof hok as (hd & hc & hl & hs). unfold ok. destruct o as [text| |g l|g|fr w|fr back w]; cbn [DontTrace.step].
  - destruct text; [exact hok|]. repeat match goal with |- _ /\ _ => split end; cbn; auto.
  - repeat match goal with |- _ /\ _ => split end; cbn; auto; discriminate.
  - repeat match goal with |- _ /\ _ => split end; cbn; auto.
    rewrite upd_other; [exact hd|]. intros ->. now apply (he l).
  - repeat match goal with |- _ /\ _ => split end; cbn; auto.
    intros l. destruct (N.eqb_spec f g) as [->|ne]; [rewrite upd_same; discriminate|rewrite upd_other by auto; auto].
  - destruct (should_skip code st fr) as [[[|]|] st1] eqn:S; pose proof (skip_ok _ _ _ _ _ _ _ hok S) as (h1 & _); exact h1.
  - destruct (should_skip code st fr) as [[[|]|] st1] eqn:S; pose proof (skip_ok _ _ _ _ _ _ _ hok S) as (h1 & _);
      try exact h1.
    destruct w; [|exact h1]. destruct back as [b|]; [|exact h1]. destruct (hook st1); [|exact h1].
    destruct (ask st1 (fst (code b)) (snd (code b))) as [[[|]|] st2] eqn:A;
      pose proof (ask_ok _ _ _ _ _ _ _ _ h1 A) as (h2 & _); exact h2.
Qed.

Lemma run_cons st o ops : snd (run st (o :: ops)) = snd (run (snd (step st o)) ops).
Proof. cbn [DontTrace.run]. destruct (step st o) as [x st1]. cbn [snd]. now destruct (run st1 ops). Qed.

Lemma run_app st a b : snd (run st (a ++ b)) = snd (run (snd (run st a)) b).
Proof.
  revert st. induction a as [|o a IH]; intros st; [reflexivity|]. cbn [app]. rewrite !run_cons. apply IH.
Qed.

Lemma run_ok P f L ops : forall st, ok P f L st -> no_edit f ops -> ok P f L (snd (run st ops)).
Proof.
  induction ops as [|o ops IH]; intros st hok hn; [exact hok|]. rewrite run_cons. apply IH.
  - apply step_ok; [exact hok|]. intros l ->. apply (hn l). now left.
  - intros l i. apply (hn l). now right.
Qed.

Lemma reloaded_ok st f : ok (fun fr => skips st fr = None) f (disk st f) (reloaded st).
Proof.
  unfold reloaded, ok. cbn. repeat match goal with |- _ /\ _ => split end; cbn; auto; try discriminate. congruence.
Qed.

(** After a reload (or at the start), while the file does not change and the marks are switched on: whatever was done since,
    and whatever the steps want, no event shows a marked function - neither its own lines nor it as the caller to which
    a function returns. *)
Theorem marked_not_shown st f ops o fr :
  no_edit f ops -> fst (code fr) = f -> marked (disk st f) (snd (code fr)) -> skips st fr = None ->
  hook (snd (run (reloaded st) ops)) = true ->
  fst (step (snd (run (reloaded st) ops)) o) <> Shown fr.
Proof.
  intros hn hf hm hs hh. pose proof (run_ok _ _ _ _ _ (reloaded_ok st f) hn) as hok.
  set (s := snd (run (reloaded st) ops)) in *. set (L := disk st f) in *.
  assert (hno : forall ig, scan L = Some ig -> should_trace ig (snd (code fr)) = false).
  { intros ig e. now apply (marks_found _ _ _ e). }
  destruct o as [text| |g l|g|x w|x back w]; cbn [DontTrace.step fst]; try discriminate.
  - destruct (should_skip code s x) as [[[|]|] st1] eqn:S; cbn [fst]; try discriminate.
    destruct w; [|discriminate]. intros e. injection e as ->.
    pose proof (skip_ok _ _ _ _ _ _ _ hok S) as (_ & _ & h & _). specialize (h hh hs hf).
    destruct (scan L) as [ig|] eqn:E; [|discriminate]. rewrite (hno _ eq_refl) in h. discriminate.
  - destruct (should_skip code s x) as [[[|]|] st1] eqn:S; cbn [fst]; try discriminate.
    destruct w; [|discriminate]. destruct back as [b|]; [|discriminate].
    pose proof (skip_ok _ _ _ _ _ _ _ hok S) as (h1 & h2 & _). rewrite h2, hh.
    destruct (ask st1 (fst (code b)) (snd (code b))) as [[[|]|] st2] eqn:A; cbn [fst]; try discriminate.
    intros e. injection e as ->. pose proof (ask_ok _ _ _ _ _ _ _ _ h1 A) as (_ & _ & _ & h). specialize (h hf).
    destruct (scan L) as [ig|] eqn:E; [|discriminate]. rewrite (hno _ eq_refl) in h. discriminate.
Qed.

Lemma traced st f first ig : ~ marked (disk st f) first -> scan (disk st f) = Some ig -> should_trace ig first = true.
Proof. intros h e. apply not_false_iff_true. intros h'. apply h. now apply (marks_found _ _ _ e). Qed.

Lemma scans L : ~ at_end L -> exists ig, scan L = Some ig.
Proof. intros h. destruct (scan L) as [ig|] eqn:E; [now exists ig|]. destruct h. now apply marks_fail. Qed.

(** A function which is not marked is shown when a step wants to stop in it. *)
Theorem unmarked_shown st f ops fr :
  no_edit f ops -> fst (code fr) = f -> ~ marked (disk st f) (snd (code fr)) -> ~ at_end (disk st f) -> skips st fr = None ->
  fst (step (snd (run (reloaded st) ops)) (LineEvent fr true)) = Shown fr.
Proof.
  intros hn hf hm he hs. pose proof (run_ok _ _ _ _ _ (reloaded_ok st f) hn) as hok.
  set (s := snd (run (reloaded st) ops)) in *. destruct (scans _ he) as (ig & E).
  pose proof (traced _ _ _ _ hm E) as ht.
  cbn [DontTrace.step]. destruct (should_skip code s fr) as [r st1] eqn:S.
  pose proof (skip_ok _ _ _ _ _ _ _ hok S) as (_ & _ & h & h').
  assert (r = Some false) as ->; [|reflexivity].
  destruct (hook s) eqn:H; [|now apply h']. rewrite (h eq_refl hs hf), E, ht. reflexivity.
Qed.

(** When a function which is not marked returns to one which is not, the step which waits for it shows the caller. *)
Theorem unmarked_return st ops fr b :
  no_edit (fst (code fr)) ops -> no_edit (fst (code b)) ops -> skips st fr = None ->
  ~ marked (disk st (fst (code fr))) (snd (code fr)) -> ~ at_end (disk st (fst (code fr))) ->
  ~ marked (disk st (fst (code b))) (snd (code b)) -> ~ at_end (disk st (fst (code b))) ->
  fst (step (snd (run (reloaded st) ops)) (ReturnEvent fr (Some b) true)) = Shown b.
Proof.
  intros hn hnb hs hm he hmb heb.
  pose proof (run_ok _ _ _ _ _ (reloaded_ok st (fst (code fr))) hn) as hok.
  pose proof (run_ok _ _ _ _ _ (reloaded_ok st (fst (code b))) hnb) as hokb.
  set (s := snd (run (reloaded st) ops)) in *. destruct (scans _ he) as (ig & E). destruct (scans _ heb) as (igb & Eb).
  pose proof (traced _ _ _ _ hm E) as ht. pose proof (traced _ _ _ _ hmb Eb) as htb.
  cbn [DontTrace.step]. destruct (should_skip code s fr) as [r st1] eqn:S.
  pose proof (skip_ok _ _ _ _ _ _ _ hok S) as (_ & h2 & h & h').
  pose proof (skip_ok _ _ _ _ _ _ _ hokb S) as (hb & _).
  assert (r = Some false) as ->.
  { destruct (hook s) eqn:H; [|now apply h']. rewrite (h eq_refl hs eq_refl), E, ht. reflexivity. }
  destruct (hook st1); [|reflexivity]. destruct (ask st1 (fst (code b)) (snd (code b))) as [rb st2] eqn:A.
  pose proof (ask_ok _ _ _ _ _ _ _ _ hb A) as (_ & _ & _ & hr). rewrite (hr eq_refl), Eb, htb. reflexivity.
Qed.

(** While the marks are switched off they change nothing, whatever is in the files. *)
Theorem off_shown st fr b :
  hook st = false ->
  step st (LineEvent fr true) = (Shown fr, st) /\ step st (ReturnEvent fr (Some b) true) = (Shown b, st).
Proof. intros h. cbn [DontTrace.step]. unfold should_skip. rewrite h. now rewrite h. Qed.

Lemma hook_step st o : (forall t, o = Command t -> t = []) -> hook (snd (step st o)) = hook st.
Proof.
  assert (a : forall st f l, hook (snd (ask st f l)) = hook st).
  { intros s f l. unfold ask, getlines. destruct (cache s f); [reflexivity|]. destruct (lc s f).
    - now destruct (scan l0). - now destruct (scan (disk s f)). }
  assert (k : forall st x, hook (snd (should_skip code st x)) = hook st).
  { intros s x. unfold should_skip. destruct (hook s) eqn:H; [|exact H]. destruct (skips s x); [exact H|].
    pose proof (a s (fst (code x)) (snd (code x))) as e. destruct (ask s (fst (code x)) (snd (code x))) as [[t|] s1];
      cbn [snd hook] in *; congruence. }
  intros h. destruct o as [text| |g l|g|x w|x back w]; cbn [DontTrace.step]; try reflexivity.
  - now rewrite (h _ eq_refl).
  - pose proof (k st x) as e. destruct (should_skip code st x) as [[[|]|] s1]; exact e.
  - pose proof (k st x) as e. destruct (should_skip code st x) as [[[|]|] s1]; try exact e.
    destruct w; [|exact e]. destruct back as [b|]; [|exact e]. destruct (hook s1) eqn:H; [|cbn [snd] in *; congruence].
    pose proof (a s1 (fst (code b)) (snd (code b))) as e'. cbn [snd] in *.
    destruct (ask s1 (fst (code b)) (snd (code b))) as [[[|]|] s2]; cbn [snd] in *; congruence.
Qed.

Lemma hook_run ops : forall st, no_command ops -> hook (snd (run st ops)) = hook st.
Proof.
  induction ops as [|o ops IH]; intros st h; [reflexivity|]. rewrite run_cons, IH.
  - apply hook_step. intros t ->. apply h. now left.
  - intros t i. apply h. now right.
Qed.

Lemma trim_left_app w s : Forall (fun c => space Text c = true) w -> trim_left (w ++ s) = trim_left s.
Proof. induction 1; cbn [app trim_left]; [reflexivity|]. now rewrite H. Qed.

Lemma trim_left_spec s : exists w, Forall (fun c => space Text c = true) w /\ s = w ++ trim_left s.
Proof.
  induction s as [|c s (w & hw & IH)]; cbn [trim_left].
  - exists []. split; [constructor|reflexivity].
  - destruct (space Text c) eqn:E.
    + exists (c :: w). split; [now constructor|]. cbn [app]. now rewrite <- IH.
    + exists []. split; [constructor|reflexivity].
Qed.

Lemma trim_true t : str_eqb (trim t) (lit "true") = true <-> says_true t.
Proof.
  rewrite str_eqb_eq. unfold trim, says_true. split.
  - intros e. destruct (trim_left_spec t) as (w1 & h1 & e1). destruct (trim_left_spec (rev (trim_left t))) as (w2 & h2 & e2).
    exists w1, (rev w2). split; [exact h1|]. split; [now apply Forall_rev|].
    rewrite e1 at 1. f_equal. rewrite <- (rev_involutive (trim_left t)), e2, rev_app_distr, e. reflexivity.
  - intros (w1 & w2 & h1 & h2 & ->). rewrite trim_left_app by exact h1.
    assert (e : trim_left (lit "true" ++ w2) = lit "true" ++ w2) by reflexivity. rewrite e, rev_app_distr.
    rewrite trim_left_app by now apply Forall_rev. reflexivity.
Qed.

(** The last command which says something decides whether the marks are switched on. *)
Theorem last_command st ops text rest :
  text <> [] -> no_command rest -> (hook (snd (run st (ops ++ Command text :: rest))) = true <-> says_true text).
Proof.
  intros ht hr. rewrite run_app, run_cons, hook_run by exact hr. destruct text as [|c text]; [congruence|].
  cbn [DontTrace.step snd hook]. apply trim_true.
Qed.
End Session.

(** Witnesses and findings. *)
Definition nl (s : string) : str := lit s ++ [10%N].

Definition file1 : list str :=
  [nl "# @DontTrace"; nl "@deco"; nl "def a():"; nl "    pass"; nl "@deco"; nl "def b():  # @DontTrace"; nl "    pass"; nl "def c():";
   nl "    pass"].

Example file1_marks : scan file1 = Some [0; 1; 5; 4].
Proof. vm_compute. reflexivity. Qed.

Lemma file1_iff first : marked file1 first <-> In first [1; 2; 3; 5; 6; 7].
Proof.
  assert (e : scan file1 = Some [0; 1; 5; 4]) by (vm_compute; reflexivity).
  rewrite <- (marks_found _ _ _ e), should_trace_spec. split.
  - intros (k & i & h). cbn [In] in i |- *. intuition lia.
  - intros h. cbn [In] in h. destruct h as [<-|[<-|[<-|[<-|[<-|[<-|[]]]]]]].
    + exists 0; cbn [In]; intuition lia. + exists 1; cbn [In]; intuition lia. + exists 1; cbn [In]; intuition lia.
    + exists 4; cbn [In]; intuition lia. + exists 5; cbn [In]; intuition lia. + exists 5; cbn [In]; intuition lia.
Qed.

(** frame 1: a(); frame 2: b(); frame 3: c() *)
Definition code1 (fr : N) : N * nat := (0%N, match fr with 1%N => 2 | 2%N => 5 | _ => 8 end).
Definition start1 : state := init (fun _ => file1).

Example session1 :
  fst (run code1 start1
    [Command (lit " true"); Reload; LineEvent 3 true; LineEvent 1 true; LineEvent 2 true; ReturnEvent 3 (Some 1%N) true;
     ReturnEvent 3 (Some 3%N) true; Command (lit "false"); LineEvent 1 true])
  = [NotShown; NotShown; Shown 3; NotShown; NotShown; NotShown; Shown 3; NotShown; Shown 1].
Proof. vm_compute. reflexivity. Qed.

(** The hypotheses of marked_not_shown, unmarked_shown and unmarked_return hold for this session. *)
Example hyps1 :
  no_edit 0 [Command (lit "true"); LineEvent 3 true] /\ marked (disk start1 0) (snd (code1 1)) /\
  hook (snd (run code1 (reloaded code1 start1) [Command (lit "true"); LineEvent 3 true])) = true /\
  ~ marked (disk start1 0) (snd (code1 3)) /\ ~ at_end (disk start1 0) /\ says_true (lit "true ").
Proof.
  repeat match goal with |- _ /\ _ => split end.
  - intros l [e|[e|[]]]; discriminate.
  - apply file1_iff. cbn. tauto.
  - vm_compute. reflexivity.
  - intros h. apply file1_iff in h. cbn in h. intuition lia.
  - intros h. apply marks_fail in h. vm_compute in h. discriminate.
  - exists [], [32%N]. repeat split; repeat constructor.
Qed.

(** Finding: with a mark on the last line of a file - a complete program - the hook raises an IndexError at every event of
    the functions of that file, while a step is on. *)
Theorem last_line_refuted :
  exists files code fr, ~ marked (files (fst (code fr))) (snd (code fr)) /\
    fst (run code (init files) [Command (lit "true"); LineEvent fr true; LineEvent fr true]) = [NotShown; Raised; Raised].
Proof.
  exists (fun _ => [nl "def a():"; nl "    return 1"; nl ""; nl "def b(): pass  # @DontTrace"]), (fun _ => (0%N, 1)), 7%N.
  split; [|vm_compute; reflexivity]. cbn [fst snd].
  intros (t & l & k & hl & hm & hr & hf). assert (k = 0) as -> by lia.
  destruct hr as [<-|[(a & b)|(a & b)]]; [|destruct (b 0) as (x & ex & dx); [lia|]|lia].
  - injection hl as <-. apply tagged_spec in hm. vm_compute in hm. discriminate.
  - injection ex as <-. apply decorator_spec in dx. vm_compute in dx. discriminate.
Qed.

(** Finding: a function right below a marked function of one line, or the first one inside a marked function, is skipped too,
    although no mark is on its own line and the line above is not a comment. *)
Theorem neighbour_refuted :
  exists lines first, marked lines first /\
    (exists l, nth_error lines (first - 1) = Some l /\ ~ mark_on l /\ ~ deco l) /\
    (exists l, nth_error lines (first - 2) = Some l /\ forall w r, Forall (fun c => space Text c = true) w -> l <> w ++ 35%N :: r).
Proof.
  exists [nl "def a(): return 1  # @DontTrace"; nl "def b():"; nl "    return 2"], 2.
  repeat match goal with |- _ /\ _ => split end.
  - exists 0, (nl "def a(): return 1  # @DontTrace"), 0. split; [reflexivity|]. split; [|split; [now left|now right]].
    apply tagged_spec. vm_compute. reflexivity.
  - exists (nl "def b():"). split; [reflexivity|]. split.
    + intros h. apply tagged_spec in h. vm_compute in h. discriminate.
    + intros h. apply decorator_spec in h. vm_compute in h. discriminate.
  - exists (nl "def a(): return 1  # @DontTrace"). split; [reflexivity|]. intros w r hw e.
    destruct w as [|c w]; [discriminate|]. injection e as <- _. inversion hw; discriminate.
Qed.

(** Finding: what was read first is kept: a mark added to a file later (without a reload through the debugger) has no
    effect, even on calls which come after it and after linecache has read the file anew. *)
Theorem added_late_refuted :
  exists files code lines fr1 fr2, marked lines (snd (code fr2)) /\ fst (code fr1) = fst (code fr2) /\
    fst (run code (init files) [Command (lit "true"); LineEvent fr1 false; Edit (fst (code fr2)) lines; Recheck (fst (code fr2));
                                LineEvent fr2 true]) = [NotShown; NotShown; NotShown; NotShown; Shown fr2].
Proof.
  exists (fun _ => [nl "def a():"; nl "    pass"]), (fun _ => (0%N, 1)), [nl "def a():  # @DontTrace"; nl "    pass"], 1%N, 2%N.
  split; [|split; [reflexivity|vm_compute; reflexivity]].
  exists 0, (nl "def a():  # @DontTrace"), 0. split; [reflexivity|]. split; [|split; [now left|now left]].
  apply tagged_spec. vm_compute. reflexivity.
Qed.

Print Assumptions marks_found.
Print Assumptions marks_fail.
Print Assumptions marked_not_shown.
Print Assumptions unmarked_shown.
Print Assumptions unmarked_return.
Print Assumptions off_shown.
Print Assumptions last_command.
Print Assumptions last_line_refuted.
Print Assumptions neighbour_refuted.
Print Assumptions added_late_refuted.
