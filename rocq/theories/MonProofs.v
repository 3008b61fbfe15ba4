(* Lemmas on the model of sys.monitoring of Mon.v. *)
From Coq Require Import NArith List Bool Lia PeanoNat Permutation.
From Verif Require Import Step Mon.
Import ListNotations.
Local Open Scope N_scope.

(* ----- Threads in a list ----- *)

Lemma nth_put_same t x ts y : nth_error ts t = Some y -> nth_error (put t x ts) t = Some x.
Proof. revert t. induction ts as [|z ts IH]; intros [|t] H; cbn in *; try discriminate; auto. Qed.

Lemma nth_put_other t u x ts : t <> u -> nth_error (put t x ts) u = nth_error ts u.
Proof.
  revert t u. induction ts as [|z ts IH]; intros [|t] [|u] H; cbn; try reflexivity; try congruence.
  apply IH. congruence.
Qed.

Lemma nth_put t u x ts y : nth_error ts t = Some y ->
  nth_error (put t x ts) u = if Nat.eqb u t then Some x else nth_error ts u.
Proof.
  intros H. destruct (Nat.eqb_spec u t) as [-> |N0]; [eapply nth_put_same; eauto|].
  apply nth_put_other. congruence.
Qed.

Lemma put_split t th x ts : nth_error ts t = Some th ->
  exists l1 l2, concat (map frames ts) = l1 ++ frames th ++ l2 /\
    concat (map frames (put t x ts)) = l1 ++ frames x ++ l2.
Proof.
  revert t. induction ts as [|z ts IH]; intros [|t] H; cbn in *; try discriminate.
  - injection H as ->. exists [], (concat (map frames ts)). auto.
  - destruct (IH _ H) as (l1 & l2 & E1 & E2). exists (frames z ++ l1), l2. rewrite E1, E2, <- !app_assoc. auto.
Qed.

Lemma in_concat_frames f ts : In f (concat (map frames ts)) <->
  exists u th, nth_error ts u = Some th /\ In f (frames th).
Proof.
  rewrite in_concat. split.
  - intros (l & H1 & H2). apply in_map_iff in H1. destruct H1 as (th & <- & H1).
    apply In_nth_error in H1. destruct H1 as (u & H1). eauto.
  - intros (u & th & H1 & H2). exists (frames th). split; auto. apply in_map.
    eapply nth_error_In; eauto.
Qed.

(* All frames there are. *)
Definition live (s : mstate) : list mf := concat (map frames (thrs s)) ++ idle s.

Lemma in_live f s : In f (live s) <->
  (exists u th, nth_error (thrs s) u = Some th /\ In f (frames th)) \/ In f (idle s).
Proof. unfold live. rewrite in_app_iff, in_concat_frames. reflexivity. Qed.

(* ----- Enabling events ----- *)

(* Enabling only adds local events. *)
Record grows (m m' : mon) : Prop := {
  g_on : mon_on m' = mon_on m;
  g_dst : dst m' = dst m;
  g_dln : dln m' = dln m;
  g_lev : forall c, lev m c = true -> lev m' c = true;
  g_rev : forall c, rev m c = true -> rev m' c = true
}.

Lemma grows_refl m : grows m m.
Proof. constructor; auto. Qed.

Lemma grows_trans a b c : grows a b -> grows b c -> grows a c.
Proof.
  intros [A1 A2 A3 A4 A5] [B1 B2 B3 B4 B5].
  constructor; [congruence|congruence|congruence|auto|auto].
Qed.

Lemma add_mono g c x : g x = true -> add g c x = true.
Proof. unfold add. intros ->. apply orb_true_r. Qed.

Lemma add_same g c : add g c c = true.
Proof. unfold add. rewrite N.eqb_refl. reflexivity. Qed.

Lemma set_line_grows c m : grows m (set_line c m).
Proof. constructor; auto. cbn. intros. apply add_mono; auto. Qed.

Lemma set_ret_grows c m : grows m (set_ret c m).
Proof. constructor; auto. cbn. intros. apply add_mono; auto. Qed.

Lemma set_both_grows c m : grows m (set_ret c (set_line c m)).
Proof. eapply grows_trans; [apply set_line_grows|apply set_ret_grows]. Qed.

Lemma enable_step_grows i f m : grows m (enable_step i f m).
Proof.
  unfold enable_step. destruct (step i); try apply set_both_grows; try apply grows_refl;
    destruct (same _ _); auto using grows_refl, set_both_grows, set_ret_grows.
Qed.

Lemma enable_grows k i f m : grows m (enable k i f m).
Proof.
  unfold enable. destruct (k_skip k); [apply grows_refl|].
  destruct (k_filt k).
  - destruct (is_step (step i)); auto using grows_refl, enable_step_grows.
  - assert (G : grows m (match k_lines k with [] => m | _ => set_line (mcode f) m end)).
    { destruct (k_lines k); auto using grows_refl, set_line_grows. }
    destruct (is_step (step i)); auto. eapply grows_trans; [exact G|apply enable_step_grows].
Qed.

Lemma enable_all_grows w s i fs m : grows m (enable_all w s i fs m).
Proof.
  revert m. induction fs as [|f fs IH]; intros m; [apply grows_refl|]. cbn [enable_all].
  eapply grows_trans; [apply enable_grows|apply IH].
Qed.

(* What is enabled for a frame. *)
Lemma enable_line k i f m : k_skip k = false -> k_filt k = false -> k_lines k <> [] ->
  lev (enable k i f m) (mcode f) = true.
Proof.
  intros H1 H2 H3. unfold enable. rewrite H1, H2.
  assert (L : lev (match k_lines k with [] => m | _ => set_line (mcode f) m end) (mcode f) = true).
  { destruct (k_lines k); [congruence|]. cbn. apply add_same. }
  destruct (is_step (step i)); auto. apply enable_step_grows. exact L.
Qed.

Definition into_like (c : cmd) : bool :=
  match c with Into | IntoMy | IntoCo | Suspend => true | _ => false end.

Definition over_like (c : cmd) : bool := match c with Over | OverMy => true | _ => false end.

Definition return_like (c : cmd) : bool := match c with Return | ReturnMy => true | _ => false end.

Lemma same_true a b : same a b = true <-> a = b.
Proof.
  destruct a as [a|], b as [b|]; cbn; split; try congruence.
  - intros H. apply N.eqb_eq in H. congruence.
  - intros [= ->]. apply N.eqb_refl.
Qed.

Lemma enable_into k i f m : k_skip k = false -> into_like (step i) = true ->
  lev (enable k i f m) (mcode f) = true /\ rev (enable k i f m) (mcode f) = true.
Proof.
  intros H1 H2. unfold enable. rewrite H1.
  assert (is_step (step i) = true) as -> by (destruct (step i); auto).
  assert (E : forall m, lev (enable_step i f m) (mcode f) = true
                        /\ rev (enable_step i f m) (mcode f) = true).
  { intros m'. unfold enable_step. destruct (step i); try discriminate; cbn; rewrite !add_same; auto. }
  destruct (k_filt k); apply E.
Qed.

Lemma enable_over k i f m : k_skip k = false -> over_like (step i) = true ->
  stop i = Some (mid f) ->
  lev (enable k i f m) (mcode f) = true /\ rev (enable k i f m) (mcode f) = true.
Proof.
  intros H1 H2 H3. unfold enable. rewrite H1.
  assert (is_step (step i) = true) as -> by (destruct (step i); auto).
  assert (E : forall m, lev (enable_step i f m) (mcode f) = true
                        /\ rev (enable_step i f m) (mcode f) = true).
  { intros m'. unfold enable_step. rewrite H3.
    assert (same (Some (mid f)) (Some (mid f)) = true) as -> by (apply same_true; auto).
    destruct (step i); try discriminate; cbn; rewrite !add_same; auto. }
  destruct (k_filt k); apply E.
Qed.

Lemma enable_return k i f m : k_skip k = false -> return_like (step i) = true ->
  stop i = Some (mid f) -> rev (enable k i f m) (mcode f) = true.
Proof.
  intros H1 H2 H3. unfold enable. rewrite H1.
  assert (is_step (step i) = true) as -> by (destruct (step i); auto).
  assert (E : forall m, rev (enable_step i f m) (mcode f) = true).
  { intros m'. unfold enable_step. rewrite H3.
    assert (same (Some (mid f)) (Some (mid f)) = true) as -> by (apply same_true; auto).
    destruct (step i); try discriminate; cbn; rewrite !add_same; auto. }
  destruct (k_filt k); apply E.
Qed.

(* Enabling the frames of a list: what holds after enabling one of them. *)
Lemma enable_all_in w s i fs f (P : mon -> Prop) : In f fs ->
  (forall m, P (enable (code_info w s (mcode f)) i f m)) ->
  (forall m m', grows m m' -> P m -> P m') ->
  forall m, P (enable_all w s i fs m).
Proof.
  intros H1 H2 H3. induction fs as [|g fs IH]; intros m; [destruct H1|].
  cbn [enable_all]. destruct H1 as [-> |H1].
  - eapply H3; [apply enable_all_grows|apply H2].
  - apply IH, H1.
Qed.

(* code_info only reads the cache and the breakpoints. *)
Lemma code_info_ext w s s' c : cache s' = cache s -> mtime s' = mtime s ->
  mbrks s' = mbrks s -> mfuncs s' = mfuncs s -> code_info w s' c = code_info w s c.
Proof. intros H1 H2 H3 H4. unfold code_info. rewrite H1, H2, H3, H4. reflexivity. Qed.

Lemma enable_all_ext w s s' i fs m : cache s' = cache s -> mtime s' = mtime s ->
  mbrks s' = mbrks s -> mfuncs s' = mfuncs s ->
  enable_all w s' i fs m = enable_all w s i fs m.
Proof.
  intros H1 H2 H3 H4. revert m. induction fs as [|f fs IH]; intros m; [reflexivity|].
  cbn [enable_all]. rewrite IH. f_equal. f_equal. apply code_info_ext; auto.
Qed.

(* Everything but the monitoring is the same, and that only grows. *)
Record tuned (s s' : mstate) : Prop := {
  t_thrs : thrs s' = thrs s;
  t_idle : idle s' = idle s;
  t_fresh : fresh s' = fresh s;
  t_mtime : mtime s' = mtime s;
  t_cache : cache s' = cache s;
  t_brks : mbrks s' = mbrks s;
  t_funcs : mfuncs s' = mfuncs s;
  t_mon : grows (mn s) (mn s')
}.

Lemma tuned_refl s : tuned s s.
Proof. constructor; auto using grows_refl. Qed.

Lemma tuned_trans a b c : tuned a b -> tuned b c -> tuned a c.
Proof.
  intros [A1 A2 A3 A4 A5 A6 A7 A8] [B1 B2 B3 B4 B5 B6 B7 B8].
  constructor; try congruence. eapply grows_trans; eauto.
Qed.

Lemma enable_threads_tuned w ts s : tuned s (enable_threads w ts s).
Proof.
  revert s. induction ts as [|th ts IH]; intros s; [apply tuned_refl|]. cbn [enable_threads].
  eapply tuned_trans; [|apply IH]. constructor; auto. cbn. apply enable_all_grows.
Qed.

Lemma enable_thread_tuned w t s : tuned s (enable_thread w t s).
Proof.
  unfold enable_thread. destruct (nth_error (thrs s) t); [|apply tuned_refl].
  constructor; auto. cbn. apply enable_all_grows.
Qed.

Lemma enable_threads_in w ts s th f (P : mon -> Prop) : In th ts -> In f (frames th) ->
  (forall m, P (enable (code_info w s (mcode f)) (nfo th) f m)) ->
  (forall m m', grows m m' -> P m -> P m') ->
  P (mn (enable_threads w ts s)).
Proof.
  intros H1 H2 H3 H4. revert s H3. induction ts as [|x ts IH]; intros s H3; [destruct H1|].
  cbn [enable_threads]. destruct H1 as [-> |H1].
  - eapply H4; [apply t_mon, enable_threads_tuned|]. cbn. eapply enable_all_in; eauto.
  - apply IH; auto.
Qed.

(* ----- Suspending ----- *)

Lemma nth_others t u ts :
  nth_error (suspend_others t ts) u =
  option_map (fun x => if Nat.eqb u t then x
                       else Thr (frames x) (mark_suspended false (nfo x)) (wt x))
    (nth_error ts u).
Proof.
  revert t u. induction ts as [|z ts IH]; intros [|t] [|u]; cbn; try reflexivity.
  - rewrite nth_error_map. reflexivity.
  - apply IH.
Qed.

Definition marked (w : mworld) (all : bool) (t u : nat) (x : thr) : thr :=
  Thr (frames x)
    (if Nat.eqb u t then mark_suspended true (nfo x)
     else if all || single w then mark_suspended false (nfo x) else nfo x) (wt x).

Record suspended (w : mworld) (t : nat) (pause all : bool) (s s' : mstate) : Prop := {
  s_thrs : forall u, nth_error (thrs s') u = option_map (marked w all t u) (nth_error (thrs s) u);
  s_idle : idle s' = idle s;
  s_fresh : fresh s' = fresh s;
  s_mtime : mtime s' = mtime s;
  s_cache : cache s' = cache s;
  s_brks : mbrks s' = mbrks s;
  s_funcs : mfuncs s' = mfuncs s;
  s_on : mon_on (mn s') = pause || (all || single w) || mon_on (mn s);
  s_dst : forall c, dst (mn s') c = false;
  s_dln : forall c o, dln (mn s') c o = false;
  s_lev : forall c, lev (mn s) c = true -> lev (mn s') c = true;
  s_rev : forall c, rev (mn s) c = true -> rev (mn s') c = true
}.

Lemma marked_eta w all t u x : all || single w = false -> Nat.eqb u t = false ->
  marked w all t u x = x.
Proof. intros H1 H2. unfold marked. rewrite H1, H2. destruct x; reflexivity. Qed.

Lemma set_suspend_spec w t pause all s th : nth_error (thrs s) t = Some th ->
  suspended w t pause all s (set_suspend w t pause all s).
Proof.
  intros H. unfold set_suspend. rewrite H.
  set (s1 := with_thrs (put t (Thr (frames th) (mark_suspended true (nfo th)) (wt th)) (thrs s)) s).
  set (s2 := if all || single w then suspend_all w t s1 else s1).
  set (s3 := if pause then enable_thread w t (with_mon (set_on true (mn s2)) s2) else s2).
  assert (T1 : forall u, nth_error (thrs s1) u
    = option_map (fun x => if Nat.eqb u t then Thr (frames x) (mark_suspended true (nfo x)) (wt x) else x)
        (nth_error (thrs s) u)).
  { intros u. cbn. rewrite (nth_put t u _ _ _ H). destruct (Nat.eqb_spec u t) as [-> |_].
    - rewrite H. reflexivity.
    - destruct (nth_error (thrs s) u); reflexivity. }
  assert (T2 : (forall u, nth_error (thrs s2) u = option_map (marked w all t u) (nth_error (thrs s) u)) /\
    idle s2 = idle s /\ fresh s2 = fresh s /\ mtime s2 = mtime s /\ cache s2 = cache s /\
    mbrks s2 = mbrks s /\ mfuncs s2 = mfuncs s /\
    mon_on (mn s2) = (all || single w) || mon_on (mn s) /\
    (forall c, lev (mn s) c = true -> lev (mn s2) c = true) /\
    (forall c, rev (mn s) c = true -> rev (mn s2) c = true)).
  { unfold s2. destruct (all || single w) eqn:A.
    - unfold suspend_all. cbn [with_mon thrs idle fresh mtime cache mbrks mfuncs mn].
      pose proof (enable_threads_tuned w
        (drop_nth t (suspend_others t (thrs s1)))
        (with_thrs (suspend_others t (thrs s1)) (with_mon (set_on true (mn s1)) s1))) as T.
      destruct T as [T1' T2' T3' T4' T5' T6' T7' T8'].
      cbn [with_mon with_thrs thrs] in *. repeat split; try assumption.
      + intros u. rewrite T1'. cbn. rewrite nth_others. fold s1. rewrite T1.
        destruct (nth_error (thrs s) u) as [x|]; [|reflexivity]. cbn. unfold marked. rewrite A.
        destruct (Nat.eqb u t); reflexivity.
      + cbn [restart mon_on]. rewrite (g_on _ _ T8'). reflexivity.
      + intros c L. cbn [restart lev]. apply (g_lev _ _ T8'). exact L.
      + intros c L. cbn [restart rev]. apply (g_rev _ _ T8'). exact L.
    - repeat split; auto. intros u. rewrite T1. destruct (nth_error (thrs s) u) as [x|]; [|reflexivity].
      cbn. unfold marked. rewrite A. destruct (Nat.eqb u t); destruct x; reflexivity. }
  destruct T2 as (B1 & B2 & B3 & B4 & B5 & B6 & B7 & B8 & B9 & B10).
  assert (T3 : tuned (if pause then with_mon (set_on true (mn s2)) s2 else s2) s3).
  { unfold s3. destruct pause; [apply enable_thread_tuned|apply tuned_refl]. }
  destruct T3 as [C1 C2 C3 C4 C5 C6 C7 C8].
  constructor; cbn [with_mon thrs idle fresh mtime cache mbrks mfuncs mn restart dst dln lev rev mon_on]; auto.
  - intros u. rewrite C1. destruct pause; apply B1.
  - rewrite C2. destruct pause; exact B2.
  - rewrite C3. destruct pause; exact B3.
  - rewrite C4. destruct pause; exact B4.
  - rewrite C5. destruct pause; exact B5.
  - rewrite C6. destruct pause; exact B6.
  - rewrite C7. destruct pause; exact B7.
  - rewrite (g_on _ _ C8). destruct pause; [reflexivity|]. exact B8.
  - intros c L. apply (g_lev _ _ C8). destruct pause; apply B9, L.
  - intros c L. apply (g_rev _ _ C8). destruct pause; apply B10, L.
Qed.

(* ----- Well-formed states ----- *)

Record wfm (w : mworld) (s : mstate) : Prop := {
  w_cache : forall c m k, cache s c = Some (m, k) ->
    m <= mtime s /\ (m = mtime s -> k = compute w (mbrks s) (mfuncs s) c);
  w_nodup : NoDup (map mid (live s));
  w_fresh : forall f, In f (live s) -> mid f < fresh s;
  w_idle : forall f, In f (idle s) -> mgen w (mcode f) = true;
  w_wait : forall t th x, nth_error (thrs s) t = Some th -> wt th = Some x ->
    susp (nfo th) = true /\ In (shown x) (map mid (frames th)) /\
    (at_evt x = ERet -> In (shown x) (map mid (tl (frames th))));
  w_susp : forall t th, nth_error (thrs s) t = Some th -> susp (nfo th) = true ->
    step (nfo th) <> NoStep
}.

Lemma code_info_compute w s c : wfm w s -> code_info w s c = compute w (mbrks s) (mfuncs s) c.
Proof.
  intros W. unfold code_info. destruct (cache s c) as [[m k]|] eqn:E; [|reflexivity].
  destruct (N.eqb_spec m (mtime s)) as [Em|_]; [|reflexivity].
  apply (proj2 (w_cache _ _ W _ _ _ E) Em).
Qed.

Lemma wfm_with_mon w m s : wfm w s -> wfm w (with_mon m s).
Proof. intros [A1 A2 A3 A4 A5 A6]. constructor; assumption. Qed.

Lemma wfm_tuned w s s' : tuned s s' -> wfm w s -> wfm w s'.
Proof.
  intros [T1 T2 T3 T4 T5 T6 T7 _] [A1 A2 A3 A4 A5 A6].
  unfold live in *. constructor; unfold live; rewrite ?T1, ?T2, ?T3, ?T4, ?T5, ?T6, ?T7; auto.
Qed.

Lemma wfm_remember w c s : wfm w s -> wfm w (remember w c s).
Proof.
  intros W. pose proof (code_info_compute w s c W) as E. destruct W as [A1 A2 A3 A4 A5 A6].
  constructor; auto. cbn. intros c' m k. destruct (N.eqb_spec c' c) as [-> |_]; [|apply A1].
  intros [= <- <-]. split; [lia|]. intros _. exact E.
Qed.

Lemma nth_error_ext A (l l' : list A) : (forall u, nth_error l u = nth_error l' u) -> l = l'.
Proof.
  revert l'. induction l as [|x l IH]; intros [|y l'] H; auto.
  - discriminate (H O).
  - discriminate (H O).
  - f_equal; [injection (H O); auto|]. apply IH. intros u. apply (H (S u)).
Qed.

Lemma live_ext s s' : (forall u, option_map frames (nth_error (thrs s') u)
                                = option_map frames (nth_error (thrs s) u)) ->
  idle s' = idle s -> live s' = live s.
Proof.
  intros H1 H2. unfold live. rewrite H2. f_equal. f_equal.
  apply nth_error_ext. intros u. rewrite !nth_error_map. auto.
Qed.

Lemma suspended_live w t p a s s' : suspended w t p a s s' -> live s' = live s.
Proof.
  intros S. apply live_ext; [|apply (s_idle _ _ _ _ _ _ S)]. intros u.
  rewrite (s_thrs _ _ _ _ _ _ S). destruct (nth_error (thrs s) u); reflexivity.
Qed.

Lemma wfm_suspended w t p a s s' : suspended w t p a s s' -> wfm w s -> wfm w s'.
Proof.
  intros S W. assert (L := suspended_live _ _ _ _ _ _ S). destruct W as [A1 A2 A3 A4 A5 A6].
  destruct S as [S1 S2 S3 S4 S5 S6 S7 _ _ _ _ _]. constructor.
  - rewrite S4, S5, S6, S7. exact A1.
  - rewrite L. exact A2.
  - rewrite L, S3. exact A3.
  - rewrite S2. exact A4.
  - intros u th x H. rewrite S1 in H. destruct (nth_error (thrs s) u) as [y|] eqn:E; [|discriminate].
    injection H as <-. cbn. intros Wt. destruct (A5 _ _ _ E Wt) as (B1 & B2 & B3). repeat split; auto.
    destruct (Nat.eqb u t).
    + unfold mark_suspended. destruct (step (nfo y)); reflexivity.
    + destruct (a || single w); auto.
  - intros u th H. rewrite S1 in H. destruct (nth_error (thrs s) u) as [y|] eqn:E; [|discriminate].
    injection H as <-. cbn. destruct (Nat.eqb u t).
    + unfold mark_suspended. destruct (step (nfo y)) eqn:Es; cbn; try discriminate; rewrite ?Es; discriminate.
    + destruct (a || single w); [cbn; discriminate|]. apply (A6 _ _ E).
Qed.

Lemma wait_at_live t x s : live (wait_at t x s) = live s.
Proof.
  unfold wait_at. destruct (nth_error (thrs s) t) as [th|] eqn:E; [|reflexivity].
  apply live_ext; [|reflexivity]. intros u. cbn. rewrite (nth_put t u _ _ _ E).
  destruct (Nat.eqb_spec u t) as [-> |_]; [rewrite E|]; reflexivity.
Qed.

Lemma wfm_wait_at w t x s th : nth_error (thrs s) t = Some th -> susp (nfo th) = true ->
  In (shown x) (map mid (frames th)) ->
  (at_evt x = ERet -> In (shown x) (map mid (tl (frames th)))) ->
  wfm w s -> wfm w (wait_at t x s).
Proof.
  intros H Hs H1 H2 W. assert (L := wait_at_live t x s). destruct W as [A1 A2 A3 A4 A5 A6].
  unfold wait_at in *. rewrite H in *. constructor; auto.
  - rewrite L. exact A2.
  - rewrite L. exact A3.
  - intros u y z. cbn. rewrite (nth_put t u _ _ _ H). destruct (Nat.eqb_spec u t) as [-> |_]; [|apply A5].
    intros [= <-]. cbn. intros [= <-]. auto.
  - intros u y. cbn. rewrite (nth_put t u _ _ _ H). destruct (Nat.eqb_spec u t) as [-> |_]; [|apply A6].
    intros [= <-]. cbn. intros _. apply (A6 _ _ H Hs).
Qed.

Lemma wfm_suspend_at w t x s th : nth_error (thrs s) t = Some th ->
  In (shown x) (map mid (frames th)) ->
  (at_evt x = ERet -> In (shown x) (map mid (tl (frames th)))) ->
  wfm w s -> wfm w (suspend_at w t x s).
Proof.
  intros H H1 H2 W. unfold suspend_at.
  assert (S := set_suspend_spec w t false false s th H).
  eapply wfm_wait_at with (th := marked w false t t th); cbn; auto.
  - rewrite (s_thrs _ _ _ _ _ _ S), H. reflexivity.
  - rewrite Nat.eqb_refl. unfold mark_suspended. destruct (step (nfo th)); reflexivity.
  - eapply wfm_suspended; eauto.
Qed.

Lemma wfm_set_info w t i s th : nth_error (thrs s) t = Some th -> wt th = None ->
  (susp i = true -> step i <> NoStep) -> wfm w s -> wfm w (set_info t i s).
Proof.
  intros H Hw Hi [A1 A2 A3 A4 A5 A6]. unfold set_info. rewrite H.
  assert (L : live (with_thrs (put t (Thr (frames th) i (wt th)) (thrs s)) s) = live s).
  { apply live_ext; [|reflexivity]. intros u. cbn. rewrite (nth_put t u _ _ _ H).
    destruct (Nat.eqb_spec u t) as [-> |_]; [rewrite H|]; reflexivity. }
  constructor; auto.
  - rewrite L. exact A2.
  - rewrite L. exact A3.
  - intros u y z. cbn. rewrite (nth_put t u _ _ _ H). destruct (Nat.eqb_spec u t) as [-> |_]; [|apply A5].
    intros [= <-]. cbn. congruence.
  - intros u y. cbn. rewrite (nth_put t u _ _ _ H). destruct (Nat.eqb_spec u t) as [-> |_]; [|apply A6].
    intros [= <-]. cbn. exact Hi.
Qed.

(* Changing the frames of a thread which does not wait, and the generators. *)
Lemma wfm_frames w t fs gs n s th : nth_error (thrs s) t = Some th -> wt th = None ->
  (forall l1 l2, Permutation (map mid (live s)) (l1 ++ map mid (frames th) ++ l2 ++ map mid (idle s)) ->
     NoDup (l1 ++ map mid fs ++ l2 ++ map mid gs)) ->
  fresh s <= n ->
  (forall f, In f fs -> mid f < n) -> (forall f, In f gs -> mid f < n /\ mgen w (mcode f) = true) ->
  wfm w s -> wfm w (with_fresh n (set_frames t fs (with_idle gs s))).
Proof.
  intros H Hw Hn Hf1 Hf2 Hf3 [A1 A2 A3 A4 A5 A6].
  unfold set_frames. cbn [with_idle thrs]. rewrite H.
  destruct (put_split t th (Thr fs (nfo th) (wt th)) (thrs s) H) as (l1 & l2 & E1 & E2).
  constructor; auto.
  - unfold live. cbn [with_fresh with_thrs with_idle thrs idle]. rewrite E2. cbn [frames].
    rewrite !map_app, <- !app_assoc. apply Hn. unfold live. rewrite E1, !map_app, <- !app_assoc. reflexivity.
  - intros f. unfold live. cbn [with_fresh with_thrs with_idle thrs idle fresh]. rewrite E2. cbn [frames].
    rewrite !in_app_iff. intros [[F|[F|F]]|F].
    + eapply N.lt_le_trans; [apply A3; unfold live; rewrite E1, !in_app_iff; auto|exact Hf1].
    + auto.
    + eapply N.lt_le_trans; [apply A3; unfold live; rewrite E1, !in_app_iff; auto|exact Hf1].
    + apply Hf3, F.
  - cbn. intros f F. apply Hf3, F.
  - intros u y z. cbn. rewrite (nth_put t u _ _ _ H). destruct (Nat.eqb_spec u t) as [-> |_]; [|apply A5].
    intros [= <-]. cbn. congruence.
  - intros u y. cbn. rewrite (nth_put t u _ _ _ H). destruct (Nat.eqb_spec u t) as [-> |_]; [|apply A6].
    intros [= <-]. cbn. apply (A6 _ _ H).
Qed.

Lemma wfm_resumed w t th i s : nth_error (thrs s) t = Some th -> susp i = false ->
  wfm w s -> wfm w (with_thrs (put t (Thr (frames th) i None) (thrs s)) s).
Proof.
  intros H Hi [A1 A2 A3 A4 A5 A6].
  assert (L : live (with_thrs (put t (Thr (frames th) i None) (thrs s)) s) = live s).
  { apply live_ext; [|reflexivity]. intros u. cbn. rewrite (nth_put t u _ _ _ H).
    destruct (Nat.eqb_spec u t) as [-> |_]; [rewrite H|]; reflexivity. }
  constructor; auto.
  - rewrite L. exact A2.
  - rewrite L. exact A3.
  - intros u y z. cbn. rewrite (nth_put t u _ _ _ H). destruct (Nat.eqb_spec u t) as [-> |_]; [|apply A5].
    intros [= <-]. cbn. congruence.
  - intros u y. cbn. rewrite (nth_put t u _ _ _ H). destruct (Nat.eqb_spec u t) as [-> |_]; [|apply A6].
    intros [= <-]. cbn. congruence.
Qed.

Lemma with_fresh_same s : with_fresh (fresh s) s = s.
Proof. destruct s; reflexivity. Qed.

Lemma set_frames_fresh t fs s : fresh (set_frames t fs s) = fresh s.
Proof. unfold set_frames. destruct (nth_error (thrs s) t); reflexivity. Qed.

Lemma nodup_app_r A (a b : list A) : NoDup (a ++ b) -> NoDup b.
Proof.
  induction a as [|x a IH]; [auto|]. cbn. intros H. apply NoDup_cons_iff in H. apply IH, H.
Qed.

(* Without new identities. *)
Lemma wfm_move w t fs gs s th : nth_error (thrs s) t = Some th -> wt th = None ->
  (exists l, Permutation (map mid (frames th) ++ map mid (idle s)) (l ++ map mid fs ++ map mid gs)) ->
  (forall f, In f fs -> In f (frames th ++ idle s) \/ mid f < fresh s) ->
  (forall f, In f gs -> In f (frames th ++ idle s) /\ mgen w (mcode f) = true) ->
  wfm w s -> wfm w (set_frames t fs (with_idle gs s)).
Proof.
  intros H Hw [l Hp] H1 H2 W.
  assert (B : forall f, In f (frames th ++ idle s) -> mid f < fresh s).
  { intros f F. apply (w_fresh _ _ W). apply in_live. apply in_app_iff in F. destruct F as [F|F]; eauto. }
  rewrite <- (with_fresh_same (set_frames t fs (with_idle gs s))).
  rewrite set_frames_fresh. cbn [with_idle fresh].
  eapply wfm_frames; eauto; [|lia| |].
  - intros l1 l2 P. pose proof (w_nodup _ _ W) as N0. eapply Permutation_NoDup in N0; [|exact P].
    assert (Q : Permutation (l1 ++ map mid (frames th) ++ l2 ++ map mid (idle s))
                  (l ++ (l1 ++ map mid fs ++ l2 ++ map mid gs))).
    { rewrite (Permutation_count_occ N.eq_dec) in Hp |- *. intros x. specialize (Hp x).
      rewrite !count_occ_app in *. lia. }
    eapply Permutation_NoDup in N0; [|exact Q]. apply nodup_app_r in N0. exact N0.
  - intros f F. destruct (H1 f F); auto.
  - intros f F. destruct (H2 f F). auto.
Qed.

Lemma nth_set_frames t fs s th u : nth_error (thrs s) t = Some th ->
  nth_error (thrs (set_frames t fs s)) u =
  if Nat.eqb u t then Some (Thr fs (nfo th) (wt th)) else nth_error (thrs s) u.
Proof. intros H. unfold set_frames. rewrite H. cbn. apply (nth_put t u _ _ _ H). Qed.

Lemma waiting_none t s th : nth_error (thrs s) t = Some th -> is_waiting t s = false -> wt th = None.
Proof. intros H. unfold is_waiting. rewrite H. destruct (wt th); [discriminate|auto]. Qed.

Lemma with_idle_same s : with_idle (idle s) s = s.
Proof. destruct s; reflexivity. Qed.

Lemma pop_frames t s th : nth_error (thrs s) t = Some th ->
  pop t s = set_frames t (tl (frames th)) s.
Proof. intros H. unfold pop, set_frames. rewrite H. reflexivity. Qed.

Lemma wfm_pop w t s th : nth_error (thrs s) t = Some th -> wt th = None -> wfm w s -> wfm w (pop t s).
Proof.
  intros H Hw W. rewrite (pop_frames _ _ _ H), <- (with_idle_same s).
  eapply wfm_move; eauto; cbn [with_idle idle].
  - destruct (frames th) as [|f fs]; [exists []; reflexivity|]. exists [mid f]. reflexivity.
  - intros f F. left. apply in_app_iff. left. destruct (frames th); [destruct F|right; exact F].
  - intros f F. split; [apply in_app_iff; auto|apply (w_idle _ _ W _ F)].
Qed.

Lemma line_event_wfm w t o l ok s th : nth_error (thrs s) t = Some th -> wt th = None ->
  wfm w s -> wfm w (line_event w t o l ok s).
Proof.
  intros H Hw W. unfold line_event. rewrite H. destruct (frames th) as [|f back] eqn:Ef; [exact W|].
  pose proof (wfm_remember w (mcode f) s W) as W'.
  destruct (line_outcome _ _ _ _ _ _) eqn:O.
  - apply wfm_with_mon, W'.
  - exact W'.
  - eapply wfm_suspend_at with (th := th); eauto; [|intros E0; cbn in E0; discriminate]. rewrite Ef. left. reflexivity.
  - eapply wfm_wait_at with (th := th); eauto; [| |intros E0; cbn in E0; discriminate].
    + unfold line_outcome in O. destruct (k_skip _ || k_filt _); [discriminate|].
      match type of O with (if ?b then _ else _) = _ => destruct b; [discriminate|] end.
      destruct (susp (nfo th)); [reflexivity|]. exfalso. revert O.
      destruct (step (nfo th)); try discriminate;
        match goal with |- (if ?b then _ else _) = _ -> _ => destruct b; discriminate end.
    + rewrite Ef. left. reflexivity.
Qed.

Lemma start_event_wfm w t ok s th : nth_error (thrs s) t = Some th -> wt th = None ->
  wfm w s -> wfm w (start_event w t ok s).
Proof.
  intros H Hw W. unfold start_event. rewrite H. destruct (frames th) as [|f back] eqn:Ef; [exact W|].
  pose proof (wfm_remember w (mcode f) s W) as W'.
  assert (W2 := wfm_with_mon w (enable (code_info w s (mcode f)) (nfo th) f (mn (remember w (mcode f) s))) _ W').
  destruct (start_outcome _ _ _ _) eqn:O.
  - apply wfm_with_mon, W2.
  - exact W2.
  - eapply wfm_suspend_at with (th := th); eauto; [|intros E0; cbn in E0; discriminate]. rewrite Ef. left. reflexivity.
  - exact W2.
Qed.

Lemma return_event_wfm w t s th : nth_error (thrs s) t = Some th -> wt th = None ->
  wfm w s -> wfm w (return_event w t s).
Proof.
  intros H Hw W. unfold return_event. rewrite H. destruct (frames th) as [|f back] eqn:Ef; [exact W|].
  pose proof (wfm_remember w (mcode f) s W) as W'.
  destruct (return_outcome _ _ _ _ _ _) as [| |b| |] eqn:O.
  - exact W'.
  - eapply wfm_set_info with (th := th); eauto. cbn. discriminate.
  - assert (B : exists rest, back = b :: rest).
    { unfold return_outcome in O.
      assert (D : stop_on_return w back = RShow b -> exists rest, back = b :: rest).
      { unfold stop_on_return. destruct back as [|x rest]; [discriminate|].
        destruct (mend _ _); [discriminate|]. destruct (mprop _ _); [discriminate|].
        destruct (mdont _ _); [discriminate|]. intros [= ->]. eauto. }
      destruct (k_skip _); [discriminate|]. destruct (step (nfo th)); try discriminate;
        try (destruct (same _ _); [|discriminate]); auto; destruct back as [|x rest]; try discriminate;
        match type of O with (if ?b then _ else _) = _ => destruct b; [auto|discriminate] end. }
    destruct B as [rest ->].
    eapply wfm_suspend_at with (th := th); eauto; rewrite Ef; cbn; auto.
  - apply wfm_with_mon, W'.
  - apply wfm_with_mon. eapply wfm_set_info with (th := th); eauto. cbn.
    destruct (step (nfo th)); discriminate.
Qed.

Lemma perm_drop_nth A (l : list A) i x : nth_error l i = Some x -> Permutation l (x :: drop_nth i l).
Proof.
  revert i. induction l as [|y l IH]; intros [|i] H; cbn in *; try discriminate.
  - injection H as ->. reflexivity.
  - rewrite perm_swap. apply perm_skip, IH, H.
Qed.

Lemma in_drop_nth A (l : list A) i x : In x (drop_nth i l) -> In x l.
Proof.
  revert i. induction l as [|y l IH]; intros [|i] H; cbn in *; auto. destruct H; eauto.
Qed.

Lemma wfm_call w t c s th : nth_error (thrs s) t = Some th -> wt th = None -> wfm w s ->
  wfm w (with_fresh (fresh s + 1) (set_frames t (Mf (fresh s) c 0 :: frames th) s)).
Proof.
  intros H Hw W.
  replace (set_frames t (Mf (fresh s) c 0 :: frames th) s) with (set_frames t (Mf (fresh s) c 0 :: frames th) (with_idle (idle s) s)) by (rewrite with_idle_same; reflexivity).
  eapply wfm_frames; eauto; [|lia| |].
  - intros l1 l2 P. pose proof (w_nodup _ _ W) as N0. eapply Permutation_NoDup in N0; [|exact P].
    assert (Q : Permutation (fresh s :: l1 ++ map mid (frames th) ++ l2 ++ map mid (idle s))
                  (l1 ++ map mid (Mf (fresh s) c 0 :: frames th) ++ l2 ++ map mid (idle s))).
    { cbn [map mid app]. apply Permutation_middle. }
    eapply Permutation_NoDup; [exact Q|]. constructor; [|exact N0].
    intros I. rewrite <- P in I. apply in_map_iff in I. destruct I as (f & E & F).
    apply (w_fresh _ _ W) in F. lia.
  - intros f [<- |F]; cbn; [lia|].
    assert (mid f < fresh s) by (apply (w_fresh _ _ W), in_live; eauto). lia.
  - intros f F. split; [|apply (w_idle _ _ W _ F)].
    assert (mid f < fresh s) by (apply (w_fresh _ _ W), in_live; eauto). lia.
Qed.

Lemma wfm_line w t l s th f back : nth_error (thrs s) t = Some th -> wt th = None ->
  frames th = f :: back -> wfm w s -> wfm w (set_frames t (Mf (mid f) (mcode f) l :: back) s).
Proof.
  intros H Hw Ef W.
  rewrite <- (with_idle_same s). eapply wfm_move; eauto; cbn [with_idle idle]; rewrite ?Ef.
  - exists []. reflexivity.
  - intros g [<- |F]; [right; cbn|left; apply in_app_iff; left; right; exact F].
    apply (w_fresh _ _ W f), in_live. left. exists t, th. rewrite Ef. split; [exact H|left; reflexivity].
  - intros g F. split; [apply in_app_iff; auto|apply (w_idle _ _ W _ F)].
Qed.

Lemma m_act_wfm w t a s : is_waiting t s = false -> wfm w s -> wfm w (m_act w t a s).
Proof.
  intros Hn W. unfold m_act. destruct (nth_error (thrs s) t) as [th|] eqn:H; [|exact W].
  pose proof (waiting_none _ _ _ H Hn) as Hw. destruct a as [c ok|i|o ok| | | |].
  - assert (W1 : wfm w (with_fresh (fresh s + 1) (set_frames t (Mf (fresh s) c 0 :: frames th) s))).
    { apply wfm_call; auto. }
    cbn zeta. destruct (_ && _); [|exact W1].
    eapply start_event_wfm with (th := Thr (Mf (fresh s) c 0 :: frames th) (nfo th) (wt th)); eauto.
    cbn [with_fresh thrs]. rewrite (nth_set_frames _ _ _ _ t H), Nat.eqb_refl. reflexivity.
  - destruct (nth_error (idle s) i) as [f|] eqn:E; [|exact W]. eapply wfm_move; eauto.
    + exists []. cbn [app map]. pose proof (perm_drop_nth _ _ _ _ E) as P.
      apply (Permutation_map mid) in P. rewrite P. cbn [map]. rewrite <- Permutation_middle. reflexivity.
    + intros g [<- |F]; left; apply in_app_iff; eauto using nth_error_In.
    + intros g F. apply in_drop_nth in F. split; [apply in_app_iff; auto|apply (w_idle _ _ W _ F)].
  - destruct (frames th) as [|f back] eqn:Ef; [exact W|].
    destruct (line_of _ _) as [l|]; [|exact W].
    assert (W1 : wfm w (set_frames t (Mf (mid f) (mcode f) l :: back) s)).
    { eapply wfm_line; eauto. }
    cbn zeta. destruct (_ && _); [|exact W1].
    eapply line_event_wfm with (th := Thr (Mf (mid f) (mcode f) l :: back) (nfo th) (wt th)); eauto.
    rewrite (nth_set_frames _ _ _ _ t H), Nat.eqb_refl. reflexivity.
  - destruct (frames th) as [|f back] eqn:Ef; [exact W|]. cbn zeta.
    set (s1 := if mon_on (mn s) && rev (mn s) (mcode f) then return_event w t s else s).
    assert (W1 : wfm w s1).
    { unfold s1. destruct (_ && _); [|exact W]. eapply return_event_wfm; eauto. }
    destruct (is_waiting t s1) eqn:Hn1; [exact W1|].
    destruct (nth_error (thrs s1) t) as [th1|] eqn:H1.
    + eapply wfm_pop; eauto. eapply waiting_none; eauto.
    + unfold pop. rewrite H1. exact W1.
  - destruct (frames th) as [|f back] eqn:Ef; [exact W|].
    destruct (mgen w (mcode f)) eqn:Eg; [|exact W]. eapply wfm_move; eauto; rewrite ?Ef.
    + exists []. cbn [app map]. apply Permutation_middle.
    + intros g F. left. apply in_app_iff. left. right. exact F.
    + intros g [<- |F].
      * split; [apply in_app_iff; left; left; reflexivity|exact Eg].
      * split; [apply in_app_iff; auto|apply (w_idle _ _ W _ F)].
  - eapply wfm_pop; eauto.
  - destruct (frames th) as [|f back] eqn:Ef; [exact W|].
    destruct (k_skip _); [exact W|]. eapply wfm_suspend_at; eauto; [|intros E0; cbn in E0; discriminate].
    rewrite Ef. left. reflexivity.
Qed.

Lemma m_resumed_susp w c x fs : susp (fst (m_resumed w c x fs)) = false.
Proof.
  unfold m_resumed. destruct (m_from (shown x) fs) as [|f back]; [reflexivity|].
  destruct c; cbn; try reflexivity;
    try (destruct (mcoro w (mcode f)); reflexivity); destruct (m_target _ _ _ _); reflexivity.
Qed.

Lemma m_cmd_wfm w t c s : wfm w s -> wfm w (m_cmd w t c s).
Proof.
  intros W. unfold m_cmd. destruct (nth_error (thrs s) t) as [th|] eqn:H; [|exact W].
  destruct (wt th) as [x|] eqn:Hw.
  - destruct (client_cmd c); [|exact W].
    pose proof (m_resumed_susp w c x (frames th)) as Hs.
    destruct (m_resumed w c x (frames th)) as [i fs]. cbn [fst] in Hs.
    pose proof (wfm_resumed w t th i s H Hs W) as W1.
    assert (W2 := wfm_with_mon w (enable_all w (with_thrs (put t (Thr (frames th) i None) (thrs s)) s) i fs
      (mn (with_thrs (put t (Thr (frames th) i None) (thrs s)) s))) _ W1).
    destruct (is_ret (at_evt x)); [|exact W2].
    eapply wfm_pop with (th := Thr (frames th) i None); [|reflexivity|exact W2].
    cbn. eapply nth_put_same; eauto.
  - destruct c; try exact W. eapply wfm_set_info; eauto. cbn. discriminate.
Qed.

Lemma wfm_breaks w bs fs s : wfm w s ->
  wfm w (MState (thrs s) (idle s) (fresh s) (mn s) (mtime s + 1) (cache s) bs fs).
Proof.
  intros [A1 A2 A3 A4 A5 A6]. constructor; auto. cbn. intros c m k E. destruct (A1 _ _ _ E).
  split; lia.
Qed.

Lemma m_add_wfm w bs fs s : wfm w s -> wfm w (m_add w bs fs s).
Proof.
  intros W. unfold m_add. apply wfm_with_mon. eapply wfm_tuned; [apply enable_threads_tuned|].
  unfold update_events. apply wfm_with_mon, wfm_breaks, W.
Qed.

Lemma m_exec_wfm w o s : wfm w s -> wfm w (m_exec w o s).
Proof.
  intros W. destruct o as [t a|t c|bs fs|bs fs|t all| |t o bs fs]; cbn [m_exec].
  - destruct (is_waiting t s) eqn:E; [exact W|]. apply m_act_wfm; auto.
  - apply m_cmd_wfm, W.
  - apply m_add_wfm, W.
  - unfold m_drop. destruct (_ && _); [|exact W]. apply wfm_breaks, W.
  - destruct (nth_error (thrs s) t) as [th|] eqn:H.
    + eapply wfm_suspended; [eapply set_suspend_spec; eauto|exact W].
    + unfold set_suspend. rewrite H. exact W.
  - assert (L : live (with_thrs (thrs s ++ [Thr [] (Info NoStep None false None) None]) s) = live s).
    { unfold live. cbn. rewrite map_app, concat_app. cbn. rewrite app_nil_r. reflexivity. }
    destruct W as [A1 A2 A3 A4 A5 A6]. constructor; auto.
    + rewrite L. exact A2.
    + rewrite L. exact A3.
    + intros u th x E. cbn in E. destruct (Nat.lt_ge_cases u (length (thrs s))) as [U|U].
      * rewrite nth_error_app1 in E by exact U. apply (A5 _ _ _ E).
      * rewrite nth_error_app2 in E by lia. destruct (u - length (thrs s))%nat as [|k]; cbn in E.
        -- injection E as <-. discriminate.
        -- destruct k; discriminate.
    + intros u th E. cbn in E. destruct (Nat.lt_ge_cases u (length (thrs s))) as [U|U].
      * rewrite nth_error_app1 in E by exact U. apply (A6 _ _ E).
      * rewrite nth_error_app2 in E by lia. destruct (u - length (thrs s))%nat as [|k]; cbn in E.
        -- injection E as <-. discriminate.
        -- destruct k; discriminate.
  - destruct (is_waiting t s); [exact W|]. unfold m_race.
    destruct (nth_error (thrs s) t) as [th|]; [|exact W].
    destruct (frames th) as [|f back]; [exact W|]. destruct (line_of _ _); [|exact W].
    destruct (_ && _); [|exact W]. destruct (line_outcome _ _ _ _ _ _); try exact W.
    apply wfm_with_mon, m_add_wfm, W.
Qed.

Lemma m_run_wfm w os s : wfm w s -> wfm w (m_run w os s).
Proof. revert s. induction os as [|o os IH]; intros s W; [exact W|]. apply IH, m_exec_wfm, W. Qed.

Lemma m_start_wfm w bs fs : wfm w (m_start bs fs).
Proof.
  constructor; cbn.
  - discriminate.
  - constructor.
  - intros f [].
  - intros f [].
  - intros [|[|t]] th x E; cbn in E; try discriminate. injection E as <-. discriminate.
  - intros [|[|t]] th E; cbn in E; try discriminate. injection E as <-. discriminate.
Qed.

(* ----- Breakpoints are armed ----- *)

Record armed (w : mworld) (s : mstate) : Prop := {
  a_on : has_breaks s = true -> mon_on (mn s) = true;
  a_line : forall c o, k_lines (compute w (mbrks s) (mfuncs s) c) <> [] -> dln (mn s) c o = false;
  a_start : forall c, k_lines (compute w (mbrks s) (mfuncs s) c) <> [] \/
                      k_func (compute w (mbrks s) (mfuncs s) c) <> None -> dst (mn s) c = false;
  a_live : forall f, In f (live s) -> k_lines (compute w (mbrks s) (mfuncs s) (mcode f)) <> [] ->
    lev (mn s) (mcode f) = true
}.

(* What does not harm the breakpoints. *)
Record keeps (s s' : mstate) : Prop := {
  k_brks : mbrks s' = mbrks s;
  k_funcs : mfuncs s' = mfuncs s;
  k_on : mon_on (mn s) = true -> mon_on (mn s') = true;
  k_dst : forall c, dst (mn s) c = false -> dst (mn s') c = false;
  k_dln : forall c o, dln (mn s) c o = false -> dln (mn s') c o = false;
  k_lev : forall c, lev (mn s) c = true -> lev (mn s') c = true;
  k_rev : forall c, rev (mn s) c = true -> rev (mn s') c = true;
  k_live : forall f, In f (live s') -> exists g, In g (live s) /\ mcode g = mcode f
}.

Lemma keeps_refl s : keeps s s.
Proof. constructor; eauto. Qed.

Lemma keeps_trans a b c : keeps a b -> keeps b c -> keeps a c.
Proof.
  intros [A1 A2 A3 A4 A5 A6 A7 A8] [B1 B2 B3 B4 B5 B6 B7 B8].
  constructor; [congruence|congruence|auto|auto|auto|auto|auto|].
  intros f F. destruct (B8 f F) as (g & G1 & G2). destruct (A8 g G1) as (h & H1 & H2).
  exists h. split; [exact H1|congruence].
Qed.

Lemma armed_keeps w s s' : keeps s s' -> armed w s -> armed w s'.
Proof.
  intros [A1 A2 A3 A4 A5 A6 A7 A8] [B1 B2 B3 B4].
  constructor; unfold has_breaks in *; rewrite ?A1, ?A2 in *; auto.
  intros f F L. destruct (A8 f F) as (g & G1 & G2). apply A6. rewrite <- G2 in *. auto.
Qed.

Lemma tuned_keeps s s' : tuned s s' -> keeps s s'.
Proof.
  intros [T1 T2 T3 T4 T5 T6 T7 [G1 G2 G3 G4 G5]].
  constructor; auto; try congruence.
  unfold live. rewrite T1, T2. eauto.
Qed.

Lemma remember_keeps w c s : keeps s (remember w c s).
Proof. constructor; eauto. Qed.

Lemma restart_keeps s : keeps s (with_mon (restart (mn s)) s).
Proof. constructor; cbn; eauto. Qed.

Lemma suspended_keeps w t p a s s' : suspended w t p a s s' -> keeps s s'.
Proof.
  intros S. assert (L := suspended_live _ _ _ _ _ _ S).
  destruct S as [S1 S2 S3 S4 S5 S6 S7 S8 S9 S10 S11 S12].
  constructor; auto.
  - intros E. rewrite S8, E. apply orb_true_r.
  - rewrite L. eauto.
Qed.

Lemma wait_at_mn t x s : mn (wait_at t x s) = mn s.
Proof. unfold wait_at. destruct (nth_error (thrs s) t); reflexivity. Qed.

Lemma wait_at_keeps t x s : keeps s (wait_at t x s).
Proof.
  assert (L := wait_at_live t x s). assert (M := wait_at_mn t x s).
  constructor; rewrite ?M, ?L; eauto; unfold wait_at; destruct (nth_error (thrs s) t); reflexivity.
Qed.

Lemma suspend_at_keeps w t x s th : nth_error (thrs s) t = Some th -> keeps s (suspend_at w t x s).
Proof.
  intros H. eapply keeps_trans; [|apply wait_at_keeps].
  eapply suspended_keeps. eapply set_suspend_spec, H.
Qed.

Lemma set_info_keeps t i s : keeps s (set_info t i s).
Proof.
  unfold set_info. destruct (nth_error (thrs s) t) as [th|] eqn:E; [|apply keeps_refl].
  assert (L : live (with_thrs (put t (Thr (frames th) i (wt th)) (thrs s)) s) = live s).
  { apply live_ext; [|reflexivity]. intros u. cbn. rewrite (nth_put t u _ _ _ E).
    destruct (Nat.eqb_spec u t) as [-> |_]; [rewrite E|]; reflexivity. }
  constructor; try (cbn; eauto; fail). rewrite L. eauto.
Qed.

Lemma enable_all_keeps w s0 i fs s : keeps s (with_mon (enable_all w s0 i fs (mn s)) s).
Proof. apply tuned_keeps. constructor; auto. apply enable_all_grows. Qed.

(* The frames of a thread and the generators, up to lines. *)
Lemma move_keeps t fs gs s th : nth_error (thrs s) t = Some th ->
  (forall f, In f (fs ++ gs) -> exists g, In g (frames th ++ idle s) /\ mcode g = mcode f) ->
  keeps s (set_frames t fs (with_idle gs s)).
Proof.
  intros H M. unfold set_frames. cbn [with_idle thrs]. rewrite H. constructor; try (cbn; eauto; fail).
  intros f. rewrite in_live. cbn. intros [(u & y & E & F)|F].
  - rewrite (nth_put t u _ _ _ H) in E. destruct (Nat.eqb_spec u t) as [-> |_].
    + injection E as <-. cbn in F. destruct (M f (in_or_app _ _ _ (or_introl F))) as (g & G1 & G2).
      exists g. split; [|exact G2]. apply in_live. apply in_app_iff in G1. destruct G1; eauto.
    + exists f. split; [|reflexivity]. apply in_live. eauto.
  - destruct (M f (in_or_app _ _ _ (or_intror F))) as (g & G1 & G2).
    exists g. split; [|exact G2]. apply in_live. apply in_app_iff in G1. destruct G1; eauto.
Qed.

Lemma frames_keeps t fs s th : nth_error (thrs s) t = Some th ->
  (forall f, In f fs -> exists g, In g (frames th) /\ mcode g = mcode f) ->
  keeps s (set_frames t fs s).
Proof.
  intros H M. rewrite <- (with_idle_same s) at 2. eapply move_keeps; eauto.
  intros f F. apply in_app_iff in F. destruct F as [F|F].
  - destruct (M f F) as (g & G1 & G2). exists g. split; [apply in_app_iff; auto|exact G2].
  - exists f. split; [apply in_app_iff; auto|reflexivity].
Qed.

Lemma pop_keeps t s : keeps s (pop t s).
Proof.
  destruct (nth_error (thrs s) t) as [th|] eqn:H.
  - rewrite (pop_frames _ _ _ H). eapply frames_keeps; eauto.
    intros f F. exists f. split; [|reflexivity]. destruct (frames th); [destruct F|right; exact F].
  - unfold pop. rewrite H. apply keeps_refl.
Qed.

(* What compute says. *)
Lemma compute_lines w bs fs c : k_lines (compute w bs fs c) <> [] ->
  k_skip (compute w bs fs c) = false /\ k_filt (compute w bs fs c) = false /\ bs <> [].
Proof.
  unfold compute. destruct (mskip w c); cbn; [congruence|].
  destruct (mdont w c); cbn; [congruence|]. destruct (mfilter_on w && mfilt w c); cbn; [congruence|].
  intros H. repeat split. intros ->. apply H. reflexivity.
Qed.

Lemma compute_func w bs fs c : k_func (compute w bs fs c) <> None ->
  k_skip (compute w bs fs c) = false /\ k_filt (compute w bs fs c) = false /\ fs <> [].
Proof.
  unfold compute. destruct (mskip w c); cbn; [congruence|].
  destruct (mdont w c); cbn; [congruence|]. destruct (mfilter_on w && mfilt w c); cbn; [congruence|].
  intros H. repeat split. intros ->. apply H. reflexivity.
Qed.

Lemma breaks_lines w s c : k_lines (compute w (mbrks s) (mfuncs s) c) <> [] -> has_breaks s = true.
Proof.
  intros H. destruct (compute_lines _ _ _ _ H) as (_ & _ & N0). unfold has_breaks.
  destruct (mbrks s); [congruence|]. apply orb_true_r.
Qed.

Lemma breaks_func w s c : k_func (compute w (mbrks s) (mfuncs s) c) <> None -> has_breaks s = true.
Proof.
  intros H. destruct (compute_func _ _ _ _ H) as (_ & _ & N0). unfold has_breaks.
  destruct (mfuncs s); [congruence|]. reflexivity.
Qed.

(* Disabling what has no breakpoint. *)
Lemma armed_disable_line w c o s : k_lines (compute w (mbrks s) (mfuncs s) c) = [] ->
  armed w s -> armed w (with_mon (disable_line c o (mn s)) s).
Proof.
  intros H [A1 A2 A3 A4]. constructor; auto. cbn. intros c' o' L.
  destruct (N.eqb_spec c' c) as [-> |_]; [congruence|]. cbn. auto.
Qed.

Lemma armed_disable_start w c s : k_lines (compute w (mbrks s) (mfuncs s) c) = [] ->
  k_func (compute w (mbrks s) (mfuncs s) c) = None ->
  armed w s -> armed w (with_mon (disable_start c (mn s)) s).
Proof.
  intros H1 H2 [A1 A2 A3 A4]. constructor; auto. cbn. intros c' L. unfold add.
  destruct (N.eqb_spec c' c) as [-> |_]; [destruct L; congruence|]. cbn. auto.
Qed.

Lemma line_disable_none w bs fs c any i f l ok :
  line_outcome (compute w bs fs c) any i f l ok = ODisable -> k_lines (compute w bs fs c) = [].
Proof.
  intros H. destruct (k_lines (compute w bs fs c)) as [|b r] eqn:E; [reflexivity|]. exfalso.
  assert (N0 : k_lines (compute w bs fs c) <> []) by congruence.
  destruct (compute_lines _ _ _ _ N0) as (E1 & E2 & _). unfold line_outcome in H.
  rewrite E1, E2, E in H. cbn [orb negb is_nil] in H.
  match type of H with (if ?b then _ else _) = _ => destruct b; [discriminate|] end.
  destruct (susp i); [discriminate|].
  destruct (step i); try discriminate;
    match type of H with (if ?b then _ else _) = _ => destruct b; discriminate end.
Qed.

Lemma start_disable_none w bs fs c any i ok :
  start_outcome (compute w bs fs c) any i ok = ODisable ->
  k_lines (compute w bs fs c) = [] /\ k_func (compute w bs fs c) = None.
Proof.
  unfold start_outcome. destruct (k_skip (compute w bs fs c)) eqn:E1.
  - intros _. unfold compute in *. destruct (mskip w c); [auto|]. destruct (mdont w c); [discriminate|].
    destruct (_ && _); discriminate.
  - destruct (k_func _); [destruct (hits _ _); discriminate|]. intros H. split; [|reflexivity].
    destruct (k_lines (compute w bs fs c)) as [|b r] eqn:E; [reflexivity|]. exfalso.
    assert (N0 : k_lines (compute w bs fs c) <> []) by congruence.
    destruct (compute_lines _ _ _ _ N0) as (_ & E2 & _). rewrite E2 in H.
    destruct (is_step (step i)); discriminate.
Qed.

Lemma line_event_armed w t o l ok s : wfm w s -> armed w s -> armed w (line_event w t o l ok s).
Proof.
  intros W A. unfold line_event. destruct (nth_error (thrs s) t) as [th|] eqn:H; [|exact A].
  destruct (frames th) as [|f back]; [exact A|].
  assert (A' : armed w (remember w (mcode f) s)) by (eapply armed_keeps; [apply remember_keeps|exact A]).
  rewrite (code_info_compute w s (mcode f) W).
  destruct (line_outcome _ _ _ _ _ _) eqn:O.
  - apply armed_disable_line; [|exact A']. apply line_disable_none in O. exact O.
  - exact A'.
  - eapply armed_keeps; [|exact A']. eapply suspend_at_keeps; eauto.
  - eapply armed_keeps; [|exact A']. apply wait_at_keeps.
Qed.

Lemma return_event_keeps w t s : keeps s (return_event w t s).
Proof.
  unfold return_event. destruct (nth_error (thrs s) t) as [th|] eqn:H; [|apply keeps_refl].
  destruct (frames th) as [|f back]; [apply keeps_refl|].
  eapply keeps_trans; [apply (remember_keeps w (mcode f))|].
  destruct (return_outcome _ _ _ _ _ _); auto using keeps_refl, set_info_keeps, enable_all_keeps.
  - eapply suspend_at_keeps; eauto.
  - eapply keeps_trans; [apply set_info_keeps|apply enable_all_keeps].
Qed.

Lemma call_live t c s th f : nth_error (thrs s) t = Some th ->
  In f (live (with_fresh (fresh s + 1) (set_frames t (Mf (fresh s) c 0 :: frames th) s))) ->
  mcode f = c \/ In f (live s).
Proof.
  intros H. rewrite !in_live. cbn [with_fresh thrs idle]. intros [(u & y & E & F)|F].
  - rewrite (nth_set_frames _ _ _ _ u H) in E. destruct (Nat.eqb_spec u t) as [-> |_].
    + injection E as <-. cbn in F. destruct F as [<- |F]; eauto 6.
    + eauto 6.
  - unfold set_frames in F. rewrite H in F. cbn in F. auto.
Qed.

Lemma set_frames_brks t fs s : mbrks (set_frames t fs s) = mbrks s.
Proof. unfold set_frames. destruct (nth_error (thrs s) t); reflexivity. Qed.
Lemma set_frames_funcs t fs s : mfuncs (set_frames t fs s) = mfuncs s.
Proof. unfold set_frames. destruct (nth_error (thrs s) t); reflexivity. Qed.
Lemma set_frames_mn t fs s : mn (set_frames t fs s) = mn s.
Proof. unfold set_frames. destruct (nth_error (thrs s) t); reflexivity. Qed.

Lemma m_act_armed w t a s : is_waiting t s = false -> wfm w s -> armed w s -> armed w (m_act w t a s).
Proof.
  intros Hn W A. 
  unfold m_act. destruct (nth_error (thrs s) t) as [th|] eqn:H; [|auto].
  pose proof (waiting_none _ _ _ H Hn) as Hw. destruct a as [c ok|i|o ok| | | |].
  - cbn zeta. set (s1 := with_fresh (fresh s + 1) (set_frames t (Mf (fresh s) c 0 :: frames th) s)).
    assert (M1 : mn s1 = mn s) by apply set_frames_mn.
    assert (B1 : mbrks s1 = mbrks s) by apply set_frames_brks.
    assert (F1 : mfuncs s1 = mfuncs s) by apply set_frames_funcs.
    assert (H1 : nth_error (thrs s1) t = Some (Thr (Mf (fresh s) c 0 :: frames th) (nfo th) (wt th))).
    { unfold s1. cbn [with_fresh thrs]. rewrite (nth_set_frames _ _ _ _ t H), Nat.eqb_refl. reflexivity. }
    assert (W1 : wfm w s1).
    { apply wfm_call; auto. }
    rewrite M1. destruct (mon_on (mn s) && negb (dst (mn s) c)) eqn:Ec.
    + unfold start_event. rewrite H1. cbn [frames mcode nfo].
      rewrite (code_info_compute w s1 c W1), B1, F1.
      set (k := compute w (mbrks s) (mfuncs s) c).
      set (s2 := with_mon (enable k (nfo th) (Mf (fresh s) c 0) (mn (remember w c s1))) (remember w c s1)).
      assert (G : grows (mn s) (mn s2)).
      { unfold s2. cbn [with_mon mn remember]. rewrite M1. apply enable_grows. }
      assert (A2 : armed w s2).
      { destruct A as [A1 A2 A3 A4]. destruct G as [G1 G2 G3 G4 G5].
        constructor; unfold has_breaks in *;
          change (mbrks s2) with (mbrks s1); change (mfuncs s2) with (mfuncs s1); rewrite ?B1, ?F1.
        - rewrite G1. exact A1.
        - rewrite G3. exact A2.
        - rewrite G2. exact A3.
        - intros f F L. change (live s2) with (live s1) in F. apply (call_live t c s th f H) in F.
          destruct F as [E|F]; [|apply G4, A4; auto]. rewrite E in *.
          destruct (compute_lines _ _ _ _ L) as (E1 & E2 & _).
          exact (enable_line k (nfo th) (Mf (fresh s) c 0) _ E1 E2 L). }
      destruct (start_outcome _ _ _ _) eqn:O; auto.
      * apply start_disable_none in O. destruct O.
        apply armed_disable_start; [| |exact A2]; change (mbrks s2) with (mbrks s1);
          change (mfuncs s2) with (mfuncs s1); rewrite B1, F1; auto.
      * eapply armed_keeps; [|exact A2]. eapply suspend_at_keeps. exact H1.
    + destruct A as [A1 A2 A3 A4]. constructor; unfold has_breaks in *; rewrite ?B1, ?F1, ?M1; auto.
      intros f F L. apply (call_live t c s th f H) in F. destruct F as [E|F]; [|auto]. exfalso.
      rewrite E in L. rewrite (A1 (breaks_lines _ _ _ L)), (A3 _ (or_introl L)) in Ec. discriminate.
  - destruct (nth_error (idle s) i) as [f|] eqn:E; [|exact A]. eapply armed_keeps; [|exact A].
    eapply move_keeps; eauto. intros g F. exists g. split; [|reflexivity].
    cbn in F. rewrite in_app_iff in *. destruct F as [<- |[F|F]]; eauto using nth_error_In, in_drop_nth.
  - destruct (frames th) as [|f back] eqn:Ef; [exact A|].
    destruct (line_of _ _) as [l|]; [|exact A]. cbn zeta.
    set (s1 := set_frames t (Mf (mid f) (mcode f) l :: back) s).
    assert (A1 : armed w s1).
    { eapply armed_keeps; [|exact A]. eapply frames_keeps; eauto. rewrite Ef.
      intros g [<- |F]; [exists f; split; [left|]; reflexivity|exists g; split; [right; exact F|reflexivity]]. }
    destruct (_ && _); [|exact A1]. apply line_event_armed; [|exact A1].
    eapply wfm_line; eauto.
  - destruct (frames th) as [|f back] eqn:Ef; [exact A|]. cbn zeta.
    eapply armed_keeps; [|exact A].
    set (s1 := if mon_on (mn s) && rev (mn s) (mcode f) then return_event w t s else s).
    assert (K1 : keeps s s1).
    { unfold s1. destruct (_ && _); [apply return_event_keeps|apply keeps_refl]. }
    destruct (is_waiting t s1); [exact K1|]. eapply keeps_trans; [exact K1|apply pop_keeps].
  - destruct (frames th) as [|f back] eqn:Ef; [exact A|].
    destruct (mgen w (mcode f)); [|exact A]. eapply armed_keeps; [|exact A].
    eapply move_keeps; eauto. rewrite Ef. intros g F. exists g. split; [|reflexivity].
    rewrite in_app_iff in *. cbn in *. intuition.
  - eapply armed_keeps; [apply pop_keeps|exact A].
  - destruct (frames th) as [|f back]; [exact A|]. destruct (k_skip _); [exact A|].
    eapply armed_keeps; [eapply suspend_at_keeps; eauto|exact A].
Qed.

Lemma m_cmd_keeps w t c s : keeps s (m_cmd w t c s).
Proof.
  unfold m_cmd. destruct (nth_error (thrs s) t) as [th|] eqn:H; [|apply keeps_refl].
  destruct (wt th) as [x|] eqn:Hw.
  - destruct (client_cmd c); [|apply keeps_refl]. destruct (m_resumed w c x (frames th)) as [i fs].
    assert (K1 : keeps s (with_thrs (put t (Thr (frames th) i None) (thrs s)) s)).
    { assert (L : live (with_thrs (put t (Thr (frames th) i None) (thrs s)) s) = live s).
      { apply live_ext; [|reflexivity]. intros u. cbn. rewrite (nth_put t u _ _ _ H).
        destruct (Nat.eqb_spec u t) as [-> |_]; [rewrite H|]; reflexivity. }
      constructor; try (cbn; eauto; fail). rewrite L. eauto. }
    match goal with |- keeps s (if _ then pop t ?s2 else _) => assert (K2 : keeps s s2) end.
    { eapply keeps_trans; [exact K1|]. apply enable_all_keeps. }
    destruct (is_ret (at_evt x)); [|exact K2]. eapply keeps_trans; [exact K2|apply pop_keeps].
  - destruct c; auto using keeps_refl, set_info_keeps.
Qed.

(* Breakpoints added while no generator with one is away. *)
Definition fair (w : mworld) (s : mstate) (o : mop) : Prop :=
  match o with
  | MRace _ _ _ _ => False
  | MAdd bs fs => forall g, In g (idle s) -> code_breaks w bs (mcode g) <> [] ->
                            code_breaks w (mbrks s) (mcode g) <> []
  | _ => True
  end.

Lemma compute_lines_ext w bs fs bs' fs' c :
  (code_breaks w bs c <> [] -> code_breaks w bs' c <> []) ->
  k_lines (compute w bs fs c) <> [] -> k_lines (compute w bs' fs' c) <> [].
Proof.
  unfold compute. destruct (mskip w c); [auto|]. destruct (mdont w c); [auto|].
  destruct (_ && _); auto.
Qed.

Lemma code_breaks_nonempty w bs c : code_breaks w bs c <> [] <->
  exists l, has_break bs (mfile w c) l = true /\ In l (map snd (mlines w c)).
Proof.
  unfold code_breaks, has_break. induction bs as [|[[f l] b] bs IH]; cbn [filter map find_break fst snd].
  - split; [congruence|]. intros (l & H & _). discriminate.
  - destruct (N.eqb f (mfile w c)) eqn:Ef; cbn [andb].
    + destruct (existsb (fun q => N.eqb (snd q) l) (mlines w c)) eqn:Ex; cbn [map].
      * split; [|discriminate]. intros _. exists l. rewrite N.eqb_refl. split; [reflexivity|].
        apply existsb_exists in Ex. destruct Ex as (q & Q1 & Q2). apply N.eqb_eq in Q2. subst l.
        apply in_map, Q1.
      * rewrite IH. split; intros (l' & H1 & H2); exists l'; split; auto.
        -- destruct (N.eqb l l'); auto.
        -- destruct (N.eqb_spec l l') as [-> |_]; [|exact H1]. exfalso.
           apply in_map_iff in H2. destruct H2 as (q & Q1 & Q2).
           assert (existsb (fun q => N.eqb (snd q) l') (mlines w c) = true); [|congruence].
           apply existsb_exists. exists q. split; [exact Q2|]. apply N.eqb_eq, Q1.
    + exact IH.
Qed.

Lemma has_break_in bs f l : has_break bs f l = true -> exists b, In (f, l, b) bs.
Proof.
  unfold has_break. induction bs as [|[[f' l'] b] bs IH]; cbn; [discriminate|].
  destruct (N.eqb_spec f' f) as [-> |_]; destruct (N.eqb_spec l' l) as [-> |_]; cbn; eauto;
    intros H; destruct (IH H); eauto.
Qed.

Lemma m_add_armed w bs fs s : (forall g, In g (idle s) -> code_breaks w bs (mcode g) <> [] ->
    code_breaks w (mbrks s) (mcode g) <> []) ->
  wfm w s -> armed w s -> armed w (m_add w bs fs s).
Proof.
  intros Fa W A. unfold m_add.
  set (s1 := update_events (MState (thrs s) (idle s) (fresh s) (mn s) (mtime s + 1) (cache s) bs fs)).
  assert (W1 : wfm w s1) by (unfold s1, update_events; apply wfm_with_mon, wfm_breaks, W).
  pose proof (enable_threads_tuned w (thrs s1) s1) as T.
  set (s2 := enable_threads w (thrs s1) s1) in *.
  destruct T as [T1 T2 T3 T4 T5 T6 T7 [G1 G2 G3 G4 G5]].
  constructor; unfold has_breaks in *; cbn [with_mon mbrks mfuncs mn restart mon_on dln dst lev]; auto.
  - rewrite T6, T7, G1. unfold s1, update_events, has_breaks. cbn. intros ->. reflexivity.
  - change (live (with_mon (restart (mn s2)) s2)) with (live s2). unfold live. rewrite T1, T2, T6, T7.
    change (mbrks s1) with bs. change (mfuncs s1) with fs.
    intros f F L. apply in_app_iff in F. destruct F as [F|F].
    + apply in_concat_frames in F. destruct F as (u & th & H & F).
      apply (enable_threads_in w (thrs s1) s1 th f (fun m => lev m (mcode f) = true)); auto.
      * eapply nth_error_In; eauto.
      * intros m. rewrite (code_info_compute w s1 _ W1).
        destruct (compute_lines _ _ _ _ L) as (E1 & E2 & _). apply enable_line; auto.
      * intros m m' G. apply (g_lev _ _ G).
    + apply G4. unfold s1, update_events. cbn. apply (a_live _ _ A); [apply in_live; auto|].
      eapply compute_lines_ext; [|exact L]. apply Fa. exact F.
Qed.

Lemma m_drop_armed w bs fs s : armed w s -> armed w (m_drop bs fs s).
Proof.
  intros A. unfold m_drop. destruct (_ && _) eqn:E; [|exact A]. apply andb_true_iff in E.
  destruct E as [E1 E2]. rewrite forallb_forall in E1, E2. destruct A as [A1 A2 A3 A4].
  assert (Hl : forall c, k_lines (compute w bs fs c) <> [] -> k_lines (compute w (mbrks s) (mfuncs s) c) <> []).
  { intros c. apply compute_lines_ext. rewrite !code_breaks_nonempty. intros (l & H1 & H2).
    exists l. split; [|exact H2]. destruct (has_break_in _ _ _ H1) as [b B]. apply (E1 _ B). }
  assert (Hf : forall c, k_func (compute w bs fs c) <> None -> k_func (compute w (mbrks s) (mfuncs s) c) <> None).
  { intros c. unfold compute. destruct (mskip w c); [auto|]. destruct (mdont w c); [auto|].
    destruct (_ && _); [auto|]. cbn. generalize (mname w c). intros n Hn.
    assert (exists b, In (n, b) fs) as [b B].
    { clear -Hn. induction fs as [|[n' b] fs IH]; cbn in *; [congruence|].
      destruct (N.eqb_spec n' n) as [-> |_]; [eauto|]. destruct (IH Hn); eauto. }
    specialize (E2 _ B). cbn in E2. destruct (find_func (mfuncs s) n); [discriminate|discriminate]. }
  constructor; unfold has_breaks in *; cbn [mbrks mfuncs mn].
  - intros H. apply A1. destruct fs as [|[n b] fs].
    + destruct bs as [|[[f l] b] bs]; [discriminate|]. specialize (E1 _ (or_introl eq_refl)).
      destruct (mbrks s); [discriminate E1|]. apply orb_true_r.
    + specialize (E2 _ (or_introl eq_refl)). destruct (mfuncs s); [discriminate E2|]. reflexivity.
  - intros c o L. auto.
  - intros c [L|L]; auto.
  - intros f F L. apply A4; auto.
Qed.

Lemma m_exec_armed w o s : fair w s o -> wfm w s -> armed w s -> armed w (m_exec w o s).
Proof.
  intros Fa W A. destruct o as [t a|t c|bs fs|bs fs|t all| |t o bs fs]; cbn [m_exec fair] in *.
  - destruct (is_waiting t s) eqn:E; [exact A|]. apply m_act_armed; auto.
  - eapply armed_keeps; [apply m_cmd_keeps|exact A].
  - apply m_add_armed; auto.
  - apply m_drop_armed, A.
  - destruct (nth_error (thrs s) t) as [th|] eqn:H.
    + eapply armed_keeps; [|exact A]. eapply suspended_keeps, set_suspend_spec, H.
    + unfold set_suspend. rewrite H. exact A.
  - eapply armed_keeps; [|exact A]. constructor; try (cbn; eauto; fail).
    unfold live. cbn. rewrite map_app, concat_app. cbn. rewrite app_nil_r. eauto.
  - destruct Fa.
Qed.

Lemma m_start_armed w bs fs : armed w (m_start bs fs).
Proof.
  constructor.
  - unfold m_start, update_events, has_breaks, suspend_requested. cbn. intros ->. reflexivity.
  - reflexivity.
  - reflexivity.
  - intros f [].
Qed.

(* ----- Threads through an operation ----- *)

Lemma mark_suspended_susp b i : susp (mark_suspended b i) = true.
Proof. destruct b; [|reflexivity]. unfold mark_suspended. destruct (step i); reflexivity. Qed.

Lemma nth_wait_at t x s th u : nth_error (thrs s) t = Some th ->
  nth_error (thrs (wait_at t x s)) u =
  if Nat.eqb u t then Some (Thr (frames th) (Info (step (nfo th)) (stop (nfo th)) (susp (nfo th)) None) (Some x))
  else nth_error (thrs s) u.
Proof. intros H. unfold wait_at. rewrite H. cbn. apply (nth_put t u _ _ _ H). Qed.

Lemma nth_suspend_at_own w t x s th : nth_error (thrs s) t = Some th ->
  exists i, susp i = true /\ nth_error (thrs (suspend_at w t x s)) t = Some (Thr (frames th) i (Some x)).
Proof.
  intros H. pose proof (set_suspend_spec w t false false s th H) as S.
  assert (E : nth_error (thrs (set_suspend w t false false s)) t = Some (marked w false t t th)).
  { rewrite (s_thrs _ _ _ _ _ _ S), H. reflexivity. }
  unfold suspend_at. rewrite (nth_wait_at _ _ _ _ t E), Nat.eqb_refl. cbn. rewrite Nat.eqb_refl.
  eexists. split; [|reflexivity]. cbn. destruct (step (nfo th)); reflexivity.
Qed.

(* A thread another one acts beside: its frames stay, it may be asked to stop. *)
Definition beside (th th' : thr) : Prop :=
  frames th' = frames th /\ wt th' = wt th /\
  (nfo th' = nfo th \/ exists b, nfo th' = mark_suspended b (nfo th)).

Lemma beside_refl th : beside th th.
Proof. repeat split; auto. Qed.

Lemma suspended_beside w t p a s s' u th : suspended w t p a s s' -> nth_error (thrs s) u = Some th ->
  exists th', nth_error (thrs s') u = Some th' /\ beside th th'.
Proof.
  intros S H. rewrite (s_thrs _ _ _ _ _ _ S), H. eexists. split; [reflexivity|].
  repeat split. cbn [marked nfo]. destruct (Nat.eqb u t); [right; eauto|].
  destruct (a || single w); eauto.
Qed.

Lemma suspend_at_beside w t x s u th y : u <> t -> nth_error (thrs s) t = Some y ->
  nth_error (thrs s) u = Some th ->
  exists th', nth_error (thrs (suspend_at w t x s)) u = Some th' /\ beside th th'.
Proof.
  intros N0 H1 H2. pose proof (set_suspend_spec w t false false s y H1) as S.
  destruct (suspended_beside _ _ _ _ _ _ _ _ S H2) as (th' & E & B).
  destruct (suspended_beside _ _ _ _ _ _ _ _ S H1) as (y' & E1 & _).
  exists th'. split; [|exact B]. unfold suspend_at. rewrite (nth_wait_at _ _ _ _ u E1).
  destruct (Nat.eqb_spec u t); [congruence|exact E].
Qed.

Lemma set_info_other t i s u : u <> t -> nth_error (thrs (set_info t i s)) u = nth_error (thrs s) u.
Proof.
  intros N0. unfold set_info. destruct (nth_error (thrs s) t) as [th|] eqn:H; [|reflexivity]. cbn.
  rewrite (nth_put t u _ _ _ H). destruct (Nat.eqb_spec u t); [congruence|reflexivity].
Qed.

Lemma set_frames_other t fs s u : u <> t -> nth_error (thrs (set_frames t fs s)) u = nth_error (thrs s) u.
Proof.
  intros N0. unfold set_frames. destruct (nth_error (thrs s) t) as [th|] eqn:H; [|reflexivity]. cbn.
  rewrite (nth_put t u _ _ _ H). destruct (Nat.eqb_spec u t); [congruence|reflexivity].
Qed.

Lemma pop_other t s u : u <> t -> nth_error (thrs (pop t s)) u = nth_error (thrs s) u.
Proof.
  intros N0. unfold pop. destruct (nth_error (thrs s) t) as [th|] eqn:H; [|reflexivity]. cbn.
  rewrite (nth_put t u _ _ _ H). destruct (Nat.eqb_spec u t); [congruence|reflexivity].
Qed.

Lemma line_event_other w t o l ok s u th : u <> t -> nth_error (thrs s) u = Some th ->
  exists th', nth_error (thrs (line_event w t o l ok s)) u = Some th' /\ beside th th'.
Proof.
  intros N0 H. unfold line_event. destruct (nth_error (thrs s) t) as [y|] eqn:Ht; [|eauto using beside_refl].
  destruct (frames y) as [|f back]; [eauto using beside_refl|].
  destruct (line_outcome _ _ _ _ _ _); try (exists th; split; [exact H|apply beside_refl]).
  - eapply suspend_at_beside; eauto.
  - exists th. split; [|apply beside_refl].
    rewrite (nth_wait_at t _ (remember w (mcode f) s) y u Ht).
    destruct (Nat.eqb_spec u t); [congruence|exact H].
Qed.

Lemma start_event_other w t ok s u th : u <> t -> nth_error (thrs s) u = Some th ->
  exists th', nth_error (thrs (start_event w t ok s)) u = Some th' /\ beside th th'.
Proof.
  intros N0 H. unfold start_event. destruct (nth_error (thrs s) t) as [y|] eqn:Ht; [|eauto using beside_refl].
  destruct (frames y) as [|f back]; [eauto using beside_refl|].
  destruct (start_outcome _ _ _ _); try (exists th; split; [exact H|apply beside_refl]).
  eapply suspend_at_beside; eauto.
Qed.

Lemma return_event_other w t s u th : u <> t -> nth_error (thrs s) u = Some th ->
  exists th', nth_error (thrs (return_event w t s)) u = Some th' /\ beside th th'.
Proof.
  intros N0 H. unfold return_event. destruct (nth_error (thrs s) t) as [y|] eqn:Ht; [|eauto using beside_refl].
  destruct (frames y) as [|f back]; [eauto using beside_refl|].
  destruct (return_outcome _ _ _ _ _ _); try (exists th; split; [exact H|apply beside_refl]).
  - exists th. split; [|apply beside_refl]. rewrite set_info_other by exact N0. exact H.
  - eapply suspend_at_beside; eauto.
  - exists th. split; [|apply beside_refl]. cbn [with_mon thrs]. rewrite set_info_other by exact N0. exact H.
Qed.

Lemma act_other w t a s u th : u <> t -> nth_error (thrs s) u = Some th ->
  exists th', nth_error (thrs (m_act w t a s)) u = Some th' /\ beside th th'.
Proof.
  intros N0 H. unfold m_act. destruct (nth_error (thrs s) t) as [y|] eqn:Ht; [|eauto using beside_refl].
  destruct a as [c ok|i|o ok| | | |].
  - cbn zeta. assert (E : nth_error (thrs (with_fresh (fresh s + 1) (set_frames t (Mf (fresh s) c 0 :: frames y) s))) u = Some th).
    { cbn [with_fresh thrs]. rewrite set_frames_other; auto. }
    destruct (_ && _); [|eauto using beside_refl]. apply start_event_other; auto.
  - destruct (nth_error (idle s) i) as [f|]; [|eauto using beside_refl].
    rewrite set_frames_other by exact N0. exists th. split; [exact H|apply beside_refl].
  - destruct (frames y) as [|f back]; [eauto using beside_refl|].
    destruct (line_of _ _) as [l|]; [|eauto using beside_refl]. cbn zeta.
    assert (E : nth_error (thrs (set_frames t (Mf (mid f) (mcode f) l :: back) s)) u = Some th).
    { rewrite set_frames_other; auto. }
    destruct (_ && _); [|eauto using beside_refl]. apply line_event_other; auto.
  - destruct (frames y) as [|f back]; [eauto using beside_refl|]. cbn zeta.
    set (s1 := if mon_on (mn s) && rev (mn s) (mcode f) then return_event w t s else s).
    assert (E : exists th', nth_error (thrs s1) u = Some th' /\ beside th th').
    { unfold s1. destruct (_ && _); [apply return_event_other; auto|eauto using beside_refl]. }
    destruct (is_waiting t s1); [exact E|]. rewrite pop_other by exact N0. exact E.
  - destruct (frames y) as [|f back]; [eauto using beside_refl|].
    destruct (mgen w (mcode f)); [|eauto using beside_refl].
    rewrite set_frames_other by exact N0. exists th. split; [exact H|apply beside_refl].
  - rewrite pop_other by exact N0. eauto using beside_refl.
  - destruct (frames y) as [|f back]; [eauto using beside_refl|].
    destruct (k_skip _); [eauto using beside_refl|]. eapply suspend_at_beside; eauto.
Qed.

(* Operations which are not of a thread. *)
Definition foreign (t : nat) (o : mop) : Prop :=
  match o with MDo u _ | MCmd u _ => u <> t | _ => True end.

Lemma exec_foreign w o s t th : foreign t o -> nth_error (thrs s) t = Some th ->
  exists th', nth_error (thrs (m_exec w o s)) t = Some th' /\ beside th th'.
Proof.
  intros Fo H. destruct o as [u a|u c|bs fs|bs fs|u all| |u o bs fs]; cbn [m_exec foreign] in *.
  - destruct (is_waiting u s); [eauto using beside_refl|]. apply act_other; auto.
  - exists th. split; [|apply beside_refl]. unfold m_cmd.
    destruct (nth_error (thrs s) u) as [y|] eqn:Hu; [|exact H].
    destruct (wt y) as [x|].
    + destruct (client_cmd c); [|exact H]. destruct (m_resumed w c x (frames y)) as [i fs].
      assert (E : nth_error (put u (Thr (frames y) i None) (thrs s)) t = Some th).
      { rewrite nth_put_other by exact Fo. exact H. }
      destruct (is_ret (at_evt x)); [|exact E]. rewrite pop_other by congruence. exact E.
    + destruct c; auto. rewrite set_info_other by congruence. exact H.
  - exists th. split; [|apply beside_refl]. unfold m_add. cbn [with_mon thrs].
    rewrite (t_thrs _ _ (enable_threads_tuned _ _ _)). exact H.
  - exists th. split; [|apply beside_refl]. unfold m_drop. destruct (_ && _); exact H.
  - destruct (nth_error (thrs s) u) as [y|] eqn:Hu.
    + eapply suspended_beside; [apply (set_suspend_spec w u true all s y Hu)|exact H].
    + unfold set_suspend. rewrite Hu. eauto using beside_refl.
  - exists th. split; [|apply beside_refl]. cbn. rewrite nth_error_app1; [exact H|].
    apply nth_error_Some. congruence.
  - exists th. split; [|apply beside_refl]. destruct (is_waiting u s); [exact H|]. unfold m_race.
    destruct (nth_error (thrs s) u) as [y|]; [|exact H]. destruct (frames y); [exact H|].
    destruct (line_of _ _); [|exact H]. destruct (_ && _); [|exact H].
    destruct (line_outcome _ _ _ _ _ _); try exact H. cbn [with_mon thrs]. unfold m_add. cbn [with_mon thrs].
    rewrite (t_thrs _ _ (enable_threads_tuned _ _ _)). exact H.
Qed.

(* ----- A thread acting ----- *)

Definition kof (w : mworld) (s : mstate) (c : N) : fci := compute w (mbrks s) (mfuncs s) c.

(* Where and why a thread stops. *)
Inductive stops (w : mworld) (s : mstate) (th : thr) : mact -> wait -> Prop :=
| StLine : forall o ok f back l y, frames th = f :: back -> line_of (mlines w (mcode f)) o = Some l ->
    line_outcome (kof w s (mcode f)) (any_stepping s) (nfo th) (Mf (mid f) (mcode f) l) l ok = OStop y ->
    stops w s th (MLine o ok) (Wait (mid f) y ELine false)
| StPause : forall o ok f back l, frames th = f :: back -> line_of (mlines w (mcode f)) o = Some l ->
    line_outcome (kof w s (mcode f)) (any_stepping s) (nfo th) (Mf (mid f) (mcode f) l) l ok = OPause ->
    stops w s th (MLine o ok) (Wait (mid f) RPause ELine false)
| StFunc : forall c ok y, start_outcome (kof w s c) (any_stepping s) (nfo th) ok = OStop y ->
    stops w s th (MCall c ok) (Wait (fresh s) y ECall false)
| StRet : forall f b back, frames th = f :: b :: back ->
    return_outcome w (kof w s (mcode f)) (fun b => kof w s (mcode b)) (nfo th) f (b :: back) = RShow b ->
    stops w s th MRet (Wait (mid b) (RStep (step (nfo th))) ERet true)
| StExc : forall f back, frames th = f :: back -> mskip w (mcode f) = false ->
    stops w s th MRaise (Wait (mid f) RPause EExc false).

Inductive goes (w : mworld) (s : mstate) (th : thr) : mact -> thr -> Prop :=
| GoSame : forall a fs, goes w s th a (Thr fs (nfo th) None)
| GoRun : forall f back,  frames th = f :: back ->
    return_outcome w (kof w s (mcode f)) (fun b => kof w s (mcode b)) (nfo th) f back = RRun ->
    goes w s th MRet (Thr back (Info NoStep None false (initial (nfo th))) None)
| GoConvert : forall f back, frames th = f :: back ->
    return_outcome w (kof w s (mcode f)) (fun b => kof w s (mcode b)) (nfo th) f back = RConvert ->
    goes w s th MRet (Thr back (converted (nfo th)) None).

(* Which frames a thread has after an action. *)
Definition stacked (w : mworld) (s : mstate) (th : thr) (a : mact) (fs : list mf) : Prop :=
  match a with
  | MCall c _ => fs = Mf (fresh s) c 0 :: frames th
  | MResume i => match nth_error (idle s) i with
                 | Some f => fs = f :: frames th
                 | None => fs = frames th
                 end
  | MLine _ _ => match frames th with
                 | f :: back => exists l, fs = Mf (mid f) (mcode f) l :: back
                 | [] => fs = []
                 end
  | MRet | MUnwind => fs = tl (frames th)
  | MYield => fs = tl (frames th) \/ fs = frames th
  | MRaise => fs = frames th
  end.

Lemma kof_remember w s c d : kof w (remember w c s) d = kof w s d.
Proof. reflexivity. Qed.

Lemma code_info_kof w s c : wfm w s -> code_info w s c = kof w s c.
Proof. apply code_info_compute. Qed.

Lemma any_stepping_ext s s' :
  map nfo (thrs s') = map nfo (thrs s) -> map wt (thrs s') = map wt (thrs s) ->
  any_stepping s' = any_stepping s.
Proof.
  unfold any_stepping. generalize (thrs s). generalize (thrs s'). intros l.
  induction l as [|x l IH]; intros [|y l'] H1 H2; try discriminate; [reflexivity|].
  cbn in H1, H2 |- *. injection H1 as E1 H1. injection H2 as E2 H2. rewrite (IH l' H1 H2). f_equal.
  unfold stepping. rewrite E1, E2. reflexivity.
Qed.

Lemma any_stepping_frames t fs s : any_stepping (set_frames t fs s) = any_stepping s.
Proof.
  unfold set_frames. destruct (nth_error (thrs s) t) as [th|] eqn:H; [|reflexivity].
  apply any_stepping_ext; cbn; apply nth_error_ext; intros u; rewrite !nth_error_map, (nth_put t u _ _ _ H);
    destruct (Nat.eqb_spec u t) as [-> |_]; try reflexivity; rewrite H; reflexivity.
Qed.

Lemma line_outcome_mid k any i f g l ok : mid f = mid g ->
  line_outcome k any i f l ok = line_outcome k any i g l ok.
Proof. intros E. unfold line_outcome. rewrite E. reflexivity. Qed.

Lemma return_kb w k kb kb' i f back : (forall b, kb b = kb' b) ->
  return_outcome w k kb i f back = return_outcome w k kb' i f back.
Proof.
  intros E. unfold return_outcome. destruct (k_skip k); [reflexivity|].
  destruct (step i); try reflexivity; destruct back as [|b back]; try reflexivity; rewrite E; reflexivity.
Qed.

Lemma nth_set_info t i s th : nth_error (thrs s) t = Some th ->
  nth_error (thrs (set_info t i s)) t = Some (Thr (frames th) i (wt th)).
Proof. intros H. unfold set_info. rewrite H. cbn. eapply nth_put_same; eauto. Qed.

Lemma nth_pop t s th : nth_error (thrs s) t = Some th ->
  nth_error (thrs (pop t s)) t = Some (Thr (tl (frames th)) (nfo th) (wt th)).
Proof. intros H. unfold pop. rewrite H. cbn. eapply nth_put_same; eauto. Qed.

Lemma show_back w k kb i f back b : return_outcome w k kb i f back = RShow b ->
  exists rest, back = b :: rest.
Proof.
  intros O. unfold return_outcome in O.
  assert (D : stop_on_return w back = RShow b -> exists rest, back = b :: rest).
  { unfold stop_on_return. destruct back as [|x rest]; [discriminate|].
    destruct (mend _ _); [discriminate|]. destruct (mprop _ _); [discriminate|].
    destruct (mdont _ _); [discriminate|]. intros [= ->]. eauto. }
  destruct (k_skip _); [discriminate|]. destruct (step i); try discriminate;
    try (destruct (same _ _); [|discriminate]); auto; destruct back as [|x rest]; try discriminate;
    match type of O with (if ?b then _ else _) = _ => destruct b; [auto|discriminate] end.
Qed.

Lemma act_own w t a s th : wfm w s -> nth_error (thrs s) t = Some th -> wt th = None ->
  exists th', nth_error (thrs (m_act w t a s)) t = Some th' /\
    ((exists x, wt th' = Some x /\ susp (nfo th') = true /\ stops w s th a x /\
        (a = MRet -> frames th' = frames th)) \/ goes w s th a th') /\
    (wt th' = None \/ a <> MRet -> stacked w s th a (frames th')).
Proof.
  intros W H Hw. unfold m_act. rewrite H. destruct a as [c ok|i|o ok| | | |].
  - cbn zeta. set (s1 := with_fresh (fresh s + 1) (set_frames t (Mf (fresh s) c 0 :: frames th) s)).
    assert (W1 : wfm w s1) by (apply wfm_call; auto).
    assert (H1 : nth_error (thrs s1) t = Some (Thr (Mf (fresh s) c 0 :: frames th) (nfo th) None)).
    { unfold s1. cbn [with_fresh thrs]. rewrite (nth_set_frames _ _ _ _ t H), Nat.eqb_refl, Hw. reflexivity. }
    assert (A1 : any_stepping s1 = any_stepping s) by apply (any_stepping_frames t _ s).
    assert (K1 : kof w s1 c = kof w s c).
    { unfold kof, s1. cbn [with_fresh mbrks mfuncs]. rewrite set_frames_brks, set_frames_funcs. reflexivity. }
    assert (Q : exists th', Some (Thr (Mf (fresh s) c 0 :: frames th) (nfo th) None) = Some th' /\
      ((exists x, wt th' = Some x /\ susp (nfo th') = true /\ stops w s th (MCall c ok) x /\
        (MCall c ok = MRet -> frames th' = frames th)) \/ goes w s th (MCall c ok) th') /\
      (wt th' = None \/ MCall c ok <> MRet -> stacked w s th (MCall c ok) (frames th'))).
    { eexists. split; [reflexivity|]. split; [right; apply GoSame|reflexivity]. }
    destruct (mon_on (mn s1) && negb (dst (mn s1) c)); [|rewrite H1; exact Q].
    unfold start_event. rewrite H1. cbn [frames mcode nfo]. rewrite (code_info_kof w s1 c W1), K1.
    match goal with |- context [start_outcome ?k ?x ?i ?b] =>
      change (start_outcome k x i b) with (start_outcome k (any_stepping s1) i b) end.
    rewrite A1. destruct (start_outcome _ _ _ _) as [| |y|] eqn:O;
      try (cbn [with_mon remember thrs]; rewrite H1; exact Q).
    cbn [mid].
    match goal with |- context [suspend_at w t ?x ?s2] =>
      destruct (nth_suspend_at_own w t x s2 _ H1) as (i & I1 & I2); rewrite I2 end.
    eexists. split; [reflexivity|]. split; [left|reflexivity].
    eexists. split; [reflexivity|]. split; [exact I1|]. split; [|discriminate]. constructor. exact O.
  - destruct (nth_error (idle s) i) as [f|] eqn:E.
    + assert (H' : nth_error (thrs (with_idle (drop_nth i (idle s)) s)) t = Some th) by exact H.
      rewrite (nth_set_frames t (f :: frames th) _ th t H'), Nat.eqb_refl, Hw.
      eexists. split; [reflexivity|]. split; [right; apply GoSame|]. intros _. cbn. rewrite E. reflexivity.
    + exists th. split; [exact H|]. split; [right; destruct th; cbn in *; subst; apply GoSame|].
      intros _. cbn. rewrite E. reflexivity.
  - destruct (frames th) as [|f back] eqn:Ef.
    { exists th. split; [exact H|]. split; [right; destruct th; cbn in *; subst; apply GoSame|].
      intros _. cbn. rewrite Ef. reflexivity. }
    destruct (line_of _ _) as [l|] eqn:El.
    2:{ exists th. split; [exact H|]. split; [right; destruct th; cbn in *; subst; apply GoSame|].
        intros _. cbn. rewrite Ef. exists (mline f). destruct f; reflexivity. }
    cbn zeta. set (s1 := set_frames t (Mf (mid f) (mcode f) l :: back) s).
    assert (W1 : wfm w s1) by (eapply wfm_line; eauto).
    assert (H1 : nth_error (thrs s1) t = Some (Thr (Mf (mid f) (mcode f) l :: back) (nfo th) None)).
    { unfold s1. rewrite (nth_set_frames _ _ _ _ t H), Nat.eqb_refl, Hw. reflexivity. }
    assert (A1 : any_stepping s1 = any_stepping s) by apply any_stepping_frames.
    assert (K1 : kof w s1 (mcode f) = kof w s (mcode f)).
    { unfold kof, s1. rewrite set_frames_brks, set_frames_funcs. reflexivity. }
    assert (Q : exists th', Some (Thr (Mf (mid f) (mcode f) l :: back) (nfo th) None) = Some th' /\
      ((exists x, wt th' = Some x /\ susp (nfo th') = true /\ stops w s th (MLine o ok) x /\
        (MLine o ok = MRet -> frames th' = f :: back)) \/ goes w s th (MLine o ok) th') /\
      (wt th' = None \/ MLine o ok <> MRet -> stacked w s th (MLine o ok) (frames th'))).
    { eexists. split; [reflexivity|]. split; [right; apply GoSame|]. intros _. cbn. rewrite Ef. eauto. }
    destruct (mon_on _ && _ && _); [|rewrite H1; exact Q].
    unfold line_event. rewrite H1. cbn [frames mcode nfo mid]. rewrite (code_info_kof w s1 _ W1), K1.
    change (any_stepping (remember w (mcode f) s1)) with (any_stepping s1). rewrite A1.
    destruct (line_outcome _ _ _ _ _ _) as [| |y|] eqn:O;
      try (cbn [with_mon remember thrs]; rewrite H1; exact Q).
    + match goal with |- context [suspend_at w t ?x ?s2] =>
        destruct (nth_suspend_at_own w t x s2 _ H1) as (i & I1 & I2); rewrite I2 end.
      eexists. split; [reflexivity|]. split.
      * left. eexists. split; [reflexivity|]. split; [exact I1|]. split; [|discriminate].
        econstructor; eauto.
      * intros _. cbn. rewrite Ef. eauto.
    + match goal with |- context [wait_at t ?x ?s2] =>
        rewrite (nth_wait_at t x s2 _ t H1), Nat.eqb_refl end. cbn [frames nfo].
      eexists. split; [reflexivity|]. split.
      * left. eexists. split; [reflexivity|]. cbn [nfo susp]. split; [|split; [|discriminate]].
        -- clear -O. unfold line_outcome in O. destruct (k_skip _ || k_filt _); [discriminate|].
           match type of O with (if ?b then _ else _) = _ => destruct b; [discriminate|] end.
           destruct (susp (nfo th)); [reflexivity|]. exfalso. revert O.
           destruct (step (nfo th)); try discriminate;
             match goal with |- (if ?b then _ else _) = _ -> _ => destruct b; discriminate end.
        -- eapply StPause; eauto.
      * intros _. cbn. rewrite Ef. eauto.
  - destruct (frames th) as [|f back] eqn:Ef.
    { exists th. split; [exact H|]. split; [right; destruct th; cbn in *; subst; apply GoSame|].
      intros _. cbn. rewrite Ef. reflexivity. }
    cbn zeta. set (s1 := if mon_on (mn s) && rev (mn s) (mcode f) then return_event w t s else s).
    assert (P0 : forall s2 i, nth_error (thrs s2) t = Some (Thr (f :: back) i None) ->
      goes w s th MRet (Thr back i None) ->
      exists th', nth_error (thrs (if is_waiting t s2 then s2 else pop t s2)) t = Some th' /\
      ((exists x, wt th' = Some x /\ susp (nfo th') = true /\ stops w s th MRet x /\
        (MRet = MRet -> frames th' = f :: back)) \/ goes w s th MRet th') /\
      (wt th' = None \/ MRet <> MRet -> stacked w s th MRet (frames th'))).
    { intros s2 i E G. assert (is_waiting t s2 = false) as -> by (unfold is_waiting; rewrite E; reflexivity).
      rewrite (nth_pop _ _ _ E). cbn. eexists. split; [reflexivity|]. split; [right; exact G|].
      intros _. rewrite Ef. reflexivity. }
    assert (Hf : nth_error (thrs s) t = Some (Thr (f :: back) (nfo th) None)).
    { rewrite H. destruct th; cbn in *; subst; reflexivity. }
    unfold s1. destruct (mon_on (mn s) && rev (mn s) (mcode f)).
    2:{ apply (P0 s (nfo th)); [exact Hf|apply GoSame]. }
    unfold return_event. rewrite H, Ef.
    rewrite (return_kb w _ _ (fun b => kof w s (mcode b))) by
      (intros b; apply (code_info_kof w (remember w (mcode f) s)), wfm_remember, W).
    rewrite (code_info_kof w s _ W).
    destruct (return_outcome _ _ _ _ _ _) as [| |b| |] eqn:O.
    + apply (P0 _ (nfo th)); [exact Hf|apply GoSame].
    + eapply P0.
      * rewrite (nth_set_info t _ (remember w (mcode f) s) _ Hf). reflexivity.
      * eapply GoRun; eauto.
    + destruct (show_back _ _ _ _ _ _ _ O) as [rest ->].
      match goal with |- context [suspend_at w t ?x ?s2] =>
        destruct (nth_suspend_at_own w t x s2 _ Hf) as (i & I1 & I2) end.
      match goal with |- context [is_waiting t ?s2] =>
        assert (is_waiting t s2 = true) as -> by (unfold is_waiting; rewrite I2; reflexivity) end.
      rewrite I2. eexists. split; [reflexivity|]. split.
      * left. eexists. split; [reflexivity|]. split; [exact I1|]. split; [|reflexivity]. eapply StRet; eauto.
      * intros [D|D]; [discriminate D|congruence].
    + apply (P0 _ (nfo th)); [exact Hf|apply GoSame].
    + eapply P0.
      * cbn [with_mon thrs]. rewrite (nth_set_info t _ (remember w (mcode f) s) _ Hf). reflexivity.
      * eapply GoConvert; eauto.
  - destruct (frames th) as [|f back] eqn:Ef.
    { exists th. split; [exact H|]. split; [right; destruct th; cbn in *; subst; apply GoSame|].
      intros _. cbn. auto. }
    destruct (mgen w (mcode f)).
    + assert (H' : nth_error (thrs (with_idle (f :: idle s) s)) t = Some th) by exact H.
      rewrite (nth_set_frames t back _ th t H'), Nat.eqb_refl, Hw.
      eexists. split; [reflexivity|]. split; [right; apply GoSame|]. intros _. cbn. rewrite Ef. auto.
    + exists th. split; [exact H|]. split; [right; destruct th; cbn in *; subst; apply GoSame|].
      intros _. cbn. auto.
  - rewrite (nth_pop _ _ _ H), Hw. eexists. split; [reflexivity|]. split; [right; apply GoSame|].
    intros _. reflexivity.
  - destruct (frames th) as [|f back] eqn:Ef.
    { exists th. split; [exact H|]. split; [right; destruct th; cbn in *; subst; apply GoSame|].
      intros _. cbn. reflexivity. }
    rewrite (code_info_kof w s _ W). destruct (k_skip _) eqn:Ek.
    { exists th. split; [exact H|]. split; [right; destruct th; cbn in *; subst; apply GoSame|].
      intros _. cbn. reflexivity. }
    match goal with |- context [suspend_at w t ?x ?s2] =>
      destruct (nth_suspend_at_own w t x s2 _ H) as (i & I1 & I2); rewrite I2 end.
    eexists. split; [reflexivity|]. split; [left|intros _; cbn; reflexivity].
    eexists. split; [reflexivity|]. split; [exact I1|]. split; [|discriminate].
    eapply StExc; eauto. unfold kof, compute in Ek. destruct (mskip w (mcode f)); [discriminate|reflexivity].
Qed.

(* ----- Nothing is disabled while a thread is stepping ----- *)

Definition plain (w : mworld) (c : N) : Prop :=
  mskip w c = false /\ mdont w c = false /\ mfilter_on w && mfilt w c = false.

Lemma plain_kof w s c : plain w c <-> k_skip (kof w s c) = false /\ k_filt (kof w s c) = false.
Proof.
  unfold plain, kof, compute. destruct (mskip w c); cbn; [intuition congruence|].
  destruct (mdont w c); cbn; [intuition congruence|].
  destruct (mfilter_on w && mfilt w c); cbn; intuition congruence.
Qed.

Lemma skip_kof w s c : k_skip (kof w s c) = mskip w c.
Proof.
  unfold kof, compute. destruct (mskip w c); [reflexivity|]. destruct (mdont w c); [reflexivity|].
  destruct (_ && _); reflexivity.
Qed.

Record clean (w : mworld) (s : mstate) : Prop := {
  c_start : forall c, mskip w c = false -> dst (mn s) c = false;
  c_line : forall c o, plain w c -> dln (mn s) c o = false
}.

Lemma clean_keeps w s s' : keeps s s' -> clean w s -> clean w s'.
Proof.
  intros K [C1 C2]. constructor.
  - intros c P. apply (k_dst _ _ K). auto.
  - intros c o P. apply (k_dln _ _ K). auto.
Qed.

Lemma clean_mn w s s' : mn s' = mn s -> clean w s -> clean w s'.
Proof. intros E [C1 C2]. constructor; rewrite E; auto. Qed.

Lemma clean_restart w s : (forall c, dst (mn s) c = false) -> (forall c o, dln (mn s) c o = false) -> clean w s.
Proof. intros H1 H2. constructor; auto. Qed.

Lemma line_disable_free w s c any i f l ok : plain w c ->
  line_outcome (kof w s c) any i f l ok = ODisable -> any = false /\ step i = NoStep.
Proof.
  intros P O. apply (plain_kof w s) in P. destruct P as [P1 P2]. unfold line_outcome in O.
  rewrite P1, P2 in O. cbn [orb] in O.
  match type of O with (if ?b then _ else _) = _ => destruct b; [discriminate|] end.
  destruct (susp i); [discriminate|].
  destruct (step i); try discriminate;
    match type of O with (if ?b then _ else _) = _ => destruct b eqn:E; try discriminate end.
  apply orb_false_iff in E. destruct E. auto.
Qed.

Lemma start_disable_free w s c any i ok : mskip w c = false ->
  start_outcome (kof w s c) any i ok = ODisable -> any = false /\ step i = NoStep.
Proof.
  intros P O. rewrite <- (skip_kof w s) in P. unfold start_outcome in O. rewrite P in O.
  destruct (k_func _); [destruct (hits _ _); discriminate|].
  destruct (_ || any) eqn:E in O; [discriminate|]. apply orb_false_iff in E. destruct E as [E ->].
  apply orb_false_iff in E. destruct E as [E _]. split; [reflexivity|]. destruct (step i); auto; discriminate.
Qed.

(* A thread which does not disable anything of interest. *)
Definition busy (s : mstate) (u : nat) : Prop :=
  any_stepping s = true \/ forall th, nth_error (thrs s) u = Some th -> step (nfo th) <> NoStep.

Lemma act_clean w t a s : busy s t -> wfm w s -> is_waiting t s = false ->
  clean w s -> clean w (m_act w t a s).
Proof.
  intros B W Hn C. unfold m_act. destruct (nth_error (thrs s) t) as [th|] eqn:H; [|exact C].
  pose proof (waiting_none _ _ _ H Hn) as Hw.
  assert (B' : any_stepping s = false -> step (nfo th) = NoStep -> False).
  { intros E1 E2. destruct B as [B|B]; [congruence|]. apply (B th H E2). }
  destruct a as [c ok|i|o ok| | | |].
  - cbn zeta. set (s1 := with_fresh (fresh s + 1) (set_frames t (Mf (fresh s) c 0 :: frames th) s)).
    assert (W1 : wfm w s1) by (apply wfm_call; auto).
    assert (M1 : mn s1 = mn s) by apply set_frames_mn.
    assert (H1 : nth_error (thrs s1) t = Some (Thr (Mf (fresh s) c 0 :: frames th) (nfo th) None)).
    { unfold s1. cbn [with_fresh thrs]. rewrite (nth_set_frames _ _ _ _ t H), Nat.eqb_refl, Hw. reflexivity. }
    assert (A1 : any_stepping s1 = any_stepping s) by apply (any_stepping_frames t _ s).
    assert (C1 : clean w s1) by (eapply clean_mn; eauto).
    destruct (_ && _); [|exact C1]. unfold start_event. rewrite H1. cbn [frames mcode nfo].
    rewrite (code_info_kof w s1 c W1).
    match goal with |- context [start_outcome ?k ?x ?i ?b] =>
      change (start_outcome k x i b) with (start_outcome k (any_stepping s1) i b) end.
    rewrite A1.
    match goal with |- context [with_mon (enable ?k ?i ?f ?m) ?r] =>
      set (s2 := with_mon (enable k i f m) r) end.
    assert (C2 : clean w s2).
    { eapply clean_keeps; [|exact C1]. unfold s2. eapply keeps_trans; [apply (remember_keeps w c)|].
      apply tuned_keeps. constructor; auto. apply enable_grows. }
    destruct (start_outcome _ _ _ _) as [| |y|] eqn:O; auto.
    + destruct C2 as [D1 D2]. constructor; [|exact D2]. cbn [with_mon mn disable_start dst]. intros d P. unfold add.
      destruct (N.eqb_spec d c) as [-> |_]; [|cbn; auto]. exfalso.
      destruct (start_disable_free _ _ _ _ _ _ P O). auto.
    + eapply clean_keeps; [|exact C2]. eapply suspend_at_keeps. exact H1.
  - destruct (nth_error (idle s) i); [|exact C]. eapply clean_mn; [|exact C]. rewrite set_frames_mn. reflexivity.
  - destruct (frames th) as [|f back] eqn:Ef; [exact C|]. destruct (line_of _ _) as [l|]; [|exact C].
    cbn zeta. set (s1 := set_frames t (Mf (mid f) (mcode f) l :: back) s).
    assert (W1 : wfm w s1) by (eapply wfm_line; eauto).
    assert (M1 : mn s1 = mn s) by apply set_frames_mn.
    assert (H1 : nth_error (thrs s1) t = Some (Thr (Mf (mid f) (mcode f) l :: back) (nfo th) None)).
    { unfold s1. rewrite (nth_set_frames _ _ _ _ t H), Nat.eqb_refl, Hw. reflexivity. }
    assert (A1 : any_stepping s1 = any_stepping s) by apply any_stepping_frames.
    assert (C1 : clean w s1) by (eapply clean_mn; eauto).
    destruct (_ && _); [|exact C1]. unfold line_event. rewrite H1. cbn [frames mcode nfo mid].
    rewrite (code_info_kof w s1 _ W1).
    change (any_stepping (remember w (mcode f) s1)) with (any_stepping s1). rewrite A1.
    assert (C2 : clean w (remember w (mcode f) s1)) by (apply (clean_mn w s1); [reflexivity|exact C1]).
    destruct (line_outcome _ _ _ _ _ _) as [| |y|] eqn:O; auto.
    + destruct C2 as [D1 D2]. constructor; [exact D1|]. cbn [with_mon mn disable_line dln]. intros d p P.
      destruct (N.eqb_spec d (mcode f)) as [-> |_]; [|cbn; auto]. exfalso.
      destruct (line_disable_free _ _ _ _ _ _ _ _ P O). auto.
    + eapply clean_keeps; [|exact C2]. eapply suspend_at_keeps. exact H1.
    + eapply clean_mn; [apply wait_at_mn|exact C2].
  - destruct (frames th) as [|f back] eqn:Ef; [exact C|]. cbn zeta.
    set (s1 := if mon_on (mn s) && rev (mn s) (mcode f) then return_event w t s else s).
    assert (K1 : keeps s s1).
    { unfold s1. destruct (_ && _); [apply return_event_keeps|apply keeps_refl]. }
    eapply clean_keeps; [|exact C]. destruct (is_waiting t s1); [exact K1|].
    eapply keeps_trans; [exact K1|apply pop_keeps].
  - destruct (frames th) as [|f back]; [exact C|]. destruct (mgen _ _); [|exact C].
    eapply clean_mn; [|exact C]. rewrite set_frames_mn. reflexivity.
  - eapply clean_keeps; [apply pop_keeps|exact C].
  - destruct (frames th) as [|f back]; [exact C|]. destruct (k_skip _); [exact C|].
    eapply clean_keeps; [eapply suspend_at_keeps; eauto|exact C].
Qed.

Lemma m_add_clean w bs fs s : clean w (m_add w bs fs s).
Proof. unfold m_add. apply clean_restart; reflexivity. Qed.

Definition actor (o : mop) (t : nat) : Prop :=
  match o with MDo u _ | MRace u _ _ _ => u = t | _ => False end.

Lemma exec_clean w o s : (forall u, actor o u -> busy s u) -> wfm w s ->
  clean w s -> clean w (m_exec w o s).
Proof.
  intros B W C. destruct o as [t a|t c|bs fs|bs fs|t all| |t o bs fs]; cbn [m_exec actor] in *.
  - destruct (is_waiting t s) eqn:E; [exact C|]. apply act_clean; auto.
  - eapply clean_keeps; [apply m_cmd_keeps|exact C].
  - apply m_add_clean.
  - unfold m_drop. destruct (_ && _); [|exact C]. eapply clean_mn; [|exact C]. reflexivity.
  - destruct (nth_error (thrs s) t) as [th|] eqn:H.
    + eapply clean_keeps; [|exact C]. eapply suspended_keeps, set_suspend_spec, H.
    + unfold set_suspend. rewrite H. exact C.
  - eapply clean_mn; [|exact C]. reflexivity.
  - destruct (is_waiting t s); [exact C|]. unfold m_race.
    destruct (nth_error (thrs s) t) as [th|] eqn:H; [|exact C].
    destruct (frames th) as [|f back]; [exact C|]. destruct (line_of _ _); [|exact C].
    destruct (_ && _); [|exact C]. destruct (line_outcome _ _ _ _ _ _) eqn:O; try exact C.
    destruct (m_add_clean w bs fs s) as [D1 D2]. constructor; [exact D1|].
    cbn [with_mon mn disable_line dln]. intros d p P.
    destruct (N.eqb_spec d (mcode f)) as [-> |_]; [|cbn; auto]. exfalso.
    rewrite (code_info_kof w s _ W) in O. destruct (line_disable_free _ _ _ _ _ _ _ _ P O) as [E1 E2].
    destruct (B t eq_refl) as [B1|B1]; [congruence|]. apply (B1 th H E2).
Qed.

(* Monitoring stays on while a thread is suspended or stepping. *)
Record evs (m m' : mon) : Prop := {
  e_on : mon_on m = true -> mon_on m' = true;
  e_lev : forall c, lev m c = true -> lev m' c = true;
  e_rev : forall c, rev m c = true -> rev m' c = true
}.

Lemma evs_refl m : evs m m.
Proof. constructor; auto. Qed.

Lemma evs_trans a b c : evs a b -> evs b c -> evs a c.
Proof. intros [A1 A2 A3] [B1 B2 B3]. constructor; auto. Qed.

Lemma keeps_evs s s' : keeps s s' -> evs (mn s) (mn s').
Proof. intros [K1 K2 K3 K4 K5 K6 K7 K8]. constructor; auto. Qed.

Lemma grows_evs m m' : grows m m' -> evs m m'.
Proof. intros [G1 G2 G3 G4 G5]. constructor; auto. rewrite G1. auto. Qed.

Lemma act_evs w t a s : evs (mn s) (mn (m_act w t a s)).
Proof.
  unfold m_act. destruct (nth_error (thrs s) t) as [th|] eqn:H; [|apply evs_refl].
  destruct a as [c ok|i|o ok| | | |].
  - cbn zeta. set (s1 := with_fresh (fresh s + 1) (set_frames t (Mf (fresh s) c 0 :: frames th) s)).
    assert (M1 : mn s1 = mn s) by (unfold s1; cbn [with_fresh mn]; apply set_frames_mn).
    rewrite <- M1. destruct (_ && _); [|apply evs_refl]. unfold start_event.
    destruct (nth_error (thrs s1) t) as [th1|] eqn:H1; [|apply evs_refl].
    destruct (frames th1) as [|f back]; [apply evs_refl|].
    match goal with |- context [with_mon (enable ?k ?i ?f ?m) ?r] =>
      set (s2 := with_mon (enable k i f m) r);
      assert (M2 : evs (mn s1) (mn s2)) by (apply grows_evs, enable_grows)
    end.
    destruct (start_outcome _ _ _ _); auto.
    + destruct M2 as [E1 E2 E3]. constructor; auto.
    + eapply evs_trans; [exact M2|]. apply keeps_evs. eapply suspend_at_keeps. exact H1.
  - destruct (nth_error (idle s) i); [|apply evs_refl]. rewrite set_frames_mn. apply evs_refl.
  - destruct (frames th) as [|f back]; [apply evs_refl|]. destruct (line_of _ _) as [l|]; [|apply evs_refl].
    cbn zeta. set (s1 := set_frames t (Mf (mid f) (mcode f) l :: back) s).
    assert (M1 : mn s1 = mn s) by apply set_frames_mn.
    rewrite <- M1. destruct (_ && _); [|apply evs_refl]. unfold line_event.
    destruct (nth_error (thrs s1) t) as [th1|] eqn:H1; [|apply evs_refl].
    destruct (frames th1) as [|f1 back1]; [apply evs_refl|].
    destruct (line_outcome _ _ _ _ _ _); try apply evs_refl.
    + constructor; auto.
    + change (mn s1) with (mn (remember w (mcode f1) s1)). apply keeps_evs. eapply (suspend_at_keeps w t _ (remember w (mcode f1) s1)). exact H1.
    + rewrite wait_at_mn. apply evs_refl.
  - destruct (frames th) as [|f back]; [apply evs_refl|]. cbn zeta.
    set (s1 := if mon_on (mn s) && rev (mn s) (mcode f) then return_event w t s else s).
    assert (K1 : keeps s s1).
    { unfold s1. destruct (_ && _); [apply return_event_keeps|apply keeps_refl]. }
    apply keeps_evs. destruct (is_waiting t s1); [exact K1|].
    eapply keeps_trans; [exact K1|apply pop_keeps].
  - destruct (frames th) as [|f back]; [apply evs_refl|]. destruct (mgen _ _); [|apply evs_refl].
    rewrite set_frames_mn. apply evs_refl.
  - apply keeps_evs, pop_keeps.
  - destruct (frames th) as [|f back]; [apply evs_refl|]. destruct (k_skip _); [apply evs_refl|].
    eapply keeps_evs, suspend_at_keeps; eauto.
Qed.

Lemma m_add_on w bs fs s : suspend_requested s = true -> mon_on (mn (m_add w bs fs s)) = true.
Proof.
  intros R. unfold m_add. cbn [with_mon mn restart mon_on].
  rewrite (g_on _ _ (t_mon _ _ (enable_threads_tuned _ _ _))).
  unfold update_events. cbn [with_mon mn set_on mon_on].
  match goal with |- _ || suspend_requested ?s2 = true => change (suspend_requested s2) with (suspend_requested s) end.
  rewrite R. apply orb_true_r.
Qed.

Lemma exec_on w o s : suspend_requested s = true -> mon_on (mn s) = true ->
  mon_on (mn (m_exec w o s)) = true.
Proof.
  intros R M. destruct o as [t a|t c|bs fs|bs fs|t all| |t o bs fs]; cbn [m_exec].
  - destruct (is_waiting t s); [exact M|]. apply (e_on _ _ (act_evs w t a s)), M.
  - eapply k_on; [apply m_cmd_keeps|exact M].
  - apply m_add_on, R.
  - unfold m_drop. destruct (_ && _); exact M.
  - destruct (nth_error (thrs s) t) as [th|] eqn:H.
    + eapply k_on; [eapply suspended_keeps, set_suspend_spec, H|exact M].
    + unfold set_suspend. rewrite H. exact M.
  - exact M.
  - destruct (is_waiting t s); [exact M|]. unfold m_race.
    destruct (nth_error (thrs s) t) as [th|] eqn:H; [|exact M].
    destruct (frames th) as [|f back]; [exact M|]. destruct (line_of _ _); [|exact M].
    destruct (_ && _); [|exact M]. destruct (line_outcome _ _ _ _ _ _) eqn:O; try exact M.
    cbn [with_mon mn disable_line mon_on]. apply m_add_on, R.
Qed.

Lemma stepping_any s t th : nth_error (thrs s) t = Some th -> stepping th = true -> any_stepping s = true.
Proof. intros H1 H2. unfold any_stepping. apply existsb_exists. exists th. split; [eapply nth_error_In; eauto|exact H2]. Qed.

Lemma stepping_requested s t th : nth_error (thrs s) t = Some th -> stepping th = true ->
  suspend_requested s = true.
Proof.
  intros H1 H2. unfold suspend_requested. apply existsb_exists. exists th.
  split; [eapply nth_error_In; eauto|]. unfold stepping in H2. destruct (wt th).
  - rewrite H2. apply orb_true_r.
  - apply andb_true_iff in H2. destruct H2 as [_ H2]. destruct (step (nfo th)); try reflexivity. discriminate.
Qed.

(* ----- Line and return events stay enabled ----- *)

Lemma m_add_events w bs fs s :
  (forall c, lev (mn s) c = true -> lev (mn (m_add w bs fs s)) c = true) /\
  (forall c, rev (mn s) c = true -> rev (mn (m_add w bs fs s)) c = true).
Proof.
  unfold m_add. cbn [with_mon mn restart lev rev].
  match goal with |- context [enable_threads w ?l ?x] => pose proof (t_mon _ _ (enable_threads_tuned w l x)) as G end.
  destruct G as [G1 G2 G3 G4 G5]. split; intros c L; [apply G4|apply G5]; exact L.
Qed.

Lemma exec_events w o s :
  (forall c, lev (mn s) c = true -> lev (mn (m_exec w o s)) c = true) /\
  (forall c, rev (mn s) c = true -> rev (mn (m_exec w o s)) c = true).
Proof.
  assert (Q : forall s', evs (mn s) (mn s') -> (forall c, lev (mn s) c = true -> lev (mn s') c = true) /\
    (forall c, rev (mn s) c = true -> rev (mn s') c = true)).
  { intros s' [E1 E2 E3]. auto. }
  destruct o as [t a|t c|bs fs|bs fs|t all| |t o bs fs]; cbn [m_exec].
  - destruct (is_waiting t s); [auto|]. apply Q, act_evs.
  - apply Q, keeps_evs, m_cmd_keeps.
  - apply m_add_events.
  - unfold m_drop. destruct (_ && _); auto.
  - destruct (nth_error (thrs s) t) as [th|] eqn:H.
    + eapply Q, keeps_evs, suspended_keeps, set_suspend_spec, H.
    + unfold set_suspend. rewrite H. auto.
  - auto.
  - destruct (is_waiting t s); [auto|]. unfold m_race.
    destruct (nth_error (thrs s) t) as [th|] eqn:H; [|auto].
    destruct (frames th) as [|f back]; [auto|]. destruct (line_of _ _); [|auto].
    destruct (_ && _); [|auto]. destruct (line_outcome _ _ _ _ _ _) eqn:O; auto.
    apply m_add_events.
Qed.

(* ----- Where a thread waits ----- *)

Lemma suspend_at_clean w t x s th : nth_error (thrs s) t = Some th ->
  clean w (suspend_at w t x s) /\
  mon_on (mn (suspend_at w t x s)) = single w || mon_on (mn s).
Proof.
  intros H. pose proof (set_suspend_spec w t false false s th H) as S.
  unfold suspend_at. rewrite wait_at_mn. split.
  - eapply clean_mn; [apply wait_at_mn|]. apply clean_restart; [apply (s_dst _ _ _ _ _ _ S)|apply (s_dln _ _ _ _ _ _ S)].
  - rewrite (s_on _ _ _ _ _ _ S). reflexivity.
Qed.

Lemma act_posted w t a s th th' x : nth_error (thrs s) t = Some th -> wt th = None ->
  nth_error (thrs (m_act w t a s)) t = Some th' -> wt th' = Some x ->
  (why x <> RPause \/ at_evt x = EExc -> clean w (m_act w t a s)) /\
  (why x <> RPause \/ at_evt x = EExc /\ single w = true -> mon_on (mn (m_act w t a s)) = true).
Proof.
  intros H Hw H' Hx. revert H'. unfold m_act. rewrite H.
  assert (N1 : forall th2, Some th2 = Some th' -> wt th2 = None -> False) by congruence.
  destruct a as [c ok|i|o ok| | | |].
  - cbn zeta. set (s1 := with_fresh (fresh s + 1) (set_frames t (Mf (fresh s) c 0 :: frames th) s)).
    assert (H1 : nth_error (thrs s1) t = Some (Thr (Mf (fresh s) c 0 :: frames th) (nfo th) None)).
    { unfold s1. cbn [with_fresh thrs]. rewrite (nth_set_frames _ _ _ _ t H), Nat.eqb_refl, Hw. reflexivity. }
    destruct (mon_on (mn s1) && negb (dst (mn s1) c)) eqn:E; [|rewrite H1; intros H'; destruct (N1 _ H' eq_refl)].
    apply andb_true_iff in E. destruct E as [E _].
    unfold start_event. rewrite H1. cbn [frames mcode nfo].
    destruct (start_outcome _ _ _ _) as [| |y|];
      try (cbn [with_mon remember thrs]; rewrite H1; intros H'; destruct (N1 _ H' eq_refl)).
    intros _.
    match goal with |- context [suspend_at w t ?x ?s2] => destruct (suspend_at_clean w t x s2 _ H1) as [C M] end.
    split; [intros _; exact C|]. intros _. rewrite M. cbn [with_mon mn].
    rewrite (g_on _ _ (enable_grows _ _ _ _)). cbn [remember mn]. rewrite E. apply orb_true_r.
  - destruct (nth_error (idle s) i) as [f|].
    + assert (Q : nth_error (thrs (with_idle (drop_nth i (idle s)) s)) t = Some th) by exact H.
      rewrite (nth_set_frames t (f :: frames th) _ th t Q), Nat.eqb_refl. intros H'. destruct (N1 _ H' Hw).
    + rewrite H. intros H'. destruct (N1 _ H' Hw).
  - destruct (frames th) as [|f back] eqn:Ef; [rewrite H; intros H'; destruct (N1 _ H' Hw)|].
    destruct (line_of _ _) as [l|]; [|rewrite H; intros H'; destruct (N1 _ H' Hw)].
    cbn zeta. set (s1 := set_frames t (Mf (mid f) (mcode f) l :: back) s).
    assert (H1 : nth_error (thrs s1) t = Some (Thr (Mf (mid f) (mcode f) l :: back) (nfo th) None)).
    { unfold s1. rewrite (nth_set_frames _ _ _ _ t H), Nat.eqb_refl, Hw. reflexivity. }
    destruct (mon_on (mn s1) && lev (mn s1) (mcode f) && negb (dln (mn s1) (mcode f) o)) eqn:E;
      [|rewrite H1; intros H'; destruct (N1 _ H' eq_refl)].
    apply andb_true_iff in E. destruct E as [E _]. apply andb_true_iff in E. destruct E as [E _].
    unfold line_event. rewrite H1. cbn [frames mcode nfo mid].
    destruct (line_outcome _ _ _ _ _ _) as [| |y|];
      try (cbn [with_mon remember thrs]; rewrite H1; intros H'; destruct (N1 _ H' eq_refl)).
    + intros _.
      match goal with |- context [suspend_at w t ?x ?s2] => destruct (suspend_at_clean w t x s2 _ H1) as [C M] end.
      split; [intros _; exact C|]. intros _. rewrite M. cbn [remember mn]. rewrite E. apply orb_true_r.
    + match goal with |- context [wait_at t ?x ?s2] => rewrite (nth_wait_at t x s2 _ t H1), Nat.eqb_refl end.
      intros [= <-]. cbn in Hx. injection Hx as <-. cbn.
      split; intros [D|D]; try (destruct D; discriminate); try congruence.
  - destruct (frames th) as [|f back] eqn:Ef; [rewrite H; intros H'; destruct (N1 _ H' Hw)|].
    cbn zeta. assert (P0 : forall s2 y, nth_error (thrs s2) t = Some y -> wt y = None ->
      nth_error (thrs (if is_waiting t s2 then s2 else pop t s2)) t = Some th' -> False).
    { intros s2 y E1 E2. assert (is_waiting t s2 = false) as -> by (unfold is_waiting; rewrite E1, E2; reflexivity).
      rewrite (nth_pop _ _ _ E1). intros H'. apply (N1 _ H'). exact E2. }
    destruct (mon_on (mn s) && rev (mn s) (mcode f)) eqn:E; [|intros H'; destruct (P0 _ _ H Hw H')].
    apply andb_true_iff in E. destruct E as [E _].
    unfold return_event. rewrite H, Ef. destruct (return_outcome _ _ _ _ _ _) as [| |b| |].
    + intros H'. exfalso. eapply P0; [|exact Hw|exact H']. exact H.
    + intros H'. exfalso. eapply P0; [| |exact H']; [apply (nth_set_info t _ (remember w (mcode f) s) _ H)|exact Hw].
    + match goal with |- context [suspend_at w t ?x ?s2] =>
        destruct (nth_suspend_at_own w t x s2 _ H) as (i & I1 & I2);
        destruct (suspend_at_clean w t x s2 _ H) as [C M] end.
      match goal with |- context [is_waiting t ?s2] =>
        assert (is_waiting t s2 = true) as -> by (unfold is_waiting; rewrite I2; reflexivity) end.
      intros _. split; [intros _; exact C|]. intros _. rewrite M. cbn [remember mn]. rewrite E. apply orb_true_r.
    + intros H'. exfalso. eapply P0; [|exact Hw|exact H']. exact H.
    + intros H'. exfalso. eapply P0; [| |exact H']; [apply (nth_set_info t (converted (nfo th)) (remember w (mcode f) s) _ H)|exact Hw].
  - destruct (frames th) as [|f back]; [rewrite H; intros H'; destruct (N1 _ H' Hw)|].
    destruct (mgen _ _); [|rewrite H; intros H'; destruct (N1 _ H' Hw)].
    assert (Q : nth_error (thrs (with_idle (f :: idle s) s)) t = Some th) by exact H.
    rewrite (nth_set_frames t back _ th t Q), Nat.eqb_refl. intros H'. destruct (N1 _ H' Hw).
  - rewrite (nth_pop _ _ _ H). intros H'. destruct (N1 _ H' Hw).
  - destruct (frames th) as [|f back]; [rewrite H; intros H'; destruct (N1 _ H' Hw)|].
    destruct (k_skip _); [rewrite H; intros H'; destruct (N1 _ H' Hw)|].
    match goal with |- context [suspend_at w t ?x ?s2] =>
      destruct (nth_suspend_at_own w t x s2 _ H) as (i & I1 & I2);
      destruct (suspend_at_clean w t x s2 _ H) as [C M] end.
    rewrite I2. intros [= <-]. cbn in Hx. injection Hx as <-. split; [intros _; exact C|].
    rewrite M. cbn. intros [D|[_ ->]]; [congruence|reflexivity].
Qed.

Definition placed (th : thr) (x : wait) : Prop :=
  if is_ret (at_evt x) then exists e f r, frames th = e :: f :: r /\ mid f = shown x
  else exists f r, frames th = f :: r /\ mid f = shown x.

Record posted (w : mworld) (s : mstate) (t : nat) : Prop := {
  p_shown : forall th x, nth_error (thrs s) t = Some th -> wt th = Some x -> placed th x;
  p_clean : forall th x, nth_error (thrs s) t = Some th -> wt th = Some x ->
    why x <> RPause \/ at_evt x = EExc -> clean w s;
  p_on : forall th x, nth_error (thrs s) t = Some th -> wt th = Some x ->
    why x <> RPause \/ at_evt x = EExc /\ single w = true -> mon_on (mn s) = true
}.

Lemma waiting_stepping w s t th x : wfm w s -> nth_error (thrs s) t = Some th -> wt th = Some x ->
  stepping th = true.
Proof. intros W H Hx. unfold stepping. rewrite Hx. apply (w_wait _ _ W _ _ _ H Hx). Qed.

Lemma put_length u (y : thr) l : length (put u y l) = length l.
Proof. revert u. induction l as [|z l IH]; intros [|u]; cbn; auto. Qed.

Lemma set_suspend_length w u p a s : length (thrs (set_suspend w u p a s)) = length (thrs s).
Proof.
  destruct (nth_error (thrs s) u) as [y|] eqn:E.
  - pose proof (s_thrs _ _ _ _ _ _ (set_suspend_spec w u p a s y E)) as S.
    assert (G : forall l l' : list thr, (forall v, nth_error l' v = None <-> nth_error l v = None) -> length l' = length l).
    { intros l l' V. pose proof (V (length l)) as V1. pose proof (V (length l')) as V2.
      rewrite !nth_error_None in V1, V2. lia. }
    apply G. intros v. rewrite S. destruct (nth_error (thrs s) v); cbn; split; congruence.
  - unfold set_suspend. rewrite E. reflexivity.
Qed.

Lemma wait_at_length u x s : length (thrs (wait_at u x s)) = length (thrs s).
Proof. unfold wait_at. destruct (nth_error (thrs s) u); cbn; auto using put_length. Qed.

Lemma suspend_at_length w u x s : length (thrs (suspend_at w u x s)) = length (thrs s).
Proof. unfold suspend_at. rewrite wait_at_length. apply set_suspend_length. Qed.

Lemma set_info_length u i s : length (thrs (set_info u i s)) = length (thrs s).
Proof. unfold set_info. destruct (nth_error (thrs s) u); cbn; auto using put_length. Qed.

Lemma set_frames_length u fs s : length (thrs (set_frames u fs s)) = length (thrs s).
Proof. unfold set_frames. destruct (nth_error (thrs s) u); cbn; auto using put_length. Qed.

Lemma pop_length u s : length (thrs (pop u s)) = length (thrs s).
Proof. unfold pop. destruct (nth_error (thrs s) u); cbn; auto using put_length. Qed.

Lemma act_length w u a s : length (thrs (m_act w u a s)) = length (thrs s).
Proof.
  unfold m_act. destruct (nth_error (thrs s) u) as [y|]; [|reflexivity]. destruct a as [c ok|i|o ok| | | |].
  - cbn zeta. destruct (_ && _); [|apply set_frames_length]. unfold start_event.
    destruct (nth_error _ u); [|apply set_frames_length]. destruct (frames _); [apply set_frames_length|].
    destruct (start_outcome _ _ _ _); try apply set_frames_length. rewrite suspend_at_length. apply set_frames_length.
  - destruct (nth_error (idle s) i); [|reflexivity]. rewrite set_frames_length. reflexivity.
  - destruct (frames y); [reflexivity|]. destruct (line_of _ _); [|reflexivity]. cbn zeta.
    destruct (_ && _); [|apply set_frames_length]. unfold line_event.
    destruct (nth_error _ u); [|apply set_frames_length]. destruct (frames _); [apply set_frames_length|].
    destruct (line_outcome _ _ _ _ _ _); try apply set_frames_length; [rewrite suspend_at_length|rewrite wait_at_length]; apply set_frames_length.
  - destruct (frames y); [reflexivity|]. cbn zeta.
    match goal with |- context [is_waiting u ?s1] => assert (E1 : length (thrs s1) = length (thrs s)) end.
    { destruct (_ && _); [|reflexivity]. unfold return_event.
      destruct (nth_error (thrs s) u); [|reflexivity]. destruct (frames _); [reflexivity|].
      destruct (return_outcome _ _ _ _ _ _); try reflexivity;
        [rewrite set_info_length|rewrite suspend_at_length|cbn [with_mon thrs]; rewrite set_info_length]; reflexivity. }
    destruct (is_waiting _ _); [exact E1|]. rewrite pop_length. exact E1.
  - destruct (frames y); [reflexivity|]. destruct (mgen _ _); [|reflexivity]. rewrite set_frames_length. reflexivity.
  - apply pop_length.
  - destruct (frames y); [reflexivity|]. destruct (k_skip _); [reflexivity|]. apply suspend_at_length.
Qed.

Lemma exec_posted w o s t : wfm w s -> posted w s t -> posted w (m_exec w o s) t.
Proof.
  intros W [P1 P2 P3]. destruct (nth_error (thrs s) t) as [th|] eqn:H.
  2:{ (* a thread which is new *)
      assert (Q : forall th' x, nth_error (thrs (m_exec w o s)) t = Some th' -> wt th' = Some x -> False).
      { intros th' x H' Hx.
        destruct (nth_error_None (thrs s) t) as [Ln _]. specialize (Ln H).
        assert (Len : length (thrs (m_exec w o s)) = length (thrs s) \/
          exists y, wt y = None /\ thrs (m_exec w o s) = thrs s ++ [y]).
        { assert (Ladd : forall bs fs, thrs (m_add w bs fs s) = thrs s).
          { intros bs fs. unfold m_add. cbn [with_mon thrs].
            rewrite (t_thrs _ _ (enable_threads_tuned _ _ _)). reflexivity. }
          destruct o as [u a|u c|bs fs|bs fs|u all| |u o bs fs]; cbn [m_exec].
          - left. destruct (is_waiting u s); [reflexivity|]. apply act_length.
          - left. unfold m_cmd. destruct (nth_error (thrs s) u) as [y|]; [|reflexivity].
            destruct (wt y) as [x0|].
            + destruct (client_cmd c); [|reflexivity]. destruct (m_resumed _ _ _ _) as [i fs].
              destruct (is_ret _); [rewrite pop_length|]; cbn; apply put_length.
            + destruct c; try reflexivity. apply set_info_length.
          - left. rewrite Ladd. reflexivity.
          - left. unfold m_drop. destruct (_ && _); reflexivity.
          - left. apply set_suspend_length.
          - right. eexists. split; [|reflexivity]. reflexivity.
          - left. destruct (is_waiting u s); [reflexivity|]. unfold m_race.
            destruct (nth_error (thrs s) u) as [y|]; [|reflexivity]. destruct (frames y); [reflexivity|].
            destruct (line_of _ _); [|reflexivity]. destruct (_ && _); [|reflexivity].
            destruct (line_outcome _ _ _ _ _ _); try reflexivity. cbn [with_mon thrs]. rewrite Ladd. reflexivity. }
        destruct Len as [E|(y & E1 & E2)].
        - assert (nth_error (thrs (m_exec w o s)) t = None); [|congruence]. apply nth_error_None. lia.
        - rewrite E2 in H'. rewrite nth_error_app2 in H' by exact Ln.
          destruct (t - length (thrs s))%nat as [|[|k]]; cbn in H'; try discriminate. congruence. }
      constructor; intros th' x H' Hx; destruct (Q _ _ H' Hx). }
  destruct (wt th) as [x|] eqn:Hx.
  - (* it waited already *)
    pose proof (waiting_stepping _ _ _ _ _ W H Hx) as S.
    assert (C' : clean w s -> clean w (m_exec w o s)).
    { apply exec_clean; auto. intros u _. left. eapply stepping_any; eauto. }
    assert (M' : mon_on (mn s) = true -> mon_on (mn (m_exec w o s)) = true).
    { apply exec_on. eapply stepping_requested; eauto. }
    assert (T : forall th' x', nth_error (thrs (m_exec w o s)) t = Some th' -> wt th' = Some x' ->
      frames th' = frames th /\ x' = x).
    { intros th' x' H' Hx'. assert (Fo : foreign t o \/ ~ foreign t o).
      { destruct o; cbn; auto; destruct (Nat.eq_dec t0 t); auto. }
      destruct Fo as [Fo|Fo].
      - destruct (exec_foreign w o s t th Fo H) as (y & E1 & (B1 & B2 & _)).
        rewrite E1 in H'. injection H' as <-. split; congruence.
      - destruct o as [u a|u c|bs fs|bs fs|u all| |u o bs fs]; cbn in Fo; try (destruct Fo; exact I).
        + assert (u = t) as -> by (destruct (Nat.eq_dec u t); [auto|destruct Fo; auto]).
          cbn in H'. unfold is_waiting in H'. rewrite H, Hx in H'. rewrite H in H'.
          injection H' as <-. split; congruence.
        + assert (u = t) as -> by (destruct (Nat.eq_dec u t); [auto|destruct Fo; auto]).
          cbn in H'. unfold m_cmd in H'. rewrite H, Hx in H'. destruct (client_cmd c).
          * exfalso. destruct (m_resumed w c x (frames th)) as [i fs].
            set (s2 := with_mon _ _) in H'.
            assert (E : nth_error (thrs s2) t = Some (Thr (frames th) i None)).
            { cbn. eapply nth_put_same; eauto. }
            destruct (is_ret (at_evt x)).
            -- rewrite (nth_pop _ _ _ E) in H'. injection H' as <-. discriminate.
            -- rewrite E in H'. injection H' as <-. discriminate.
          * rewrite H in H'. injection H' as <-. split; congruence. }
    constructor.
    + intros th' x' H' Hx'. destruct (T _ _ H' Hx') as [E ->]. unfold placed. rewrite E. apply (P1 _ _ eq_refl Hx).
    + intros th' x' H' Hx' D. destruct (T _ _ H' Hx') as [E ->]. apply C', (P2 _ _ eq_refl Hx D).
    + intros th' x' H' Hx' D. destruct (T _ _ H' Hx') as [E ->]. apply M', (P3 _ _ eq_refl Hx D).
  - (* it did not wait *)
    assert (Fo : (exists a, o = MDo t a) \/ (exists c, o = MCmd t c) \/ foreign t o).
    { destruct o; cbn; auto; destruct (Nat.eq_dec t0 t) as [-> |]; eauto. }
    destruct Fo as [[a ->]|[[c ->]|Fo]].
    + cbn [m_exec]. assert (is_waiting t s = false) as -> by (unfold is_waiting; rewrite H, Hx; reflexivity).
      destruct (act_own w t a s th W H Hx) as (th' & H' & D & Fr).
      constructor; intros th2 x H2 Hx2; rewrite H' in H2; injection H2 as <-.
      * destruct D as [(x' & E1 & E2 & E3 & E4)|G].
        -- assert (x' = x) as -> by congruence. unfold placed.
           assert (Fr' : a <> MRet -> stacked w s th a (frames th')) by auto. clear - E3 E4 Fr'. destruct E3 as [? ? ? ? ? ? H0|? ? ? ? ? H0| |? ? ? H0|? ? H0]; cbn [at_evt is_ret shown].
           ++ assert (Q := Fr'). unfold stacked in Q. rewrite H0 in Q. destruct Q as [l' Q]; [discriminate|].
              rewrite Q. eauto.
           ++ assert (Q := Fr'). unfold stacked in Q. rewrite H0 in Q. destruct Q as [l' Q]; [discriminate|].
              rewrite Q. eauto.
           ++ assert (Q := Fr'). unfold stacked in Q. rewrite Q by discriminate. eauto.
           ++ rewrite (E4 eq_refl), H0. eauto.
           ++ assert (Q := Fr'). unfold stacked in Q. rewrite Q by discriminate. rewrite H0. eauto.
        -- destruct G; discriminate.
      * apply (act_posted w t a s th th' x H Hx H' Hx2).
      * apply (act_posted w t a s th th' x H Hx H' Hx2).
    + assert (Q : forall th' x, nth_error (thrs (m_exec w (MCmd t c) s)) t = Some th' -> wt th' = Some x -> False).
      { cbn. unfold m_cmd. rewrite H, Hx. intros th' x H' Hx'. destruct c; try congruence.
        rewrite (nth_set_info _ _ _ _ H) in H'. injection H' as <-. cbn in Hx'. congruence. }
      constructor; intros th' x H' Hx'; destruct (Q _ _ H' Hx').
    + destruct (exec_foreign w o s t th Fo H) as (y & E1 & (B1 & B2 & _)).
      assert (Q : forall th' x, nth_error (thrs (m_exec w o s)) t = Some th' -> wt th' = Some x -> False).
      { intros th' x H' Hx'. congruence. }
      constructor; intros th' x H' Hx'; destruct (Q _ _ H' Hx').
Qed.

(* ----- Frames which are gone do not come back ----- *)

Definition gone (i : N) (s : mstate) : Prop := i < fresh s /\ forall g, In g (live s) -> mid g <> i.

Lemma set_info_live t i s : live (set_info t i s) = live s.
Proof.
  unfold set_info. destruct (nth_error (thrs s) t) as [th|] eqn:E; [|reflexivity].
  apply live_ext; [|reflexivity]. intros u. cbn. rewrite (nth_put t u _ _ _ E).
  destruct (Nat.eqb_spec u t) as [-> |_]; [rewrite E|]; reflexivity.
Qed.

Lemma set_suspend_live w t p a s : live (set_suspend w t p a s) = live s /\ fresh (set_suspend w t p a s) = fresh s.
Proof.
  destruct (nth_error (thrs s) t) as [th|] eqn:E.
  - pose proof (set_suspend_spec w t p a s th E) as S. split; [eapply suspended_live; eauto|apply (s_fresh _ _ _ _ _ _ S)].
  - unfold set_suspend. rewrite E. auto.
Qed.

Lemma suspend_at_live w t x s : live (suspend_at w t x s) = live s /\ fresh (suspend_at w t x s) = fresh s.
Proof.
  unfold suspend_at. rewrite wait_at_live. destruct (set_suspend_live w t false false s) as [E1 E2].
  split; [exact E1|]. rewrite <- E2. unfold wait_at. destruct (nth_error _ t); reflexivity.
Qed.

Lemma line_event_live w t o l ok s : live (line_event w t o l ok s) = live s /\ fresh (line_event w t o l ok s) = fresh s.
Proof.
  unfold line_event. destruct (nth_error (thrs s) t) as [th|]; [|auto]. destruct (frames th) as [|f back]; [auto|].
  destruct (line_outcome _ _ _ _ _ _); try (split; reflexivity).
  - apply (suspend_at_live w t _ (remember w (mcode f) s)).
  - rewrite wait_at_live. split; [reflexivity|]. unfold wait_at. destruct (nth_error _ t); reflexivity.
Qed.

Lemma start_event_live w t ok s : live (start_event w t ok s) = live s /\ fresh (start_event w t ok s) = fresh s.
Proof.
  unfold start_event. destruct (nth_error (thrs s) t) as [th|]; [|auto]. destruct (frames th) as [|f back]; [auto|].
  destruct (start_outcome _ _ _ _); try (split; reflexivity).
  match goal with |- context [suspend_at w t ?x ?s2] => destruct (suspend_at_live w t x s2) as [E1 E2] end.
  rewrite E1, E2. split; reflexivity.
Qed.

Lemma return_event_live w t s : live (return_event w t s) = live s /\ fresh (return_event w t s) = fresh s.
Proof.
  assert (Fi : forall i s, fresh (set_info t i s) = fresh s).
  { intros i s0. unfold set_info. destruct (nth_error (thrs s0) t); reflexivity. }
  unfold return_event. destruct (nth_error (thrs s) t) as [th|]; [|auto]. destruct (frames th) as [|f back]; [auto|].
  destruct (return_outcome _ _ _ _ _ _); try (split; reflexivity).
  - rewrite set_info_live, Fi. split; reflexivity.
  - apply (suspend_at_live w t _ (remember w (mcode f) s)).
  - cbn [with_mon fresh]. rewrite Fi. split; [|reflexivity].
    change (live (set_info t (converted (nfo th)) (remember w (mcode f) s)) = live s).
    rewrite set_info_live. reflexivity.
Qed.

(* Where the frames after an operation come from. *)
Definition from (s s' : mstate) : Prop :=
  fresh s <= fresh s' /\
  forall g, In g (live s') -> fresh s <= mid g \/
    exists g', In g' (live s) /\ mid g' = mid g /\ mcode g' = mcode g.

Lemma from_refl s : from s s.
Proof. split; [lia|]. eauto. Qed.

Lemma from_live s s' : live s' = live s -> fresh s' = fresh s -> from s s'.
Proof. intros E1 E2. split; [lia|]. rewrite E1. eauto. Qed.

Lemma from_trans a b c : from a b -> from b c -> from a c.
Proof.
  intros [A1 A2] [B1 B2]. split; [lia|]. intros g G. destruct (B2 g G) as [E|(g' & G' & E & E')]; [left; lia|].
  destruct (A2 g' G') as [F|(h & H & F & F')]; [left; lia|]. right. exists h. repeat split; [exact H|congruence|congruence].
Qed.

Lemma from_frames t fs gs s th : nth_error (thrs s) t = Some th ->
  (forall g, In g (fs ++ gs) -> fresh s <= mid g \/
     exists g', In g' (frames th ++ idle s) /\ mid g' = mid g /\ mcode g' = mcode g) ->
  from s (set_frames t fs (with_idle gs s)).
Proof.
  intros H M. unfold set_frames. cbn [with_idle thrs]. rewrite H. split; [cbn; lia|].
  assert (Q : forall g', In g' (frames th ++ idle s) -> In g' (live s)).
  { intros g' G. apply in_live. apply in_app_iff in G. destruct G; eauto. }
  intros g. rewrite in_live. cbn. intros [(u & y & E & F)|F].
  - rewrite (nth_put t u _ _ _ H) in E. destruct (Nat.eqb_spec u t) as [-> |_].
    + injection E as <-. destruct (M g (in_or_app _ _ _ (or_introl F))) as [G|(g' & G1 & G2 & G3)]; eauto 6.
    + right. exists g. repeat split. apply in_live. eauto.
  - destruct (M g (in_or_app _ _ _ (or_intror F))) as [G|(g' & G1 & G2 & G3)]; eauto 6.
Qed.

Lemma from_pop t s : from s (pop t s).
Proof.
  destruct (nth_error (thrs s) t) as [th|] eqn:H.
  - rewrite (pop_frames _ _ _ H). rewrite <- (with_idle_same s) at 2. eapply from_frames; eauto.
    intros g G. right. exists g. repeat split. rewrite in_app_iff in *. destruct G as [G|G]; [|auto].
    left. destruct (frames th); [destruct G|right; exact G].
  - unfold pop. rewrite H. apply from_refl.
Qed.

Lemma act_from w t a s : from s (m_act w t a s).
Proof.
  unfold m_act. destruct (nth_error (thrs s) t) as [th|] eqn:H; [|apply from_refl].
  destruct a as [c ok|i|o ok| | | |].
  - cbn zeta. set (s1 := with_fresh (fresh s + 1) (set_frames t (Mf (fresh s) c 0 :: frames th) s)).
    assert (F1 : from s s1).
    { destruct (from_frames t (Mf (fresh s) c 0 :: frames th) (idle s) s th H) as [F1 F2].
      - intros g [<- |G]; [left; cbn; lia|right]. exists g. auto.
      - rewrite with_idle_same in *. split; [unfold s1; cbn; lia|]. intros g G. apply F2. exact G. }
    destruct (_ && _); [|exact F1]. eapply from_trans; [exact F1|].
    destruct (start_event_live w t ok s1). apply from_live; auto.
  - destruct (nth_error (idle s) i) as [f|] eqn:E; [|apply from_refl]. eapply from_frames; eauto.
    intros g G. right. exists g. repeat split. rewrite in_app_iff in *.
    cbn in G. destruct G as [[<- |G]|G]; eauto using nth_error_In, in_drop_nth.
  - destruct (frames th) as [|f back] eqn:Ef; [apply from_refl|]. destruct (line_of _ _) as [l|]; [|apply from_refl].
    cbn zeta. set (s1 := set_frames t (Mf (mid f) (mcode f) l :: back) s).
    assert (F1 : from s s1).
    { unfold s1. rewrite <- (with_idle_same s) at 2. eapply from_frames; eauto. rewrite Ef.
      intros g [<- |G]; right; [exists f; split; [left|split]; reflexivity|]. exists g. split; [right; exact G|split; reflexivity]. }
    destruct (_ && _); [|exact F1]. eapply from_trans; [exact F1|].
    destruct (line_event_live w t o l ok s1). apply from_live; auto.
  - destruct (frames th) as [|f back]; [apply from_refl|]. cbn zeta.
    set (s1 := if mon_on (mn s) && rev (mn s) (mcode f) then return_event w t s else s).
    assert (F1 : from s s1).
    { unfold s1. destruct (_ && _); [|apply from_refl]. destruct (return_event_live w t s). apply from_live; auto. }
    destruct (is_waiting t s1); [exact F1|]. eapply from_trans; [exact F1|apply from_pop].
  - destruct (frames th) as [|f back] eqn:Ef; [apply from_refl|]. destruct (mgen _ _); [|apply from_refl].
    eapply from_frames; eauto. intros g G. right. exists g. repeat split.
    rewrite Ef. rewrite in_app_iff in *. cbn in *. intuition.
  - apply from_pop.
  - destruct (frames th) as [|f back]; [apply from_refl|]. destruct (k_skip _); [apply from_refl|].
    match goal with |- context [suspend_at w t ?x ?s2] => destruct (suspend_at_live w t x s2) end. apply from_live; auto.
Qed.

Lemma add_from w bs fs s : from s (m_add w bs fs s).
Proof.
  unfold m_add. match goal with |- context [enable_threads w ?l ?x] => pose proof (enable_threads_tuned w l x) as T end.
  apply from_live.
  - unfold live. cbn [with_mon thrs idle]. rewrite (t_thrs _ _ T), (t_idle _ _ T). reflexivity.
  - cbn [with_mon fresh]. rewrite (t_fresh _ _ T). reflexivity.
Qed.

Lemma exec_from w o s : from s (m_exec w o s).
Proof.
  destruct o as [t a|t c|bs fs|bs fs|t all| |t o bs fs]; cbn [m_exec].
  - destruct (is_waiting t s); [apply from_refl|apply act_from].
  - unfold m_cmd. destruct (nth_error (thrs s) t) as [th|] eqn:H; [|apply from_refl].
    destruct (wt th) as [x|].
    + destruct (client_cmd c); [|apply from_refl]. destruct (m_resumed w c x (frames th)) as [i fs].
      match goal with |- from s (if _ then pop t ?s2 else _) => assert (F1 : from s s2) end.
      { apply from_live; [|reflexivity]. apply live_ext; [|reflexivity]. intros u. cbn.
        rewrite (nth_put t u _ _ _ H). destruct (Nat.eqb_spec u t) as [-> |_]; [rewrite H|]; reflexivity. }
      destruct (is_ret (at_evt x)); [|exact F1]. eapply from_trans; [exact F1|apply from_pop].
    + destruct c; try apply from_refl. apply from_live; [apply set_info_live|].
      unfold set_info. rewrite H. reflexivity.
  - apply add_from.
  - unfold m_drop. destruct (_ && _); [|apply from_refl]. apply from_live; reflexivity.
  - destruct (set_suspend_live w t true all s). apply from_live; auto.
  - apply from_live; [|reflexivity]. unfold live. cbn. rewrite map_app, concat_app. cbn.
    rewrite app_nil_r. reflexivity.
  - destruct (is_waiting t s); [apply from_refl|]. unfold m_race.
    destruct (nth_error (thrs s) t) as [th|] eqn:H; [|apply from_refl].
    destruct (frames th) as [|f back]; [apply from_refl|]. destruct (line_of _ _); [|apply from_refl].
    destruct (_ && _); [|apply from_refl]. destruct (line_outcome _ _ _ _ _ _); try apply from_refl.
    apply add_from.
Qed.

Lemma gone_from i s s' : from s s' -> gone i s -> gone i s'.
Proof.
  intros [F1 F2] [G1 G2]. split; [lia|]. intros g G. destruct (F2 g G) as [E|(g' & G' & E & _)]; [lia|].
  rewrite <- E. auto.
Qed.

(* The code of a frame stays the same. *)
Definition coded (i k : N) (s : mstate) : Prop :=
  i < fresh s /\ forall g, In g (live s) -> mid g = i -> mcode g = k.

Lemma coded_from i k s s' : from s s' -> coded i k s -> coded i k s'.
Proof.
  intros [F1 F2] [G1 G2]. split; [lia|]. intros g G Ei. destruct (F2 g G) as [E|(g' & G' & E & E')]; [lia|].
  rewrite <- E'. apply G2; [exact G'|congruence].
Qed.

(* A frame which is left is gone. *)
Lemma pop_gone w s t th f back : wfm w s -> nth_error (thrs s) t = Some th ->
  frames th = f :: back -> gone (mid f) (pop t s).
Proof.
  intros W H Ef. unfold pop. rewrite H. split.
  - cbn. apply (w_fresh _ _ W), in_live. left. exists t, th. rewrite Ef. split; [exact H|left; reflexivity].
  - intros g G E.
    destruct (put_split t th (Thr (tl (frames th)) (nfo th) (wt th)) (thrs s) H) as (l1 & l2 & E1 & E2).
    pose proof (w_nodup _ _ W) as N0. unfold live in N0. rewrite E1, Ef, !map_app in N0. cbn [map] in N0.
    rewrite <- !app_assoc in N0. cbn [app] in N0. apply NoDup_remove_2 in N0. apply N0.
    unfold live in G. cbn [with_thrs thrs idle] in G. rewrite E2, Ef in G. cbn [frames tl] in G.
    rewrite <- !app_assoc in G. rewrite <- E, <- !map_app. apply in_map. exact G.
Qed.

Lemma ret_gone w t s th th' f back : wfm w s -> nth_error (thrs s) t = Some th -> wt th = None ->
  frames th = f :: back -> nth_error (thrs (m_act w t MRet s)) t = Some th' -> wt th' = None ->
  gone (mid f) (m_act w t MRet s).
Proof.
  intros W H Hw Ef. unfold m_act. rewrite H, Ef. cbn zeta.
  set (s1 := if mon_on (mn s) && rev (mn s) (mcode f) then return_event w t s else s).
  assert (W1 : wfm w s1).
  { unfold s1. destruct (_ && _); [eapply return_event_wfm; eauto|exact W]. }
  destruct (is_waiting t s1) eqn:E.
  - intros H' Hw'. unfold is_waiting in E. rewrite H', Hw' in E. discriminate.
  - intros _ _. assert (F1 : exists th1, nth_error (thrs s1) t = Some th1 /\ frames th1 = f :: back).
    { unfold s1. destruct (_ && _); [|eauto]. clear -H Ef. unfold return_event. rewrite H, Ef.
      destruct (return_outcome _ _ _ _ _ _) as [| |b| |].
      - eauto.
      - rewrite (nth_set_info t _ (remember w (mcode f) s) _ H). eauto.
      - match goal with |- context [suspend_at w t ?x ?s2] =>
          destruct (nth_suspend_at_own w t x s2 _ H) as (i & I1 & I2) end. eauto.
      - eauto.
      - cbn [with_mon thrs]. rewrite (nth_set_info t _ (remember w (mcode f) s) _ H). eauto. }
    destruct F1 as (th1 & H1 & Ef1). eapply pop_gone; eauto.
Qed.

(* ----- Steps ----- *)

(* The functions in which programs are started are in files of the debugger. *)
Definition world_ok (w : mworld) : Prop := forall c, mend w c = true -> mskip w c = true.

Lemma stop_run w b back : stop_on_return w (b :: back) = RRun -> mend w (mcode b) = true.
Proof.
  unfold stop_on_return. destruct (mend w (mcode b)); [auto|]. destruct (mprop _ _); [discriminate|].
  destruct (mdont _ _); discriminate.
Qed.

Lemma stop_convert w back : stop_on_return w back <> RConvert.
Proof.
  unfold stop_on_return. destruct back as [|b back]; [discriminate|]. destruct (mend _ _); [discriminate|].
  destruct (mprop _ _); [discriminate|]. destruct (mdont _ _); discriminate.
Qed.

Lemma shows_skip k my : shows_return k my = true -> k_skip k = false.
Proof. unfold shows_return. destruct (k_skip k); [discriminate|reflexivity]. Qed.

(* Only a step out ends without a stop, and only a step over becomes a step into. *)
Lemma run_return w s k i f back : world_ok w ->
  return_outcome w k (fun b => kof w s (mcode b)) i f back = RRun ->
  return_like (step i) = true /\ stop i = Some (mid f).
Proof.
  intros Wo O. unfold return_outcome in O. destruct (k_skip k); [discriminate|].
  assert (Q : forall b rest my, shows_return (kof w s (mcode b)) my = true ->
    stop_on_return w (b :: rest) = RRun -> False).
  { intros b rest my E1 E2. apply stop_run, Wo in E2. apply shows_skip in E1. rewrite skip_kof in E1. congruence. }
  destruct (step i); try discriminate;
    try (destruct (same (stop i) (Some (mid f))) eqn:Es; [apply same_true in Es|discriminate]);
    try (split; [reflexivity|exact Es]);
    destruct back as [|b rest]; try discriminate; exfalso;
    match type of O with (if ?b then _ else _) = _ => destruct b eqn:E; [|discriminate] end;
    first [exact (Q _ _ _ E O)|apply andb_true_iff in E; destruct E as [E _]; exact (Q _ _ _ E O)].
Qed.

Lemma convert_over w k kb i f back : return_outcome w k kb i f back = RConvert ->
  over_like (step i) = true /\ stop i = Some (mid f).
Proof.
  intros O. unfold return_outcome in O. destruct (k_skip k); [discriminate|].
  pose proof (stop_convert w back) as N0.
  destruct (step i); try discriminate;
    try (destruct (same (stop i) (Some (mid f))) eqn:Es; [apply same_true in Es|discriminate]);
    try (split; [reflexivity|exact Es]); try congruence;
    destruct back as [|b rest]; try discriminate;
    match type of O with (if ?b then _ else _) = _ => destruct b; congruence end.
Qed.

(* A thread which was asked to stop while stepping. *)
Definition asked (i : N) (th : thr) : Prop :=
  susp (nfo th) = true /\ (return_like (step (nfo th)) = false \/ stop (nfo th) = Some i).

Lemma mark_asked i th b fs x : return_like (step (nfo th)) = false \/ stop (nfo th) = Some i ->
  asked i (Thr fs (mark_suspended b (nfo th)) x).
Proof.
  intros D. split; [apply mark_suspended_susp|]. cbn [nfo]. destruct b; [|left; reflexivity].
  unfold mark_suspended. destruct (step (nfo th)); cbn in *; auto.
Qed.

(* What has become of a thread after a command stepping with frame i, J telling what
   holds as long as it goes on stepping. *)
Definition going (t : nat) (i : N) (J : thr -> mstate -> Prop) (s : mstate) : Prop :=
  forall th, nth_error (thrs s) t = Some th ->
    wt th <> None \/ asked i th \/ gone i s \/
    (wt th = None /\ susp (nfo th) = false /\ step (nfo th) <> NoStep /\ stop (nfo th) = Some i /\ J th s).

Definition commands (t : nat) (o : mop) : Prop := match o with MCmd u _ => u = t | _ => False end.

Lemma op_cases t o : ~ commands t o -> (exists a, o = MDo t a) \/ foreign t o.
Proof.
  destruct o; cbn; auto; intros N0; destruct (Nat.eq_dec t0 t) as [-> |]; eauto.
Qed.

Lemma exec_going w t i (J : thr -> mstate -> Prop) o s th0 : world_ok w -> wfm w s -> nth_error (thrs s) t = Some th0 ->
  (forall th th', nth_error (thrs s) t = Some th -> wt th = None -> susp (nfo th) = false ->
     step (nfo th) <> NoStep -> stop (nfo th) = Some i -> J th s ->
     nth_error (thrs (m_exec w o s)) t = Some th' -> nfo th' = nfo th -> J th' (m_exec w o s)) ->
  ~ commands t o -> going t i J s -> going t i J (m_exec w o s).
Proof.
  intros Wo W H HJ Nc G th' H'. destruct (op_cases t o Nc) as [[a ->]|Fo].
  - cbn [m_exec] in *. specialize (G th0 H). destruct (wt th0) as [x|] eqn:Hw.
    { left. unfold is_waiting in H'. rewrite H, Hw, H in H'. congruence. }
    assert (Hn : is_waiting t s = false) by (unfold is_waiting; rewrite H, Hw; reflexivity).
    rewrite Hn in *. destruct (act_own w t a s th0 W H Hw) as (y & Y1 & Y2 & _).
    rewrite H' in Y1. injection Y1 as <-.
    destruct Y2 as [(x & X1 & _)|Go]; [left; congruence|].
    destruct G as [G|[G|[G|G]]]; [congruence| | |].
    + inversion Go as [a' fs E1 E2|f back Ef O E1 E2|f back Ef O E1 E2]; subst.
      * right. left. exact G.
      * destruct (run_return w s _ _ _ _ Wo O) as [R1 R2]. destruct G as [_ [G|G]]; [congruence|].
        right. right. left. rewrite R2 in G. injection G as <-.
        eapply (ret_gone w t s th0); eauto.
      * right. left. destruct G as [G1 G2]. split; [exact G1|]. left. cbn.
        destruct (step (nfo th0)); reflexivity.
    + right. right. left. eapply gone_from; [|exact G]. apply act_from.
    + destruct G as (G1 & G2 & G3 & G4 & G5).
      inversion Go as [a' fs E1 E2|f back Ef O E1 E2|f back Ef O E1 E2]; subst.
      * right. right. right. repeat split; auto. apply (HJ th0); auto.
      * destruct (run_return w s _ _ _ _ Wo O) as [R1 R2]. right. right. left.
        rewrite R2 in G4. injection G4 as <-. eapply (ret_gone w t s th0); eauto.
      * destruct (convert_over _ _ _ _ _ _ O) as [R1 R2]. right. right. left.
        rewrite R2 in G4. injection G4 as <-. eapply (ret_gone w t s th0); eauto.
  - destruct (exec_foreign w o s t th0 Fo H) as (y & E1 & (B1 & B2 & B3)).
    rewrite H' in E1. injection E1 as <-. destruct (G th0 H) as [G1|[G1|[G1|G1]]].
    + left. congruence.
    + right. left. destruct B3 as [B3|[b B3]].
      * unfold asked in *. rewrite B3. exact G1.
      * destruct th' as [fs n x]. cbn in B3. subst n. apply mark_asked, G1.
    + right. right. left. eapply gone_from; [apply exec_from|exact G1].
    + destruct G1 as (G1 & G2 & G3 & G4 & G5). destruct B3 as [B3|[b B3]].
      * right. right. right. rewrite B2, B3. repeat split; auto. apply (HJ th0); auto.
      * right. left. destruct th' as [fs n x]. cbn in B3. subst n. apply mark_asked. auto.
Qed.

Lemma exec_thread w o s t th : wfm w s -> nth_error (thrs s) t = Some th ->
  exists th', nth_error (thrs (m_exec w o s)) t = Some th'.
Proof.
  intros W H. assert (Fo : (exists a, o = MDo t a) \/ (exists c, o = MCmd t c) \/ foreign t o).
  { destruct o; cbn; auto; destruct (Nat.eq_dec t0 t) as [-> |]; eauto. }
  destruct Fo as [[a ->]|[[c ->]|Fo]].
  - cbn [m_exec]. destruct (is_waiting t s) eqn:E; [eauto|].
    destruct (act_own w t a s th W H (waiting_none _ _ _ H E)) as (th' & H' & _). eauto.
  - cbn [m_exec]. unfold m_cmd. rewrite H. destruct (wt th) as [x|].
    + destruct (client_cmd c); [|eauto]. destruct (m_resumed w c x (frames th)) as [i fs].
      match goal with |- exists _, nth_error (thrs (if _ then pop t ?s2 else _)) t = _ =>
        assert (E : nth_error (thrs s2) t = Some (Thr (frames th) i None)) by (cbn; eapply nth_put_same; eauto) end.
      destruct (is_ret (at_evt x)); [rewrite (nth_pop _ _ _ E)|]; eauto.
    + destruct c; eauto. rewrite (nth_set_info _ _ _ _ H). eauto.
  - destruct (exec_foreign w o s t th Fo H) as (y & E & _). eauto.
Qed.

Record stepping_on (w : mworld) (s : mstate) : Prop := { so_on : mon_on (mn s) = true; so_clean : clean w s }.

Lemma exec_stepping_on w o s t th : wfm w s -> nth_error (thrs s) t = Some th -> stepping th = true ->
  stepping_on w s -> stepping_on w (m_exec w o s).
Proof.
  intros W H S [M C]. constructor.
  - apply exec_on; [eapply stepping_requested; eauto|exact M].
  - apply exec_clean; auto. intros u _. left. eapply stepping_any; eauto.
Qed.

Lemma free_stepping th : wt th = None -> susp (nfo th) = false -> step (nfo th) <> NoStep -> stepping th = true.
Proof. intros H1 H2 H3. unfold stepping. rewrite H1, H2. destruct (step (nfo th)); auto; congruence. Qed.

(* Stepping over or out of a frame of code k. *)
Definition J_step (w : mworld) (c : cmd) (k : N) (th : thr) (s : mstate) : Prop :=
  step (nfo th) = c /\ stepping_on w s /\
  (over_like c = true -> lev (mn s) k = true) /\ rev (mn s) k = true.

Lemma run_going w t i c k os : world_ok w -> Forall (fun o => ~ commands t o) os ->
  forall s th, wfm w s -> nth_error (thrs s) t = Some th -> going t i (J_step w c k) s ->
  going t i (J_step w c k) (m_run w os s).
Proof.
  intros Wo Fo. induction Fo as [|o os N0 Fo IH]; intros s th W H G; [exact G|]. cbn [m_run].
  destruct (exec_thread w o s t th W H) as [th' H'].
  eapply IH; [apply m_exec_wfm, W|exact H'|].
  eapply exec_going; eauto. intros y y' E1 E2 E3 E4 E5 (J1 & J2 & J3 & J4) E6 E7.
  destruct (exec_events w o s) as [L R]. repeat split; auto.
  - congruence.
  - apply (exec_on w o s); [|apply J2]. eapply stepping_requested; [exact E1|apply free_stepping; auto].
  - eapply exec_stepping_on; [exact W|exact E1|apply free_stepping; auto|exact J2].
  - eapply exec_stepping_on; [exact W|exact E1|apply free_stepping; auto|exact J2].
Qed.

(* Stepping into: frames met while stepping are monitored, except generators resumed. *)
Definition watched (w : mworld) (s : mstate) (fs : list mf) : Prop :=
  forall g, In g fs -> mskip w (mcode g) = false -> mgen w (mcode g) = false ->
    lev (mn s) (mcode g) = true /\ rev (mn s) (mcode g) = true.

Lemma call_watched w t c ok s th : wfm w s -> nth_error (thrs s) t = Some th -> wt th = None ->
  into_like (step (nfo th)) = true -> mon_on (mn s) = true -> dst (mn s) c = false -> mskip w c = false ->
  lev (mn (m_act w t (MCall c ok) s)) c = true /\ rev (mn (m_act w t (MCall c ok) s)) c = true.
Proof.
  intros W H Hw Hi Hon Hd Hs. unfold m_act. rewrite H. cbn zeta.
  set (s1 := with_fresh (fresh s + 1) (set_frames t (Mf (fresh s) c 0 :: frames th) s)).
  assert (W1 : wfm w s1) by (apply wfm_call; auto).
  assert (M1 : mn s1 = mn s) by (unfold s1; cbn [with_fresh mn]; apply set_frames_mn).
  assert (H1 : nth_error (thrs s1) t = Some (Thr (Mf (fresh s) c 0 :: frames th) (nfo th) None)).
  { unfold s1. cbn [with_fresh thrs]. rewrite (nth_set_frames _ _ _ _ t H), Nat.eqb_refl, Hw. reflexivity. }
  rewrite M1, Hon, Hd. cbn [andb negb]. unfold start_event. rewrite H1. cbn [frames mcode nfo].
  rewrite (code_info_kof w s1 c W1).
  match goal with |- context [with_mon (enable ?k ?i ?f ?m) ?r] =>
    set (s2 := with_mon (enable k i f m) r);
    assert (E : lev (mn s2) c = true /\ rev (mn s2) c = true) by
      (apply (enable_into k i f m); [rewrite skip_kof; exact Hs|exact Hi]) end.
  destruct (start_outcome _ _ _ _) as [| |y|]; auto.
  assert (K := suspend_at_keeps w t (Wait (fresh s) y ECall false) s2 _ H1).
  split; [apply (k_lev _ _ K)|apply (k_rev _ _ K)]; apply E.
Qed.

Lemma act_watched w t a s th th' : wfm w s -> nth_error (thrs s) t = Some th -> wt th = None ->
  into_like (step (nfo th)) = true -> stepping_on w s ->
  nth_error (thrs (m_act w t a s)) t = Some th' -> wt th' = None ->
  watched w s (frames th) -> watched w (m_act w t a s) (frames th').
Proof.
  intros W H Hw Hi [Hon Hc] H' Hw' Wt.
  destruct (act_own w t a s th W H Hw) as (y & Y1 & _ & Y2). rewrite H' in Y1. injection Y1 as <-.
  specialize (Y2 (or_introl Hw')). destruct (act_evs w t a s) as [_ El Er].
  assert (Old : forall g, In g (frames th) -> mskip w (mcode g) = false -> mgen w (mcode g) = false ->
    lev (mn (m_act w t a s)) (mcode g) = true /\ rev (mn (m_act w t a s)) (mcode g) = true).
  { intros g G S1 S2. destruct (Wt g G S1 S2). auto. }
  assert (Tl : forall g, In g (tl (frames th)) -> In g (frames th)).
  { destruct (frames th); [intros g []|right; auto]. }
  intros g G S1 S2. destruct a as [c ok|i|o ok| | | |]; cbn [stacked] in Y2.
  - rewrite Y2 in G. destruct G as [<- |G]; [|apply Old; auto]. cbn [mcode].
    eapply call_watched; eauto. apply (c_start _ _ Hc). exact S1.
  - destruct (nth_error (idle s) i) as [f|] eqn:E; rewrite Y2 in G; [|apply Old; auto].
    destruct G as [<- |G]; [|apply Old; auto]. apply nth_error_In in E. apply (w_idle _ _ W) in E. congruence.
  - destruct (frames th) as [|f back] eqn:Ef; [rewrite Y2 in G; destruct G|]. destruct Y2 as [l Y2].
    rewrite Y2 in G. destruct G as [<- |G]; [apply (Old f); auto; left; reflexivity|apply Old; auto; right; exact G].
  - rewrite Y2 in G. auto.
  - destruct Y2 as [Y2|Y2]; rewrite Y2 in G; auto.
  - rewrite Y2 in G. auto.
  - rewrite Y2 in G. auto.
Qed.

Definition into_going (w : mworld) (t : nat) (c : cmd) (i0 : option (N * N)) (s : mstate) : Prop :=
  forall th, nth_error (thrs s) t = Some th ->
    wt th <> None \/ (susp (nfo th) = true /\ return_like (step (nfo th)) = false) \/
    (wt th = None /\ susp (nfo th) = false /\ step (nfo th) = c /\ initial (nfo th) = i0 /\
     stepping_on w s /\ watched w s (frames th)).

Lemma exec_into_going w t c i0 o s th0 : world_ok w -> into_like c = true -> wfm w s ->
  nth_error (thrs s) t = Some th0 -> ~ commands t o ->
  into_going w t c i0 s -> into_going w t c i0 (m_exec w o s).
Proof.
  intros Wo Hc W H Nc G th' H'. destruct (op_cases t o Nc) as [[a ->]|Fo].
  - cbn [m_exec] in *. specialize (G th0 H). destruct (wt th0) as [x|] eqn:Hw.
    { left. unfold is_waiting in H'. rewrite H, Hw, H in H'. congruence. }
    assert (Hn : is_waiting t s = false) by (unfold is_waiting; rewrite H, Hw; reflexivity).
    rewrite Hn in *. destruct (act_own w t a s th0 W H Hw) as (y & Y1 & Y2 & _).
    rewrite H' in Y1. injection Y1 as <-.
    destruct Y2 as [(x & X1 & _)|Go]; [left; congruence|].
    destruct G as [G|[G|G]]; [congruence| |].
    + inversion Go as [a' fs E1 E2|f back Ef O E1 E2|f back Ef O E1 E2]; subst.
      * right. left. exact G.
      * destruct (run_return w s _ _ _ _ Wo O) as [R1 R2]. destruct G. congruence.
      * right. left. destruct G as [G1 G2]. split; [exact G1|]. cbn. destruct (step (nfo th0)); reflexivity.
    + destruct G as (G1 & G2 & G3 & G4 & G5 & G6).
      inversion Go as [a' fs E1 E2|f back Ef O E1 E2|f back Ef O E1 E2]; subst.
      * right. right.
        assert (S : stepping_on w (m_act w t a s)).
        { constructor; [apply (e_on _ _ (act_evs w t a s)), G5|]. apply act_clean; auto; [|apply G5].
          right. intros y Y. rewrite H in Y. injection Y as <-. destruct (step (nfo th0)); discriminate. }
        assert (V : watched w (m_act w t a s) fs).
        { eapply (act_watched w t a s th0 (Thr fs (nfo th0) None)); eauto. }
        cbn. auto 10.
      * destruct (run_return w s _ _ _ _ Wo O) as [R1 R2]. destruct (step (nfo th0)); discriminate.
      * destruct (convert_over _ _ _ _ _ _ O) as [R1 R2]. destruct (step (nfo th0)); discriminate.
  - destruct (exec_foreign w o s t th0 Fo H) as (y & E1 & (B1 & B2 & B3)).
    rewrite H' in E1. injection E1 as <-. destruct (G th0 H) as [G1|[G1|G1]].
    + left. congruence.
    + right. left. destruct B3 as [B3|[b B3]]; rewrite B3; [exact G1|].
      split; [apply mark_suspended_susp|]. destruct G1 as [_ G1]. destruct b; [|reflexivity].
      unfold mark_suspended. destruct (step (nfo th0)); auto.
    + destruct G1 as (G1 & G2 & G3 & G4 & G5 & G6). destruct B3 as [B3|[b B3]].
      * right. right. rewrite B2, B3.
        assert (S : stepping_on w (m_exec w o s)).
        { eapply exec_stepping_on; eauto. apply free_stepping; auto. destruct (step (nfo th0)); subst; discriminate. }
        split; [exact G1|]. repeat split; auto; try apply S.
        -- destruct (exec_events w o s) as [L R]. intros. rewrite B1 in *. apply L. apply (G6 g); auto.
        -- destruct (exec_events w o s) as [L R]. intros. rewrite B1 in *. apply R. apply (G6 g); auto.
      * right. left. rewrite B3. split; [apply mark_suspended_susp|]. destruct b; [|reflexivity].
        unfold mark_suspended. destruct (step (nfo th0)); subst; cbn in *; auto; discriminate.
Qed.

Lemma run_into_going w t c i0 os : world_ok w -> into_like c = true -> Forall (fun o => ~ commands t o) os ->
  forall s th, wfm w s -> nth_error (thrs s) t = Some th -> into_going w t c i0 s ->
  into_going w t c i0 (m_run w os s).
Proof.
  intros Wo Hc Fo. induction Fo as [|o os N0 Fo IH]; intros s th W H G; [exact G|]. cbn [m_run].
  destruct (exec_thread w o s t th W H) as [th' H'].
  eapply IH; [apply m_exec_wfm, W|exact H'|]. eapply exec_into_going; eauto.
Qed.

Lemma run_thread w os : forall s t th, wfm w s -> nth_error (thrs s) t = Some th ->
  exists th', nth_error (thrs (m_run w os s)) t = Some th'.
Proof.
  induction os as [|o os IH]; intros s t th W H; [eauto|]. cbn [m_run].
  destruct (exec_thread w o s t th W H) as [th' H']. eapply IH; [apply m_exec_wfm, W|exact H'].
Qed.

Lemma run_from w os : forall s, from s (m_run w os s).
Proof.
  induction os as [|o os IH]; intros s; [apply from_refl|]. eapply from_trans; [apply exec_from|apply IH].
Qed.

Lemma run_posted w os t : forall s, wfm w s -> posted w s t -> posted w (m_run w os s) t.
Proof.
  induction os as [|o os IH]; intros s W P; [exact P|]. apply IH; [apply m_exec_wfm, W|apply exec_posted; auto].
Qed.

Lemma start_posted w bs fs t : posted w (m_start bs fs) t.
Proof.
  assert (Q : forall th x, nth_error (thrs (m_start bs fs)) t = Some th -> wt th = Some x -> False).
  { intros th x H. destruct t as [|[|t]]; cbn in H; try discriminate. injection H as <-. discriminate. }
  constructor; intros th x H Hx; destruct (Q _ _ H Hx).
Qed.

(* ----- Events reported ----- *)

Definition waits (t : nat) (s : mstate) (x : wait) : Prop :=
  exists th, nth_error (thrs s) t = Some th /\ wt th = Some x.

Lemma line_reported w t s th f back o ok l : wfm w s -> nth_error (thrs s) t = Some th -> wt th = None ->
  frames th = f :: back -> line_of (mlines w (mcode f)) o = Some l ->
  mon_on (mn s) = true -> lev (mn s) (mcode f) = true -> dln (mn s) (mcode f) o = false ->
  match line_outcome (kof w s (mcode f)) (any_stepping s) (nfo th) f l ok with
  | OStop y => waits t (m_exec w (MDo t (MLine o ok)) s) (Wait (mid f) y ELine false)
  | OPause => waits t (m_exec w (MDo t (MLine o ok)) s) (Wait (mid f) RPause ELine false)
  | _ => True
  end.
Proof.
  intros W H Hw Ef El M L D. cbn [m_exec].
  assert (is_waiting t s = false) as -> by (unfold is_waiting; rewrite H, Hw; reflexivity).
  unfold m_act. rewrite H, Ef, El. cbn zeta.
  set (s1 := set_frames t (Mf (mid f) (mcode f) l :: back) s).
  assert (W1 : wfm w s1) by (eapply wfm_line; eauto).
  assert (H1 : nth_error (thrs s1) t = Some (Thr (Mf (mid f) (mcode f) l :: back) (nfo th) None)).
  { unfold s1. rewrite (nth_set_frames _ _ _ _ t H), Nat.eqb_refl, Hw. reflexivity. }
  assert (A1 : any_stepping s1 = any_stepping s) by apply any_stepping_frames.
  assert (K1 : kof w s1 (mcode f) = kof w s (mcode f)).
  { unfold kof, s1. rewrite set_frames_brks, set_frames_funcs. reflexivity. }
  assert (M1 : mn s1 = mn s) by apply set_frames_mn.
  rewrite M1, M, L, D. cbn [andb negb]. unfold line_event. rewrite H1. cbn [frames mcode nfo mid].
  rewrite (code_info_kof w s1 _ W1), K1.
  change (any_stepping (remember w (mcode f) s1)) with (any_stepping s1). rewrite A1.
  rewrite <- (line_outcome_mid _ _ _ f (Mf (mid f) (mcode f) l)) by reflexivity.
  destruct (line_outcome _ _ _ _ _ _) as [| |y|]; auto.
  - match goal with |- context [suspend_at w t ?x ?s2] =>
      destruct (nth_suspend_at_own w t x s2 _ H1) as (i & I1 & I2) end.
    eexists. split; [exact I2|reflexivity].
  - eexists. split.
    + match goal with |- context [wait_at t ?x ?s2] => rewrite (nth_wait_at t x s2 _ t H1), Nat.eqb_refl end.
      reflexivity.
    + reflexivity.
Qed.

Lemma call_reported w t s th c ok : wfm w s -> nth_error (thrs s) t = Some th -> wt th = None ->
  mon_on (mn s) = true -> dst (mn s) c = false ->
  match start_outcome (kof w s c) (any_stepping s) (nfo th) ok with
  | OStop y => waits t (m_exec w (MDo t (MCall c ok)) s) (Wait (fresh s) y ECall false)
  | _ => True
  end.
Proof.
  intros W H Hw M D. cbn [m_exec].
  assert (is_waiting t s = false) as -> by (unfold is_waiting; rewrite H, Hw; reflexivity).
  unfold m_act. rewrite H. cbn zeta.
  set (s1 := with_fresh (fresh s + 1) (set_frames t (Mf (fresh s) c 0 :: frames th) s)).
  assert (W1 : wfm w s1) by (apply wfm_call; auto).
  assert (M1 : mn s1 = mn s) by (unfold s1; cbn [with_fresh mn]; apply set_frames_mn).
  assert (H1 : nth_error (thrs s1) t = Some (Thr (Mf (fresh s) c 0 :: frames th) (nfo th) None)).
  { unfold s1. cbn [with_fresh thrs]. rewrite (nth_set_frames _ _ _ _ t H), Nat.eqb_refl, Hw. reflexivity. }
  assert (A1 : any_stepping s1 = any_stepping s) by apply (any_stepping_frames t _ s).
  assert (K1 : kof w s1 c = kof w s c).
  { unfold kof, s1. cbn [with_fresh mbrks mfuncs]. rewrite set_frames_brks, set_frames_funcs. reflexivity. }
  rewrite M1, M, D. cbn [andb negb]. unfold start_event. rewrite H1. cbn [frames mcode nfo mid].
  rewrite (code_info_kof w s1 c W1), K1.
  match goal with |- context [with_mon (enable ?k ?i ?f ?m) ?r] =>
    change (any_stepping (with_mon (enable k i f m) r)) with (any_stepping s1) end.
  rewrite A1. destruct (start_outcome _ _ _ _) as [| |y|]; auto.
  match goal with |- context [suspend_at w t ?x ?s2] =>
    destruct (nth_suspend_at_own w t x s2 _ H1) as (i & I1 & I2) end.
  eexists. split; [exact I2|reflexivity].
Qed.

Lemma return_reported w t s th f back : wfm w s -> nth_error (thrs s) t = Some th -> wt th = None ->
  frames th = f :: back -> mon_on (mn s) = true -> rev (mn s) (mcode f) = true ->
  match return_outcome w (kof w s (mcode f)) (fun b => kof w s (mcode b)) (nfo th) f back with
  | RShow b => waits t (m_exec w (MDo t MRet) s) (Wait (mid b) (RStep (step (nfo th))) ERet true)
  | RConvert =>
      nth_error (thrs (m_exec w (MDo t MRet) s)) t = Some (Thr back (converted (nfo th)) None) /\
      (into_like (step (converted (nfo th))) = true -> watched w (m_exec w (MDo t MRet) s) back)
  | _ => True
  end.
Proof.
  intros W H Hw Ef M R. cbn [m_exec].
  assert (is_waiting t s = false) as -> by (unfold is_waiting; rewrite H, Hw; reflexivity).
  unfold m_act. rewrite H, Ef. cbn zeta. rewrite M, R. cbn [andb]. unfold return_event. rewrite H, Ef.
  assert (W' : wfm w (remember w (mcode f) s)) by (apply wfm_remember, W).
  rewrite (return_kb w _ (fun b => code_info w (remember w (mcode f) s) (mcode b)) (fun b => kof w s (mcode b))) by
    (intros b; apply (code_info_kof w (remember w (mcode f) s)), W').
  rewrite (code_info_kof w s _ W).
  destruct (return_outcome _ _ _ _ _ _) as [| |b| |]; auto.
  - match goal with |- context [suspend_at w t ?x ?s2] =>
      destruct (nth_suspend_at_own w t x s2 _ H) as (i & I1 & I2) end.
    match goal with |- context [is_waiting t ?s2] =>
      assert (is_waiting t s2 = true) as -> by (unfold is_waiting; rewrite I2; reflexivity) end.
    eexists. split; [exact I2|reflexivity].
  - set (s1 := set_info t (converted (nfo th)) (remember w (mcode f) s)).
    assert (E : nth_error (thrs s1) t = Some (Thr (f :: back) (converted (nfo th)) None)).
    { unfold s1. rewrite (nth_set_info t _ (remember w (mcode f) s) _ H), Ef, Hw. reflexivity. }
    assert (W1 : wfm w s1).
    { apply (wfm_set_info w t (converted (nfo th)) (remember w (mcode f) s) th); auto.
      cbn. intros _. destruct (step (nfo th)); discriminate. }
    match goal with |- context [is_waiting t ?s2] =>
      assert (E2 : nth_error (thrs s2) t = Some (Thr (f :: back) (converted (nfo th)) None)) by exact E;
      assert (is_waiting t s2 = false) as -> by (unfold is_waiting; rewrite E2; reflexivity) end.
    split; [rewrite (nth_pop _ _ _ E2); reflexivity|].
    intros Hi g G S1 S2.
    match goal with |- context [pop t ?s2] => assert (K := pop_keeps t s2);
      assert (Q : lev (mn s2) (mcode g) = true /\ rev (mn s2) (mcode g) = true) end.
    { cbn [with_mon mn].
      apply (enable_all_in w s1 (converted (nfo th)) back g
        (fun m => lev m (mcode g) = true /\ rev m (mcode g) = true) G).
      - intros m. rewrite (code_info_kof w s1 _ W1). apply enable_into; [|exact Hi].
        rewrite skip_kof. exact S1.
      - intros m m' [G1 G2 G3 G4 G5] [Q1 Q2]. auto. }
    split; [apply (k_lev _ _ K)|apply (k_rev _ _ K)]; apply Q.
Qed.

(* ----- Commands ----- *)

Lemma placed_from w s t th x : wfm w s -> nth_error (thrs s) t = Some th -> wt th = Some x -> placed th x ->
  exists f r, m_from (shown x) (frames th) = f :: r /\ mid f = shown x /\
    (if is_ret (at_evt x) then tl (frames th) else frames th) = f :: r.
Proof.
  intros W H Hx P. unfold placed in P. destruct (is_ret (at_evt x)).
  - destruct P as (e & f & r & E1 & E2). exists f, r. rewrite E1. cbn.
    destruct (N.eqb_spec (mid e) (shown x)) as [E|_].
    + exfalso. pose proof (w_nodup _ _ W) as N0. unfold live in N0.
      destruct (put_split t th th (thrs s) H) as (l1 & l2 & L1 & _). rewrite L1, E1 in N0.
      rewrite !map_app in N0. cbn [map] in N0. rewrite <- !app_assoc in N0. apply nodup_app_r in N0. cbn [app] in N0.
      apply NoDup_cons_iff in N0. apply N0. left. congruence.
    + destruct (N.eqb_spec (mid f) (shown x)) as [_|N0]; [auto|congruence].
  - destruct P as (f & r & E1 & E2). exists f, r. rewrite E1. cbn.
    destruct (N.eqb_spec (mid f) (shown x)) as [_|N0]; [auto|congruence].
Qed.

Lemma cmd_reported w t c s th x f r : wfm w s -> nth_error (thrs s) t = Some th -> wt th = Some x ->
  client_cmd c = true ->
  (if is_ret (at_evt x) then tl (frames th) else frames th) = f :: r ->
  nth_error (thrs (m_exec w (MCmd t c) s)) t = Some (Thr (f :: r) (fst (m_resumed w c x (frames th))) None) /\
  mn (m_exec w (MCmd t c) s) =
    enable_all w s (fst (m_resumed w c x (frames th))) (snd (m_resumed w c x (frames th))) (mn s).
Proof.
  intros W H Hx Hc E. cbn [m_exec]. unfold m_cmd. rewrite H, Hx, Hc.
  destruct (m_resumed w c x (frames th)) as [i fs]. cbn [fst snd].
  match goal with |- context [is_ret (at_evt x)] => idtac end.
  match goal with |- context [pop t ?s2] =>
    assert (E2 : nth_error (thrs s2) t = Some (Thr (frames th) i None)) by (cbn; eapply nth_put_same; eauto);
    assert (M2 : mn s2 = enable_all w s i fs (mn s)) by (cbn [with_mon mn]; apply enable_all_ext; reflexivity) end.
  destruct (is_ret (at_evt x)).
  - rewrite (nth_pop _ _ _ E2). cbn [frames nfo wt]. rewrite E. split; [reflexivity|].
    rewrite <- M2. unfold pop. rewrite E2. reflexivity.
  - split; [rewrite E2, E; reflexivity|exact M2].
Qed.

(* ----- Pauses ----- *)

Lemma in_drop_other t (l : list thr) u x : u <> t -> nth_error l u = Some x -> In x (drop_nth t l).
Proof.
  revert t u. induction l as [|y l IH]; intros [|t] [|u] N0 H; cbn in *; try discriminate.
  - congruence.
  - eapply nth_error_In; eauto.
  - left. congruence.
  - right. apply (IH t u); auto.
Qed.

Lemma watched_enabled w s0 s i g m : wfm w s -> cache s0 = cache s -> mtime s0 = mtime s ->
  mbrks s0 = mbrks s -> mfuncs s0 = mfuncs s -> into_like (step i) = true -> mskip w (mcode g) = false ->
  lev (enable (code_info w s0 (mcode g)) i g m) (mcode g) = true /\
  rev (enable (code_info w s0 (mcode g)) i g m) (mcode g) = true.
Proof.
  intros W E1 E2 E3 E4 Hi Hs. rewrite (code_info_ext w s s0) by assumption.
  rewrite (code_info_kof w s _ W). apply enable_into; [|exact Hi]. rewrite skip_kof. exact Hs.
Qed.

Lemma watched_grows w s s' fs : (forall c, lev (mn s) c = true -> lev (mn s') c = true) ->
  (forall c, rev (mn s) c = true -> rev (mn s') c = true) -> watched w s fs -> watched w s' fs.
Proof. intros L R V g G S1 S2. destruct (V g G S1 S2). auto. Qed.

Lemma pause_watched w t all s th : wfm w s -> nth_error (thrs s) t = Some th ->
  into_like (step (mark_suspended true (nfo th))) = true ->
  watched w (set_suspend w t true all s) (frames th) /\
  (all || single w = true -> forall u y, u <> t -> nth_error (thrs s) u = Some y ->
     watched w (set_suspend w t true all s) (frames y)).
Proof.
  intros W H Hi. unfold set_suspend. rewrite H.
  set (s1 := with_thrs (put t (Thr (frames th) (mark_suspended true (nfo th)) (wt th)) (thrs s)) s).
  set (s2 := if all || single w then suspend_all w t s1 else s1).
  assert (T2 : cache s2 = cache s /\ mtime s2 = mtime s /\ mbrks s2 = mbrks s /\ mfuncs s2 = mfuncs s /\
    nth_error (thrs s2) t = Some (Thr (frames th) (mark_suspended true (nfo th)) (wt th)) /\
    (all || single w = true -> forall u y, u <> t -> nth_error (thrs s) u = Some y -> watched w s2 (frames y))).
  { assert (N1 : nth_error (thrs s1) t = Some (Thr (frames th) (mark_suspended true (nfo th)) (wt th)))
      by (cbn; eapply nth_put_same; eauto).
    unfold s2. destruct (all || single w); [|repeat split; auto; discriminate].
    unfold suspend_all. cbn [with_mon thrs idle fresh mtime cache mbrks mfuncs mn].
    set (s3 := with_thrs (suspend_others t (thrs s1)) (with_mon (set_on true (mn s1)) s1)).
    pose proof (enable_threads_tuned w (drop_nth t (suspend_others t (thrs s1))) s3) as T.
    change (thrs s3) with (suspend_others t (thrs s1)).
    destruct T as [T1 T3 T4 T5 T6 T7 T8 T9]. rewrite T1, T5, T6, T7, T8.
    split; [reflexivity|]. split; [reflexivity|]. split; [reflexivity|]. split; [reflexivity|]. split.
    - change (thrs s3) with (suspend_others t (thrs s1)). rewrite nth_others, N1. cbn. rewrite Nat.eqb_refl. reflexivity.
    - intros _ u y Nu Y g G S1 S2. cbn [with_mon mn restart lev rev].
      set (y' := Thr (frames y) (mark_suspended false (nfo y)) (wt y)).
      apply (enable_threads_in w _ s3 y' g (fun m => lev m (mcode g) = true /\ rev m (mcode g) = true)).
      + eapply in_drop_other; [exact Nu|]. cbn. rewrite nth_others. cbn. rewrite nth_put_other by congruence. rewrite Y. cbn.
        destruct (Nat.eqb_spec u t); [congruence|reflexivity].
      + exact G.
      + intros m. apply (watched_enabled w s3 s); auto.
      + intros m m' [G1 G2 G3 G4 G5] [Q1 Q2]. auto. }
  destruct T2 as (T1 & T2 & T3 & T4 & T5 & T6).
  assert (G : grows (set_on true (mn s2)) (mn (enable_thread w t (with_mon (set_on true (mn s2)) s2)))).
  { apply (t_mon _ _ (enable_thread_tuned w t (with_mon (set_on true (mn s2)) s2))). }
  split.
  - intros g Gi S1 S2. cbn [with_mon mn restart lev rev]. unfold enable_thread. cbn [with_mon thrs]. rewrite T5.
    cbn [with_mon mn nfo frames].
    apply (enable_all_in w (with_mon (set_on true (mn s2)) s2) (mark_suspended true (nfo th)) (frames th) g
             (fun m => lev m (mcode g) = true /\ rev m (mcode g) = true)).
    + exact Gi.
    + intros m. apply (watched_enabled w _ s); auto.
    + intros m m' [G1 G2 G3 G4 G5] [Q1 Q2]. auto.
  - intros A u y Nu Y. eapply watched_grows; [| |apply (T6 A u y Nu Y)]; intros c; cbn [with_mon mn restart lev rev].
    + apply (g_lev _ _ G).
    + apply (g_rev _ _ G).
Qed.

(* Threads asked to stop. *)
Definition halting (w : mworld) (U : nat -> Prop) (s : mstate) : Prop :=
  stepping_on w s /\
  forall u th, U u -> nth_error (thrs s) u = Some th ->
    wt th <> None \/ (susp (nfo th) = true /\ into_like (step (nfo th)) = true /\ watched w s (frames th)).

Lemma exec_halting w (U : nat -> Prop) u a s : world_ok w -> wfm w s -> U u ->
  halting w U s -> halting w U (m_exec w (MDo u a) s).
Proof.
  intros Wo W Hu [S Q]. cbn [m_exec]. destruct (is_waiting u s) eqn:Hn; [split; auto|].
  destruct (nth_error (thrs s) u) as [th|] eqn:H.
  2:{ unfold m_act. rewrite H. split; auto. }
  pose proof (waiting_none _ _ _ H Hn) as Hw.
  destruct (Q u th Hu H) as [D|(D1 & D2 & D3)]; [congruence|].
  assert (S' : stepping_on w (m_act w u a s)).
  { constructor; [apply (e_on _ _ (act_evs w u a s)), S|]. apply act_clean; auto; [|apply S].
    right. intros y Y. rewrite H in Y. injection Y as <-. destruct (step (nfo th)); discriminate. }
  split; [exact S'|]. intros v y' Hv Y'. destruct (Nat.eq_dec v u) as [-> |Nv].
  - destruct (act_own w u a s th W H Hw) as (z & Z1 & Z2 & _). rewrite Y' in Z1. injection Z1 as <-.
    destruct Z2 as [(x & X1 & _)|Go]; [left; congruence|].
    inversion Go as [a' fs E1 E2|f back Ef O E1 E2|f back Ef O E1 E2]; subst.
    + right. repeat split; auto; eapply (act_watched w u a s th (Thr fs (nfo th) None)); eauto.
    + destruct (run_return w s _ _ _ _ Wo O) as [R1 R2]. destruct (step (nfo th)); discriminate.
    + destruct (convert_over _ _ _ _ _ _ O) as [R1 R2]. destruct (step (nfo th)); discriminate.
  - assert (Y : exists y, nth_error (thrs s) v = Some y /\ beside y y').
    { destruct (nth_error (thrs s) v) as [y|] eqn:Y.
      - destruct (act_other w u a s v y Nv Y) as (y2 & E1 & E2). rewrite Y' in E1. injection E1 as <-. eauto.
      - exfalso. (* no thread is made by an action *)
        assert (L : length (thrs (m_act w u a s)) = length (thrs s)) by apply (act_length w u a s).
        apply nth_error_None in Y. assert (v < length (thrs (m_act w u a s)))%nat by (apply nth_error_Some; congruence). lia. }
    destruct Y as (y & Y & (B1 & B2 & B3)). destruct (Q v y Hv Y) as [E|(E1 & E2 & E3)]; [left; congruence|].
    right. rewrite B1. split; [|split].
    + destruct B3 as [B3|[b B3]]; rewrite B3; [exact E1|apply mark_suspended_susp].
    + destruct B3 as [B3|[b B3]]; rewrite B3; [exact E2|]. destruct b; [|reflexivity].
      unfold mark_suspended. destruct (step (nfo y)); auto.
    + eapply watched_grows; [| |exact E3]; apply (act_evs w u a s).
Qed.

Lemma run_halting w (U : nat -> Prop) os : world_ok w ->
  Forall (fun o => exists u a, o = MDo u a /\ U u) os ->
  forall s, wfm w s -> halting w U s -> halting w U (m_run w os s).
Proof.
  intros Wo Fo. induction Fo as [|o os (u & a & -> & Hu) Fo IH]; intros s W Q; [exact Q|].
  apply IH; [apply m_exec_wfm, W|]. apply exec_halting; auto.
Qed.

(* ----- What a command starts ----- *)

Lemma nodup_coded (l : list mf) f g : NoDup (map mid l) -> In f l -> In g l -> mid f = mid g -> f = g.
Proof.
  induction l as [|h l IH]; intros N0 F G E; [destruct F|]. cbn in N0. apply NoDup_cons_iff in N0.
  destruct N0 as [N1 N2]. destruct F as [-> |F], G as [-> |G]; auto.
  - destruct N1. rewrite E. apply in_map, G.
  - destruct N1. rewrite <- E. apply in_map, F.
Qed.

Lemma live_coded w s f : wfm w s -> In f (live s) -> coded (mid f) (mcode f) s.
Proof.
  intros W F. split; [apply (w_fresh _ _ W), F|]. intros g G E.
  rewrite (nodup_coded (live s) f g); auto. apply (w_nodup _ _ W).
Qed.

Lemma thread_live s t th f : nth_error (thrs s) t = Some th -> In f (frames th) -> In f (live s).
Proof. intros H F. apply in_live. left. eauto. Qed.

Lemma cmd_stepping_on w t c s th x : posted w s t -> nth_error (thrs s) t = Some th -> wt th = Some x ->
  why x <> RPause \/ at_evt x = EExc /\ single w = true -> stepping_on w (m_exec w (MCmd t c) s).
Proof.
  intros P H Hx D. pose proof (m_cmd_keeps w t c s) as K. constructor.
  - eapply k_on; [exact K|]. eapply p_on; eauto.
  - eapply clean_keeps; [exact K|]. eapply p_clean; eauto. destruct D as [D|[D _]]; auto.
Qed.

(* The thread after a command, f being the frame shown. *)
Lemma cmd_frames w t c s th x f : wfm w s -> posted w s t -> nth_error (thrs s) t = Some th -> wt th = Some x ->
  client_cmd c = true -> In f (frames th) -> mid f = shown x ->
  exists r, m_from (shown x) (frames th) = f :: r /\
    nth_error (thrs (m_exec w (MCmd t c) s)) t = Some (Thr (f :: r) (fst (m_resumed w c x (frames th))) None) /\
    mn (m_exec w (MCmd t c) s) =
      enable_all w s (fst (m_resumed w c x (frames th))) (snd (m_resumed w c x (frames th))) (mn s).
Proof.
  intros W P H Hx Hc F E. destruct (placed_from w s t th x W H Hx (p_shown _ _ _ P _ _ H Hx)) as (g & r & E1 & E2 & E3).
  assert (G : In g (frames th)).
  { destruct (is_ret (at_evt x)); [|rewrite E3; left; reflexivity].
    destruct (frames th); [discriminate|]. cbn in E3. subst. right. left. reflexivity. }
  assert (g = f) as ->.
  { apply (nodup_coded (live s)); [apply (w_nodup _ _ W)| | |congruence]; eapply thread_live; eauto. }
  exists r. split; [exact E1|]. apply cmd_reported; auto.
Qed.

Lemma over_going w t c s th x f : wfm w s -> posted w s t -> nth_error (thrs s) t = Some th -> wt th = Some x ->
  why x <> RPause \/ at_evt x = EExc /\ single w = true -> over_like c = true ->
  In f (frames th) -> mid f = shown x -> mskip w (mcode f) = false ->
  going t (mid f) (J_step w c (mcode f)) (m_exec w (MCmd t c) s) /\
  coded (mid f) (mcode f) (m_exec w (MCmd t c) s) /\
  exists th', nth_error (thrs (m_exec w (MCmd t c) s)) t = Some th'.
Proof.
  intros W P H Hx D Hc F E Hs. assert (Cc : client_cmd c = true) by (destruct c; auto).
  destruct (cmd_frames w t c s th x f W P H Hx Cc F E) as (r & R1 & R2 & R3).
  assert (M : m_resumed w c x (frames th) = (Info c (Some (mid f)) false None, f :: r)).
  { unfold m_resumed. rewrite R1. destruct c; try discriminate; reflexivity. }
  rewrite M in R2, R3. cbn [fst snd] in R2, R3.
  assert (L : lev (mn (m_exec w (MCmd t c) s)) (mcode f) = true /\ rev (mn (m_exec w (MCmd t c) s)) (mcode f) = true).
  { rewrite R3. apply (enable_all_in w s _ (f :: r) f
      (fun m => lev m (mcode f) = true /\ rev m (mcode f) = true)).
    - left. reflexivity.
    - intros m. rewrite (code_info_kof w s _ W). apply enable_over; auto. rewrite skip_kof. exact Hs.
    - intros m m' [G1 G2 G3 G4 G5] [Q1 Q2]. auto. }
  split; [|split; [|eauto]].
  - intros th' H'. rewrite R2 in H'. injection H' as <-. right. right. right. cbn [wt nfo susp step stop].
    split; [reflexivity|]. split; [reflexivity|]. split; [destruct c; discriminate|]. split; [reflexivity|].
    split; [reflexivity|]. split; [eapply cmd_stepping_on; eauto|]. split; [intros _; apply L|apply L].
  - apply (live_coded w); [apply m_exec_wfm, W|]. eapply thread_live; [exact R2|left; reflexivity].
Qed.

Lemma return_going w t c s th x f g r : wfm w s -> posted w s t -> nth_error (thrs s) t = Some th ->
  wt th = Some x -> why x <> RPause \/ at_evt x = EExc /\ single w = true -> return_like c = true ->
  In f (frames th) -> mid f = shown x ->
  (forall back, m_from (shown x) (frames th) = f :: back ->
     In g (f :: back) /\ m_target w (match c with ReturnMy => true | _ => false end) f back = g :: r) ->
  mskip w (mcode g) = false ->
  going t (mid g) (J_step w c (mcode g)) (m_exec w (MCmd t c) s) /\
  coded (mid g) (mcode g) (m_exec w (MCmd t c) s) /\
  exists th', nth_error (thrs (m_exec w (MCmd t c) s)) t = Some th'.
Proof.
  intros W P H Hx D Hc F E T Hs. assert (Cc : client_cmd c = true) by (destruct c; auto).
  destruct (cmd_frames w t c s th x f W P H Hx Cc F E) as (b & R1 & R2 & R3).
  destruct (T b R1) as [Gi Tg].
  assert (M : m_resumed w c x (frames th) = (Info c (Some (mid g)) false None, g :: r)).
  { unfold m_resumed. rewrite R1. destruct c; try discriminate; rewrite Tg; reflexivity. }
  rewrite M in R2, R3. cbn [fst snd] in R2, R3.
  assert (L : rev (mn (m_exec w (MCmd t c) s)) (mcode g) = true).
  { rewrite R3. apply (enable_all_in w s _ (g :: r) g (fun m => rev m (mcode g) = true)).
    - left. reflexivity.
    - intros m. rewrite (code_info_kof w s _ W). apply enable_return; auto. rewrite skip_kof. exact Hs.
    - intros m m' [G1 G2 G3 G4 G5] Q2. auto. }
  split; [|split; [|eauto]].
  - intros th' H'. rewrite R2 in H'. injection H' as <-. right. right. right. cbn [wt nfo susp step stop].
    split; [reflexivity|]. split; [reflexivity|]. split; [destruct c; discriminate|]. split; [reflexivity|].
    split; [reflexivity|]. split; [eapply cmd_stepping_on; eauto|]. split; [|apply L].
    intros O. destruct c; discriminate.
  - apply (live_coded w); [apply m_exec_wfm, W|]. eapply thread_live; [exact R2|exact Gi].
Qed.

(* The command a step into is carried out as. *)
Definition into_cmd (w : mworld) (c : cmd) (f : mf) : cmd := if mcoro w (mcode f) then IntoCo else c.

Lemma cmd_into_going w t c s th x f : wfm w s -> posted w s t -> nth_error (thrs s) t = Some th ->
  wt th = Some x -> why x <> RPause \/ at_evt x = EExc /\ single w = true -> c = Into \/ c = IntoMy ->
  In f (frames th) -> mid f = shown x ->
  into_going w t (into_cmd w c f) (Some (mid f, mline f)) (m_exec w (MCmd t c) s) /\
  into_like (into_cmd w c f) = true /\
  exists th', nth_error (thrs (m_exec w (MCmd t c) s)) t = Some th'.
Proof.
  intros W P H Hx D Hc F E.
  assert (Cc : client_cmd c = true) by (destruct Hc as [-> | ->]; auto).
  assert (Il : into_like (into_cmd w c f) = true)
    by (unfold into_cmd; destruct (mcoro _ _); [reflexivity|destruct Hc as [-> | ->]; reflexivity]).
  destruct (cmd_frames w t c s th x f W P H Hx Cc F E) as (r & R1 & R2 & R3).
  assert (M : exists a, m_resumed w c x (frames th) =
    (Info (into_cmd w c f) a false (Some (mid f, mline f)), f :: r)).
  { unfold m_resumed, into_cmd. rewrite R1. destruct Hc as [-> | ->]; destruct (mcoro _ _); eauto. }
  destruct M as [a M]. rewrite M in R2, R3. cbn [fst snd] in R2, R3.
  split; [|split; [exact Il|eauto]].
  intros th' H'. rewrite R2 in H'. injection H' as <-. right. right. cbn [wt nfo susp step initial frames].
  split; [reflexivity|]. split; [reflexivity|]. split; [reflexivity|]. split; [reflexivity|].
  split; [eapply cmd_stepping_on; eauto|]. intros g G S1 S2. rewrite R3.
  apply (enable_all_in w s _ (f :: r) g (fun m => lev m (mcode g) = true /\ rev m (mcode g) = true)); auto.
  - intros m. rewrite (code_info_kof w s _ W). apply enable_into; [rewrite skip_kof; exact S1|exact Il].
  - intros m m' [G1 G2 G3 G4 G5] [Q1 Q2]. auto.
Qed.

(* Continuing: from then on the thread only stops at breakpoints and exceptions. *)
Definition quiet (t : nat) (s : mstate) : Prop :=
  forall th, nth_error (thrs s) t = Some th -> susp (nfo th) = true \/ step (nfo th) = NoStep.

Lemma exec_quiet w t o s : world_ok w -> wfm w s -> ~ commands t o -> quiet t s -> quiet t (m_exec w o s).
Proof.
  intros Wo W Nc Q th' H'. destruct (nth_error (thrs s) t) as [th|] eqn:H.
  - destruct (op_cases t o Nc) as [[a ->]|Fo].
    + cbn [m_exec] in H'. destruct (wt th) as [x|] eqn:Hw.
      { unfold is_waiting in H'. rewrite H, Hw, H in H'. injection H' as <-. auto. }
      assert (Hn : is_waiting t s = false) by (unfold is_waiting; rewrite H, Hw; reflexivity).
      rewrite Hn in H'. destruct (act_own w t a s th W H Hw) as (y & Y1 & Y2 & _).
      rewrite H' in Y1. injection Y1 as <-. destruct Y2 as [(x & X1 & X2 & _)|Go]; [auto|].
      inversion Go as [a' fs E1 E2|f back Ef O E1 E2|f back Ef O E1 E2]; subst; cbn; auto.
      destruct (convert_over _ _ _ _ _ _ O) as [R1 R2]. destruct (Q th H) as [D|D]; [auto|].
      rewrite D in R1. discriminate.
    + destruct (exec_foreign w o s t th Fo H) as (y & E1 & (B1 & B2 & B3)). rewrite H' in E1. injection E1 as <-.
      destruct B3 as [B3|[b B3]]; rewrite B3; [auto|left; apply mark_suspended_susp].
  - right. destruct o as [u a|u c|bs fs|bs fs|u all| |u o bs fs]; cbn [m_exec] in H'.
    + exfalso. assert (L : length (thrs s) = length (thrs (if is_waiting u s then s else m_act w u a s)))
        by (destruct (is_waiting u s); [reflexivity|symmetry; apply act_length]).
      apply nth_error_None in H. assert (t < length (thrs s))%nat by (rewrite L; apply nth_error_Some; congruence). lia.
    + exfalso. unfold m_cmd in H'. apply nth_error_None in H.
      assert (Q0 : forall l, length l = length (thrs s) -> nth_error l t = Some th' -> False).
      { intros l E X. assert (t < length l)%nat by (apply nth_error_Some; congruence). lia. }
      destruct (nth_error (thrs s) u) as [y|] eqn:Hu; [|eapply Q0; [|exact H']; reflexivity].
      destruct (wt y).
      * destruct (client_cmd c); [|eapply Q0; [|exact H']; reflexivity]. destruct (m_resumed _ _ _ _) as [i fs].
        destruct (is_ret _); (eapply Q0; [|exact H']); [rewrite pop_length|]; cbn; apply put_length.
      * destruct c; try (eapply Q0; [|exact H']; reflexivity). eapply Q0; [|exact H']. apply set_info_length.
    + unfold m_add in H'. cbn [with_mon thrs] in H'. rewrite (t_thrs _ _ (enable_threads_tuned _ _ _)) in H'.
      cbn in H'. congruence.
    + unfold m_drop in H'. destruct (_ && _) in H'; cbn in H'; congruence.
    + exfalso. apply nth_error_None in H. assert (t < length (thrs (set_suspend w u true all s)))%nat
        by (apply nth_error_Some; congruence). rewrite set_suspend_length in *. lia.
    + cbn in H'. apply nth_error_None in H. rewrite nth_error_app2 in H' by exact H.
      destruct (t - length (thrs s))%nat as [|[|]]; cbn in H'; try discriminate. injection H' as <-. reflexivity.
    + destruct (is_waiting u s); [congruence|]. unfold m_race in H'.
      destruct (nth_error (thrs s) u) as [y|]; [|congruence]. destruct (frames y); [congruence|].
      destruct (line_of _ _); [|congruence]. destruct (_ && _) in H'; [|congruence].
      destruct (line_outcome _ _ _ _ _ _); try congruence. unfold m_add in H'. cbn [with_mon thrs] in H'.
      rewrite (t_thrs _ _ (enable_threads_tuned _ _ _)) in H'. cbn in H'. congruence.
Qed.

Lemma run_quiet w t os : world_ok w -> Forall (fun o => ~ commands t o) os ->
  forall s, wfm w s -> quiet t s -> quiet t (m_run w os s).
Proof.
  intros Wo Fo. induction Fo as [|o os N0 Fo IH]; intros s W Q; [exact Q|].
  apply IH; [apply m_exec_wfm, W|apply exec_quiet; auto].
Qed.

Lemma cmd_quiet w t s : wfm w s -> quiet t (m_exec w (MCmd t NoStep) s).
Proof.
  intros W th' H'. right. cbn [m_exec] in H'. unfold m_cmd in H'.
  destruct (nth_error (thrs s) t) as [th|] eqn:H; [|congruence].
  destruct (wt th) as [x|] eqn:Hx.
  - cbn [client_cmd] in H'. assert (E : step (fst (m_resumed w NoStep x (frames th))) = NoStep)
      by (unfold m_resumed; destruct (m_from _ _); reflexivity).
    destruct (m_resumed w NoStep x (frames th)) as [i fs]. cbn [fst] in E.
    assert (G : forall m, nth_error (thrs (with_mon m (with_thrs (put t (Thr (frames th) i None) (thrs s)) s))) t
                = Some (Thr (frames th) i None)) by (intros m; cbn; eapply nth_put_same; eauto).
    destruct (is_ret _).
    + rewrite (nth_pop _ _ _ (G _)) in H'. injection H' as <-. exact E.
    + rewrite G in H'. injection H' as <-. exact E.
  - rewrite (nth_set_info t _ s _ H) in H'. injection H' as <-. reflexivity.
Qed.

(* ----- Breakpoints of a line ----- *)

Lemma line_of_in ls o l : line_of ls o = Some l -> In l (map snd ls).
Proof.
  unfold line_of. destruct (find _ ls) as [p|] eqn:E; [|discriminate]. intros [= <-].
  apply in_map. apply find_some in E. apply E.
Qed.

Lemma bp_at_break w bs c l : In l (map snd (mlines w c)) ->
  bp_at (code_breaks w bs c) l = find_break bs (mfile w c) l.
Proof.
  intros L. unfold code_breaks. induction bs as [|[[f l'] b] bs IH]; [reflexivity|].
  cbn [filter map find_break fst snd]. destruct (N.eqb_spec f (mfile w c)) as [-> |Nf]; cbn [andb].
  - destruct (existsb (fun q => N.eqb (snd q) l') (mlines w c)) eqn:Ex; cbn [map bp_at fst snd].
    + destruct (N.eqb_spec l' l); [subst; reflexivity|exact IH].
    + destruct (N.eqb_spec l' l) as [-> |]; [|exact IH]. exfalso.
      apply in_map_iff in L. destruct L as (q & Q1 & Q2).
      assert (existsb (fun q => N.eqb (snd q) l) (mlines w c) = true); [|congruence].
      apply existsb_exists. exists q. split; [exact Q2|]. apply N.eqb_eq, Q1.
  - exact IH.
Qed.

Lemma kof_plain w s c : plain w c ->
  kof w s c = Fci false false (mfilt w c) (code_breaks w (mbrks s) c) (find_func (mfuncs s) (mname w c)).
Proof. intros (P1 & P2 & P3). unfold kof, compute. rewrite P1, P2, P3. reflexivity. Qed.

Definition same_breaks (s s' : mstate) : Prop := mbrks s' = mbrks s /\ mfuncs s' = mfuncs s.

Lemma suspend_at_breaks w t x s : same_breaks s (suspend_at w t x s).
Proof.
  unfold suspend_at. assert (Q : forall s', same_breaks s' (wait_at t x s')).
  { intros s'. unfold wait_at. destruct (nth_error (thrs s') t); split; reflexivity. }
  destruct (Q (set_suspend w t false false s)) as [Q1 Q2]. unfold same_breaks. rewrite Q1, Q2.
  destruct (nth_error (thrs s) t) as [th|] eqn:H.
  - pose proof (set_suspend_spec w t false false s th H) as K.
    split; [apply (s_brks _ _ _ _ _ _ K)|apply (s_funcs _ _ _ _ _ _ K)].
  - unfold set_suspend. rewrite H. split; reflexivity.
Qed.

Lemma same_breaks_trans s s1 s2 : same_breaks s s1 -> same_breaks s1 s2 -> same_breaks s s2.
Proof. intros [A1 A2] [B1 B2]. split; congruence. Qed.

Lemma set_frames_breaks t fs s : same_breaks s (set_frames t fs s).
Proof. split; [apply set_frames_brks|apply set_frames_funcs]. Qed.

Lemma pop_breaks t s : same_breaks s (pop t s).
Proof. unfold pop. destruct (nth_error (thrs s) t); split; reflexivity. Qed.

Lemma set_info_breaks t i s : same_breaks s (set_info t i s).
Proof. unfold set_info. destruct (nth_error (thrs s) t); split; reflexivity. Qed.

Lemma act_brks w u a s : same_breaks s (m_act w u a s).
Proof.
  unfold m_act. destruct (nth_error (thrs s) u) as [y|]; [|split; reflexivity]. destruct a as [c ok|i|o ok| | | |].
  - cbn zeta. assert (Q : same_breaks s (with_fresh (fresh s + 1) (set_frames u (Mf (fresh s) c 0 :: frames y) s)))
      by apply (set_frames_breaks u _ s).
    destruct (_ && _); [|exact Q]. eapply same_breaks_trans; [exact Q|]. unfold start_event.
    destruct (nth_error _ u) as [z|]; [|split; reflexivity]. destruct (frames z); [split; reflexivity|].
    destruct (start_outcome _ _ _ _); try (split; reflexivity).
    eapply same_breaks_trans; [|apply suspend_at_breaks]. split; reflexivity.
  - destruct (nth_error (idle s) i); [|split; reflexivity].
    eapply same_breaks_trans; [|apply set_frames_breaks]. split; reflexivity.
  - destruct (frames y) as [|f back]; [split; reflexivity|]. destruct (line_of _ _); [|split; reflexivity]. cbn zeta.
    destruct (_ && _); [|apply set_frames_breaks]. eapply same_breaks_trans; [apply set_frames_breaks|]. unfold line_event.
    destruct (nth_error _ u) as [z|]; [|split; reflexivity]. destruct (frames z); [split; reflexivity|].
    destruct (line_outcome _ _ _ _ _ _); try (split; reflexivity).
    + eapply same_breaks_trans; [|apply suspend_at_breaks]. split; reflexivity.
    + unfold wait_at. destruct (nth_error _ u); split; reflexivity.
  - destruct (frames y) as [|f back]; [split; reflexivity|]. cbn zeta.
    match goal with |- context [is_waiting u ?s1] => assert (E1 : same_breaks s s1) end.
    { destruct (_ && _); [|split; reflexivity]. unfold return_event.
      destruct (nth_error (thrs s) u) as [z|]; [|split; reflexivity]. destruct (frames z); [split; reflexivity|].
      destruct (return_outcome _ _ _ _ _ _); try (split; reflexivity).
      - eapply same_breaks_trans; [|apply set_info_breaks]. split; reflexivity.
      - eapply same_breaks_trans; [|apply suspend_at_breaks]. split; reflexivity.
      - match goal with |- same_breaks s (with_mon ?m (set_info u ?i ?r)) =>
          eapply (same_breaks_trans s r); [split; reflexivity|apply (set_info_breaks u i r)] end. }
    destruct (is_waiting _ _); [exact E1|]. eapply same_breaks_trans; [exact E1|apply pop_breaks].
  - destruct (frames y); [split; reflexivity|]. destruct (mgen _ _); [|split; reflexivity].
    eapply same_breaks_trans; [|apply set_frames_breaks]. split; reflexivity.
  - apply pop_breaks.
  - destruct (frames y); [split; reflexivity|]. destruct (k_skip _); [split; reflexivity|]. apply suspend_at_breaks.
Qed.
