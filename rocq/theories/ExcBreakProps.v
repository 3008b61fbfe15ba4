(** Properties C08, C39 and C40: exception breakpoints. *)
From Coq Require Import List NArith ZArith Bool String Lia.
From Verif Require Import Base Dict ExcBreak ExcBreakSpec ExcBreakProofs.
Import ListNotations.

(** ** C39 *)

(** C39.  After every history of requests, the class with qualified name [qname w e] is handled by the
    breakpoint in force for that name, if there is one. *)
Theorem exception_in_force :
  forall w k h e b, in_force w k (qname w e) h = Some b ->
    get_exception_breakpoint w e (table_of k (erun w h)) = Some b.
Proof. intros. unfold get_exception_breakpoint. now rewrite table_get, H. Qed.
Print Assumptions exception_in_force.

(** C39.  Nothing else is in force: every breakpoint ever chosen is in force under its name. *)
Theorem exception_chosen_in_force :
  forall w k h e b, preorder w -> get_exception_breakpoint w e (table_of k (erun w h)) = Some b ->
    in_force w k (e_key b) h = Some b.
Proof.
  intros w k h e b Hp. unfold get_exception_breakpoint. rewrite table_get.
  destruct (in_force w k (qname w e) h) as [x|] eqn:E.
  - intros H. inversion H; subst. unfold in_force in *. now rewrite (registered_key _ _ _ _ _ E).
  - intros H. pose proof (pick_min w e (values (table_of k (erun w h))) Hp None ltac:(discriminate)) as M.
    rewrite H in M. destruct M as ([M|M] & _); [discriminate|]. now apply table_values.
Qed.
Print Assumptions exception_chosen_in_force.

(** ** C08 *)

(** C08.  If no breakpoint is in force for the class itself, the chosen one is for a superclass and none in
    force sits strictly between. *)
Theorem exception_most_specific :
  forall w k h e b, preorder w -> in_force w k (qname w e) h = None ->
    get_exception_breakpoint w e (table_of k (erun w h)) = Some b ->
    exists t, candidate w k h e b t /\
      forall b' t', candidate w k h e b' t' -> sub w t' t = true -> sub w t t' = true.
Proof.
  intros w k h e b Hp En. unfold get_exception_breakpoint. rewrite table_get, En. intros H.
  pose proof (pick_min w e (values (table_of k (erun w h))) Hp None ltac:(discriminate)) as M.
  rewrite H in M. destruct M as ([M|M] & t & E1 & E2 & _ & Hm); [discriminate|].
  exists t. split.
  - split; auto. now apply table_values.
  - intros b' t' (C1 & C2 & C3) Hs. apply (Hm b' t'); auto. now apply table_values.
Qed.
Print Assumptions exception_most_specific.

(** C08.  None is chosen exactly when neither the class nor a superclass has a breakpoint in force. *)
Theorem exception_none :
  forall w k h e, preorder w ->
    (get_exception_breakpoint w e (table_of k (erun w h)) = None <->
     in_force w k (qname w e) h = None /\ forall b t, ~ candidate w k h e b t).
Proof.
  intros w k h e Hp. unfold get_exception_breakpoint. rewrite table_get.
  pose proof (pick_min w e (values (table_of k (erun w h))) Hp None ltac:(discriminate)) as M.
  destruct (in_force w k (qname w e) h) as [x|] eqn:E.
  - split; [discriminate|]. intros [H _]. discriminate.
  - destruct (fold_left (pick w e) (values (table_of k (erun w h))) None) as [x|].
    + split; [discriminate|]. intros [_ H]. exfalso.
      destruct M as ([M|M] & t & E1 & E2 & _); [discriminate|]. apply (H x t). split; auto. now apply table_values.
    + split; auto. intros _. split; auto. intros b t (C1 & C2 & C3). destruct M as [_ M].
      rewrite (M b t) in C3; [discriminate| |auto]. now apply table_values.
Qed.
Print Assumptions exception_none.

(** C08.  With single inheritance the choice depends only on what is in force, not on the order in which
    it was registered. *)
Theorem exception_order_independent :
  forall w k h1 h2 e, preorder w ->
    (forall name, in_force w k name h1 = in_force w k name h2) ->
    (forall a b, sub w e a = true -> sub w e b = true -> sub w a b = true \/ sub w b a = true) ->
    (forall b b' t t', candidate w k h1 e b t -> candidate w k h1 e b' t' ->
       sub w t t' = true -> sub w t' t = true -> b = b') ->
    get_exception_breakpoint w e (table_of k (erun w h1)) = get_exception_breakpoint w e (table_of k (erun w h2)).
Proof.
  intros w k h1 h2 e Hp Hs Hc Hi.
  assert (T : forall b t, candidate w k h1 e b t <-> candidate w k h2 e b t)
    by (intros; unfold candidate; now rewrite Hs).
  destruct (in_force w k (qname w e) h1) as [x|] eqn:E.
  - rewrite (exception_in_force _ _ _ _ _ E). rewrite Hs in E. now rewrite (exception_in_force _ _ _ _ _ E).
  - assert (E2 : in_force w k (qname w e) h2 = None) by (now rewrite <- Hs).
    destruct (get_exception_breakpoint w e (table_of k (erun w h1))) as [b1|] eqn:G1;
    destruct (get_exception_breakpoint w e (table_of k (erun w h2))) as [b2|] eqn:G2; auto.
    + destruct (exception_most_specific _ _ _ _ _ Hp E G1) as (t1 & C1 & M1).
      destruct (exception_most_specific _ _ _ _ _ Hp E2 G2) as (t2 & C2 & M2).
      f_equal. pose proof (proj2 (T _ _) C2) as C2'. pose proof (proj1 (T _ _) C1) as C1'.
      destruct (Hc t1 t2) as [S|S]; [apply C1|apply C2| |].
      * apply (Hi b1 b2 t1 t2); eauto.
      * apply (Hi b1 b2 t1 t2); eauto.
    + apply exception_none in G2; auto. destruct G2 as [_ G2].
      destruct (exception_most_specific _ _ _ _ _ Hp E G1) as (t1 & C1 & _). apply T in C1. now apply G2 in C1.
    + apply exception_none in G1; auto. destruct G1 as [_ G1].
      destruct (exception_most_specific _ _ _ _ _ Hp E2 G2) as (t2 & C2 & _). apply T in C2. now apply G1 in C2.
Qed.
Print Assumptions exception_order_independent.

(** ** C40 *)
Lemma str_mem_In s l : str_mem s l = true <-> In s l.
Proof.
  unfold str_mem. rewrite existsb_exists. split.
  - intros (x & H & E). apply str_eqb_eq in E. now subst.
  - intros H. exists s. split; auto. apply str_eqb_refl.
Qed.

Lemma names_spec o n : In n (option_names o) <-> names o n.
Proof.
  unfold option_names, names. destruct (o_path o) as [|p rest] eqn:E.
  - split; [intros []|]. intros (p & r & H & _). discriminate.
  - destruct rest as [|q rest].
    + destruct (str_mem python_exceptions p) eqn:M.
      * apply str_mem_In in M. split.
        -- intros [<-|[]]. exists p, []. auto 6.
        -- intros (p' & r & H & _ & [[_ H2]|(q & Hq & _)]); inversion H; subst; [now left|destruct Hq].
      * split; [intros []|]. intros (p' & r & H & Hp & _). inversion H; subst. apply str_mem_In in Hp. congruence.
    + destruct (str_mem python_exceptions p) eqn:M.
      * apply str_mem_In in M. rewrite in_concat. split.
        -- intros (x & Hx & Hn). exists p, (q :: rest). eauto 8.
        -- intros (p' & r & H & _ & [[H1 _]|(x & Hx & Hn)]); inversion H; subst; [discriminate|eauto].
      * split; [intros []|]. intros (p' & r & H & Hp & _). inversion H; subst. apply str_mem_In in Hp. congruence.
Qed.

Lemma registered_dap w k name l rest b :
  registered w k name (map BAdd l ++ BClear :: rest) = Some b ->
  exists x, In x l /\ e_key x = name /\ wants k x = true /\ typed w x = Some b.
Proof.
  induction l as [|x l IH]; cbn [map app registered]; [discriminate|].
  destruct (str_eqb_spec (e_key x) name); cbn [andb].
  - destruct (wants k x) eqn:Ew.
    + destruct (typed w x) eqn:Et.
      * intros H; inversion H; subst. exists x. cbn. auto.
      * intros H. destruct (IH H) as (y & ? & ?). exists y. cbn. auto.
    + intros H. destruct (IH H) as (y & ? & ?). exists y. cbn. auto.
  - intros H. destruct (IH H) as (y & ? & ?). exists y. cbn. auto.
Qed.

Lemma registered_dap_some w k l rest x :
  In x l -> wants k x = true -> typed w x <> None ->
  registered w k (e_key x) (map BAdd l ++ BClear :: rest) <> None.
Proof.
  induction l as [|y l IH]; cbn [map app registered]; [intros []|]. intros Hi Hw Ht.
  destruct (str_eqb_spec (e_key y) (e_key x)) as [Ek|Ek]; cbn [andb].
  - destruct (wants k y) eqn:Ew.
    + destruct (typed w y) eqn:Et; [discriminate|]. destruct Hi as [->|Hi]; [congruence|auto].
    + destruct Hi as [->|Hi]; [congruence|auto].
  - destruct Hi as [->|Hi]; [congruence|auto].
Qed.

Lemma in_force_dap w k name h il f os :
  in_force w k name (h ++ [EDap il f os]) =
  registered w k name (map BAdd (rev (until_raise w (requested il f os))) ++ BClear :: rev (flat_map (effects w) h)).
Proof.
  unfold in_force. rewrite flat_map_app, rev_app_distr. cbn [flat_map effects app]. rewrite app_nil_r.
  cbn [rev]. rewrite <- map_rev, <- app_assoc. reflexivity.
Qed.

Lemma requested_In il f os x : In x (requested il f os) ->
  e_info x = 0%Z /\ e_first_only x = false /\ e_ignore_libs x = il /\
  ((os = [] /\ e_key x = base_exception /\ forall k, wants k x = true <-> In (filter_of k) f) \/
   (os <> [] /\ exists o, In o os /\ names o (e_key x) /\ forall k, wants k x = true <-> o_mode o = mode_of k)).
Proof.
  unfold requested. destruct os as [|o os].
  - destruct (_ || _ || _); [|intros []]. intros [<-|[]]. cbn. repeat split; auto. left. repeat split; auto; destruct k; cbn;
      apply str_mem_In.
  - intros H. apply in_flat_map in H. destruct H as (o' & Ho & H). apply in_map_iff in H. destruct H as (n & <- & Hn).
    cbn [e_info e_first_only e_ignore_libs e_key]. repeat split; auto. right. split; [discriminate|].
    exists o'. split; auto. split; [now apply names_spec|]. intros k. destruct k, (o_mode o'); cbn; split; congruence.
Qed.

Lemma typed_key w x b : typed w x = Some b -> e_key b = e_key x /\ e_info b = e_info x /\ e_first_only b = e_first_only x
  /\ e_ignore_libs b = e_ignore_libs x /\ (forall t, e_type b = Some t <-> resolve w (e_key x) = RClass t) /\
  (e_type b = None -> resolve w (e_key x) = RNone).
Proof.
  unfold typed. destruct (resolve w (e_key x)); intros H; inversion H; subst; cbn; repeat split; intros; congruence.
Qed.

Lemma until_raise_incl w l x : In x (until_raise w l) -> In x l.
Proof.
  induction l as [|y l IH]; cbn; auto. destruct (resolve w (e_key y)); cbn; intuition.
Qed.

Lemma until_raise_resolvable w il f os : sane w -> resolvable w os ->
  until_raise w (requested il f os) = requested il f os.
Proof.
  intros (_ & (base & Hb & _) & _) Hr. apply until_raise_all. apply forallb_forall. intros x Hx.
  destruct (requested_In _ _ _ _ Hx) as (_ & _ & _ & [(_ & Hk & _)|(_ & o & Ho & Hn & _)]); unfold raises.
  - now rewrite Hk, Hb.
  - specialize (Hr o _ Ho Hn). destruct (resolve w (e_key x)) eqn:Q; auto; congruence.
Qed.

(** The breakpoint used after a request. *)
Lemma dap_choice w k h il f os e : sane w -> resolvable w os ->
  match get_exception_breakpoint w e (table_of k (erun w (h ++ [EDap il f os]))) with
  | Some b => asks w k e f os /\ e_info b = 0%Z /\ e_first_only b = false /\ e_ignore_libs b = il
  | None => ~ asks w k e f os
  end.
Proof.
  intros Hs Hr. pose proof Hs as (Hp & (base & Hb & Hbs) & Hq). set (h' := h ++ [EDap il f os]).
  assert (F : forall name b, in_force w k name h' = Some b ->
     exists x, In x (requested il f os) /\ e_key x = name /\ wants k x = true /\ typed w x = Some b).
  { intros name b Hf. unfold h' in Hf. rewrite in_force_dap in Hf. apply registered_dap in Hf.
    destruct Hf as (x & Hx & H1 & H2 & H3). exists x. apply in_rev in Hx. apply until_raise_incl in Hx. auto. }
  assert (A : forall x b t, In x (requested il f os) -> wants k x = true -> typed w x = Some b -> e_type b = Some t ->
              sub w e t = true -> asks w k e f os).
  { intros x b t Hx Hw Ht Ety Hsub. destruct (requested_In _ _ _ _ Hx) as (_ & _ & _ & [(E0 & Ek & Hwk)|(E0 & o & Ho & Hn & Hwk)]).
    - left. split; auto. now apply Hwk.
    - right. split; auto. exists o, (e_key x), t. repeat split; auto; [now apply Hwk|]. apply typed_key in Ht. now apply Ht. }
  destruct (get_exception_breakpoint w e (table_of k (erun w h'))) as [b|] eqn:G.
  - pose proof (exception_chosen_in_force _ _ _ _ _ Hp G) as Hf.
    destruct (F _ _ Hf) as (x & Hx & Hk & Hw & Ht).
    destruct (requested_In _ _ _ _ Hx) as (R1 & R2 & R3 & _). destruct (typed_key _ _ _ Ht) as (T1 & T2 & T3 & T4 & T5 & T6).
    split; [|repeat split; congruence].
    destruct (in_force w k (qname w e) h') as [y|] eqn:En.
    + rewrite (exception_in_force _ _ _ _ _ En) in G. inversion G; subst y.
      unfold in_force in En. pose proof (registered_key _ _ _ _ _ En) as Ek.
      destruct (e_type b) as [t|] eqn:Et.
      * apply (A x b t); auto. assert (X : resolve w (e_key x) = RClass t) by now apply T5.
        destruct (Hq e) as [Q|[Q|Q]]; rewrite <- Ek, T1, X in Q; inversion Q; subst. apply Hp.
      * specialize (T6 eq_refl). destruct (Hq e) as [Q|[Q|Q]]; rewrite <- Ek, T1, T6 in Q; discriminate.
    + destruct (exception_most_specific _ _ _ _ _ Hp En G) as (t & (C1 & C2 & C3) & _).
      apply (A x b t); auto.
  - apply exception_none in G; auto. destruct G as [G1 G2]. intros Ha.
    assert (X : exists x t, In x (requested il f os) /\ wants k x = true /\ resolve w (e_key x) = RClass t /\ sub w e t = true).
    { destruct Ha as [[-> Hf]|(H0 & o & n & t & Ho & Hm & Hn & Hrn & Hsub)].
      - pose (x := Exb base_exception None 0 (str_mem (lit "uncaught") f) (str_mem (lit "raised") f) (str_mem (lit "userUnhandled") f) false il).
        exists x, base.
        assert (Hw : wants k x = true) by (destruct k; cbn; now apply str_mem_In).
        split; [|split; [|split]]; auto. cbn [requested]. assert (C : str_mem (lit "raised") f || str_mem (lit "uncaught") f || str_mem (lit "userUnhandled") f = true)
          by (unfold x in Hw; destruct k; cbn [wants e_handled e_unhandled e_user] in Hw; rewrite Hw, ?orb_true_r; reflexivity).
        rewrite C. now left.
      - exists (Exb n None 0 (is_mode (o_mode o) Unhandled) (is_mode (o_mode o) Always) (is_mode (o_mode o) UserUnhandled) false il), t.
        split; [|split; [|split]]; auto.
        + destruct os as [|o1 os]; [destruct Ho|]. unfold requested. apply in_flat_map. exists o. split; auto.
          apply in_map_iff. exists n. split; auto. now apply names_spec.
        + rewrite Hm. destruct k; reflexivity. }
    destruct X as (x & t & Hx & Hw & Hrx & Hsub).
    destruct (in_force w k (e_key x) h') as [b|] eqn:Ef.
    + destruct (F _ _ Ef) as (y & Hy & Hky & Hwy & Hty).
      apply (G2 b t). destruct (typed_key _ _ _ Hty) as (T1 & _ & _ & _ & T5 & _).
      split; [|split; auto].
      * now rewrite T1, Hky.
      * apply T5. now rewrite Hky.
    + unfold h' in Ef. rewrite in_force_dap in Ef. rewrite until_raise_resolvable in Ef by auto.
      revert Ef. apply registered_dap_some; auto.
      * now apply (proj1 (in_rev _ _)).
      * unfold typed. rewrite Hrx. discriminate.
Qed.

(** C40.  After a setExceptionBreakpoints request, whatever was set before, the debugger stops at the point
    where an exception is raised or passes through exactly when the request asks for raised exceptions of
    that class and the event is not filtered out. *)
Theorem dap_raised_stops :
  forall w c h il f os v n, sane w -> resolvable w os ->
    v_suspended v = false -> v_trace v = Some n -> v_plugin v = false -> skip_same_context c = false ->
    (forall b, e_info b = 0%Z -> v_condition v b = true) ->
    (fst (fst (should_stop_on_exception w c (erun w (h ++ [EDap il f os])) v)) = true <->
     asks w WhenRaised (v_class v) f os /\ visible c il v).
Proof.
  intros w c h il f os v n Hs Hr H1 H2 H3 H4 H5. unfold should_stop_on_exception, visible. rewrite H1, H2, H3.
  destruct (v_ignored_exit v); [cbn; split; [discriminate|intros (_ & ? & _); discriminate]|].
  destruct (existsb (Nat.eqb (v_class v)) (control_flow c)) eqn:Ec.
  { apply existsb_exists in Ec. destruct Ec as (x & Hx & E). apply Nat.eqb_eq in E. subst x.
    cbn. split; [discriminate|]. intros (_ & _ & H & _). tauto. }
  assert (Hnc : ~ In (v_class v) (control_flow c)).
  { intros Hi. assert (K : existsb (Nat.eqb (v_class v)) (control_flow c) = true).
    { apply existsb_exists. exists (v_class v). split; auto. apply Nat.eqb_refl. } congruence. }
  destruct (v_ignored_trace v); [cbn; split; [discriminate|intros (_ & _ & _ & ? & _); discriminate]|].
  pose proof (dap_choice w WhenRaised h il f os (v_class v) Hs Hr) as D. cbn [table_of] in D.
  destruct (get_exception_breakpoint w (v_class v) (caught (erun w (h ++ [EDap il f os])))) as [b|].
  - destruct D as (D1 & D2 & D3 & D4).
    assert (Ecc : fst (check_one c v n b false) = negb (excluded c v b)).
    { unfold check_one. destruct (excluded c v b); [reflexivity|]. rewrite (H5 b D2), D3, H4. cbn. now rewrite andb_false_r. }
    assert (Eex : excluded c v b = false <-> ((il = true -> v_in_scope v = true) /\ (filters_enabled c = true -> v_excluded v = false))).
    { unfold excluded. rewrite D4. destruct il, (filters_enabled c), (v_in_scope v), (v_excluded v); cbn; intuition congruence. }
    rewrite Ecc. destruct (excluded c v b); cbn [negb fst].
    + split; [discriminate|]. intros (_ & _ & _ & _ & Hx). apply Eex in Hx. discriminate.
    + split; auto. intros _. split; auto. split; auto. split; auto. split; auto. now apply Eex.
  - cbn. split; [discriminate|]. intros [Ha _]. contradiction.
Qed.
Print Assumptions dap_raised_stops.

(** C40.  For an exception that leaves a thread: the debugger stops exactly when unhandled exceptions of the
    class were asked for and some frame of the traceback is not filtered, and it stops at the innermost such
    frame. *)
Lemma last_visible c b (tb : list tbframe) :
  match fold_left (fun u f => if frame_excluded c b f then u else Some f) tb None with
  | Some f => exists pre post, tb = pre ++ f :: post /\ frame_excluded c b f = false /\
                Forall (fun g => frame_excluded c b g = true) post
  | None => Forall (fun g => frame_excluded c b g = true) tb
  end.
Proof.
  induction tb as [|f tb IH] using rev_ind; cbn; auto.
  rewrite fold_left_app. cbn [fold_left]. destruct (frame_excluded c b f) eqn:E.
  - destruct (fold_left _ tb None) as [g|].
    + destruct IH as (pre & post & -> & Hg & Hp). exists pre, (post ++ [f]). rewrite <- app_assoc. cbn.
      repeat split; auto. apply Forall_app. auto.
    + apply Forall_app. auto.
  - exists tb, []. auto.
Qed.

Definition hidden (c : config) (il : bool) (f : tbframe) : Prop :=
  (il = true /\ f_in_scope f = false) \/ (filters_enabled c = true /\ f_excluded f = true).

Lemma frame_excluded_spec c b il f : e_ignore_libs b = il -> frame_excluded c b f = true <-> hidden c il f.
Proof.
  unfold frame_excluded, hidden. intros ->. destruct il, (filters_enabled c), (f_in_scope f), (f_excluded f); cbn; intuition congruence.
Qed.

Theorem dap_unhandled_stops :
  forall w c h il fs os e tb f cond, sane w -> resolvable w os ->
    (forall b, e_info b = 0%Z -> cond b = true) ->
    (stop_on_unhandled w c (erun w (h ++ [EDap il fs os])) e tb false false cond = Some f <->
     asks w WhenUnhandled e fs os /\
     exists pre post, tb = pre ++ f :: post /\ ~ hidden c il f /\ Forall (hidden c il) post).
Proof.
  intros w c h il fs os e tb f cond Hs Hr Hc. unfold stop_on_unhandled.
  pose proof (dap_choice w WhenUnhandled h il fs os e Hs Hr) as D. cbn [table_of] in D.
  destruct (get_exception_breakpoint w e (uncaught (erun w (h ++ [EDap il fs os])))) as [b|].
  2:{ split; [discriminate|]. intros [Ha _]. contradiction. }
  destruct D as (D1 & D2 & D3 & D4). rewrite (Hc b D2).
  pose proof (last_visible c b tb) as L.
  assert (HF : forall l, Forall (fun g => frame_excluded c b g = true) l <-> Forall (hidden c il) l).
  { intros l. split; apply Forall_impl; intros a; now apply frame_excluded_spec. }
  assert (HN : forall g, frame_excluded c b g = false <-> ~ hidden c il g).
  { intros g. rewrite <- (frame_excluded_spec c b il g D4). destruct (frame_excluded c b g); split; congruence. }
  destruct tb as [|g tb].
  { split; [discriminate|]. intros (_ & pre & post & E & _). destruct pre; discriminate. }
  set (l := g :: tb) in *. clearbody l.
  destruct (fold_left _ l None) as [f'|].
  - destruct L as (pre & post & -> & Hf & Hp). split.
    + intros E. inversion E; subst f'. split; auto. exists pre, post. rewrite <- HN, <- HF. auto.
    + intros (_ & pre' & post' & E & Hf' & Hp'). f_equal. apply HN in Hf'. apply HF in Hp'.
      clear -E Hf Hp Hf' Hp'. revert pre' E. induction pre as [|x pre IH]; intros [|y pre'] E; cbn in E; inversion E; subst; auto.
      * rewrite Forall_forall in Hp. rewrite (Hp f) in Hf'; [discriminate|]. apply in_app_iff. right. now left.
      * rewrite Forall_forall in Hp'. rewrite (Hp' f') in Hf; [discriminate|]. apply in_app_iff. right. now left.
      * eauto.
  - split; [discriminate|]. intros (_ & pre & post & -> & Hf & _). apply HN in Hf.
    apply Forall_app in L. destruct L as [_ L]. inversion L; subst. congruence.
Qed.
Print Assumptions dap_unhandled_stops.

(** ** Concrete world: 0 = BaseException, 1 = Exception, 2 = ValueError, 3 = a class deriving from 2 and 4,
    4 = KeyError. *)
Definition parents (a b : nat) : bool :=
  (Nat.eqb a b || Nat.eqb b 0 || (negb (Nat.eqb a 0) && Nat.eqb b 1) || (Nat.eqb a 3 && (Nat.eqb b 2 || Nat.eqb b 4)))%bool.
Definition w0 : world :=
  World (fun a b => if Nat.leb a 4 && Nat.leb b 4 then parents a b else Nat.eqb a b || Nat.eqb b 0)
        (fun c => lit "builtins." ++ [(N.of_nat c + 48)%N])
        (fun s => if str_eqb s base_exception then RClass 0
                  else if str_eqb s (lit "Exception") then RClass 1
                  else if str_eqb s (lit "ValueError") then RClass 2
                  else if str_eqb s (lit "KeyError") then RClass 4
                  else if str_eqb s (lit "os.Nothing") then RRaises else RImportError).

Lemma w0_sane : sane w0.
Proof.
  split; [split|split].
  - intros c. cbn [w0 sub]. destruct (Nat.leb c 4 && Nat.leb c 4); unfold parents; now rewrite Nat.eqb_refl.
  - intros a b c. cbn [w0 sub].
    destruct a as [|[|[|[|[|a]]]]], b as [|[|[|[|[|b]]]]], c as [|[|[|[|[|c]]]]]; cbn; try congruence;
      intros H1 H2; rewrite ?orb_false_r in *; try apply Nat.eqb_eq in H1; try apply Nat.eqb_eq in H2; subst;
      rewrite ?Nat.eqb_refl; congruence.
  - exists 0. split; [reflexivity|]. intros c. cbn [w0 sub]. destruct c as [|[|[|[|[|c]]]]]; reflexivity.
  - intros c. right. left. cbn [w0 resolve qname]. reflexivity.
Qed.

Definition add_caught (n : str) : eop := EAdd (Exb n None 0 false true false false false).
Definition ev0 (e : nat) : event := Ev e false (Some 0) false false false true false true (fun _ => true).
Definition cfg0 : config := Config false false [77].

(** ValueError is the most specific of the two for class 2 in either order. *)
Example exception_case :
  option_map e_key (get_exception_breakpoint w0 2 (caught (erun w0 [add_caught (lit "ValueError"); add_caught (lit "Exception")]))) = Some (lit "ValueError") /\
  option_map e_key (get_exception_breakpoint w0 2 (caught (erun w0 [add_caught (lit "Exception"); add_caught (lit "ValueError")]))) = Some (lit "ValueError") /\
  option_map e_key (get_exception_breakpoint w0 4 (caught (erun w0 [add_caught (lit "Exception"); add_caught (lit "ValueError")]))) = Some (lit "Exception").
Proof. vm_compute. auto. Qed.

Example dap_case :
  fst (fst (should_stop_on_exception w0 cfg0 (erun w0 [EDap false [lit "raised"] []]) (ev0 4))) = true /\
  fst (fst (should_stop_on_exception w0 cfg0 (erun w0 [EDap false [lit "raised"] []]) (ev0 77))) = false /\
  fst (fst (should_stop_on_exception w0 cfg0 (erun w0 [EDap false [] [Opt [[python_exceptions]; [lit "ValueError"]] Always]]) (ev0 4))) = false /\
  stop_on_unhandled w0 cfg0 (erun w0 [EDap true [lit "uncaught"] []]) 4 [Tb 1 true false; Tb 2 true false; Tb 3 false false] false false (fun _ => true)
    = Some (Tb 2 true false).
Proof. vm_compute. auto. Qed.

(** Finding: with multiple inheritance the registration order decides. *)
Theorem exception_multiple_inheritance_order_refuted :
  exists w h1 h2 e, preorder w /\ (forall name, in_force w WhenRaised name h1 = in_force w WhenRaised name h2) /\
    get_exception_breakpoint w e (caught (erun w h1)) <> get_exception_breakpoint w e (caught (erun w h2)).
Proof.
  exists w0, [add_caught (lit "ValueError"); add_caught (lit "KeyError")], [add_caught (lit "KeyError"); add_caught (lit "ValueError")], 3.
  split; [apply w0_sane|]. split; [|vm_compute; discriminate].
  intros name. unfold in_force. cbn [flat_map effects app rev add_caught registered e_key].
  cbn [wants e_handled]. rewrite !andb_true_r.
  destruct (str_eqb_spec (lit "KeyError") name), (str_eqb_spec (lit "ValueError") name); try reflexivity.
  subst. discriminate.
Qed.
Print Assumptions exception_multiple_inheritance_order_refuted.

(** Finding: adding an exception again with other settings does not undo the earlier settings. *)
Theorem exception_readd_replaces_refuted :
  exists w h n, preorder w /\
    let b := Exb n None 0 true false false false false in      (* only unhandled *)
    fst (fst (should_stop_on_exception w cfg0 (erun w (h ++ [EAdd b])) (ev0 2))) = true.
Proof. exists w0, [add_caught (lit "ValueError")], (lit "ValueError"). split; [apply w0_sane|]. vm_compute. auto. Qed.
Print Assumptions exception_readd_replaces_refuted.

(** Finding: the mode "never" for an exception does not override "always" for a superclass. *)
Theorem dap_never_overrides_refuted :
  exists w os, sane w /\ resolvable w os /\
    In (Opt [[python_exceptions]; [lit "ValueError"]] Never) os /\
    fst (fst (should_stop_on_exception w cfg0 (erun w [EDap false [] os]) (ev0 2))) = true.
Proof.
  exists w0, [Opt [[python_exceptions]] Always; Opt [[python_exceptions]; [lit "ValueError"]] Never].
  split; [apply w0_sane|]. split; [|split; [cbn; auto|vm_compute; auto]].
  intros o n Ho Hn. apply names_spec in Hn. destruct Ho as [<-|[<-|[]]]; cbn in Hn; destruct Hn as [<-|[]]; vm_compute; discriminate.
Qed.
Print Assumptions dap_never_overrides_refuted.

(** Finding: a name which is missing in an existing module makes the request fail; the old breakpoints are
    gone and the names after it are not set. *)
Theorem dap_unknown_name_skipped_refuted :
  exists w os, snd (set_exception_breakpoints w false [] os) = false /\
    asks w WhenRaised 2 [] os /\
    fst (fst (should_stop_on_exception w cfg0 (erun w [EDap false [] os]) (ev0 2))) = false.
Proof.
  exists w0, [Opt [[python_exceptions]; [lit "os.Nothing"]; [lit "ValueError"]] Always].
  split; [vm_compute; auto|]. split; [|vm_compute; auto].
  right. split; [discriminate|]. eexists. exists (lit "ValueError"), 2. split; [left; reflexivity|].
  repeat split. exists [python_exceptions], [[lit "os.Nothing"]; [lit "ValueError"]]. cbn. repeat split; auto.
  right. exists [lit "ValueError"]. cbn. auto.
Qed.
Print Assumptions dap_unknown_name_skipped_refuted.
