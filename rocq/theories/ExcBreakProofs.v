(** Proofs about exception breakpoints. *)
From Coq Require Import List NArith ZArith Bool String Lia.
From Verif Require Import Base Dict ExcBreak ExcBreakSpec.
Import ListNotations.

Definition bstep (w : world) (t : tables) (b : basic) : tables :=
  match b with
  | BAdd b => fst (add_exception w b t)
  | BRemove k => remove_exception k t
  | BClear => no_tables
  end.

Definition raises (w : world) (b : exb) : bool := match resolve w (e_key b) with RRaises => true | _ => false end.

Lemma add_names_spec w mk names t :
  add_names w mk names t =
  (fold_left (bstep w) (map BAdd (until_raise w (map mk names))) t,
   forallb (fun n => negb (raises w (mk n))) names).
Proof.
  revert t; induction names as [|n r IH]; intros t; cbn [add_names map until_raise fold_left forallb]; auto.
  unfold raises, add_exception at 1.
  destruct (resolve w (e_key (mk n))) eqn:E; cbn [map fold_left negb andb bstep]; auto.
  - rewrite IH. unfold add_exception. rewrite E. reflexivity.
  - rewrite IH. unfold add_exception. rewrite E. reflexivity.
  - rewrite IH. unfold add_exception. rewrite E. reflexivity.
Qed.

Lemma until_raise_app w a b :
  until_raise w (a ++ b) = if forallb (fun x => negb (raises w x)) a then a ++ until_raise w b else until_raise w a.
Proof.
  induction a as [|x a IH]; cbn [app until_raise forallb]; auto.
  unfold raises at 1. destruct (resolve w (e_key x)); cbn [negb andb]; auto;
    rewrite IH; destruct (forallb _ a); auto.
Qed.

Lemma until_raise_all w a : forallb (fun x => negb (raises w x)) a = true -> until_raise w a = a.
Proof.
  induction a as [|x a IH]; cbn [until_raise forallb]; auto. intros H. apply andb_true_iff in H. destruct H as [H1 H2].
  unfold raises in H1. destruct (resolve w (e_key x)); try discriminate; now rewrite IH.
Qed.

Lemma forallb_map {A B} (f : A -> B) g l : forallb g (map f l) = forallb (fun x => g (f x)) l.
Proof. induction l; cbn; auto. now rewrite IHl. Qed.

Lemma add_options_spec w il os t :
  fst (add_options w il os t) =
  fold_left (bstep w) (map BAdd (until_raise w
    (flat_map (fun o => map (dap_exb il (is_mode (o_mode o) Always) (is_mode (o_mode o) Unhandled) (is_mode (o_mode o) UserUnhandled))
                            (option_names o)) os))) t.
Proof.
  revert t; induction os as [|o r IH]; intros t; cbn [add_options flat_map until_raise map fold_left fst]; auto.
  rewrite add_names_spec, until_raise_app.
  set (mk := dap_exb _ _ _ _). rewrite forallb_map.
  destruct (forallb (fun n => negb (raises w (mk n))) (option_names o)) eqn:E; auto.
  rewrite IH. rewrite map_app, fold_left_app. f_equal.
  rewrite until_raise_all; auto. now rewrite forallb_map.
Qed.


Lemma estep_effects w t o : estep w t o = fold_left (bstep w) (effects w o) t.
Proof.
  destruct o as [b|k| |il f os]; try reflexivity.
  cbn [estep effects fold_left bstep]. unfold set_exception_breakpoints. destruct os as [|o os].
  - cbn [requested]. destruct (_ || _ || _); [|reflexivity].
    rewrite add_names_spec. reflexivity.
  - rewrite add_options_spec. reflexivity.
Qed.

Lemma erun_effects w h : erun w h = fold_left (bstep w) (flat_map (effects w) h) no_tables.
Proof.
  unfold erun. generalize no_tables. induction h as [|o h IH]; intros t; cbn [flat_map fold_left]; auto.
  rewrite fold_left_app, <- estep_effects. apply IH.
Qed.

Lemma table_add w k b t :
  table_of k (fst (add_exception w b t)) =
  if wants k b then match typed w b with Some b' => set str_eqb (e_key b) b' (table_of k t) | None => table_of k t end
  else table_of k t.
Proof.
  unfold add_exception, typed. destruct (resolve w (e_key b)); destruct k; cbn; 
  destruct (e_handled b), (e_unhandled b), (e_user b); reflexivity.
Qed.

Lemma table_remove k n t : table_of k (remove_exception n t) = del str_eqb n (table_of k t).
Proof. destruct k; reflexivity. Qed.

Lemma tables_inv w k l :
  NoDup (keys (table_of k (fold_left (bstep w) l no_tables))) /\
  forall name, get str_eqb name (table_of k (fold_left (bstep w) l no_tables)) = registered w k name (rev l).
Proof.
  induction l as [|b l [IH1 IH2]] using rev_ind.
  - cbn. split; [destruct k; constructor|intros; now destruct k].
  - rewrite fold_left_app, rev_app_distr. cbn [fold_left rev app].
    set (t := fold_left (bstep w) l no_tables) in *. destruct b as [b|n|]; cbn [bstep registered].
    + rewrite table_add. destruct (wants k b); [|split; auto; intros; now rewrite andb_false_r].
      destruct (typed w b) as [b'|]; [|split; auto; intros; rewrite andb_true_r; destruct (str_eqb _ _); auto].
      split; [now apply (NoDup_keys_set _ str_eqb_spec)|].
      intros name. rewrite andb_true_r, (get_set _ str_eqb_spec).
      destruct (str_eqb_spec name (e_key b)), (str_eqb_spec (e_key b) name); try congruence; auto.
    + rewrite table_remove. split; [now apply NoDup_keys_del|].
      intros name. rewrite (get_del _ str_eqb_spec) by auto.
      destruct (str_eqb_spec name n), (str_eqb_spec n name); try congruence; auto.
    + split; [destruct k; constructor|intros; now destruct k].
Qed.

Lemma registered_key w k name l b : registered w k name l = Some b -> e_key b = name.
Proof.
  induction l as [|[x|n|] l IH]; cbn [registered]; try discriminate.
  - destruct (str_eqb_spec (e_key x) name) as [E|E]; cbn [andb]; auto.
    destruct (wants k x); auto. unfold typed. destruct (resolve w (e_key x)); intros H; auto;
      inversion H; subst; reflexivity.
  - destruct (str_eqb n name); [discriminate|auto].
Qed.

Lemma table_get w k h name : get str_eqb name (table_of k (erun w h)) = in_force w k name h.
Proof. rewrite erun_effects. apply tables_inv. Qed.

Lemma table_values w k h b : In b (values (table_of k (erun w h))) <-> in_force w k (e_key b) h = Some b.
Proof.
  unfold values. rewrite in_map_iff. split.
  - intros ([n x] & E & H). cbn in E. subst x.
    assert (G : in_force w k n h = Some b).
    { rewrite <- table_get. apply (In_get _ str_eqb_spec); auto. rewrite erun_effects. apply tables_inv. }
    unfold in_force in G. pose proof (registered_key _ _ _ _ _ G). subst n. exact G.
  - intros H. exists (e_key b, b). split; auto. apply (get_In _ str_eqb_spec). now rewrite table_get.
Qed.

Lemma pick_min w e l : preorder w -> forall exc,
  (forall x, exc = Some x -> exists tx, e_type x = Some tx /\ sub w e tx = true) ->
  match fold_left (pick w e) l exc with
  | None => exc = None /\ forall b t, In b l -> e_type b = Some t -> sub w e t = false
  | Some x => (exc = Some x \/ In x l) /\ exists tx, e_type x = Some tx /\ sub w e tx = true /\
      (forall x0 t0, exc = Some x0 -> e_type x0 = Some t0 -> sub w tx t0 = true) /\
      (forall b t, In b l -> e_type b = Some t -> sub w e t = true -> sub w t tx = true -> sub w tx t = true)
  end.
Proof.
  intros [Hr Ht]. induction l as [|b l IH]; intros exc Hexc.
  - cbn [fold_left]. destruct exc as [x|].
    + destruct (Hexc x eq_refl) as (tx & E1 & E2). split; auto. exists tx. split; [auto|]. split; [auto|]. split.
      * intros x0 t0 E E0. inversion E; subst. rewrite E1 in E0. inversion E0; subst. apply Hr.
      * intros ? ? [].
    + split; auto. intros ? ? [].
  - cbn [fold_left]. set (exc' := pick w e exc b).
    assert (Hexc' : forall x, exc' = Some x -> exists tx, e_type x = Some tx /\ sub w e tx = true).
    { unfold exc', pick. intros x. destruct (e_type b) as [tb|] eqn:Eb; [|now apply Hexc].
      destruct (sub w e tb) eqn:Es; [|now apply Hexc].
      destruct exc as [x0|].
      - destruct (Hexc x0 eq_refl) as (t0 & E0 & S0). rewrite E0.
        destruct (sub w tb t0); intros E; inversion E; subst; eauto.
      - intros E. inversion E; subst. eauto. }
    specialize (IH exc' Hexc').
    assert (Hdown : forall x0 t0, exc = Some x0 -> e_type x0 = Some t0 ->
              exists x1 t1, exc' = Some x1 /\ e_type x1 = Some t1 /\ sub w t1 t0 = true).
    { intros x0 t0 -> E0. unfold exc', pick. destruct (e_type b) as [tb|] eqn:Eb; [|exists x0, t0; auto].
      destruct (sub w e tb) eqn:Es; [|exists x0, t0; auto]. rewrite E0.
      destruct (sub w tb t0) eqn:Ec; [exists b, tb|exists x0, t0]; auto. }
    destruct (fold_left (pick w e) l exc') as [x|].
    + destruct IH as (Hin & tx & E1 & E2 & Hd & Hm). split.
      * destruct Hin as [Hin|Hin]; [|now right; right].
        revert Hin. unfold exc', pick. destruct (e_type b); [|now left].
        destruct (sub w e n); [|now left]. destruct exc as [x0|].
        -- destruct (e_type x0); [|now left]. destruct (sub w n n0); [|now left]. intros E; inversion E; subst. right; now left.
        -- intros E; inversion E; subst. right; now left.
      * exists tx. split; [auto|]. split; [auto|]. split.
        -- intros x0 t0 He H0. destruct (Hdown x0 t0 He H0) as (x1 & t1 & F1 & F2 & F3).
           eapply Ht; [|exact F3]. eauto.
        -- intros b' t [Hb|Hb] Et Se Sx; [|eauto]. subst b'.
           (* b itself: either it was taken, or it is not below the current one *)
           destruct exc as [x0|].
           ++ destruct (Hexc x0 eq_refl) as (t0 & E0 & S0).
              assert (sub w t t0 = true).
              { eapply Ht; [exact Sx|]. destruct (Hdown x0 t0 eq_refl E0) as (x1 & t1 & F1 & F2 & F3).
                eapply Ht; [|exact F3]. eauto. }
              apply (Hd b t); auto. unfold exc', pick. now rewrite Et, Se, E0, H.
           ++ apply (Hd b t); auto. unfold exc', pick. now rewrite Et, Se.
    + destruct IH as (He & Hn). split.
      * destruct exc as [x0|]; auto. destruct (Hexc x0 eq_refl) as (t0 & E0 & S0).
        destruct (Hdown x0 t0 eq_refl E0) as (x1 & t1 & F1 & _). congruence.
      * intros b' t [Hb|Hb] Et; [|eauto]. subst b'.
        destruct (sub w e t) eqn:Se; auto. exfalso.
        destruct exc as [x0|].
        -- destruct (Hexc x0 eq_refl) as (t0 & E0 & S0).
           destruct (Hdown x0 t0 eq_refl E0) as (x1 & t1 & F1 & _). congruence.
        -- unfold exc', pick in He. rewrite Et, Se in He. discriminate.
Qed.

(** ** DAP request *)
Lemma get_single w e b : match e_type b with Some t => sub w e t | None => str_eqb (qname w e) (e_key b) end = true ->
  get_exception_breakpoint w e [(e_key b, b)] = Some b.
Proof.
  intros H. unfold get_exception_breakpoint. cbn [get]. destruct (str_eqb (qname w e) (e_key b)); auto.
  cbn [values map snd fold_left]. unfold pick. destruct (e_type b); [|discriminate]. now rewrite H.
Qed.
