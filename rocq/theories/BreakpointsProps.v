(** Properties C06 and C38: the line breakpoint store. *)
From Coq Require Import List NArith ZArith Bool Lia Sorted.
From Verif Require Import Base Dict Breakpoints BreakpointsSpec BreakpointsProofs BreakpointsDapProofs.
Import ListNotations.
Open Scope Z_scope.

(** C06.  For every history of add, remove-one, remove-file and remove-all requests, the program stops at
    line [l] of file [c] exactly when an active breakpoint sits there, and the one that decides is, among
    the active ones on that line, the one whose id has been active for the shortest time. *)
Theorem breakpoints_exact :
  forall P kd h c l b, coherent P -> one_kind_per_id kd h ->
    (stop_at (run P h) c l = Some b <->
     exists i n, current P c i (rev h) = Some (b, n) /\ bp_line b = l /\
       forall i' b' n', current P c i' (rev h) = Some (b', n') -> bp_line b' = l -> (n' <= n)%nat).
Proof. intros. now apply stop_at_spec with (kd := kd). Qed.
Print Assumptions breakpoints_exact.

(** C06.  A line without an active breakpoint never stops. *)
Theorem breakpoints_none :
  forall P kd h c l, coherent P -> one_kind_per_id kd h ->
    (stop_at (run P h) c l = None <->
     forall i b n, current P c i (rev h) = Some (b, n) -> bp_line b <> l).
Proof.
  intros P kd h c l HP Hk. pose proof (inv_of P kd h HP Hk) as I. split.
  - intros E i b n Hc Hl.
    assert (Hne : last_on l (ids_of (run P h) c) = None).
    { rewrite <- E. unfold stop_at, ids_of. rewrite (i_lines _ _ _ _ I).
      destruct (get str_eqb c (py_ids (run P h))); simpl; auto. now rewrite get_consolidate. }
    apply (proj1 (last_on_None _ _) Hne i b); auto.
    apply (get_In _ Zeqb_reflect). rewrite (i_cur _ _ _ _ I), Hc. reflexivity.
  - intros H. destruct (stop_at (run P h) c l) eqn:E; auto. exfalso.
    apply (stop_at_spec P kd) in E; auto. destruct E as (i & n & Hc & Hl & _). eapply H; eauto.
Qed.
Print Assumptions breakpoints_none.

(** C06.  Adding a breakpoint with an id that is not active makes it the one that decides on its line. *)
Theorem breakpoints_last_added_decides :
  forall P kd h q valid found sup, coherent P -> one_kind_per_id kd (h ++ [Add q valid found sup]) ->
    p_kind q = PyLine -> accepted P q found = true ->
    current P (file_of P (p_name q)) (p_id q) (rev h) = None ->
    stop_at (run P (h ++ [Add q valid found sup])) (file_of P (p_name q)) (effective_line P q valid)
    = Some (Bp (p_id q) (effective_line P q valid) (p_info q)).
Proof.
  intros P kd h q valid found sup HP Hk Hp Ha Hc.
  apply (stop_at_spec P kd); auto. rewrite rev_app_distr. cbn [rev app].
  assert (E : forall i, current P (file_of P (p_name q)) i (Add q valid found sup :: rev h) =
    if Z.eqb (p_id q) i then Some (Bp i (effective_line P q valid) (p_info q), length (rev h))
    else current P (file_of P (p_name q)) i (rev h)).
  { intros i. cbn [current]. rewrite Hp, Ha. cbn [is_py andb].
    destruct (str_eqb_spec (file_of P (p_name q)) (file_of P (p_name q))); [|congruence]. cbn [andb].
    destruct (Z.eqb_spec (p_id q) i); auto. subst. now rewrite Hc. }
  exists (p_id q), (length (rev h)). rewrite E, Z.eqb_refl. split; [reflexivity|]. split; [reflexivity|].
  intros i' b' n'. rewrite E. destruct (Z.eqb (p_id q) i'); intros H _.
  - inversion H. lia.
  - assert (Hk' : one_kind_per_id kd h) by (apply Forall_app in Hk; tauto).
    pose proof (i_len _ _ _ _ (inv_of P kd h HP Hk') (file_of P (p_name q)) i') as L.
    unfold birth in L. rewrite H in L. assert (n' < length (rev h))%nat by (apply L; discriminate). lia.
Qed.
Print Assumptions breakpoints_last_added_decides.

(** The line adjustment: an executable line is kept, otherwise the closest preceding executable line is
    used, otherwise the line is kept. *)
Lemma bisect_left_spec ls x : StronglySorted Z.lt ls ->
  (forall i, (i < bisect_left ls x)%nat -> nth i ls x < x) /\
  (forall y, In y (skipn (bisect_left ls x) ls) -> x <= y) /\ (bisect_left ls x <= length ls)%nat.
Proof.
  induction 1 as [|a ls Hs IH Ha]; cbn [bisect_left].
  - repeat split; simpl; auto; intros; try lia; tauto.
  - destruct (Z.ltb_spec a x).
    + destruct IH as (I1 & I2 & I3). repeat split; simpl; try lia; auto.
      intros [|i] Hi; simpl; auto. apply I1. lia.
    + repeat split; simpl; try lia. intros y [<-|Hy]; auto.
      rewrite Forall_forall in Ha. specialize (Ha y Hy). lia.
Qed.

Theorem adjust_line_spec :
  forall ls line, StronglySorted Z.lt ls ->
    let r := adjust_line (Some ls) line in
    (In line ls -> r = line) /\
    (~ In line ls -> (forall x, In x ls -> line < x) -> r = line) /\
    (~ In line ls -> (exists x, In x ls /\ x < line) ->
       In r ls /\ r < line /\ forall x, In x ls -> x < line -> x <= r).
Proof.
  intros ls line Hs r. unfold adjust_line in r.
  destruct (bisect_left_spec ls line Hs) as (B1 & B2 & B3).
  assert (Hin : existsb (Z.eqb line) ls = true <-> In line ls).
  { rewrite existsb_exists. split.
    - intros (x & Hx & E). apply Z.eqb_eq in E. now subst.
    - intros H. exists line. split; auto. apply Z.eqb_refl. }
  destruct (existsb (Z.eqb line) ls) eqn:E.
  - split; [auto|]. assert (In line ls) by now apply Hin. tauto.
  - assert (Hn : ~ In line ls) by (intros K; apply Hin in K; discriminate).
    split; [tauto|]. destruct (bisect_left ls line) as [|i] eqn:Eb.
    + split; [auto|]. intros _ (x & Hx & Hl). exfalso. specialize (B2 x Hx). lia.
    + assert (Hi : nth i ls line < line) by (apply B1; lia).
      assert (Hil : In (nth i ls line) ls) by (apply nth_In; lia).
      split.
      { intros _ H. specialize (H _ Hil). lia. }
      intros _ _. split; [exact Hil|]. split; [exact Hi|]. intros x Hx Hxl. unfold r.
      rewrite <- (firstn_skipn (S i) ls) in Hx. apply in_app_iff in Hx. destruct Hx as [Hx|Hx].
      * apply (In_nth _ _ line) in Hx. destruct Hx as (j & Hj & Ej).
        rewrite firstn_length in Hj. assert (Hji : (j <= i)%nat) by lia.
        assert (Ex : nth j ls line = x).
        { rewrite <- Ej. rewrite <- (firstn_skipn (S i) ls) at 1. rewrite app_nth1; auto.
          rewrite firstn_length. lia. }
        rewrite <- Ex. clear -Hs Hji B3.
        revert i j Hji B3. induction Hs as [|a ls Hs IH Ha]; intros i j Hji Hl; simpl in *; [lia|].
        destruct i as [|i]; [replace j with 0%nat by lia; lia|]. destruct j as [|j].
        -- rewrite Forall_forall in Ha. assert (a < nth i ls line); [|lia]. apply Ha. apply nth_In. lia.
        -- apply IH; lia.
      * specialize (B2 x Hx). lia.
Qed.
Print Assumptions adjust_line_spec.

(** C38.  After a setBreakpoints request for [name], and whatever happened before (other requests, changes
    of the source mapping, disconnections), a file whose breakpoints were all set under that name stops
    exactly where the request says, with the last entry deciding. *)
Theorem set_breakpoints_replaces :
  forall P h name bs c l,
    owned_by P (fst (dap_run P h)) c name ->
    stop_at (fst (dap_run P (h ++ [SetBreakpoints name PyLine bs]))) c l =
    decides P (srcmap (fst (dap_run P h))) name (snd (dap_run P h)) bs c l.
Proof. intros. now apply set_breakpoints_replaces_lemma. Qed.
Print Assumptions set_breakpoints_replaces.

(** C38.  The other files, those into which neither the old nor the new breakpoints of [name] go, are not
    affected. *)
Theorem set_breakpoints_others :
  forall P h name k bs c l,
    name <> star ->
    (forall i q, ~ In ((norm P name, i), (c, q)) (received (fst (dap_run P h)))) ->
    (forall b, In b bs -> forall l', placed P (srcmap (fst (dap_run P h))) name b <> Some (c, l')) ->
    stop_at (fst (dap_run P (h ++ [SetBreakpoints name k bs]))) c l = stop_at (fst (dap_run P h)) c l.
Proof. intros. now apply set_breakpoints_others_lemma. Qed.
Print Assumptions set_breakpoints_others.

(** ** Concrete cases *)
Definition idp : paths := Paths (fun x => x) (fun x => x) (fun x => x) (fun x => x) (fun x => x).
Definition fa : str := [97%N].
Definition fb : str := [98%N].
Definition py (name : str) (i line : Z) (info : N) : op := Add (Params name PyLine i line info) None true true.

Example idp_coherent : coherent idp.
Proof. intros a b. reflexivity. Qed.

Definition hist1 : list op :=
  [py fa 1 10 7; py fa 2 10 8; py fb 1 3 9; Add (Params fa PyLine 3 12 1) (Some [5; 11; 20]) true true;
   Add (Params fa (Template 0) 9 10 4) None true true; Remove fa PyLine 2 true].
Example breakpoints_case :
  one_kind_per_id (fun i => if Z.eqb i 9 then Template 0 else PyLine) hist1 /\
  stop_at (run idp hist1) fa 10 = Some (Bp 1 10 7) /\
  stop_at (run idp hist1) fa 11 = Some (Bp 3 11 1) /\
  stop_at (run idp hist1) fa 12 = None /\
  stop_at (run idp (hist1 ++ [RemoveFile fa])) fa 10 = None /\
  stop_at (run idp (hist1 ++ [RemoveFile fa])) fb 3 = Some (Bp 1 3 9).
Proof. split; [repeat constructor|]. vm_compute. repeat split. Qed.
Example breakpoints_case_last :
  current idp (file_of idp fa) 4 (rev hist1) = None /\ accepted idp (Params fa PyLine 4 10 5) true = true.
Proof. vm_compute. auto. Qed.
Example adjust_case : StronglySorted Z.lt [5; 11; 20] /\ adjust_line (Some [5; 11; 20]) 12 = 11.
Proof. split; [repeat constructor|reflexivity]. Qed.

Definition cell : str := [60; 99]%N.  (* <c *)
Definition sb (l : Z) (i : N) : source_bp := SourceBp l i None true true.
Definition mapping1 (f : str) (l : Z) : option (str * Z) :=
  if str_eqb f fa && (10 <=? l) then Some (cell, l - 9) else None.
Definition dhist : list dap_op :=
  [SetBreakpoints fa PyLine [sb 3 1; sb 12 2]; SetBreakpoints fb PyLine [sb 4 3];
   SetMapping mapping1 (fun _ => true) (fun _ => true)].
Example set_breakpoints_case :
  owned_by idp (fst (dap_run idp dhist)) cell fa /\ owned_by idp (fst (dap_run idp dhist)) fa fa /\
  stop_at (fst (dap_run idp dhist)) cell 3 = Some (Bp 1 3 2) /\
  stop_at (fst (dap_run idp (dhist ++ [SetBreakpoints fa PyLine [sb 20 5]]))) cell 3 = None /\
  stop_at (fst (dap_run idp (dhist ++ [SetBreakpoints fa PyLine [sb 20 5]]))) cell 11 = Some (Bp 3 11 5) /\
  stop_at (fst (dap_run idp (dhist ++ [SetBreakpoints fa PyLine [sb 20 5]]))) fb 4 = Some (Bp 2 4 3).
Proof.
  assert (R : received (fst (dap_run idp dhist)) =
    [((fa, 0), (fa, Params fa PyLine 0 3 1)); ((fa, 1), (cell, Params fa PyLine 1 12 2));
     ((fb, 2), (fb, Params fb PyLine 2 4 3))]) by (vm_compute; reflexivity).
  split; [|split; [|vm_compute; auto]]; intros n i q; rewrite R; cbn [In];
    intros [H|[H|[H|[]]]]; inversion H; reflexivity.
Qed.

(** ** Findings *)

(** Re-adding an id does not make it the deciding breakpoint of its line: it keeps its old place. *)
Theorem breakpoints_readd_decides_refuted :
  exists h q, coherent idp /\ one_kind_per_id (fun _ => PyLine) (h ++ [Add q None true true]) /\
    stop_at (run idp (h ++ [Add q None true true])) (file_of idp (p_name q)) (p_line q)
    <> Some (Bp (p_id q) (p_line q) (p_info q)).
Proof.
  exists [py fa 1 5 100; py fa 2 5 200], (Params fa PyLine 1 5 300).
  split; [apply idp_coherent|]. split; [repeat constructor|]. vm_compute. discriminate.
Qed.
Print Assumptions breakpoints_readd_decides_refuted.

(** Removing the breakpoints set under one name removes those set under another name of the same file. *)
Theorem breakpoints_alias_refuted :
  exists P h a b l x, norm P a <> norm P b /\
    stop_at (run P h) (file_of P b) l = Some x /\ bp_id x = 2 /\
    In (py b 2 l 0) h /\
    stop_at (run P (h ++ [RemoveFile a])) (file_of P b) l = None.
Proof.
  exists (Paths (fun x => x) (fun x => x) (fun x => x) (fun _ => fa) (fun x => x)),
    [py fa 1 5 0; py fb 2 6 0], fa, fb, 6, (Bp 2 6 0).
  split; [discriminate|]. vm_compute. intuition.
Qed.
Print Assumptions breakpoints_alias_refuted.

(** A breakpoint that a source mapping moved to a cell is not removed by a request to remove it. *)
Theorem breakpoints_remove_mapped_refuted :
  exists s q c l, let s1 := fst (add idp s q None true true) in
    stop_at s1 c l = Some (Bp (p_id q) l (p_info q)) /\
    stop_at (remove_one idp s1 (p_name q) (p_kind q) (p_id q) true) c l
      = Some (Bp (p_id q) l (p_info q)).
Proof.
  exists (Store [] [] [] [] (fun _ => []) mapping1), (Params fa PyLine 1 12 5), cell, 3.
  vm_compute. auto.
Qed.
Print Assumptions breakpoints_remove_mapped_refuted.

(** Changing the source mapping of an unrelated file moves an adjusted breakpoint back to its original,
    non executable line. *)
Theorem breakpoints_reapply_keeps_line_refuted :
  exists h, let s := fst (dap_run idp h) in
    stop_at s fa 11 = Some (Bp 0 11 1) /\
    stop_at (change_mapping idp s (fun _ _ => None) (fun _ => true) (fun _ => true)) fa 11 = None /\
    stop_at (change_mapping idp s (fun _ _ => None) (fun _ => true) (fun _ => true)) fa 12 = Some (Bp 0 12 1).
Proof.
  exists [SetBreakpoints fa PyLine [SourceBp 12 1 (Some [5; 11; 20]) true true]]. vm_compute. auto.
Qed.
Print Assumptions breakpoints_reapply_keeps_line_refuted.

(** The two template plugins share one id dictionary: a breakpoint added for one of them shows up in the
    lines of the other. *)
Theorem breakpoints_template_kinds_separate_refuted :
  exists h c l x, (forall q v f s, In (Add q v f s) h -> p_kind q = Template 1 -> p_line q <> l) /\
    get str_eqb c (tpl_lines (run idp h) 1) = Some x /\ get Z.eqb l x <> None.
Proof.
  exists [Add (Params fa (Template 0) 1 3 0) None true true; Add (Params fa (Template 1) 2 9 0) None true true],
    fa, 3, [(3, Bp 1 3 0); (9, Bp 2 9 0)].
  split.
  - intros q v f s [H|[H|[]]]; inversion H; subst; cbn; intros; [discriminate|lia].
  - vm_compute. split; [reflexivity|discriminate].
Qed.
Print Assumptions breakpoints_template_kinds_separate_refuted.
