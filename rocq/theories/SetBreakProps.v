(** C35 and C47: breakpoint commands of the line protocol are decoded as they were written. *)
From Coq Require Import String List NArith ZArith Bool Lia.
From Verif Require Import Base HitCond ReaderProofs SetBreak.
Import ListNotations.
Local Open Scope list_scope.

(** ** Specification: what clients write *)
(** AbstractDebugTarget.breakpointAdded replaces new lines and tabs. *)
Definition escape (s : str) : str :=
  flat_map (fun c => if N.eqb c 10 then lit "@_@NEW_LINE_CHAR@_@" else if N.eqb c 9 then lit "@_@TAB_CHAR@_@" else [c]) s.
Fixpoint fields (l : list str) : str :=
  match l with [] => [] | [x] => x | x :: r => x ++ 9%N :: fields r end.
Definition no_tab (s : str) : Prop := ~ In 9%N s.
(** Texts which are escaped without ambiguity *)
Definition contains (x s : str) : Prop := exists a b, s = a ++ x ++ b.
Definition escapable (s : str) : Prop := ~ In 64%N s /\ ~ contains (lit "NEW_LINE_CHAR") s.
(** What an optional text means: nothing if it is empty or None *)
Definition means (s : str) (o : option str) : Prop :=
  ((s = [] \/ s = lit "None") /\ o = None) \/ (s <> [] /\ s <> lit "None" /\ o = Some s).

(** ** Proofs *)
Lemma split1_first a r : no_tab a -> split1 tab (a ++ 9%N :: r) = Some (a, r).
Proof.
  unfold no_tab. induction a as [|c a IH]; intro H; cbn [app split1]; [reflexivity|].
  destruct (N.eqb_spec c tab) as [->|]; [exfalso; apply H; left; reflexivity|].
  rewrite IH; [reflexivity|]. intro X. apply H. right. exact X.
Qed.
Lemma split1_no sep a : ~ In sep a -> split1 sep a = None.
Proof.
  induction a as [|c a IH]; intro H; cbn [split1]; [reflexivity|].
  destruct (N.eqb_spec c sep) as [->|]; [exfalso; apply H; left; reflexivity|].
  rewrite IH; [reflexivity|]. intro X. apply H. right. exact X.
Qed.
Lemma splitn_fields l : l <> [] -> Forall no_tab (removelast l) -> forall n,
  (no_tab (last l []) /\ List.length l <= S n) \/ List.length l = S n -> splitn n (fields l) = l.
Proof.
  induction l as [|x l IH]; [contradiction|]. intros _ F n H. destruct l as [|y l].
  - cbn [fields removelast last List.length] in *. destruct n as [|n]; [reflexivity|]. cbn [splitn].
    destruct H as [[H _]|H]; [|discriminate]. rewrite split1_no by exact H. reflexivity.
  - change (removelast (x :: y :: l)) with (x :: removelast (y :: l)) in F. inversion F as [|? ? Fx Fl]; subst.
    change (last (x :: y :: l) []) with (last (y :: l) []) in H. change (fields (x :: y :: l)) with (x ++ 9%N :: fields (y :: l)).
    cbn [List.length] in H. destruct n as [|n]; [exfalso; destruct H as [[_ H]|H]; lia|]. cbn [splitn]. rewrite split1_first by exact Fx.
    f_equal. apply IH; [discriminate | exact Fl|]. cbn [List.length]. destruct H as [[H1 H2]|H]; [left; split; [exact H1 | lia] | right; lia].
Qed.
Lemma zdec_no_tab z : no_tab (zdec z).
Proof.
  unfold no_tab. assert (D : forall n, ~ In 9%N (dec n)).
  { intros n H. assert (F := dec_digits n). rewrite Forall_forall in F. apply F in H. discriminate. }
  destruct z as [|p|p]; cbn [zdec].
  - intros [H|[]]. discriminate.
  - apply D.
  - intros [H|H]; [discriminate | exact (D _ H)].
Qed.
Lemma escape_no_tab s : no_tab (escape s).
Proof.
  unfold no_tab, escape. rewrite in_flat_map. intros (c & _ & H). destruct (N.eqb c 10); [|destruct (N.eqb_spec c 9)].
  - vm_compute in H. intuition discriminate.
  - vm_compute in H. intuition discriminate.
  - destruct H as [H|[]]. congruence.
Qed.

(** Restoring new lines: the other characters of an escaped text are left alone. *)
Definition half (s : str) : str := flat_map (fun c => if N.eqb c 9 then lit "@_@TAB_CHAR@_@" else [c]) s.
Lemma escape_cons c s : escape (c :: s) = (if N.eqb c 10 then nl_mark else if N.eqb c 9 then tab_mark else [c]) ++ escape s.
Proof. reflexivity. Qed.
Lemma half_cons c s : half (c :: s) = (if N.eqb c 9 then tab_mark else [c]) ++ half s.
Proof. reflexivity. Qed.
Lemma escape_prefix p : ~ In 64%N p -> forall s, ~ In 64%N s -> starts_with p (escape s) = true -> starts_with p s = true.
Proof.
  induction p as [|x p IH]; intros Hp s Hs H; [destruct s; reflexivity|]. destruct s as [|c s]; [discriminate|].
  assert (Hp' : ~ In 64%N p) by (intro X; apply Hp; right; exact X). assert (Hs' : ~ In 64%N s) by (intro X; apply Hs; right; exact X).
  rewrite escape_cons in H. destruct (N.eqb_spec c 10); [|destruct (N.eqb_spec c 9)].
  - change (nl_mark ++ escape s) with (64%N :: skipn 1 nl_mark ++ escape s) in H. cbn [starts_with] in H.
    destruct (N.eqb_spec x 64) as [->|]; [exfalso; apply Hp; left; reflexivity | discriminate].
  - change (tab_mark ++ escape s) with (64%N :: skipn 1 tab_mark ++ escape s) in H. cbn [starts_with] in H.
    destruct (N.eqb_spec x 64) as [->|]; [exfalso; apply Hp; left; reflexivity | discriminate].
  - cbn [app starts_with] in *. destruct (N.eqb x c); [|discriminate]. cbn [andb] in *. apply IH; assumption.
Qed.
Lemma starts_with_trans p q s : starts_with (p ++ q) s = true -> starts_with p s = true.
Proof. intro H. apply starts_with_spec in H. destruct H as [r ->]. rewrite <- app_assoc. apply starts_with_app. Qed.
Lemma replace_skip old new s : forall k, k <= List.length s -> replace_from k old new s = replace_from 0 old new (skipn k s).
Proof.
  induction s as [|c s IH]; intros [|k] H; cbn [List.length] in H; try lia; try reflexivity.
  cbn [replace_from skipn]. apply IH. lia.
Qed.
Lemma replace_match old new s : old <> [] -> replace old new (old ++ s) = new ++ replace old new s.
Proof.
  intro H. destruct old as [|c old]; [contradiction|]. unfold replace. cbn [app replace_from].
  assert (E := starts_with_app (c :: old) s). cbn [app] in E. rewrite E. f_equal. cbn [List.length].
  replace (S (List.length old) - 1) with (List.length old) by lia. rewrite replace_skip by (rewrite app_length; lia).
  rewrite skipn_app, skipn_all, Nat.sub_diag. reflexivity.
Qed.
Lemma replace_char old new c s : starts_with old (c :: s) = false -> replace old new (c :: s) = c :: replace old new s.
Proof. intro H. unfold replace. cbn [replace_from]. rewrite H. reflexivity. Qed.
Lemma replace_not64 p new c s : c <> 64%N -> replace (64%N :: p) new (c :: s) = c :: replace (64%N :: p) new s.
Proof. intro H. apply replace_char. cbn [starts_with]. destruct (N.eqb_spec 64 c); [congruence | reflexivity]. Qed.
Lemma nl_not64 new c s : c <> 64%N -> replace nl_mark new (c :: s) = c :: replace nl_mark new s.
Proof. apply (replace_not64 (skipn 1 nl_mark)). Qed.
Lemma tab_not64 new c s : c <> 64%N -> replace tab_mark new (c :: s) = c :: replace tab_mark new s.
Proof. apply (replace_not64 (skipn 1 tab_mark)). Qed.

Lemma restore_newlines s : escapable s -> replace nl_mark [newline] (escape s) = half s.
Proof.
  intros [A C]. induction s as [|c s IH]; [reflexivity|].
  assert (A' : ~ In 64%N s) by (intro X; apply A; right; exact X).
  assert (C' : ~ contains (lit "NEW_LINE_CHAR") s) by (intros (a & b & ->); apply C; exists (c :: a), b; reflexivity).
  specialize (IH A' C'). rewrite escape_cons, half_cons. destruct (N.eqb_spec c 10) as [->|H10].
  - rewrite replace_match by discriminate. rewrite IH. reflexivity.
  - destruct (N.eqb_spec c 9) as [->|H9].
    + (* the characters of the mark of a tab, one by one *)
      change tab_mark with ([64; 95; 64; 84; 65; 66; 95; 67; 72; 65; 82; 64; 95; 64]%N). cbn [app].
      set (r := escape s) in *.
      rewrite replace_char by reflexivity. f_equal. rewrite (nl_not64 _ 95%N) by discriminate. f_equal.
      rewrite replace_char by reflexivity. f_equal. do 8 (rewrite nl_not64 by discriminate; f_equal).
      rewrite replace_char.
      2:{ destruct (starts_with nl_mark (64%N :: 95%N :: 64%N :: r)) eqn:E; [|reflexivity]. exfalso. apply C'.
          assert (P : starts_with (lit "NEW_LINE_CHAR") r = true).
          { change nl_mark with (64%N :: 95%N :: 64%N :: (lit "NEW_LINE_CHAR" ++ lit "@_@")) in E. cbn [starts_with N.eqb Pos.eqb andb] in E.
            exact (starts_with_trans _ _ _ E). }
          apply escape_prefix in P; [|vm_compute; intuition discriminate | exact A']. apply starts_with_spec in P. destruct P as [b ->].
          exists [], b. reflexivity. }
      f_equal. rewrite (nl_not64 _ 95%N) by discriminate. f_equal. rewrite replace_char; [rewrite IH; reflexivity|].
      destruct (starts_with nl_mark (64%N :: r)) eqn:E; [|reflexivity]. exfalso.
      apply starts_with_spec in E. destruct E as [r' E].
      change (nl_mark ++ r') with (64%N :: 95%N :: 64%N :: 78%N :: skipn 4 nl_mark ++ r') in E. injection E as E. unfold r in E.
      destruct s as [|d s]; [discriminate|]. rewrite escape_cons in E.
      destruct (N.eqb_spec d 10); [cbv in E; discriminate|]. destruct (N.eqb_spec d 9); [cbv in E; discriminate|].
      cbn [app] in E. injection E as -> E. destruct s as [|d s]; [discriminate|]. rewrite escape_cons in E.
      destruct (N.eqb_spec d 10); [cbv in E; discriminate|]. destruct (N.eqb_spec d 9); [cbv in E; discriminate|].
      cbn [app] in E. injection E as -> E. apply A'. right. left. reflexivity.
    + cbn [app]. rewrite nl_not64; [rewrite IH; reflexivity|].
      intros ->. apply A. left. reflexivity.
Qed.
Lemma restore_tabs s : ~ In 64%N s -> replace tab_mark [tab] (half s) = s.
Proof.
  intro A. induction s as [|c s IH]; [reflexivity|]. assert (A' : ~ In 64%N s) by (intro X; apply A; right; exact X). specialize (IH A').
  rewrite half_cons. destruct (N.eqb_spec c 9) as [->|H9].
  - rewrite replace_match by discriminate. rewrite IH. reflexivity.
  - cbn [app]. rewrite tab_not64; [rewrite IH; reflexivity|].
    intros ->. apply A. left. reflexivity.
Qed.
Lemma restore_escape s : escapable s -> restore (escape s) = strip s.
Proof. intro H. unfold restore. rewrite restore_newlines by exact H. rewrite restore_tabs by apply H. reflexivity. Qed.
Lemma opt_text_means s : means s (opt_text s).
Proof.
  unfold means, opt_text. destruct s as [|c s]; [left; auto|]. destruct (str_eqb_spec (c :: s) (lit "None")) as [->|H]; [left; auto|].
  right. repeat split; [discriminate | exact H].
Qed.
Ltac tabs := cbn [removelast]; repeat constructor; auto using zdec_no_tab, escape_no_tab.

(** ** Theorems *)

(** The condition and the expression are those the client escaped, without the blanks around them; the other fields are
    those written. Without suspend policy it is NONE, without the last three fields there is no hit condition and no log
    point. The suspend policy may contain tabs. *)
Theorem set_break_decoded : forall id ty file line func cond expr hit (log : bool) policy,
  no_tab ty -> no_tab file -> no_tab func -> no_tab hit -> escapable cond -> escapable expr ->
  let logt := if log then lit "True" else lit "False" in
  exists c e h, means (strip cond) c /\ means (strip expr) e /\ means hit h
  /\ set_break true (fields [zdec id; ty; file; zdec line; func; escape cond; escape expr; hit; logt; policy])
       = Some (Brk id ty file line func c e h log policy)
  /\ set_break true (fields [zdec id; ty; file; zdec line; func; escape cond; escape expr; hit; logt])
       = Some (Brk id ty file line func c e h log (lit "NONE"))
  /\ set_break true (fields [zdec id; ty; file; zdec line; func; escape cond; escape expr])
       = Some (Brk id ty file line func c e None false (lit "NONE")).
Proof.
  intros id ty file line func cond expr hit log policy Ht Hf Hu Hh Hc He logt.
  assert (Hl : no_tab logt) by (unfold logt, no_tab; destruct log; vm_compute; intuition discriminate).
  assert (El : str_eqb logt (lit "True") = log) by (unfold logt; destruct log; reflexivity).
  exists (opt_text (strip cond)), (opt_text (strip expr)), (opt_text hit). do 3 (split; [apply opt_text_means|]).
  unfold set_break, make. split; [|split].
  - rewrite (splitn_fields [zdec id; ty; file; zdec line; func; escape cond; escape expr; hit; logt; policy]);
      [|discriminate | tabs | right; reflexivity]. rewrite !py_int_zdec, !restore_escape, El by assumption. reflexivity.
  - rewrite !(splitn_fields [zdec id; ty; file; zdec line; func; escape cond; escape expr; hit; logt]);
      [|discriminate | tabs | right; reflexivity | discriminate | tabs | left; split; [exact Hl | cbn; lia]].
    rewrite !py_int_zdec, !restore_escape, El by assumption. reflexivity.
  - rewrite !(splitn_fields [zdec id; ty; file; zdec line; func; escape cond; escape expr]);
      try discriminate; try (tabs; fail); try (left; split; [apply escape_no_tab | cbn; lia]).
    rewrite !py_int_zdec, !restore_escape by assumption. reflexivity.
Qed.
(** Breakpoints without id: the id is the line. *)
Theorem set_break_by_line : forall ty file line func policy cond expr,
  no_tab ty -> no_tab file -> no_tab func -> no_tab policy -> escapable cond -> escapable expr ->
  exists c e, means (strip cond) c /\ means (strip expr) e
  /\ set_break false (fields [ty; file; zdec line; func; policy; escape cond; escape expr]) = Some (Brk line ty file line func c e None false policy).
Proof.
  intros ty file line func policy cond expr Ht Hf Hu Hp Hc He. exists (opt_text (strip cond)), (opt_text (strip expr)).
  do 2 (split; [apply opt_text_means|]). unfold set_break, make.
  rewrite (splitn_fields [ty; file; zdec line; func; policy; escape cond; escape expr]); [|discriminate | tabs | right; reflexivity].
  rewrite !py_int_zdec, !restore_escape by assumption. reflexivity.
Qed.
(** A breakpoint is removed with the type, file and id written. *)
Theorem remove_break_decoded : forall ty file id, no_tab ty -> no_tab file ->
  remove_break (fields [ty; file; zdec id]) = Some (Some (ty, file, id)).
Proof.
  intros ty file id Ht Hf. unfold remove_break. rewrite (splitn_fields [ty; file; zdec id]); [|discriminate | tabs | right; reflexivity].
  rewrite py_int_zdec. reflexivity.
Qed.
(** A name of the escape between two tabs is taken for a new line. *)
Theorem set_break_escape_refuted : exists cond, ~ In 64%N cond /\ restore (escape cond) <> strip cond.
Proof.
  exists (lit "a" ++ [9%N] ++ lit "NEW_LINE_CHAR" ++ [9%N] ++ lit "b"). split; [vm_compute; intuition discriminate | vm_compute; discriminate].
Qed.
(** A command with a hit condition but no log point flag is accepted with the hit condition at the end of the expression. *)
Theorem set_break_hit_refuted : exists id ty file line func cond expr hit b, no_tab hit /\
  set_break true (fields [id; ty; file; line; func; cond; expr; hit]) = Some b /\ b_hit b = None /\ b_expr b = Some (expr ++ 9%N :: hit).
Proof.
  exists (lit "1"), (lit "t"), (lit "f"), (lit "2"), (lit "g"), (lit "c"), (lit "e"), (lit "3"). eexists.
  split; [vm_compute; intuition discriminate|]. split; [reflexivity|]. split; reflexivity.
Qed.

(** ** C47 *)
Definition no_dash (s : str) : Prop := ~ In 45%N s.
Lemma split1_dash a r : no_dash a -> split1 dash (a ++ 45%N :: r) = Some (a, r).
Proof.
  unfold no_dash. induction a as [|c a IH]; intro H; cbn [app split1]; [reflexivity|].
  destruct (N.eqb_spec c dash) as [->|]; [exfalso; apply H; left; reflexivity|].
  rewrite IH; [reflexivity|]. intro X. apply H. right. exact X.
Qed.
Lemma typed_plain e : no_dash e -> typed e = Some (lit "python", e).
Proof. intro H. unfold typed. rewrite split1_no by exact H. reflexivity. Qed.
Lemma typed_dash t e : no_dash t -> no_dash e -> typed (t ++ 45%N :: e) = Some (t, e).
Proof. intros Ht He. unfold typed. rewrite split1_dash by exact Ht. rewrite split1_no by exact He. reflexivity. Qed.
Lemma no_tab_split s : no_tab s -> split1 tab s = None.
Proof. apply split1_no. Qed.
Lemma has_tab a l : no_tab a -> l <> [] -> split1 tab (fields (a :: l)) <> None.
Proof. intros Ha Hl. destruct l as [|b l]; [contradiction|]. change (fields (a :: b :: l)) with (a ++ 9%N :: fields (b :: l)). rewrite split1_first by exact Ha. discriminate. Qed.

(** An exception to stop at is decoded as written in the three forms of the command: on handled exceptions for 1 and 2,
    only where it is raised first for 2, on unhandled ones for 1. *)
Theorem add_exception_decoded : forall name cond expr h u i, no_tab name -> no_dash name -> escapable cond -> escapable expr ->
  exists c e, means (strip cond) c /\ means (strip expr) e
  /\ add_exc (fields [name; escape cond; escape expr; zdec h; zdec u; zdec i])
       = Some (PyExc name c e (Z.ltb 0 h) (Z.eqb u 1) (Z.eqb h 2) (Z.ltb 0 i))
  /\ add_exc (fields [name; zdec h; zdec u; zdec i]) = Some (PyExc name None None (Z.ltb 0 h) (Z.eqb u 1) (Z.eqb h 2) (Z.ltb 0 i))
  /\ add_exc name = Some (PyExc name None None false false false false).
Proof.
  intros name cond expr h u i Hn Hd Hc He. exists (opt_text (strip cond)), (opt_text (strip expr)).
  do 2 (split; [apply opt_text_means|]). unfold add_exc, make_exc. split; [|split].
  - destruct (split1 tab (fields [name; escape cond; escape expr; zdec h; zdec u; zdec i])) eqn:E; [|apply has_tab in E; [contradiction | exact Hn | discriminate]].
    rewrite (splitn_fields [name; escape cond; escape expr; zdec h; zdec u; zdec i]); [|discriminate | tabs | right; reflexivity].
    rewrite typed_plain by exact Hd. rewrite !py_int_zdec, !restore_escape by assumption. reflexivity.
  - destruct (split1 tab (fields [name; zdec h; zdec u; zdec i])) eqn:E; [|apply has_tab in E; [contradiction | exact Hn | discriminate]].
    rewrite !(splitn_fields [name; zdec h; zdec u; zdec i]); try discriminate; try (tabs; fail); try (left; split; [apply zdec_no_tab | cbn; lia]).
    rewrite typed_plain by exact Hd. rewrite !py_int_zdec. reflexivity.
  - rewrite no_tab_split by exact Hn. rewrite typed_plain by exact Hd. reflexivity.
Qed.
(** An exception of a plugin, and removing: the type is before the dash. *)
Theorem plugin_exception_decoded : forall ty name, no_tab ty -> no_tab name -> no_dash ty -> no_dash name -> ty <> lit "python" ->
  add_exc (ty ++ 45%N :: name) = Some (PluginExc ty name) /\ remove_exc (ty ++ 45%N :: name) = Some (ty, name)
  /\ remove_exc name = Some (lit "python", name).
Proof.
  intros ty name Ht Hn Dt Dn Hp. unfold add_exc, make_exc, remove_exc. split; [|split].
  - rewrite no_tab_split.
    + rewrite typed_dash by assumption. destruct (str_eqb_spec ty (lit "python")); [contradiction | reflexivity].
    + unfold no_tab in *. rewrite in_app_iff. intros [X|[X|X]]; [auto | discriminate | auto].
  - apply typed_dash; assumption.
  - apply typed_plain, Dn.
Qed.

(** ** Concrete cases *)
Example ex_escapable : escapable (lit "a == 1" ++ [10; 9]%N ++ lit "b") /\ no_tab (lit "file.py").
Proof.
  split; [|vm_compute; intuition discriminate]. split; [vm_compute; intuition discriminate|].
  intros (a & b & H). assert (L := f_equal (@List.length N) H). rewrite (app_length a), (app_length (lit "NEW_LINE_CHAR")) in L.
  change (List.length (lit "NEW_LINE_CHAR")) with 13 in L. vm_compute (List.length (lit "a == 1" ++ _)) in L. lia.
Qed.
Example ex_set_break : set_break true (fields [lit "7"; lit "python-line"; lit "f.py"; lit "12"; lit "None"; escape (lit "a" ++ [9%N] ++ lit "b"); lit "None"; lit ">5"; lit "True"; lit "ALL"])
  = Some (Brk 7 (lit "python-line") (lit "f.py") 12 (lit "None") (Some (lit "a" ++ [9%N] ++ lit "b")) None (Some (lit ">5")) true (lit "ALL")).
Proof. vm_compute. reflexivity. Qed.
Example ex_add_exc : add_exc (fields [lit "ValueError"; []; []; lit "2"; lit "1"; lit "0"]) = Some (PyExc (lit "ValueError") None None true true true false)
  /\ add_exc (lit "django-E") = Some (PluginExc (lit "django") (lit "E")).
Proof. vm_compute. split; reflexivity. Qed.

Print Assumptions set_break_decoded.
Print Assumptions set_break_by_line.
Print Assumptions remove_break_decoded.
Print Assumptions set_break_escape_refuted.
Print Assumptions set_break_hit_refuted.
Print Assumptions add_exception_decoded.
Print Assumptions plugin_exception_decoded.
