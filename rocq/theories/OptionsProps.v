(** Property C60: the settings in force are those the client gave with its launch or attach request. *)
From Coq Require Import String.
From Coq Require Import List NArith ZArith Bool Lia.
From Verif Require Import Base Dict Glob GlobSpec GlobProps Options.
Import ListNotations.
Open Scope list_scope.

(** * Specification *)
Inductive switch := MyCode | Redirect | Returns | ExitZero | DjangoSwitch | FlaskSwitch | Entry.
(** The arguments which set a switch, the first one counts; [true]: it says the opposite. *)
Definition arguments (sw : switch) : list (str * bool) :=
  match sw with
  | MyCode => [(lit "justMyCode", false); (lit "debugStdLib", true)]
  | Redirect => [(lit "redirectOutput", false)]
  | Returns => [(lit "showReturnValue", false)]
  | ExitZero => [(lit "breakOnSystemExitZero", false)]
  | DjangoSwitch => [(lit "django", false)]
  | FlaskSwitch => [(lit "jinja", false); (lit "flask", false)]
  | Entry => [(lit "stopOnEntry", false)]
  end.
(** The key of the options text, and the flags of debugOptions *)
Definition key (sw : switch) : str :=
  match sw with
  | MyCode => lit "DEBUG_STDLIB" | Redirect => lit "REDIRECT_OUTPUT" | Returns => lit "SHOW_RETURN_VALUE"
  | ExitZero => lit "BREAK_SYSTEMEXIT_ZERO" | DjangoSwitch => lit "DJANGO_DEBUG" | FlaskSwitch => lit "FLASK_DEBUG"
  | Entry => lit "STOP_ON_ENTRY"
  end.
Definition opposite (sw : switch) : bool := match sw with MyCode => true | _ => false end.
Definition flags (sw : switch) : list str :=
  match sw with
  | MyCode => [lit "DebugStdLib"] | Redirect => [lit "RedirectOutput"] | Returns => [lit "ShowReturnValue"]
  | ExitZero => [lit "BreakOnSystemExitZero"] | DjangoSwitch => [lit "Django"] | FlaskSwitch => [lit "Flask"; lit "Jinja"]
  | Entry => [lit "StopOnEntry"]
  end.
Definition initially (sw : switch) : bool := match sw with MyCode => true | _ => false end.

Definition yes_values : list json := [JStr (lit "True"); JStr (lit "true"); JStr (lit "1"); JBool true; JInt 1].
(** The value [j], of something which says the opposite if [neg], asks for [b]. *)
Definition means (neg : bool) (j : json) (b : bool) : Prop :=
  (In j yes_values /\ b = negb neg) \/ (~ In j yes_values /\ b = neg).
Definition absent (args : jobject) (k : str) : Prop := ~ In k (map fst args).
Definition present (args : jobject) (k : str) (j : json) : Prop := get str_eqb k args = Some j.
(** In a text of parts separated by semicolons, the last part of the form key=value with this key has this value. *)
Definition text_says (t k v : str) : Prop :=
  exists before after, t = join 59 (before ++ (k ++ lit "=" ++ v) :: after)
    /\ Forall (fun p => ~ In 59%N p) (before ++ (k ++ lit "=" ++ v) :: after) /\ ~ In 61%N v
    /\ forall v', ~ In 61%N v' -> ~ In (k ++ lit "=" ++ v') after.
Definition nothing (j : json) : Prop := In j [JNull; JBool false; JInt 0; JStr []; JList []; JObj []].
(** What the older arguments options and debugOptions say: the text counts, and without one the list. *)
Inductive older (sw : switch) (args : jobject) : option bool -> Prop :=
  | older_text t v b : present args (lit "options") (JStr t) -> t <> [] -> text_says t (key sw) v -> means (opposite sw) (JStr v) b ->
      older sw args (Some b)
  | older_silent t : present args (lit "options") (JStr t) -> t <> [] -> (forall v, ~ text_says t (key sw) v) -> older sw args None
  | older_flag l f : (absent args (lit "options") \/ exists j, present args (lit "options") j /\ nothing j) ->
      present args (lit "debugOptions") (JList l) -> In (JStr f) l -> In f (flags sw) -> older sw args (Some (negb (opposite sw)))
  | older_no_flag l : (absent args (lit "options") \/ exists j, present args (lit "options") j /\ nothing j) ->
      present args (lit "debugOptions") (JList l) -> (forall f, In f (flags sw) -> ~ In (JStr f) l) -> older sw args None
  | older_none : (absent args (lit "options") \/ exists j, present args (lit "options") j /\ nothing j) ->
      (absent args (lit "debugOptions") \/ exists j, present args (lit "debugOptions") j /\ nothing j) -> older sw args None.
(** The value [b] of the switch which the arguments ask for when it was [old] *)
Inductive asked (sw : switch) (args : jobject) (old : bool) : bool -> Prop :=
  | asked_arg before k neg after j b : arguments sw = before ++ (k, neg) :: after -> (forall x, In x before -> absent args (fst x)) ->
      present args k j -> means neg j b -> asked sw args old b
  | asked_older b : (forall x, In x (arguments sw) -> absent args (fst x)) -> older sw args (Some b) -> asked sw args old b
  | asked_nothing : (forall x, In x (arguments sw) -> absent args (fst x)) -> older sw args None -> asked sw args old old.
(** The older arguments have the documented types. *)
Definition well_typed (args : jobject) : Prop :=
  (absent args (lit "options") \/ (exists t, present args (lit "options") (JStr t)) \/ exists j, present args (lit "options") j /\ nothing j)
  /\ (absent args (lit "debugOptions") \/ (exists l, present args (lit "debugOptions") (JList l) /\ forall j, In j l -> exists f, j = JStr f)
      \/ exists j, present args (lit "debugOptions") j /\ nothing j).
(** The value of a switch after requests: the last one which said something. *)
Inductive said (sw : switch) : list request -> bool -> Prop :=
  | said_nil : said sw [] (initially sw)
  | said_attach rs launch args old b : said sw rs old -> asked sw args old b -> said sw (rs ++ [Attach launch args]) b
  | said_disconnect rs b : said sw rs b -> said sw (rs ++ [Disconnect]) b.

Definition value {F} (sw : switch) (st : state F) : bool :=
  match sw with
  | MyCode => just_my_code (fst st) | Redirect => redirect_output (fst st) | Returns => show_return_value (fst st)
  | ExitZero => break_exit_zero (fst st) | DjangoSwitch => django (fst st) | FlaskSwitch => flask (fst st) | Entry => stop_on_entry (fst st)
  end.

(** * The text of the options *)
Lemma split_pair s a b : split_on 61 s = [a; b] <-> s = a ++ lit "=" ++ b /\ ~ In 61%N a /\ ~ In 61%N b.
Proof.
  change (lit "=") with [61%N]. split.
  - intros H. pose proof (join_split_on 61 s) as J. rewrite H in J. cbn [join app] in J.
    assert (Q : forall x, In x (split_on 61 s) -> ~ In 61%N x).
    { clear. induction s as [|c s IH]; cbn [split_on]; intros x I.
      - destruct I as [<-|[]]; intros [].
      - destruct (N.eqb_spec c 61) as [E|E].
        + destruct I as [<-|I]; [intros []|auto].
        + destruct (split_on 61 s) as [|h t]; [destruct I as [<-|[]]; intros [|[]]; auto|].
          destruct I as [<-|I]; [intros [E'|E']; [congruence|apply (IH h); [now left|exact E']]|apply IH; now right]. }
    rewrite H in Q. split; [now symmetry|]. split; apply Q; cbn [In]; auto.
  - intros (-> & Ha & Hb). cbn [app]. rewrite split_on_plain by exact Ha. now rewrite split_on_one by exact Hb.
Qed.

Lemma cons_inj {A} (a b : A) x y : a :: x = b :: y -> a = b /\ x = y.
Proof. now intros [= -> ->]. Qed.
Fixpoint last_value (k : str) (segs : list str) : option str :=
  match segs with
  | [] => None
  | s :: r => match last_value k r with
              | Some v => Some v
              | None => match split_on 61 s with [a; b] => if str_eqb a k then Some b else None | _ => None end
              end
  end.
Lemma last_value_some k segs v : ~ In 61%N k -> last_value k segs = Some v <->
  exists before after, segs = before ++ (k ++ lit "=" ++ v) :: after /\ ~ In 61%N v
    /\ forall v', ~ In 61%N v' -> ~ In (k ++ lit "=" ++ v') after.
Proof.
  intros Hk.
  assert (N0 : forall segs, last_value k segs = None <-> forall v', ~ In 61%N v' -> ~ In (k ++ lit "=" ++ v') segs).
  { clear segs v. induction segs as [|s r IH]; cbn [last_value].
    - split; auto.
    - destruct (last_value k r) as [w|] eqn:E.
      + split; [discriminate|]. intros H. exfalso. assert (X : last_value k r = None); [|congruence].
        rewrite E. apply IH. intros v' H1 H2. apply (H v' H1). now right.
      + split.
        * intros H v' Hv [->|I].
          -- rewrite (proj2 (split_pair (k ++ lit "=" ++ v') k v') (conj eq_refl (conj Hk Hv))), str_eqb_refl in H. discriminate.
          -- revert I. apply IH; auto.
        * intros H. destruct (split_on 61 s) as [|a [|b [|]]] eqn:S; auto.
          destruct (str_eqb_spec a k) as [->|]; auto. apply split_pair in S as (-> & _ & Hb). exfalso. apply (H b Hb). now left. }
  revert v. induction segs as [|s r IH]; intros v; cbn [last_value].
  - split; [discriminate|]. intros ([|] & after & E & _); discriminate.
  - destruct (last_value k r) as [w|] eqn:E.
    + split.
      * intros [= <-]. destruct (proj1 (IH w) eq_refl) as (b & a & -> & H). exists (s :: b), a. auto.
      * intros ([|x b] & a & E1 & H1 & H2).
        -- cbn [app] in E1. apply cons_inj in E1 as [-> ->]. exfalso. apply N0 in H2. congruence.
        -- cbn [app] in E1. apply cons_inj in E1 as [-> ->]. apply IH. exists b, a. auto.
    + split.
      * intros H. destruct (split_on 61 s) as [|a [|b [|]]] eqn:S; try discriminate.
        destruct (str_eqb_spec a k) as [->|]; [|discriminate]. injection H as ->. apply split_pair in S as (-> & _ & Hb).
        exists [], r. split; [reflexivity|]. split; [exact Hb|]. apply N0, E.
      * intros ([|x b] & a & E1 & H1 & H2).
        -- cbn [app] in E1. apply cons_inj in E1 as [-> ->].
           rewrite (proj2 (split_pair (k ++ lit "=" ++ v) k v) (conj eq_refl (conj Hk H1))), str_eqb_refl. reflexivity.
        -- cbn [app] in E1. apply cons_inj in E1 as [-> ->]. assert (X : last_value k (b ++ (k ++ lit "=" ++ v) :: a) = None) by exact E.
           exfalso. apply N0 with (v' := v) in X; auto. apply X, in_or_app. right. now left.
Qed.

Lemma get_fold unq k : (forall v, parse_value unq k v <> None) -> forall segs d,
  get str_eqb k (fold_left (parse_step unq) segs d)
  = match last_value k segs with Some v => parse_value unq k v | None => get str_eqb k d end.
Proof.
  intros Hk. induction segs as [|s r IH]; intros d; cbn [fold_left last_value]; [reflexivity|].
  rewrite IH. destruct (last_value k r); [reflexivity|]. unfold parse_step.
  destruct (split_on 61 s) as [|a [|b [|]]]; try reflexivity.
  destruct (parse_value unq a b) as [x|] eqn:P.
  - rewrite (get_set _ str_eqb_spec). destruct (str_eqb_spec k a) as [->|Hn].
    + now rewrite str_eqb_refl.
    + destruct (str_eqb_spec a k) as [->|]; congruence.
  - destruct (str_eqb_spec a k) as [->|]; [|reflexivity]. now apply Hk in P.
Qed.

Lemma split_no c s : Forall (fun p => ~ In c p) (split_on c s).
Proof.
  induction s as [|x s IH]; cbn [split_on]; [constructor; [intros []|constructor]|].
  destruct (N.eqb_spec x c) as [E|E]; [constructor; [intros []|exact IH]|].
  destruct (split_on c s) as [|h t]; [repeat constructor; intros [|[]]; auto|].
  inversion IH; subst. constructor; [intros [|]; auto|auto].
Qed.
Lemma says_last t k v : ~ In 61%N k -> text_says t k v <-> last_value k (split_on 59 t) = Some v.
Proof.
  intros Hk. rewrite last_value_some by exact Hk. split.
  - intros (b & a & -> & Hf & H). exists b, a. split; [|exact H]. apply split_on_join; [|exact Hf]. destruct b; discriminate.
  - intros (b & a & E & H). exists b, a. rewrite <- E. split; [symmetry; apply join_split_on|]. split; [apply split_no|exact H].
Qed.

(** * The switches *)
Lemma key_plain sw : ~ In 61%N (key sw).
Proof. destruct sw; vm_compute; intuition discriminate. Qed.
Lemma key_parse unq sw v : parse_value unq (key sw) v = Some (OBool (bool_parser (JStr v))).
Proof. destruct sw; reflexivity. Qed.
Lemma parser_yes j : bool_parser j = true <-> In j yes_values.
Proof.
  unfold bool_parser, yes_values. destruct j as [| [|] | z | s | l | d]; cbn [In]; try (split; [discriminate|]; intuition discriminate).
  - split; auto.
  - rewrite Z.eqb_eq. split; [intros ->; auto 7|]. intros [H|[H|[H|[H|[H|[]]]]]]; congruence.
  - rewrite !orb_true_iff, !str_eqb_eq. split; [intros [[->| ->]| ->]; auto|].
    intros [H|[H|[H|[H|[H|[]]]]]]; try discriminate; injection H; auto.
Qed.
Lemma means_parser neg j b : means neg j b <-> b = xorb neg (bool_parser j).
Proof.
  unfold means. rewrite <- parser_yes. destruct (bool_parser j), neg, b; cbn; split; intros H; try reflexivity; try discriminate; auto;
    destruct H as [[H1 H2]|[H1 H2]]; try discriminate; try congruence.
Qed.
Lemma absent_get args k : absent args k <-> get str_eqb k args = None.
Proof. unfold absent. symmetry. apply (get_None _ str_eqb_spec). Qed.
Lemma nothing_truthy j : nothing j <-> truthy j = false.
Proof.
  unfold nothing. cbn [In]. split.
  - intros [<-|[<-|[<-|[<-|[<-|[<-|[]]]]]]]; reflexivity.
  - destruct j as [| [|] | z | s | [|] | [|]]; cbn; try discriminate; auto 8.
    + destruct (Z.eqb_spec z 0); [subst; auto|discriminate].
    + destruct s; [auto 8|discriminate].
Qed.

Lemma flag_texts_str l : (forall j, In j l -> exists f, j = JStr f) -> exists t, flag_texts l = Some t /\ forall f, In f t <-> In (JStr f) l.
Proof.
  induction l as [|j l IH]; intros H; cbn [flag_texts].
  - exists []. split; auto. intros f. split; intros [].
  - destruct (H j (or_introl eq_refl)) as [f ->]. destruct IH as (t & -> & Ht); [intros x Hx; apply H; now right|].
    exists (f :: t). split; auto. intros g. cbn [In]. rewrite Ht. split; intros [E|E]; auto; [left; congruence|left; congruence].
Qed.
Lemma by_flag_key sw f t : get str_eqb f by_flag = Some t -> forall v, split_on 61 t = [key sw; v] -> v = lit "True" /\ In f (flags sw).
Proof.
  intros G. apply (get_In _ str_eqb_spec) in G. unfold by_flag in G. cbn [In] in G.
  intros v S.
  destruct sw;
    repeat (destruct G as [G|G]; [injection G as <- <-; vm_compute in S; try discriminate S; (injection S as <-; split; [reflexivity|cbn [In flags]; first [left; reflexivity|right; left; reflexivity]])|]);
    destruct G.
Qed.
Lemma flags_by sw f : In f (flags sw) -> get str_eqb f by_flag = Some (key sw ++ lit "=" ++ lit "True").
Proof. destruct sw; cbn [flags In]; intros H; repeat destruct H as [<-|H]; try reflexivity; destruct H. Qed.
Lemma by_flag_plain f t : get str_eqb f by_flag = Some t -> ~ In 59%N t.
Proof.
  intros G. apply (get_In _ str_eqb_spec) in G. unfold by_flag in G. cbn [In] in G.
  repeat (destruct G as [G|G]; [injection G as <- <-; vm_compute; intuition discriminate|]). destruct G.
Qed.
Lemma last_flags sw l : last_value (key sw) (flat_map known_flag l)
  = if existsb (fun f => existsb (str_eqb f) (flags sw)) l then Some (lit "True") else None.
Proof.
  induction l as [|f l IH]; [reflexivity|]. cbn [flat_map existsb].
  assert (A : forall a b, last_value (key sw) (a ++ b) = match last_value (key sw) b with Some v => Some v | None => last_value (key sw) a end).
  { clear. induction a as [|s a IH]; intros b; cbn [app last_value]; [now destruct (last_value (key sw) b)|].
    rewrite IH. destruct (last_value (key sw) b); reflexivity. }
  rewrite A, IH. destruct (existsb (fun f => existsb (str_eqb f) (flags sw)) l) eqn:E; [now rewrite orb_true_r|]. rewrite orb_false_r.
  unfold known_flag. destruct (existsb (str_eqb f) (flags sw)) eqn:X.
  - apply existsb_exists in X as (g & Hg & Eg). apply str_eqb_eq in Eg as <-. rewrite (flags_by sw f Hg). cbn [last_value].
    rewrite (proj2 (split_pair _ (key sw) (lit "True"))); [now rewrite str_eqb_refl|].
    split; [reflexivity|]. split; [apply key_plain|vm_compute; intuition discriminate].
  - destruct (get str_eqb f by_flag) as [t|] eqn:G; [|reflexivity]. cbn [last_value].
    destruct (split_on 61 t) as [|a [|b [|]]] eqn:S; try reflexivity.
    destruct (str_eqb_spec a (key sw)) as [->|]; [|reflexivity].
    destruct (by_flag_key sw f t G b S) as [_ I]. exfalso.
    assert (existsb (str_eqb f) (flags sw) = true); [|congruence]. apply existsb_exists. exists f. split; [exact I|apply str_eqb_refl].
Qed.
Lemma get_parse unq sw t : get str_eqb (key sw) (parse_debug_options unq t)
  = match last_value (key sw) (split_on 59 t) with Some v => Some (OBool (bool_parser (JStr v))) | None => None end.
Proof.
  assert (P : forall d, get str_eqb (key sw) (fold_left (parse_step unq) (split_on 59 t) d)
    = match last_value (key sw) (split_on 59 t) with Some v => Some (OBool (bool_parser (JStr v))) | None => get str_eqb (key sw) d end).
  { intros d. rewrite get_fold; [|intros v; rewrite key_parse; discriminate]. destruct (last_value _ _); [apply key_parse|reflexivity]. }
  destruct t as [|c t]; [reflexivity|]. unfold parse_debug_options. rewrite P. reflexivity.
Qed.
Lemma get_parse_flags unq sw l : get str_eqb (key sw) (parse_debug_options unq (build_debug_options l))
  = if existsb (fun f => existsb (str_eqb f) (flags sw)) l then Some (OBool true) else None.
Proof.
  rewrite get_parse. unfold build_debug_options. destruct (flat_map known_flag l) as [|x r] eqn:E.
  - pose proof (last_flags sw l) as L. rewrite E in L. cbn [last_value] in L. destruct (existsb _ l); [discriminate|reflexivity].
  - rewrite split_on_join; [|discriminate|].
    + rewrite <- E, last_flags. destruct (existsb _ l); reflexivity.
    + rewrite <- E. apply Forall_forall. intros y Hy. apply in_flat_map in Hy as (f & _ & Hf). unfold known_flag in Hf.
      destruct (get str_eqb f by_flag) as [t|] eqn:G; [|destruct Hf]. destruct Hf as [<-|[]]. eapply by_flag_plain; eauto.
Qed.

Lemma older_get unq sw args : well_typed args -> exists d,
  extract_debug_options unq (arg args (lit "options") JNull) (arg args (lit "debugOptions") JNull) = Some d
  /\ older sw args (match get str_eqb (key sw) d with Some v => Some (xorb (opposite sw) (truth v)) | None => None end).
Proof.
  intros [Ho Hf]. unfold extract_debug_options, arg.
  assert (C : (exists t, present args (lit "options") (JStr t) /\ t <> [])
     \/ (absent args (lit "options") \/ exists j, present args (lit "options") j /\ nothing j)).
  { destruct Ho as [H|[[[|c t] H]|H]]; auto; [right; right; exists (JStr []); split; auto; unfold nothing; cbn [In]; auto|].
    left. exists (c :: t). split; [exact H|discriminate]. }
  clear Ho. destruct C as [(t & Ht & Hn)|C].
  - rewrite Ht. cbn [truthy]. destruct (str_eqb_spec t []) as [|_]; [congruence|]. cbn [negb].
    eexists. split; [reflexivity|]. rewrite get_parse. destruct (last_value (key sw) (split_on 59 t)) as [v|] eqn:L.
    + eapply older_text; eauto; [apply says_last; [apply key_plain|exact L]|apply means_parser; reflexivity].
    + eapply older_silent; eauto. intros v Hv. apply says_last in Hv; [congruence|apply key_plain].
  - assert (T : truthy (match get str_eqb (lit "options") args with Some j => j | None => JNull end) = false).
    { destruct C as [C|(j & Hj & C)]; [apply absent_get in C; now rewrite C|]. rewrite Hj. now apply nothing_truthy. }
    rewrite T. clear T.
    destruct Hf as [H|[(l & H & Hl)|(j & H & Hj)]].
    + rewrite (proj1 (absent_get _ _) H). cbn [iterate_flags truthy]. eexists. split; [reflexivity|].
      rewrite get_parse_flags. cbn [existsb]. apply older_none; auto.
    + rewrite H. destruct (flag_texts_str l Hl) as (t & Et & Ht).
      assert (I : iterate_flags (JList l) = Some t).
      { unfold iterate_flags. destruct l; cbn [truthy]; [|exact Et]. cbn in Et. exact Et. }
      rewrite I. eexists. split; [reflexivity|]. rewrite get_parse_flags.
      destruct (existsb (fun f => existsb (str_eqb f) (flags sw)) t) eqn:X.
      * apply existsb_exists in X as (f & F1 & F2). apply existsb_exists in F2 as (g & F3 & F4). apply str_eqb_eq in F4 as <-.
        cbn [truth]. rewrite xorb_true_r. eapply older_flag; eauto. now apply Ht.
      * eapply older_no_flag; eauto. intros f F1 F2.
        assert (existsb (fun f => existsb (str_eqb f) (flags sw)) t = true); [|congruence].
        apply existsb_exists. exists f. split; [now apply Ht|]. apply existsb_exists. exists f. split; [exact F1|apply str_eqb_refl].
    + rewrite H. apply nothing_truthy in Hj as Hj'. unfold iterate_flags. rewrite Hj'. eexists. split; [reflexivity|].
      rewrite get_parse_flags. cbn [existsb]. apply older_none; eauto.
Qed.

(** The value after the two updates of a switch whose value was [old] *)
Lemma one_arg sw args old k : arguments sw = [(k, false)] ->
  forall b, (exists j, present args k j /\ b = bool_parser j)
     \/ (absent args k /\ (older sw args (Some b) \/ (older sw args None /\ b = old))) -> asked sw args old b.
Proof.
  intros E b [(j & H & ->)|(H & [H1|(H1 & ->)])].
  - apply asked_arg with (before := []) (k := k) (neg := false) (after := []) (j := j); auto; [intros x []|apply means_parser; now destruct (bool_parser j)].
  - apply asked_older; auto. rewrite E. intros x [<-|[]]; exact H.
  - apply asked_nothing; auto. rewrite E. intros x [<-|[]]; exact H.
Qed.
Lemma two_args sw args old k1 k2 n : arguments sw = [(k1, false); (k2, n)] ->
  forall b, (exists j, present args k1 j /\ b = bool_parser j)
     \/ (absent args k1 /\ exists j, present args k2 j /\ b = xorb n (bool_parser j))
     \/ (absent args k1 /\ absent args k2 /\ (older sw args (Some b) \/ (older sw args None /\ b = old))) -> asked sw args old b.
Proof.
  intros E b [(j & H & ->)|[(H0 & j & H & ->)|(H0 & H & [H1|(H1 & ->)])]].
  - apply asked_arg with (before := []) (k := k1) (neg := false) (after := [(k2, n)]) (j := j); auto; [intros x []|apply means_parser; now destruct (bool_parser j)].
  - apply asked_arg with (before := [(k1, false)]) (k := k2) (neg := n) (after := []) (j := j); auto; [intros x [<-|[]]; exact H0|now apply means_parser].
  - apply asked_older; auto. rewrite E. intros x [<-|[<-|[]]]; auto.
  - apply asked_nothing; auto. rewrite E. intros x [<-|[<-|[]]]; auto.
Qed.

Lemma opts_after {F} (W : world F) launch args st d :
  extract_debug_options (unquote W) (arg args (lit "options") JNull) (arg args (lit "debugOptions") JNull) = Some d ->
  fst (fst (set_debug_options W launch args st)) = update_from_args W args (update_from_debug_options d (fst st)).
Proof.
  intros E. destruct st as [o s]. unfold set_debug_options. rewrite E. cbv zeta. cbn [fst].
  destruct (set_client_os _ _) as [s' [|]]; [|reflexivity]. destruct (get_mappings _ _); reflexivity.
Qed.
Ltac one_switch args d G :=
  eapply one_arg; [reflexivity|];
    cbn [redirect_output show_return_value break_exit_zero django stop_on_entry update_from_args update_from_debug_options]; unfold arg_bool, given_bool;
    match goal with |- context [get str_eqb ?k args] =>
      let H := fresh in let j := fresh in destruct (G k) as [[H ->]|[j H]]; [|left; exists j; split; [exact H|now rewrite H]];
      right; (split; [exact H|]) end;
    match goal with |- context [get str_eqb ?k d] => destruct (get str_eqb k d) as [v|] end;
    [left; match goal with v : oval |- _ => now destruct (truth v) end|right; auto].
Lemma switch_step {F} (W : world F) launch args st sw : well_typed args ->
  asked sw args (value sw st) (value sw (fst (set_debug_options W launch args st))).
Proof.
  intros T. destruct (older_get (unquote W) sw args T) as (d & E & O).
  pose proof (opts_after W launch args st d E) as A.
  unfold value. rewrite A. clear A E. destruct st as [o s]. cbn [fst].
  assert (G : forall k, (absent args k /\ get str_eqb k args = None) \/ exists j, present args k j).
  { intros k. destruct (get str_eqb k args) as [j|] eqn:X; [right; now exists j|left; split; [now apply absent_get|reflexivity]]. }
  destruct sw; cbn [key opposite] in O.
  1: { eapply two_args; [reflexivity|]. cbn [just_my_code update_from_args update_from_debug_options].
       destruct (G (lit "justMyCode")) as [[H ->]|[j H]]; [|left; exists j; split; [exact H|now rewrite H]]. right.
       destruct (G (lit "debugStdLib")) as [[H' ->]|[j H']]; [|left; split; [exact H|]; exists j; split; [exact H'|rewrite H'; now destruct (bool_parser j)]].
       right. split; [exact H|]. split; [exact H'|]. destruct (get str_eqb (lit "DEBUG_STDLIB") d) as [v|].
       - left. cbn [xorb] in O. now destruct (truth v).
       - right. auto. }
  5: { eapply two_args; [reflexivity|]. cbn [flask update_from_args update_from_debug_options]. unfold arg_bool, given_bool.
       destruct (G (lit "jinja")) as [[H ->]|[j H]]; [|left; exists j; split; [exact H|now rewrite H]]. right.
       destruct (G (lit "flask")) as [[H' ->]|[j H']]; [|left; split; [exact H|]; exists j; split; [exact H'|rewrite H'; now destruct (bool_parser j)]].
       right. split; [exact H|]. split; [exact H'|]. destruct (get str_eqb (lit "FLASK_DEBUG") d) as [v|].
       - left. now destruct (truth v).
       - right. auto. }
  all: idtac.
  - one_switch args d G.
  - one_switch args d G.
  - one_switch args d G.
  - one_switch args d G.
  - one_switch args d G.
Qed.

(** * What is asked for is unambiguous *)
Lemma present_fun args k a b : present args k a -> present args k b -> a = b.
Proof. unfold present. congruence. Qed.
Lemma some_none args k j : present args k j -> truthy j = true -> absent args k \/ (exists j, present args k j /\ nothing j) -> False.
Proof.
  intros H T [A|(j' & H' & A)].
  - apply absent_get in A. unfold present in H. congruence.
  - rewrite (present_fun _ _ _ _ H H') in T. apply nothing_truthy in A. congruence.
Qed.
Lemma text_some (t : str) : t <> [] -> truthy (JStr t) = true.
Proof. intros H. cbn [truthy]. destruct (str_eqb_spec t []); [contradiction|reflexivity]. Qed.
Lemma older_fun sw args a b : older sw args a -> older sw args b -> a = b.
Proof.
  assert (L : forall l f, In (JStr f) l -> truthy (JList l) = true) by (intros [|] f I; [destruct I|reflexivity]).
  intros [t v x P T S M|t P T S|l f O P I Fl|l O P Fl|O D] [t' v' x' P' T' S' M'|t' P' T' S'|l' f' O' P' I' Fl'|l' O' P' Fl'|O' D'];
    try reflexivity;
    try (exfalso; eapply some_none; [exact P|apply text_some; assumption|eassumption]);
    try (exfalso; eapply some_none; [exact P'|apply text_some; assumption|eassumption]).
  - pose proof (present_fun _ _ _ _ P P') as E. injection E as <-. apply says_last in S, S'; try apply key_plain.
    rewrite S in S'. injection S' as <-. apply means_parser in M, M'. congruence.
  - pose proof (present_fun _ _ _ _ P P') as E. injection E as <-. now apply S' in S.
  - pose proof (present_fun _ _ _ _ P P') as E. injection E as <-. now apply S in S'.
  - pose proof (present_fun _ _ _ _ P P') as E. injection E as <-. now apply Fl' in I.
  - exfalso. eapply some_none; [exact P|eapply L, I|exact D'].
  - pose proof (present_fun _ _ _ _ P P') as E. injection E as <-. now apply Fl in I'.
  - exfalso. eapply some_none; [exact P'|eapply L, I'|exact D].
Qed.
Lemma asked_fun sw args old a b : asked sw args old a -> asked sw args old b -> a = b.
Proof.
  assert (C : forall before k neg after j, arguments sw = before ++ (k, neg) :: after -> present args k j ->
     (forall x, In x (arguments sw) -> absent args (fst x)) -> False).
  { intros be k neg af j E P A. assert (I : In (k, neg) (arguments sw)) by (rewrite E; apply in_or_app; right; now left).
    apply A, absent_get in I. cbn [fst] in I. unfold present in P. congruence. }
  intros [be k neg af j x E B P M|x A O|A O] [be' k' neg' af' j' x' E' B' P' M'|x' A' O'|A' O']; try (exfalso; eauto; fail).
  - rewrite E in E'. clear E C.
    assert (Q : k = k' /\ neg = neg').
    { revert be' E' B'. induction be as [|y be IH]; intros [|y' be'] E' B'; cbn [app] in E'; apply cons_inj in E' as [Y E'].
      - injection Y as -> ->. auto.
      - subst y'. pose proof (B' (k, neg) (or_introl eq_refl)) as Z. apply absent_get in Z. cbn [fst] in Z. unfold present in P. congruence.
      - subst y. pose proof (B (k', neg') (or_introl eq_refl)) as Z. apply absent_get in Z. cbn [fst] in Z. unfold present in P'. congruence.
      - apply (IH (fun x h => B x (or_intror h)) be' E' (fun x h => B' x (or_intror h))). }
    destruct Q as [<- <-]. rewrite <- (present_fun _ _ _ _ P P') in M'. apply means_parser in M, M'. congruence.
  - pose proof (older_fun _ _ _ _ O O') as Z. congruence.
  - pose proof (older_fun _ _ _ _ O O') as Z. congruence.
  - pose proof (older_fun _ _ _ _ O O') as Z. congruence.
  - reflexivity.
Qed.
(** The requests so far leave no doubt on the value of a switch. *)
Theorem options_unique sw rs a b : said sw rs a -> said sw rs b -> a = b.
Proof.
  intros H. revert b. induction H as [|rs l args old x H IH A|rs x H IH]; intros b S.
  - inversion S as [E|rs l args old b' H1 H2 E|rs b' H1 E]; [reflexivity|destruct rs; discriminate|destruct rs; discriminate].
  - inversion S as [E|rs' l' args' old' b' H1 H2 E|rs' b' H1 E]; [destruct rs; discriminate| |].
    + apply app_inj_tail in E as [-> E]. injection E as -> ->. subst. rewrite <- (IH _ H1) in H2. eapply asked_fun; eauto.
    + apply app_inj_tail in E as [_ E]. discriminate.
  - inversion S as [E|rs' l' args' old' b' H1 H2 E|rs' b' H1 E]; [destruct rs; discriminate| |].
    + apply app_inj_tail in E as [_ E]. discriminate.
    + apply app_inj_tail in E as [-> _]. auto.
Qed.
Print Assumptions options_unique.

(** * What is in force *)
Definition typed (r : request) : Prop := match r with Attach _ args => well_typed args | Disconnect => True end.
Lemma handle_all_app {F} (W : world F) a b st : handle_all W st (a ++ b) = handle_all W (handle_all W st a) b.
Proof. revert st. induction a as [|r a IH]; intros st; cbn [app handle_all]; auto. Qed.
Lemma said_all {F} (W : world F) s0 sw rs : Forall typed rs -> said sw rs (value sw (handle_all W (default_opts, s0) rs)).
Proof.
  induction rs as [|r rs IH] using rev_ind; intros T.
  - replace (value sw (handle_all W (default_opts, s0) [])) with (initially sw) by (destruct sw; reflexivity). constructor.
  - apply Forall_app in T as [T1 T2]. inversion T2 as [|? ? T3 _]; subst. rewrite handle_all_app. cbn [handle_all].
    destruct r as [launch args|]; cbn [handle].
    + eapply said_attach; [apply IH, T1|]. apply switch_step, T3.
    + replace (value sw _) with (value sw (handle_all W (default_opts, s0) rs)) by (destruct sw; reflexivity).
      apply said_disconnect, IH, T1.
Qed.
(** After any requests, once a launch or attach succeeds: frames of libraries are skipped, output is sent, returned values are
    shown, templates are debugged, exits are ignored and the program stops at its start as the last request to say so said. *)
Theorem options_in_force {F} (W : world F) s0 rs launch args o s : Forall typed (rs ++ [Attach launch args]) ->
  handle W (handle_all W (default_opts, s0) rs) (Attach launch args) = ((o, s), true) ->
  exists v : switch -> bool, (forall sw, said sw (rs ++ [Attach launch args]) (v sw))
  /\ library_filter s = v MyCode /\ redirected s = v Redirect /\ return_values s = v Returns
  /\ template_of o = (if v DjangoSwitch then Django else if v FlaskSwitch then Jinja2 else NoTemplate)
  /\ (v ExitZero = false -> forall c, In c (ignored_codes s) <-> c = Some 0%Z \/ c = None \/ (c = Some 3%Z /\ template_of o <> NoTemplate))
  /\ (entry_stop s = true <-> entry_stop (snd (handle_all W (default_opts, s0) rs)) = true \/ (launch = true /\ v Entry = true)).
Proof.
  intros T H. exists (fun sw => value sw (o, s)). split.
  { intros sw. pose proof (said_all W s0 sw _ T) as S. rewrite handle_all_app in S. cbn [handle_all] in S. rewrite H in S. exact S. }
  clear T. destruct (handle_all W (default_opts, s0) rs) as [o0 s1]. cbn [snd handle] in *.
  unfold set_debug_options in H. destruct (extract_debug_options _ _ _) as [d|]; [|discriminate]. cbv zeta in H.
  set (o' := update_from_args W args (update_from_debug_options d o0)) in *.
  destruct (set_client_os o' _) as [s' [|]] eqn:C; [|discriminate].
  destruct (get_mappings _ _) as [pm|]; [|discriminate]. injection H as Ho Hs. rewrite Ho in *. clear o' Ho.
  assert (L : library_filter s' = just_my_code o /\ entry_stop s' = entry_stop s1).
  { unfold set_client_os in C. destruct (client_os o) as [[|c r]|]; [injection C as <-; auto| |injection C as <-; auto].
    destruct (ide_os_of _); [|discriminate]. injection C as <-. auto. }
  destruct L as [L1 L2]. subst s. cbn [value fst part3 library_filter redirected return_values ignored_codes entry_stop].
  split; [exact L1|]. split; [reflexivity|]. split; [reflexivity|].
  split; [unfold template_of; destruct (django o), (flask o); reflexivity|]. split.
  - intros -> c. unfold template_of. destruct (django o), (flask o); cbn [orb app In]; intuition congruence.
  - rewrite L2, orb_true_iff, andb_true_iff. tauto.
Qed.
Print Assumptions options_in_force.

(** The result of a request which succeeds *)
Lemma attach_ok {F} (W : world F) launch args o0 s0 o s : handle W (o0, s0) (Attach launch args) = ((o, s), true) ->
  exists d s1 pm,
  extract_debug_options (unquote W) (arg args (lit "options") JNull) (arg args (lit "debugOptions") JNull) = Some d
  /\ o = update_from_args W args (update_from_debug_options d o0)
  /\ (s1 = with_filter (just_my_code o) (part1 W args s0) \/ exists b, s1 = with_os b (with_filter (just_my_code o) (part1 W args s0)))
  /\ get_mappings W (arg args (lit "pathMappings") (JList [])) = Some pm /\ s = part3 launch args o pm s1.
Proof.
  cbn [handle]. unfold set_debug_options. intros H. destruct (extract_debug_options _ _ _) as [d|]; [|discriminate]. cbv zeta in H.
  set (o' := update_from_args W args (update_from_debug_options d o0)) in *.
  destruct (set_client_os o' _) as [s' [|]] eqn:C; [|discriminate].
  destruct (get_mappings _ _) as [pm|]; [|discriminate]. injection H as Ho Hs. rewrite Ho in *.
  exists d, s', pm. split; [reflexivity|]. split; [now subst|]. split; [|auto].
  unfold set_client_os in C. destruct (client_os o) as [[|c r]|]; [injection C as <-; auto| |injection C as <-; auto].
  destruct (ide_os_of _); [|discriminate]. injection C as <-. eauto.
Qed.
Ltac attach_cases H :=
  apply attach_ok in H; destruct H as (d & s1 & pm & Hd & Ho & Hs & Hpm & H); subst;
  destruct Hs as [Hs|[b Hs]]; subst; cbn [part3 part1 with_os with_filter stepping_all kill_children keyboard_interrupt filters output_shown
    max_frames update_from_args single symlinks shown event_loop mappings gui_loop redirected redirect_output].

(** A setting with a default: what the request says, and the default if it says nothing, whatever was in force before *)
Definition says_or (args : jobject) (k : str) (default j : json) : Prop := present args k j \/ (absent args k /\ j = default).
Lemma says_or_arg args k d : says_or args k d (arg args k d).
Proof. unfold says_or, arg, present. rewrite absent_get. destruct (get str_eqb k args); auto. Qed.
Theorem options_each_time {F} (W : world F) launch args st o s : handle W st (Attach launch args) = ((o, s), true) ->
  says_or args (lit "steppingResumesAllThreads") (JBool true) (stepping_all s)
  /\ says_or args (lit "terminateChildProcesses") (JBool true) (kill_children s)
  /\ (keyboard_interrupt s = true <-> present args (lit "onTerminate") (JStr (lit "KeyboardInterrupt")))
  /\ (exists j, says_or args (lit "rules") JNull j /\ (j = JNull -> filters s = []) /\ (j <> JNull -> filters s = convert_rules W j))
  /\ (redirected s = true -> output_shown s = JBool true)
  /\ (redirected s = false -> says_or args (lit "isOutputRedirected") JNull (output_shown s))
  /\ (absent args (lit "maxExceptionStackFrames") -> max_frames o = 0%Z)
  /\ (forall z, present args (lit "maxExceptionStackFrames") (JInt z) -> max_frames o = z)
  /\ (forall n, present args (lit "maxExceptionStackFrames") (JStr (dec n)) -> max_frames o = Z.of_N n).
Proof.
  destruct st as [o0 s0]. intros H.
  assert (K : match arg args (lit "onTerminate") (JStr (lit "kill")) with JStr t => str_eqb t (lit "KeyboardInterrupt") | _ => false end = true
              <-> present args (lit "onTerminate") (JStr (lit "KeyboardInterrupt"))).
  { unfold arg, present. destruct (get str_eqb (lit "onTerminate") args) as [j|]; [|vm_compute; intuition discriminate].
    destruct j; try (split; intros X; discriminate X). rewrite str_eqb_eq. split; [now intros ->|]. now intros [= ->]. }
  attach_cases H.
  all: split; [apply says_or_arg|]; split; [apply says_or_arg|]; split; [exact K|];
    (split; [exists (arg args (lit "rules") JNull); split; [apply says_or_arg|split; [now intros ->|intros X; now destruct (arg args (lit "rules") JNull)]]|]);
    (split; [now intros ->|]); (split; [intros ->; apply says_or_arg|]);
    unfold present; (split; [intros X; apply absent_get in X; now rewrite X|]);
    (split; [intros z X; now rewrite X|intros n X; rewrite X; cbn [int_parser]; now rewrite py_int_dec0]).
Qed.
Print Assumptions options_each_time.

(** What a kind of variables is shown as, in a variablePresentation: what is given for the kind, else for all, else a group. *)
Definition valid (x : str) : Prop := In x [lit "group"; lit "inline"; lit "hide"].
Definition no_valid (d : jobject) (k : str) : Prop := forall x, present d k (JStr x) -> ~ valid x.
Definition shown_as (d : jobject) (kind x : str) : Prop :=
  (valid x /\ present d kind (JStr x))
  \/ (no_valid d kind /\ ((valid x /\ present d (lit "all") (JStr x)) \/ (no_valid d (lit "all") /\ x = lit "group"))).
Lemma valid_ok x : valid_presentation (JStr x) = Some x /\ valid x \/ valid_presentation (JStr x) = None /\ ~ valid x.
Proof.
  unfold valid_presentation, valid. destruct (str_eqb_spec x (lit "group")) as [->|H1]; [left; cbn [orb In]; auto|].
  destruct (str_eqb_spec x (lit "inline")) as [->|H2]; [left; cbn [orb In]; auto|].
  destruct (str_eqb_spec x (lit "hide")) as [->|H3]; [left; cbn [orb In]; auto|]. right. split; [reflexivity|]. cbn [In]. intuition.
Qed.
Lemma get_presentation_spec d k def : valid def ->
  (valid (get_presentation d k def) /\ present d k (JStr (get_presentation d k def))) \/ (no_valid d k /\ get_presentation d k def = def).
Proof.
  intros V. unfold get_presentation, arg, no_valid, present. destruct (get str_eqb k d) as [j|].
  - destruct j as [| b | z | x | l | m]; try (right; split; [intros x X; discriminate X|reflexivity]).
    destruct (valid_ok x) as [[-> H]|[-> H]]; [left; auto|]. right. split; [|reflexivity]. intros y [= <-]. exact H.
  - right. split; [intros x X; discriminate X|]. destruct (valid_ok def) as [[-> H]|[_ H]]; [reflexivity|contradiction].
Qed.
Lemma shown_as_ok d k : shown_as d k (get_presentation d k (get_presentation d (lit "all") (lit "group"))).
Proof.
  assert (G : valid (lit "group")) by (unfold valid; cbn [In]; auto).
  destruct (get_presentation_spec d (lit "all") (lit "group") G) as [[V P]|[N E]].
  - destruct (get_presentation_spec d k _ V) as [A|[B C]]; [left; exact A|]. right. split; [exact B|]. rewrite C. auto.
  - rewrite E. destruct (get_presentation_spec d k _ G) as [A|[B C]]; [left; exact A|]. right. split; [exact B|]. rewrite C. auto.
Qed.
(** A setting without a default: what the request says; what was in force stays if it says nothing. *)
Theorem options_kept {F} (W : world F) launch args o0 s0 o s : handle W (o0, s0) (Attach launch args) = ((o, s), true) ->
  (forall j, says_or args (lit "stopAllThreadsOnSuspend") JNull j -> (j <> JNull -> single s = j) /\ (j = JNull -> single s = single s0))
  /\ (forall j, says_or args (lit "resolveSymlinks") JNull j -> (j <> JNull -> symlinks s = j) /\ (j = JNull -> symlinks s = symlinks s0))
  /\ (forall d, present args (lit "variablePresentation") (JObj d) ->
        shown_as d (lit "special") (p_special (shown s)) /\ shown_as d (lit "function") (p_function (shown s))
        /\ shown_as d (lit "class") (p_class (shown s)) /\ shown_as d (lit "protected") (p_protected (shown s)))
  /\ (absent args (lit "variablePresentation") -> shown s = shown s0)
  /\ (forall t, present args (lit "guiEventLoop") (JStr t) -> event_loop s = t)
  /\ (absent args (lit "guiEventLoop") -> event_loop s = gui_loop o0).
Proof.
  intros H.
  assert (A : forall k d j, says_or args k d j -> arg args k d = j).
  { unfold says_or, arg, present. intros k d j. rewrite absent_get. intros [X|[X Y]]; rewrite X; auto. }
  attach_cases H.
  all: split; [intros j J; apply A in J; rewrite J; split; [intros X; now destruct j|now intros ->]|];
    (split; [intros j J; apply A in J; rewrite J; split; [intros X; now destruct j|now intros ->]|]);
    (split; [intros m M; unfold arg; rewrite M; cbn [new_presentation p_special p_function p_class p_protected]; repeat split; apply shown_as_ok|]);
    (split; [intros M; apply absent_get in M; unfold arg; now rewrite M|]);
    (split; [intros t M; now rewrite M|intros M; apply absent_get in M; now rewrite M]).
Qed.
Print Assumptions options_kept.

(** The pairs of roots of pathMappings: those with both roots; the remote root . is the current directory. *)
Definition root (d : jobject) (k x : str) : Prop := present d k (JStr x) \/ (absent d k /\ x = []).
Inductive pairs (dir sep : str) : list json -> list (str * str) -> Prop :=
  | pairs_nil : pairs dir sep [] []
  | pairs_skip d l r rest p : root d (lit "localRoot") l -> root d (lit "remoteRoot") r -> l = [] \/ r = [] -> pairs dir sep rest p ->
      pairs dir sep (JObj d :: rest) p
  | pairs_one d l r rest p : root d (lit "localRoot") l -> root d (lit "remoteRoot") r -> l <> [] -> r <> [] -> r <> lit "." ->
      pairs dir sep rest p -> pairs dir sep (JObj d :: rest) ((l, r) :: p)
  | pairs_here d l a rest p : root d (lit "localRoot") l -> root d (lit "remoteRoot") (lit ".") -> l <> [] ->
      ((exists b, l = b ++ lit "/" \/ l = b ++ lit "\") -> a = dir ++ sep) -> (~ (exists b, l = b ++ lit "/" \/ l = b ++ lit "\") -> a = dir) ->
      pairs dir sep rest p -> pairs dir sep (JObj d :: rest) ((l, a) :: p).
Lemma root_arg d k x : arg d k (JStr []) = JStr x <-> root d k x.
Proof.
  unfold arg, root, present. rewrite absent_get. destruct (get str_eqb k d) as [j|]; split.
  - intros ->. auto.
  - intros [[= ->]|[X _]]; [reflexivity|discriminate].
  - intros [= <-]. auto.
  - intros [X|[_ ->]]; [discriminate|reflexivity].
Qed.
Lemma some_inj {A} (a b : A) : Some a = Some b -> a = b.
Proof. now intros [= ->]. Qed.
Lemma all_mappings_pairs {F} (W : world F) l pm : cwd W <> [] -> all_mappings W l = Some pm -> pairs (cwd W) (path_sep W) l pm.
Proof.
  intros Hc. revert pm. induction l as [|j l IH]; intros pm; cbn [all_mappings]; [intros [= <-]; constructor|].
  destruct (one_mapping W j) as [a|] eqn:O; [|discriminate]. destruct (all_mappings W l) as [b|]; [|discriminate]. intros [= <-].
  unfold one_mapping in O. destruct j as [| | | | |d]; try discriminate.
  destruct (arg d (lit "localRoot") (JStr [])) as [| | |lr| |] eqn:L; try discriminate.
  destruct (arg d (lit "remoteRoot") (JStr [])) as [| | |rr| |] eqn:R; try discriminate.
  apply root_arg in L, R. cbv zeta in O. specialize (IH b eq_refl).
  destruct (str_eqb_spec lr []) as [->|Hl].
  { injection O as <-. cbn [app]. eapply pairs_skip; eauto. }
  unfold resolve_remote_root in O. destruct (str_eqb_spec rr (lit ".")) as [->|Hr].
  - assert (X : forall x, str_eqb (cwd W ++ x) [] = false) by (intros x; destruct (cwd W); [congruence|reflexivity]).
    rewrite X in O. cbn [negb andb] in O. apply some_inj in O. subst a. cbn [app]. eapply pairs_here; eauto.
    + intros [b0 B]. assert (E : ends_with (lit "\") lr || ends_with (lit "/") lr = true).
      { apply orb_true_iff. destruct B as [B|B]; [right|left]; apply ends_with_spec; eauto. }
      now rewrite E.
    + intros B. destruct (ends_with (lit "\") lr) eqn:E1; [exfalso; apply B; apply ends_with_spec in E1 as [r E1]; eauto|].
      destruct (ends_with (lit "/") lr) eqn:E2; [exfalso; apply B; apply ends_with_spec in E2 as [r E2]; eauto|]. apply app_nil_r.
  - destruct (str_eqb_spec rr []) as [->|Hr'].
    + injection O as <-. cbn [app]. eapply pairs_skip; eauto.
    + injection O as <-. cbn [app]. eapply pairs_one; eauto.
Qed.
Theorem options_mappings {F} (W : world F) launch args o0 s0 o s : cwd W <> [] ->
  handle W (o0, s0) (Attach launch args) = ((o, s), true) ->
  (forall l, present args (lit "pathMappings") (JList l) ->
     exists p, pairs (cwd W) (path_sep W) l p /\ (p <> [] -> mappings s = p) /\ (p = [] -> mappings s = mappings s0))
  /\ (absent args (lit "pathMappings") -> mappings s = mappings s0).
Proof.
  intros Hc H. attach_cases H.
  all: split; [intros l P; unfold arg in Hpm; rewrite P in Hpm; cbn [get_mappings] in Hpm; exists pm; split; [now apply all_mappings_pairs|];
         split; [intros X; now destruct pm|now intros ->]
       |intros P; apply absent_get in P; unfold arg in Hpm; rewrite P in Hpm; cbn in Hpm; now injection Hpm as <-].
Qed.
Print Assumptions options_mappings.

(** The system of the client: windows, win and unix in any case; with another one the request fails. *)
Definition os_is {F} (x : str) (s0 : settings F) (st : state F) (ok : bool) : Prop :=
  (In x [lit "WINDOWS"; lit "WIN"] -> ide_windows (snd st) = true)
  /\ (x = lit "UNIX" -> ide_windows (snd st) = false)
  /\ (x = [] -> ide_windows (snd st) = ide_windows s0)
  /\ (~ In x [lit "WINDOWS"; lit "WIN"; lit "UNIX"; []] -> ok = false).
Lemma os_set {F} (W : world F) launch args o0 s0 st ok d x :
  extract_debug_options (unquote W) (arg args (lit "options") JNull) (arg args (lit "debugOptions") JNull) = Some d ->
  client_os (update_from_args W args (update_from_debug_options d o0)) = Some x ->
  handle W (o0, s0) (Attach launch args) = (st, ok) -> os_is x s0 st ok.
Proof.
  intros E C H. cbn [handle] in H. unfold set_debug_options in H.
  rewrite E in H. cbv zeta in H. set (o' := update_from_args W args (update_from_debug_options d o0)) in *.
  unfold set_client_os in H. rewrite C in H. unfold ide_os_of in H. unfold os_is. cbn [In].
  destruct x as [|c r].
  - split; [intros [X|[X|[]]]; discriminate X|]. split; [discriminate|]. split; [intros _|tauto].
    destruct (get_mappings _ _); injection H as <- _; reflexivity.
  - split; [|split; [|split]].
    + intros X. assert (Y : str_eqb (c :: r) (lit "WIN") || str_eqb (c :: r) (lit "WINDOWS") = true).
      { apply orb_true_iff. destruct X as [<-|[<-|[]]]; [right|left]; apply str_eqb_refl. }
      rewrite Y in H. destruct (get_mappings _ _); injection H as <- _; reflexivity.
    + intros X. rewrite X in H. change (str_eqb (lit "UNIX") (lit "WIN") || str_eqb (lit "UNIX") (lit "WINDOWS")) with false in H.
      rewrite str_eqb_refl in H. destruct (get_mappings _ _); injection H as <- _; reflexivity.
    + discriminate.
    + intros X. destruct (str_eqb_spec (c :: r) (lit "WIN")) as [Y|_]; [exfalso; apply X; auto|].
      destruct (str_eqb_spec (c :: r) (lit "WINDOWS")) as [Y|_]; [exfalso; apply X; auto|]. cbn [orb] in H.
      destruct (str_eqb_spec (c :: r) (lit "UNIX")) as [Y|_]; [exfalso; apply X; auto|]. now injection H as _ <-.
Qed.
Theorem options_os {F} (W : world F) launch args o0 s0 st ok t : well_typed args -> present args (lit "clientOS") (JStr t) ->
  handle W (o0, s0) (Attach launch args) = (st, ok) -> os_is (upper W t) s0 st ok.
Proof.
  intros T P H. destruct (older_get (unquote W) MyCode args T) as (d & E & _). refine (os_set W launch args o0 s0 st ok d _ E _ H).
  cbn [update_from_args client_os]. rewrite P. reflexivity.
Qed.
(** Without it, the last one in the options text counts, or, without a text, the last flag for it. *)
Lemma os_parse unq t : get str_eqb (lit "CLIENT_OS_TYPE") (parse_debug_options unq t)
  = match last_value (lit "CLIENT_OS_TYPE") (split_on 59 t) with Some v => Some (OText (unq v)) | None => None end.
Proof.
  destruct t as [|c t]; [reflexivity|]. unfold parse_debug_options. rewrite get_fold by (intros v; discriminate). destruct (last_value _ _); reflexivity.
Qed.
Theorem options_os_text {F} (W : world F) launch args o0 s0 st ok t v : absent args (lit "clientOS") ->
  present args (lit "options") (JStr t) -> text_says t (lit "CLIENT_OS_TYPE") v ->
  handle W (o0, s0) (Attach launch args) = (st, ok) -> os_is (unquote W v) s0 st ok.
Proof.
  intros A P TS H. assert (NE : t <> []).
  { intros ->. destruct TS as (b & a & X & _). destruct b as [|x b]; [destruct a; discriminate X|]. cbn [app join] in X.
    destruct (b ++ (lit "CLIENT_OS_TYPE" ++ lit "=" ++ v) :: a) as [|y z] eqn:Y; [destruct b; discriminate Y|]. destruct x; discriminate X. }
  refine (os_set W launch args o0 s0 st ok (parse_debug_options (unquote W) t) _ _ _ H).
  - unfold present in P. unfold extract_debug_options, arg. rewrite !P. cbn [truthy]. destruct (str_eqb_spec t []) as [|_]; [congruence|]. reflexivity.
  - cbn [update_from_args client_os]. apply absent_get in A. rewrite A. cbn [update_from_debug_options client_os]. rewrite os_parse.
    apply says_last in TS; [|vm_compute; intuition discriminate]. now rewrite TS.
Qed.
Print Assumptions options_os_text.
Definition os_flags : list (str * str) := [(lit "WindowsClient", lit "WINDOWS"); (lit "UnixClient", lit "UNIX")].
Lemma last_value_app k a : forall b, last_value k (a ++ b) = match last_value k b with Some v => Some v | None => last_value k a end.
Proof.
  induction a as [|s a IH]; intros b; cbn [app last_value]; [now destruct (last_value k b)|]. rewrite IH. destruct (last_value k b); reflexivity.
Qed.
Lemma os_no_flag l : (forall f, In f (map fst os_flags) -> ~ In f l) -> last_value (lit "CLIENT_OS_TYPE") (flat_map known_flag l) = None.
Proof.
  induction l as [|f l IH]; intros H; [reflexivity|]. cbn [flat_map]. rewrite last_value_app, IH by (intros g G I; apply (H g G); now right).
  unfold known_flag. destruct (get str_eqb f by_flag) as [t|] eqn:G; [|reflexivity].
  apply (get_In _ str_eqb_spec) in G. unfold by_flag in G. cbn [In] in G.
  repeat (destruct G as [G|G]; [injection G as <- <-; first [reflexivity | exfalso; refine (H _ _ (or_introl eq_refl)); cbn [os_flags map fst In]; auto; fail]|]).
  destruct G.
Qed.
Theorem options_os_flag {F} (W : world F) launch args o0 s0 st ok l before f os after : absent args (lit "clientOS") -> absent args (lit "options") ->
  present args (lit "debugOptions") (JList (map JStr l)) -> l = before ++ f :: after -> In (f, os) os_flags ->
  (forall g, In g (map fst os_flags) -> ~ In g after) -> handle W (o0, s0) (Attach launch args) = (st, ok) -> os_is (unquote W os) s0 st ok.
Proof.
  intros A1 A2 P EL IO NA H. apply absent_get in A1, A2.
  refine (os_set W launch args o0 s0 st ok (parse_debug_options (unquote W) (build_debug_options l)) _ _ _ H).
  - unfold present in P. unfold extract_debug_options, arg. rewrite A2, !P. cbn [truthy]. destruct (flag_texts_str (map JStr l)) as (t & Et & _).
    { intros j I. apply in_map_iff in I as (x & <- & _). eauto. }
    assert (X : flag_texts (map JStr l) = Some l) by (clear; induction l as [|x l IH]; [reflexivity|]; cbn [map flag_texts]; now rewrite IH).
    unfold iterate_flags. destruct l as [|x l]; [destruct before; discriminate EL|]. cbn [map truthy] in *. now rewrite X.
  - cbn [update_from_args client_os]. rewrite A1. cbn [update_from_debug_options client_os]. rewrite os_parse. unfold build_debug_options.
    rewrite split_on_join.
    + rewrite EL, flat_map_app, last_value_app. cbn [flat_map]. rewrite last_value_app, (os_no_flag after NA).
      destruct IO as [X|[X|[]]]; injection X as <- <-; reflexivity.
    + rewrite EL, flat_map_app. cbn [flat_map]. intros X. apply app_eq_nil in X as [_ X]. apply app_eq_nil in X as [X _].
      destruct IO as [Y|[Y|[]]]; injection Y as <- <-; discriminate X.
    + apply Forall_forall. intros y Hy. apply in_flat_map in Hy as (g & _ & Hf). unfold known_flag in Hf.
      destruct (get str_eqb g by_flag) as [t|] eqn:G; [|destruct Hf]. destruct Hf as [<-|[]]. eapply by_flag_plain; eauto.
Qed.
Print Assumptions options_os_flag.
Print Assumptions options_os.

(** * What does not hold *)
Definition up (s : str) : str := map (fun c => if (97 <=? c)%N && (c <=? 122)%N then (c - 32)%N else c) s.
Definition here : world unit := World unit (lit "/work") (lit "/") up (fun s => s) (fun _ => []) (fun _ => []).
Definition fresh : state unit :=
  (default_opts, Settings (JBool false) (JBool false) (JBool true) false default_presentation [] false false [] (JBool false) false JNull false false [] false (lit "matplotlib")).
Definition yes (k : string) : str * json := (lit k, JBool true).
Definition no (k : string) : str * json := (lit k, JBool false).

(** A second client which asks to stop at exits with 0 does not get it when the first one did not. *)
Theorem options_exit_refuted : exists (W : world unit) st rs args o s, rs = [Attach false []; Disconnect]
  /\ present args (lit "breakOnSystemExitZero") (JBool true)
  /\ handle W (handle_all W st rs) (Attach false args) = ((o, s), true) /\ In (Some 0%Z) (ignored_codes s)
  /\ handle W st (Attach false args) <> ((o, s), true) /\ ~ In (Some 0%Z) (ignored_codes (snd (fst (handle W st (Attach false args))))).
Proof.
  exists here, fresh, [Attach false []; Disconnect], [yes "breakOnSystemExitZero"]. do 2 eexists.
  split; [reflexivity|]. split; [reflexivity|]. split; [vm_compute; reflexivity|]. split; [cbn [ignored_codes In]; auto|].
  split; [vm_compute; discriminate|vm_compute; tauto].
Qed.
Print Assumptions options_exit_refuted.
(** A later client which says that there are no path mappings gets those of the earlier one. *)
Theorem options_mappings_refuted : exists (W : world unit) st rs args o s,
  present args (lit "pathMappings") (JList []) /\ mappings (snd st) = []
  /\ handle W (handle_all W st rs) (Attach false args) = ((o, s), true) /\ mappings s = [(lit "c:\a", lit "/a")].
Proof.
  exists here, fresh, [Attach false [(lit "pathMappings", JList [JObj [(lit "localRoot", JStr (lit "c:\a")); (lit "remoteRoot", JStr (lit "/a"))]])]; Disconnect],
    [(lit "pathMappings", JList [])]. do 2 eexists. repeat split; try reflexivity; vm_compute; reflexivity.
Qed.
Print Assumptions options_mappings_refuted.
(** Asking for flask but not for jinja leaves templates out, asking for flask alone does not. *)
Theorem options_jinja_refuted : exists (W : world unit) st args o s,
  present args (lit "flask") (JBool true) /\ handle W st (Attach true args) = ((o, s), true) /\ template_of o = NoTemplate
  /\ template_of (fst (fst (handle W st (Attach true [yes "flask"])))) = Jinja2.
Proof. exists here, fresh, [yes "flask"; no "jinja"]. do 2 eexists. repeat split; vm_compute; reflexivity. Qed.
Print Assumptions options_jinja_refuted.
(** What one client asked for is in force for the next one, after a disconnect. *)
Theorem options_next_client_refuted : exists (W : world unit) st rs o s, rs = [Attach false [no "justMyCode"; yes "stopAllThreadsOnSuspend"]; Disconnect]
  /\ handle W (handle_all W st rs) (Attach false []) = ((o, s), true) /\ library_filter s = false /\ single s = JBool true
  /\ library_filter (snd (fst (handle W st (Attach false [])))) = true /\ single (snd (fst (handle W st (Attach false [])))) = JBool false.
Proof.
  exists here, fresh, [Attach false [no "justMyCode"; yes "stopAllThreadsOnSuspend"]; Disconnect]. do 2 eexists.
  split; [reflexivity|]. split; [vm_compute; reflexivity|]. repeat split; vm_compute; reflexivity.
Qed.
Print Assumptions options_next_client_refuted.
(** After an attach which failed because of its clientOS every later one which does not give another one fails, and what it asks
    for is not in force; and the failed one left some of its settings in force. *)
Theorem options_os_refuted : exists (W : world unit) st bad, snd (handle W st bad) = false
  /\ stepping_all (snd (fst (handle W st bad))) = JBool false
  /\ forall launch args, absent args (lit "clientOS") -> absent args (lit "options") -> absent args (lit "debugOptions") ->
     snd (handle W (fst (handle W st bad)) (Attach launch args)) = false
     /\ redirected (snd (fst (handle W (fst (handle W st bad)) (Attach launch args)))) = redirected (snd st).
Proof.
  exists here, fresh, (Attach false [(lit "clientOS", JStr (lit "linux")); no "steppingResumesAllThreads"]).
  split; [vm_compute; reflexivity|]. split; [vm_compute; reflexivity|]. intros launch args H1 H2 H3.
  apply absent_get in H1, H2, H3.
  assert (E : exists o s, fst (handle here fresh (Attach false [(lit "clientOS", JStr (lit "linux")); no "steppingResumesAllThreads"])) = (o, s)
    /\ client_os o = Some (lit "LINUX") /\ redirected s = redirected (snd fresh)).
  { do 2 eexists. split; [vm_compute; reflexivity|]. split; reflexivity. }
  destruct E as (o & s & -> & C & R). cbn [handle]. unfold set_debug_options, arg. rewrite H2, H3.
  change (extract_debug_options (unquote here) JNull JNull) with (Some (@nil (str * oval))). cbv beta iota zeta.
  set (o' := update_from_args here args (update_from_debug_options [] o)).
  assert (C' : client_os o' = Some (lit "LINUX")) by (subst o'; cbn [update_from_args client_os]; rewrite H1; exact C).
  unfold set_client_os. rewrite C'. cbn -[part1 with_filter here fresh]. split; [reflexivity|]. exact R.
Qed.
Print Assumptions options_os_refuted.
(** Saying how special variables are shown changes how protected ones are. *)
Theorem options_protected_refuted : exists (W : world unit) st args o s,
  present args (lit "variablePresentation") (JObj [(lit "special", JStr (lit "hide"))]) /\ p_protected (shown (snd st)) = lit "inline"
  /\ handle W st (Attach true args) = ((o, s), true) /\ p_protected (shown s) = lit "group".
Proof. exists here, fresh, [(lit "variablePresentation", JObj [(lit "special", JStr (lit "hide"))])]. do 2 eexists. repeat split; vm_compute; reflexivity. Qed.
Print Assumptions options_protected_refuted.

(** * Examples *)
Example attach1 : jobject :=
  [(lit "options", JStr (lit "DEBUG_STDLIB=1;REDIRECT_OUTPUT=True;X;DJANGO_DEBUG=a=b;DJANGO_DEBUG=true;REDIRECT_OUTPUT=no"));
   (lit "debugOptions", JList [JStr (lit "Flask")]); (lit "clientOS", JStr (lit "windows")); (lit "maxExceptionStackFrames", JStr (lit "12"));
   (lit "pathMappings", JList [JObj [(lit "localRoot", JStr (lit "c:\p\")); (lit "remoteRoot", JStr (lit "."))]; JObj []]);
   (lit "variablePresentation", JObj [(lit "all", JStr (lit "hide")); (lit "class", JStr (lit "inline")); (lit "function", JInt 3)])].
Example attach1_typed : well_typed attach1.
Proof.
  split; [right; left; eexists; reflexivity|]. right. left. eexists. split; [reflexivity|]. intros j [<-|[]]. eauto.
Qed.
Example attach1_ok : let r := handle here fresh (Attach true attach1) in
  snd r = true /\ library_filter (snd (fst r)) = false /\ redirected (snd (fst r)) = false /\ template_of (fst (fst r)) = Django
  /\ max_frames (fst (fst r)) = 12%Z /\ mappings (snd (fst r)) = [(lit "c:\p\", lit "/work/")] /\ ide_windows (snd (fst r)) = true
  /\ shown (snd (fst r)) = Presentation (lit "hide") (lit "hide") (lit "inline") (lit "hide")
  /\ ignored_codes (snd (fst r)) = [Some 0%Z; None; Some 3%Z].
Proof. vm_compute. repeat split. Qed.
Example attach2 : jobject := [(lit "debugOptions", JList [JStr (lit "DebugStdLib"); JStr (lit "Nothing"); JStr (lit "Jinja"); JStr (lit "UnixClient")]); yes "redirectOutput"; yes "stopOnEntry"].
Example attach2_ok : let r := handle here fresh (Attach true attach2) in
  snd r = true /\ library_filter (snd (fst r)) = false /\ redirected (snd (fst r)) = true /\ template_of (fst (fst r)) = Jinja2
  /\ entry_stop (snd (fst r)) = true /\ ide_windows (snd (fst r)) = false.
Proof. vm_compute. repeat split. Qed.
Example attach3_ok : let r := handle here (handle_all here fresh [Attach true attach2; Disconnect]) (Attach false [no "debugStdLib"]) in
  snd r = true /\ library_filter (snd (fst r)) = true /\ redirected (snd (fst r)) = true /\ template_of (fst (fst r)) = Jinja2.
Proof. vm_compute. repeat split. Qed.

(** Cases for options_os_text and options_os_flag *)
Example ex_os_text : let args := [(lit "options", JStr (lit "CLIENT_OS_TYPE=UNIX;DJANGO_DEBUG=True;CLIENT_OS_TYPE=WINDOWS;X"))] in
  absent args (lit "clientOS") /\ text_says (lit "CLIENT_OS_TYPE=UNIX;DJANGO_DEBUG=True;CLIENT_OS_TYPE=WINDOWS;X") (lit "CLIENT_OS_TYPE") (lit "WINDOWS")
  /\ ide_windows (snd (fst (handle here fresh (Attach false args)))) = true.
Proof.
  cbv zeta. split; [intros [H|[]]; discriminate H|]. split; [|reflexivity]. apply says_last; [vm_compute; intuition discriminate|reflexivity].
Qed.
Example ex_os_flag : let l := [lit "WindowsClient"; lit "Django"; lit "UnixClient"; lit "Flask"] in
  l = [lit "WindowsClient"; lit "Django"] ++ lit "UnixClient" :: [lit "Flask"] /\ In (lit "UnixClient", lit "UNIX") os_flags
  /\ (forall g, In g (map fst os_flags) -> ~ In g [lit "Flask"])
  /\ ide_windows (snd (fst (handle here fresh (Attach false [(lit "debugOptions", JList (map JStr l))])))) = false.
Proof.
  cbv zeta. split; [reflexivity|]. split; [right; now left|]. split; [|reflexivity].
  intros g [<-|[<-|[]]] [H|[]]; discriminate H.
Qed.
