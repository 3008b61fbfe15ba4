(** Property C79: keeping stepping out of properties does not change the program. *)
From Coq Require Import List NArith Bool Arith Lia.
From Verif Require Import Base TraceProp.
Import ListNotations.
Open Scope list_scope.

(** Specification. *)

(** Properties are written the usual way: the decorators getter, setter and deleter are applied to the property of the same
    name in the same class. *)
Definition usual (d : def) : Prop := match d with New _ _ _ _ => True | With _ x y _ => x = y end.

(** The kinds of accessors which a program uses, also indirectly. *)
Fixpoint uses (a : act) : list kind :=
  match a with
  | Line _ | Raise => []
  | Call b => flat_map uses b
  | Use k _ b => k :: flat_map uses b
  end.

Definition lines (r : list seen * bool * bool) : list seen := fst (fst r).
Definition on_after (r : list seen * bool * bool) : bool := snd (fst r).
Definition raised (r : list seen * bool * bool) : bool := snd r.

Section ActInd.
Variable P : act -> Prop.
Hypothesis hline : forall n, P (Line n).
Hypothesis hcall : forall b, Forall P b -> P (Call b).
Hypothesis huse : forall k p b, Forall P b -> P (Use k p b).
Hypothesis hraise : P Raise.
Fixpoint act_induct (a : act) : P a :=
  match a with
  | Line n => hline n
  | Call b => hcall b ((fix go l : Forall P l := match l with [] => Forall_nil _ | x :: r => Forall_cons x (act_induct x) (go r) end) b)
  | Use k p b => huse k p b ((fix go l : Forall P l := match l with [] => Forall_nil _ | x :: r => Forall_cons x (act_induct x) (go r) end) b)
  | Raise => hraise
  end.
End ActInd.

Lemma in_turn_cons f x r t :
  in_turn f (x :: r) t =
  if raised (f x t) then (lines (f x t), on_after (f x t), true)
  else (lines (f x t) ++ lines (in_turn f r (on_after (f x t))), on_after (in_turn f r (on_after (f x t))),
        raised (in_turn f r (on_after (f x t)))).
Proof.
  unfold lines, on_after, raised. cbn [in_turn]. destruct (f x t) as [[o t1] e]. cbn [fst snd].
  destruct e; [reflexivity|]. now destruct (in_turn f r t1) as [[o2 t2] e2].
Qed.

Lemma use_debug_eq d k p b t :
  use_debug d k p b t =
  let r := if p then b (if d k then false else t) else ([], (if d k then false else t), true) in (lines r, true, raised r).
Proof.
  unfold use_debug, lines, raised. cbn zeta. destruct (if p then b (if d k then false else t) else _) as [[o t1] e]. reflexivity.
Qed.

(** What runs. *)

Definition where_run (s : seen) : N * bool := (at_line s, inside s).

Definition same_run (r r' : list seen * bool * bool) : Prop :=
  map where_run (lines r) = map where_run (lines r') /\ raised r = raised r'.

Lemma in_turn_same f f' b :
  Forall (fun a => forall t t', same_run (f a t) (f' a t')) b -> forall t t', same_run (in_turn f b t) (in_turn f' b t').
Proof.
  induction 1 as [|x r hx _ IH]; intros t t'; [split; reflexivity|]. rewrite !in_turn_cons.
  destruct (hx t t') as (e1 & e2). destruct (IH (on_after (f x t)) (on_after (f' x t'))) as (e3 & e4). rewrite e2.
  destruct (raised (f' x t')); split; unfold lines, raised in *; cbn [fst snd] in *; auto.
  now rewrite !map_app, e1, e3.
Qed.

Lemma run1_same d a : forall fr fr' ins t t', same_run (run1 (use_debug d) fr ins a t) (run1 use_builtin fr' ins a t').
Proof.
  induction a as [n|b IH|k p b IH|] using act_induct; intros fr fr' ins t t'; try (split; reflexivity).
  - cbn [run1]. apply in_turn_same. eapply Forall_impl; [|exact IH]. intros a h u u'. apply h.
  - cbn [run1]. rewrite use_debug_eq. unfold use_builtin. destruct p; [|split; reflexivity]. cbn zeta.
    set (u := if d k then false else t).
    assert (h : same_run (in_turn (run1 (use_debug d) u true) b u) (in_turn (run1 use_builtin t' true) b t')).
    { apply in_turn_same. eapply Forall_impl; [|exact IH]. intros a h v v'. apply h. }
    exact h.
Qed.

(** The program does the same, line by line, and the same exceptions are raised, whichever accessors are to be skipped. *)
Theorem program_same d l t :
  map at_line (lines (run_debug d true false l t)) = map at_line (lines (run_builtin true false l t)) /\
  raised (run_debug d true false l t) = raised (run_builtin true false l t).
Proof.
  assert (h : same_run (run_debug d true false l t) (run_builtin true false l t)).
  { unfold run_debug, run_builtin, run. apply in_turn_same. apply Forall_forall. intros a _ u u'. apply run1_same. }
  destruct h as (h & h'). split; [|exact h'].
  assert (e : forall m, map at_line m = map fst (map where_run m)) by (intros m; rewrite map_map; reflexivity).
  now rewrite !e, h.
Qed.

(** What is seen. *)

Lemma in_turn_inv (Q : seen -> Prop) (T : bool -> Prop) f b :
  Forall (fun a => forall t, T t -> Forall Q (lines (f a t)) /\ T (on_after (f a t))) b ->
  forall t, T t -> Forall Q (lines (in_turn f b t)) /\ T (on_after (in_turn f b t)).
Proof.
  induction 1 as [|x r hx _ IH]; intros t ht; [split; [constructor|exact ht]|]. rewrite in_turn_cons.
  destruct (hx t ht) as (h1 & h2). destruct (IH _ h2) as (h3 & h4).
  destruct (raised (f x t)); unfold lines, on_after in *; cbn [fst snd] in *; split; auto. apply Forall_app. auto.
Qed.

Lemma all_inside use a :
  (forall k p b t, (forall t1, Forall (fun s => inside s = true) (lines (b t1))) ->
     Forall (fun s => inside s = true) (lines (use k p b t))) ->
  forall fr t, Forall (fun s => inside s = true) (lines (run1 use fr true a t)).
Proof.
  intros hu. induction a as [n|b IH|k p b IH|] using act_induct; intros fr t; cbn [run1].
  - repeat constructor.
  - apply (in_turn_inv _ (fun _ => True)); [|exact I]. eapply Forall_impl; [|exact IH]. intros a h u _. split; [apply h|exact I].
  - apply hu. intros t1. apply (in_turn_inv _ (fun _ => True)); [|exact I]. eapply Forall_impl; [|exact IH].
    intros a h u _. split; [apply h|exact I].
  - constructor.
Qed.

Lemma debug_inside d k p b t :
  (forall t1, Forall (fun s => inside s = true) (lines (b t1))) -> Forall (fun s => inside s = true) (lines (use_debug d k p b t)).
Proof. intros h. rewrite use_debug_eq. cbn zeta. unfold lines at 1. cbn [fst]. destruct p; [apply h|constructor]. Qed.

Lemma run1_outside d a :
  forall t, t = true ->
  Forall (fun s => inside s = false -> traced s = true) (lines (run1 (use_debug d) true false a t)) /\
  on_after (run1 (use_debug d) true false a t) = true.
Proof.
  induction a as [n|b IH|k p b IH|] using act_induct; intros t ->; cbn [run1].
  - split; [repeat constructor|reflexivity].
  - apply (in_turn_inv _ (fun u => u = true)); [exact IH|reflexivity].
  - split.
    + assert (h : Forall (fun s => inside s = true) (lines (use_debug d k p (fun t1 => in_turn (run1 (use_debug d) t1 true) b t1) true))).
      { apply debug_inside. intros t1. apply (in_turn_inv _ (fun _ => True)); [|exact I]. apply Forall_forall.
        intros a _ u _. split; [|exact I]. apply all_inside. apply debug_inside. }
      eapply Forall_impl; [|exact h]. intros s e e'. congruence.
    + rewrite use_debug_eq. reflexivity.
  - split; [constructor|reflexivity].
Qed.

(** All lines outside of accessors are seen by the debugger as before, also after an accessor which failed, and tracing is on
    at the end. *)
Theorem outside_seen d l :
  Forall (fun s => inside s = false -> traced s = true) (lines (run_debug d true false l true)) /\
  on_after (run_debug d true false l true) = true.
Proof.
  unfold run_debug, run. apply (in_turn_inv _ (fun u => u = true)); [|reflexivity].
  apply Forall_forall. intros a _ t ht. now apply run1_outside.
Qed.

Lemma run1_quiet d a : uses a = [] -> forall fr ins t, t = false ->
  Forall (fun s => traced s = false) (lines (run1 (use_debug d) fr ins a t)) /\
  on_after (run1 (use_debug d) fr ins a t) = false.
Proof.
  induction a as [n|b IH|k p b IH|] using act_induct; intros hu fr ins t ->; cbn [run1].
  - split; [repeat constructor|reflexivity].
  - apply (in_turn_inv _ (fun u => u = false)); [|reflexivity]. cbn [uses] in hu.
    induction IH as [|x r hx _ IHr]; constructor; cbn [flat_map] in hu; apply app_eq_nil in hu as (h1 & h2); auto.
  - discriminate.
  - split; [constructor|reflexivity].
Qed.

(** Nothing is seen of an accessor which is to be skipped, nor of the functions it calls, if no other property is used
    within. *)
Theorem accessor_skipped d k p b fr t :
  d k = true -> flat_map uses b = [] ->
  Forall (fun s => traced s = false) (lines (run1 (use_debug d) fr false (Use k p b) t)).
Proof.
  intros hd hu. cbn [run1]. rewrite use_debug_eq, hd. cbn zeta. unfold lines at 1. cbn [fst]. destruct p; [|constructor].
  apply (in_turn_inv _ (fun u => u = false)); [|reflexivity]. apply Forall_forall. intros a hi u hu'.
  apply run1_quiet; [|exact hu']. destruct (uses a) as [|y l] eqn:E; [reflexivity|].
  assert (i : In y (flat_map uses b)) by (apply in_flat_map; exists a; split; [exact hi|rewrite E; now left]).
  rewrite hu in i. destruct i.
Qed.

Lemma in_turn_eq f f' b :
  Forall (fun a => forall t, t = true -> f a t = f' a t /\ on_after (f' a t) = true) b ->
  forall t, t = true -> in_turn f b t = in_turn f' b t /\ on_after (in_turn f' b t) = true.
Proof.
  induction 1 as [|x r hx _ IH]; intros t ht; [now split|]. rewrite !in_turn_cons. destruct (hx t ht) as (-> & h).
  destruct (IH _ h) as (e & h'). rewrite e. destruct (raised (f' x t)); split; auto.
Qed.

Lemma builtin_present k b t : use_builtin k true b t = b t.
Proof. reflexivity. Qed.

Lemma run1_enabled d a : Forall (fun k => d k = false) (uses a) -> forall fr ins t, t = true ->
  run1 (use_debug d) fr ins a t = run1 use_builtin fr ins a t /\ on_after (run1 use_builtin fr ins a t) = true.
Proof.
  induction a as [n|b IH|k p b IH|] using act_induct; intros hu fr ins t ->; cbn [run1].
  - now split.
  - apply in_turn_eq; [|reflexivity]. cbn [uses] in hu.
    induction IH as [|x r hx _ IHr]; constructor; cbn [flat_map] in hu; apply Forall_app in hu as (h1 & h2); auto.
  - cbn [uses] in hu. inversion hu as [|k' l hk hb]; subst. rewrite use_debug_eq, hk. cbn zeta.
    destruct p; [|now split]. rewrite builtin_present.
    assert (h : in_turn (run1 (use_debug d) true true) b true = in_turn (run1 use_builtin true true) b true /\
                on_after (in_turn (run1 use_builtin true true) b true) = true).
    { apply in_turn_eq; [|reflexivity]. clear hu. induction IH as [|x r hx _ IHr]; constructor; cbn [flat_map] in hb;
        apply Forall_app in hb as (h1 & h2); auto. }
    destruct h as (-> & h). split; [|exact h]. revert h. unfold lines, raised, on_after.
    destruct (in_turn (run1 use_builtin true true) b true) as [[o u] e]. cbn [fst snd]. now intros ->.
  - now split.
Qed.

(** Accessors of the kinds which are not to be skipped are seen like with Python's property. *)
Theorem enabled_seen d l :
  Forall (fun k => d k = false) (flat_map uses l) -> run_debug d true false l true = run_builtin true false l true.
Proof.
  intros h. unfold run_debug, run_builtin, run. apply in_turn_eq; [|reflexivity]. apply Forall_forall. intros a i t ht.
  apply run1_enabled; [|exact ht]. apply Forall_forall. intros k hk. rewrite Forall_forall in h. apply h. apply in_flat_map. eauto.
Qed.

(** The objects. *)

Definition object (s : names) (x : N) : option pobj := match env s x with Some i => nth_error (heap s) i | None => None end.

Definition agree (b g : names) : Prop :=
  (forall x, object b x = object g x) /\
  (forall x y i, env g x = Some i -> env g y = Some i -> x = y) /\
  (forall x i, env g x = Some i -> i < length (heap g)) /\ (forall x i, env b x = Some i -> i < length (heap b)).

Lemma nth_replace_same i p h : i < length h -> nth_error (replace i p h) i = Some p.
Proof. revert i. induction h as [|q h IH]; intros [|i] hi; cbn [length] in hi; try lia; [reflexivity|]. cbn. apply IH. lia. Qed.
Lemma nth_replace_other i j p h : i <> j -> nth_error (replace i p h) j = nth_error h j.
Proof. revert i j. induction h as [|q h IH]; intros [|i] [|j] n; cbn; try reflexivity; try congruence. apply IH. congruence. Qed.
Lemma length_replace i p h : length (replace i p h) = length h.
Proof. revert i. induction h as [|q h IH]; intros [|i]; cbn; auto. Qed.

Lemma object_bind_new h e p x y :
  object (Names (h ++ [p]) (bind e x (length h))) y = 
  if N.eqb y x then Some p else match e y with Some i => nth_error (h ++ [p]) i | None => None end.
Proof.
  unfold object, bind. cbn [env heap]. destruct (N.eqb y x); [|reflexivity].
  rewrite nth_error_app2 by lia. now rewrite Nat.sub_diag.
Qed.

Lemma agree_def d b g : usual d -> agree b g -> agree (def_builtin b d) (def_debug g d).
Proof.
  intros hu hag. pose proof hag as (ho & hinj & hg & hb).
  assert (keep : forall (s : names) p y i, (forall x i, env s x = Some i -> i < length (heap s)) -> env s y = Some i ->
                 nth_error (heap s ++ [p]) i = nth_error (heap s) i).
  { intros s p y i hs e. apply nth_error_app1. eauto. }
  assert (old : forall (s : names) p y, (forall x i, env s x = Some i -> i < length (heap s)) ->
            match env s y with Some i => nth_error (heap s ++ [p]) i | None => None end = object s y).
  { intros s p y hs. unfold object. destruct (env s y) eqn:E; [|reflexivity]. eapply keep; eauto. }
  assert (bound : forall (s : names) p x y i, (forall x i, env s x = Some i -> i < length (heap s)) ->
            bind (env s) x (length (heap s)) y = Some i -> i < length (heap s ++ [p])).
  { intros s p x y i hs. rewrite app_length. cbn [length]. unfold bind. destruct (N.eqb y x).
    - intros e. injection e as <-. lia. - intros e. specialize (hs _ _ e). lia. }
  destruct d as [x gt st dl|k x y f]; cbn [def_builtin def_debug].
  - unfold agree. repeat match goal with |- _ /\ _ => split end.
    + intros z. rewrite !object_bind_new, !old by assumption. now rewrite ho.
    + intros z w i. cbn [env]. unfold bind. destruct (N.eqb_spec z x) as [->|n1], (N.eqb_spec w x) as [->|n2]; auto.
      * intros e1 e2. injection e1 as <-. specialize (hg _ _ e2). lia.
      * intros e1 e2. injection e2 as <-. specialize (hg _ _ e1). lia.
      * apply hinj.
    + intros z i. apply bound. exact hg.
    + intros z i. apply bound. exact hb.
  - cbn in hu. subst y. pose proof (ho x) as e. unfold object in e.
    destruct (env g x) as [j|] eqn:Eg; destruct (env b x) as [i|] eqn:Eb.
    + rewrite e. destruct (nth_error (heap g) j) as [p|] eqn:Ep; [|exact hag]. unfold agree.
      repeat match goal with |- _ /\ _ => split end.
      * intros z. rewrite object_bind_new, old by assumption. unfold object at 2. cbn [env heap]. unfold bind.
        destruct (N.eqb_spec z x) as [->|n].
        { rewrite nth_replace_same; [reflexivity|]. eauto. }
        rewrite ho. unfold object. destruct (env g z) as [w|] eqn:Ez; [|reflexivity].
        symmetry. apply nth_replace_other. intros ->. apply n. now apply (hinj z x w).
      * intros z w q. cbn [env]. unfold bind.
        destruct (N.eqb_spec z x) as [->|n1], (N.eqb_spec w x) as [->|n2]; auto.
        -- intros e1 e2. injection e1 as <-. now apply (hinj x w j).
        -- intros e1 e2. injection e2 as <-. now apply (hinj z x j).
        -- apply hinj.
      * intros z w. cbn [env heap]. rewrite length_replace. unfold bind. destruct (N.eqb z x); [|apply hg].
        intros e'. injection e' as <-. eauto.
      * intros z w. apply bound. exact hb.
    + rewrite <- e. exact hag.
    + rewrite e. exact hag.
    + exact hag.
Qed.

(** Properties which are written the usual way run the same functions. *)
Theorem usual_same ds k x : Forall usual ds -> runs (build def_debug ds) k x = runs (build def_builtin ds) k x.
Proof.
  intros hu. assert (h : agree (build def_builtin ds) (build def_debug ds)).
  { unfold build. assert (h0 : agree no_names no_names) by (unfold agree, no_names; cbn; repeat split; discriminate).
    revert h0. generalize no_names at 1 3 as b. generalize no_names as g. induction hu as [|d ds hd _ IH]; intros g b h0; [exact h0|].
    cbn [fold_left]. apply IH. now apply agree_def. }
  destruct h as (ho & _ & hg & hb). specialize (ho x). specialize (hg x). specialize (hb x).
  unfold object in ho. unfold runs.
  destruct (env (build def_debug ds) x) as [j|], (env (build def_builtin ds) x) as [i|]; auto.
  - now rewrite ho.
  - now rewrite <- ho.
  - now rewrite ho.
Qed.

(** The function for an access, read off the definitions: the last one which was given for that kind since the property was
    made. *)
Definition kind_eqb (a b : kind) : bool :=
  match a, b with Getter, Getter | Setter, Setter | Deleter, Deleter => true | _, _ => false end.

Definition given (k : kind) (x : N) (ds : list def) : option (option N) :=
  fold_left (fun acc d =>
    match d with
    | New y g st dl => if N.eqb x y then Some (match k with Getter => g | Setter => st | Deleter => dl end) else acc
    | With k' y _ f => if N.eqb x y then match acc with None => None | Some o => Some (if kind_eqb k k' then Some f else o) end else acc
    end) ds None.

Lemma runs_app (s : names) e p k x : (forall x i, env s x = Some i -> i < length (heap s)) ->
  runs (Names (heap s ++ [p]) (bind (env s) e (length (heap s)))) k x = if N.eqb x e then Some (accessor k p) else runs s k x.
Proof.
  intros hs. unfold runs, bind. cbn [env heap]. destruct (N.eqb x e).
  - rewrite nth_error_app2 by lia. now rewrite Nat.sub_diag.
  - destruct (env s x) as [i|] eqn:E; [|reflexivity]. rewrite nth_error_app1; [reflexivity|eauto].
Qed.

Lemma bounds_def s d : (forall x i, env s x = Some i -> i < length (heap s)) ->
  forall x i, env (def_builtin s d) x = Some i -> i < length (heap (def_builtin s d)).
Proof.
  intros hs x i. destruct d as [y g st dl|k y z f]; cbn [def_builtin].
  - cbn [env heap]. unfold bind. rewrite app_length. cbn [length]. destruct (N.eqb x y).
    + intros e. injection e as <-. lia.
    + intros e. specialize (hs _ _ e). lia.
  - destruct (env s z) as [j|]; [|apply hs]. destruct (nth_error (heap s) j); [|apply hs].
    cbn [env heap]. unfold bind. rewrite app_length. cbn [length]. destruct (N.eqb x y).
    + intros e. injection e as <-. lia.
    + intros e. specialize (hs _ _ e). lia.
Qed.

(** An access runs the function which was given last. *)
Theorem last_given ds k x : Forall usual ds -> runs (build def_debug ds) k x = given k x ds.
Proof.
  intros hu. rewrite usual_same by exact hu. unfold build, given.
  assert (h : forall s acc, (forall x i, env s x = Some i -> i < length (heap s)) -> runs s k x = acc ->
    runs (fold_left def_builtin ds s) k x =
    fold_left (fun acc d =>
      match d with
      | New y g st dl => if N.eqb x y then Some (match k with Getter => g | Setter => st | Deleter => dl end) else acc
      | With k' y _ f => if N.eqb x y then match acc with None => None | Some o => Some (if kind_eqb k k' then Some f else o) end else acc
      end) ds acc).
  { induction hu as [|d ds hd _ IH]; intros s acc hs hr; [exact hr|]. cbn [fold_left]. apply IH; [now apply bounds_def|].
    destruct d as [y g st dl|k' y z f]; cbn [def_builtin].
    - rewrite runs_app by exact hs. rewrite hr. destruct (N.eqb x y); [|reflexivity]. now destruct k.
    - cbn in hd. subst z. destruct (N.eqb_spec x y) as [<-|n].
      + unfold runs in hr. destruct (env s x) as [i|] eqn:E.
        * destruct (nth_error (heap s) i) as [p|] eqn:Ep.
          { rewrite runs_app by exact hs. rewrite N.eqb_refl, <- hr. now destruct k, k'. }
          rewrite <- hr. unfold runs. now rewrite E, Ep.
        * rewrite <- hr. unfold runs. now rewrite E.
      + destruct (env s y) as [i|] eqn:E; [|exact hr]. destruct (nth_error (heap s) i) as [p|] eqn:Ep; [|exact hr].
        rewrite runs_app by exact hs. destruct (N.eqb_spec x y); [contradiction|exact hr]. }
  apply h; [discriminate|reflexivity].
Qed.

(** The command. *)
Theorem last_switches s cmds c :
  4 <= length c -> Forall (fun c => 4 <= length c) cmds ->
  let s' := fold_left (fun s c => fst (command s c)) (cmds ++ [c]) s in
  (sget s' = true <-> nth 1 c [] = [116; 114; 117; 101]%N) /\ (sset s' = true <-> nth 2 c [] = [116; 114; 117; 101]%N) /\
  (sdel s' = true <-> nth 3 c [] = [116; 114; 117; 101]%N) /\
  (replaced s' = true <-> replaced s = true \/ exists x, In x (cmds ++ [c]) /\ nth 0 x [] = [116; 114; 117; 101]%N).
Proof.
  intros hc hcs. cbn zeta.
  assert (one : forall s c, 4 <= length c -> exists a b e f r, c = a :: b :: e :: f :: r /\
            command s c = (Switches (replaced s || is_true a) (is_true b) (is_true e) (is_true f), false)).
  { intros s0 c0 h. destruct c0 as [|a [|b [|e [|f r]]]]; cbn [length] in h; try lia. exists a, b, e, f, r. split; reflexivity. }
  assert (rep : forall l s, Forall (fun c => 4 <= length c) l ->
            (replaced (fold_left (fun s c => fst (command s c)) l s) = true <->
             replaced s = true \/ exists x, In x l /\ nth 0 x [] = [116; 114; 117; 101]%N)).
  { clear - one. induction l as [|x l IH]; intros s h; cbn [fold_left].
    - split; [auto|]. intros [e|(x & [] & _)]. exact e.
    - inversion h as [|x' l' hx hl]; subst. rewrite (IH _ hl). destruct (one s x hx) as (a & b & e & f & r & -> & ->).
      cbn [fst replaced]. rewrite orb_true_iff. unfold is_true at 1. rewrite str_eqb_eq. split.
      + intros [[h1|h1]|(y & hy & e1)]; [auto| |]; right.
        * exists (a :: b :: e :: f :: r). split; [now left|exact h1].
        * exists y. split; [now right|exact e1].
      + intros [h1|(y & [<-|hy] & e1)]; [auto|left; right; exact e1|right; eauto]. }
  rewrite (rep (cmds ++ [c]) s); [|apply Forall_app; auto]. rewrite fold_left_app. cbn [fold_left].
  destruct (one (fold_left (fun s c => fst (command s c)) cmds s) c hc) as (a & b & e & f & r & -> & ->).
  cbn [fst sget sset sdel nth]. unfold is_true. rewrite !str_eqb_eq. tauto.
Qed.

(** Witnesses and findings. *)

Definition skip_getters (k : kind) : bool := match k with Getter => true | _ => false end.

(** a getter which calls a function, a setter, and a getter which fails *)
Definition example : list act :=
  [Line 1; Use Getter true [Line 10; Call [Line 11]; Line 12]; Line 2; Use Setter true [Line 20]; Use Getter false []; Line 3].

Example example_seen :
  run_debug skip_getters true false example true =
    ([Seen 1 true false; Seen 10 false true; Seen 11 false true; Seen 12 false true; Seen 2 true false; Seen 20 true true], true, true).
Proof. reflexivity. Qed.

Example usual_case : Forall usual [New 1 (Some 10%N) None None; With Setter 1 1 11; New 2 (Some 20%N) None None; With Deleter 2 2 21] /\
  runs (build def_debug [New 1 (Some 10%N) None None; With Setter 1 1 11; New 2 (Some 20%N) None None; With Deleter 2 2 21]) Setter 1
  = Some (Some 11%N).
Proof. split; [repeat constructor|reflexivity]. Qed.

Example enabled_case : Forall (fun k => skip_getters k = false) (flat_map uses [Use Setter true [Line 20; Use Deleter true [Line 21]]]).
Proof. repeat constructor. Qed.

(** Finding: a class which gives a property of its base class a setter gives it to the base class as well. *)
Theorem base_setter_refuted :
  exists ds k x, runs (build def_builtin ds) k x = Some None /\ exists f, runs (build def_debug ds) k x = Some (Some f).
Proof.
  (* 1: A.x, 2: B.x with the decorator A.x.setter *)
  exists [New 1 (Some 10%N) None None; With Setter 2 1 11], Setter, 1%N. split; [reflexivity|]. exists 11%N. reflexivity.
Qed.

(** Finding: abstract properties are not abstract, so that classes which lack them can be instantiated. *)
Theorem abstract_refuted : exists abs p, abstract_builtin abs p = true /\ abstract_debug abs p = false.
Proof. exists (fun _ => true), (Pobj (Some 1%N) None None). split; reflexivity. Qed.

(** Finding: an accessor which is to be skipped is seen if it uses another property: what it calls after that is traced. *)
Theorem nested_refuted :
  exists b, Exists (fun s => inside s = true /\ traced s = true) (lines (run_debug (fun _ => true) true false [Use Getter true b] true)).
Proof.
  exists [Use Getter true [Line 1]; Call [Line 2]]. apply Exists_cons_tl. apply Exists_cons_hd. split; reflexivity.
Qed.

(** Finding: using any property turns tracing on in a thread in which it was off. *)
Theorem turned_on_refuted :
  exists l, on_after (run_builtin false false l false) = false /\ on_after (run_debug (fun _ => false) false false l false) = true.
Proof. exists [Use Getter true [Line 1]]. split; reflexivity. Qed.

(** Finding: a command with three parts is accepted but fails, after it has taken effect for two kinds. *)
Theorem three_parts_refuted : exists s c, snd (command s c) = true /\ fst (command s c) <> s.
Proof.
  exists (Switches false false false false), [[116; 114; 117; 101]%N; [116; 114; 117; 101]%N; []]. split; [reflexivity|discriminate].
Qed.

Print Assumptions program_same.
Print Assumptions outside_seen.
Print Assumptions accessor_skipped.
Print Assumptions enabled_seen.
Print Assumptions usual_same.
Print Assumptions last_given.
Print Assumptions last_switches.
Print Assumptions base_setter_refuted.
Print Assumptions abstract_refuted.
Print Assumptions nested_refuted.
Print Assumptions turned_on_refuted.
Print Assumptions three_parts_refuted.
