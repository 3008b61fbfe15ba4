(** Exceptions travelling through the frames of a thread: theorems (property C66). *)
From Coq Require Import String.
From Coq Require Import List NArith ZArith Bool Arith Lia.
From Verif Require Import Base Dict ExcBreak ExcFlow.
Import ListNotations.
Open Scope nat_scope.
Open Scope list_scope.

(** ** Specification *)

(** The exception is one stops are made for: no accepted exit code, no control flow, not from an import. *)
Definition ordinary (e : env) (x : nat) (tb : list place) : Prop :=
  exit_ok e x = false /\ ~ In (cls e x) (control_flow (cfg e)) /\ (forall p, In p tb -> fimport (fst p) = false).

(** The filters do not hide the frame from the breakpoint. *)
Definition shown (e : env) (b : exb) (f : frame) : Prop :=
  (e_ignore_libs b = true -> fscope f = true) /\ (filters_enabled (cfg e) = true -> fexcl f = false).

(** The exception came through [n] frames before this one: is it the moment for a stop? *)
Definition moment (e : env) (b : exb) (n : nat) : Prop :=
  match e_first_only b, skip_same_context (cfg e) with
  | false, false => True
  | true, false => n = 0
  | false, true => n <> 0
  | true, true => n = 1
  end.

(** Neither the line at which the exception is, nor the one which raised it, is to be ignored. *)
Definition untagged (e : env) (tb : list place) : Prop :=
  honour e = true -> forall t r, tb = t :: r -> tagged e t = false /\ tagged e (last r t) = false.

(** User code called by the thread itself or by code which is not the user's. *)
Definition leaves_user_code (f : frame) (callers : list place) : Prop :=
  ffiltered f = false /\ (callers = [] \/ exists c n r, callers = (c, n) :: r /\ ffiltered c = true).

(** The user unhandled breakpoint applies to the exception leaving [f]. *)
Definition user_applies (e : env) (x : nat) (f : frame) (n : Z) (callers tb : list place) : Prop :=
  ordinary e x tb /\ leaves_user_code f callers /\
  exists b, get_exception_breakpoint (wld e) (cls e x) (user_uncaught (tabs e)) = Some b /\
            shown e b f /\ cond e b (f, n) = true.

(** [p] is the innermost entry of the traceback which the breakpoint's filters show. *)
Definition innermost_shown (e : env) (b : exb) (tb : list place) (p : place) : Prop :=
  exists before after, tb = before ++ p :: after /\ shown e b (fst p) /\ forall q, In q after -> ~ shown e b (fst q).

(** The stop due at an event, for a thread whose code was started by [base]. *)
Inductive due (e : env) (base : list place) : pev -> kind -> nat -> place -> Prop :=
| due_raised : forall x f n callers tb b,
    fskip f = false -> ordinary e x tb ->
    get_exception_breakpoint (wld e) (cls e x) (caught (tabs e)) = Some b ->
    shown e b f -> cond e b (f, n) = true -> moment e b (List.length tb - 1) -> untagged e tb ->
    due e base (PRaise x ((f, n) :: callers) tb) Handled x (f, n)
| due_user : forall x f n callers tb,
    fskip f = false -> user_applies e x f n callers tb -> untagged e tb ->
    due e base (PUnwind x ((f, n) :: callers) tb) UserUnhandledStop x (f, n)
| due_unhandled : forall x f n tb b p,
    fskip f = false -> ~ user_applies e x f n base tb ->
    get_exception_breakpoint (wld e) (cls e x) (uncaught (tabs e)) = Some b ->
    kbd e x = false -> exit_ok e x = false ->
    innermost_shown e b tb p -> cond e b p = true ->
    due e base (PUnwind x ((f, n) :: base) tb) UnhandledStop x p.

(** How threads are started: by a frame of the debugger or of threading, which is skipped, or by nothing. *)
Definition base_ok (base : list place) : Prop :=
  match base with [] => True | (b, _) :: _ => starter b = true /\ fskip b = true end.

(** The code run does not itself go through the functions which start threads and scripts. *)
Definition plain (entry : place) (l : list op) : Prop :=
  starter (fst entry) = false /\ forall f n, In (OCall f n) l -> starter f = false.

Definition is_stop (o : out) : bool := match o with Stopped _ _ _ => true | _ => false end.
Definition is_kind (k : kind) (o : out) : bool :=
  match o, k with
  | Stopped Handled _ _, Handled | Stopped UserUnhandledStop _ _, UserUnhandledStop
  | Stopped UnhandledStop _ _, UnhandledStop => true
  | _, _ => false
  end.

(** ** Decisions *)

Lemma existsb_nat c l : existsb (Nat.eqb c) l = false <-> ~ In c l.
Proof.
  split.
  - intros H I. assert (existsb (Nat.eqb c) l = true); [|congruence]. apply existsb_exists.
    exists c. split; [exact I | apply Nat.eqb_refl].
  - intros H. destruct (existsb (Nat.eqb c) l) eqn:E; [|reflexivity].
    apply existsb_exists in E as (y & I & Q). apply Nat.eqb_eq in Q. subst. contradiction.
Qed.

Lemma existsb_import tb : existsb (fun p : place => fimport (fst p)) tb = false <-> forall p, In p tb -> fimport (fst p) = false.
Proof.
  split.
  - intros H p I. destruct (fimport (fst p)) eqn:E; [|reflexivity].
    assert (existsb (fun p : place => fimport (fst p)) tb = true); [|congruence].
    apply existsb_exists. exists p. auto.
  - intros H. destruct (existsb _ tb) eqn:E; [|reflexivity].
    apply existsb_exists in E as (y & I & Q). rewrite (H y I) in Q. discriminate.
Qed.

Lemma shown_spec e b f v :
  v_in_scope v = fscope f -> v_excluded v = fexcl f -> (excluded (cfg e) v b = false <-> shown e b f).
Proof.
  intros A B. unfold excluded, shown. rewrite A, B.
  destruct (e_ignore_libs b), (filters_enabled (cfg e)), (fscope f), (fexcl f); cbn; intuition congruence.
Qed.

Lemma kept_spec e b p : kept e b p = true <-> shown e b (fst p).
Proof.
  unfold kept, frame_excluded, shown. cbn [f_in_scope f_excluded].
  destruct (e_ignore_libs b), (filters_enabled (cfg e)), (fscope (fst p)), (fexcl (fst p)); cbn; intuition congruence.
Qed.

Lemma boundary_spec f n r : boundary ((f, n) :: r) = true <-> leaves_user_code f r.
Proof.
  unfold boundary, leaves_user_code. destruct r as [|[c m] r].
  - rewrite andb_true_r, negb_true_iff. intuition congruence.
  - rewrite andb_true_iff, negb_true_iff. split.
    + intros [A B]. split; [exact A|]. right. exists c, m, r. auto.
    + intros [A [B | (c' & m' & r' & B & C)]]; [discriminate|]. injection B as -> -> ->. auto.
Qed.

(** [should_stop] on an event whose traceback starts in the frame of the event. *)
Definition raised_applies (e : env) (x : nat) (f : frame) (n : Z) (tb : list place) (b : exb) : Prop :=
  ordinary e x tb /\ get_exception_breakpoint (wld e) (cls e x) (caught (tabs e)) = Some b /\
  shown e b f /\ cond e b (f, n) = true /\ moment e b (List.length tb - 1).

Lemma should_stop_spec e prev x f n callers m tbr :
  let stack := (f, n) :: callers in let tb := (f, m) :: tbr in
  exists stop ev i, should_stop e prev x stack tb = (stop, ev, i) /\
    filter is_stop ev = [] /\
    (stop = true <-> exists b, raised_applies e x f n tb b) /\
    ((user_applies e x f n callers tb /\ i = Some (record_line prev x tb n)) \/
     (~ user_applies e x f n callers tb /\ i = prev)).
Proof.
  intros stack tb. unfold should_stop. subst stack.
  set (v := event_of e x ((f, n) :: callers) tb).
  destruct (should_stop_on_exception (wld e) (cfg e) (tabs e) v) as [[stop b] rec] eqn:S.
  eexists stop, _, _. split; [reflexivity|]. split.
  { destruct b as [b|]; [|reflexivity]. destruct (stop && expr e b); reflexivity. }
  unfold should_stop_on_exception in S.
  change (v_suspended v) with false in S. change (v_trace v) with (Some (List.length tbr)) in S.
  change (v_plugin v) with false in S. change (v_ignored_exit v) with (exit_ok e x) in S.
  change (v_class v) with (cls e x) in S.
  change (v_ignored_trace v) with (existsb (fun p : place => fimport (fst p)) tb) in S.
  cbv beta iota in S.
  assert (L : List.length tb - 1 = List.length tbr) by (subst tb; cbn [List.length]; lia).
  destruct (exit_ok e x) eqn:X.
  { injection S as <- <- <-. unfold raised_applies, user_applies, ordinary. split.
    - split; [discriminate|]. intros (b0 & (A & _) & _). congruence.
    - right. split; [|reflexivity]. intros ((A & _) & _). congruence. }
  destruct (existsb (Nat.eqb (cls e x)) (control_flow (cfg e))) eqn:C.
  { injection S as <- <- <-. unfold raised_applies, user_applies, ordinary.
    assert (N : ~ ~ In (cls e x) (control_flow (cfg e))).
    { intros H. apply existsb_nat in H. congruence. }
    split.
    - split; [discriminate|]. intros (b0 & (_ & A & _) & _). contradiction.
    - right. split; [|reflexivity]. intros ((_ & A & _) & _). contradiction. }
  destruct (existsb (fun p : place => fimport (fst p)) tb) eqn:I.
  { injection S as <- <- <-. unfold raised_applies, user_applies, ordinary.
    assert (N : ~ (forall p, In p tb -> fimport (fst p) = false)).
    { intros H. apply existsb_import in H. congruence. }
    split.
    - split; [discriminate|]. intros (b0 & (_ & _ & A) & _). contradiction.
    - right. split; [|reflexivity]. intros ((_ & _ & A) & _). contradiction. }
  assert (O : ordinary e x tb).
  { split; [exact X|]. split; [apply existsb_nat; exact C | apply existsb_import; exact I]. }
  assert (SH : forall b, excluded (cfg e) v b = false <-> shown e b f).
  { intros b0. apply shown_spec; reflexivity. }
  assert (CO : forall b, v_condition v b = cond e b (f, n)) by reflexivity.
  assert (US : (match get_exception_breakpoint (wld e) (cls e x) (user_uncaught (tabs e)) with
                | Some b0 => snd (check_one (cfg e) v (List.length tbr) b0 true) | None => false end = true)
               <-> user_applies e x f n callers tb).
  { destruct (get_exception_breakpoint (wld e) (cls e x) (user_uncaught (tabs e))) as [u|] eqn:U.
    - unfold check_one. rewrite CO. destruct (excluded (cfg e) v u) eqn:EX.
      + cbn [snd]. split; [discriminate|]. intros (_ & _ & b0 & B & SB & _). rewrite U in B. injection B as <-.
        apply SH in SB. congruence.
      + destruct (cond e u (f, n)) eqn:CU; cbn [negb snd].
        * change (v_user_boundary v) with (boundary ((f, n) :: callers)). rewrite boundary_spec. split.
          -- intros B. split; [exact O|]. split; [exact B|]. exists u. split; [exact U|]. split; [apply SH; exact EX | exact CU].
          -- intros (_ & B & _). exact B.
        * split; [discriminate|]. intros (_ & _ & b0 & B & _ & CB). rewrite U in B. injection B as <-. congruence.
    - split; [discriminate|]. intros (_ & _ & b0 & B & _). congruence. }
  set (rec0 := match get_exception_breakpoint (wld e) (cls e x) (user_uncaught (tabs e)) with
                | Some b0 => snd (check_one (cfg e) v (List.length tbr) b0 true) | None => false end) in *.
  assert (RE : rec = rec0).
  { destruct (get_exception_breakpoint (wld e) (cls e x) (caught (tabs e))) as [c|].
    - destruct (fst (check_one (cfg e) v (List.length tbr) c false)); injection S as <- <- <-; reflexivity.
    - injection S as <- <- <-. reflexivity. }
  split.
  - destruct (get_exception_breakpoint (wld e) (cls e x) (caught (tabs e))) as [c|] eqn:CC.
    + assert (ST : stop = fst (check_one (cfg e) v (List.length tbr) c false)).
      { destruct (fst (check_one (cfg e) v (List.length tbr) c false)); injection S as <- <- <-; reflexivity. }
      rewrite ST. unfold check_one. rewrite CO.
      destruct (excluded (cfg e) v c) eqn:EX.
      { cbn [fst]. split; [discriminate|]. intros (b0 & _ & B & SB & _). rewrite CC in B. injection B as <-.
        apply SH in SB. congruence. }
      destruct (cond e c (f, n)) eqn:CU; cbn [negb fst].
      2: { split; [discriminate|]. intros (b0 & _ & B & _ & CB & _). rewrite CC in B. injection B as <-. congruence. }
      assert (M : moment e c (List.length tbr) <-> exists b0, raised_applies e x f n tb b0).
      { split.
        - intros M. exists c. split; [exact O|]. split; [exact CC|]. split; [apply SH; exact EX|]. split; [exact CU|].
          change (moment e c (List.length tb - 1)). rewrite L. exact M.
        - intros (b0 & _ & B & _ & _ & MM). rewrite CC in B. injection B as <-.
          change (moment e c (List.length tb - 1)) in MM. rewrite L in MM. exact MM. }
      rewrite <- M. unfold moment.
      destruct (e_first_only c), (skip_same_context (cfg e)); cbn [andb negb];
        destruct (Nat.eqb_spec (List.length tbr) 0) as [E0|E0]; cbn [andb negb fst];
        try (destruct (Nat.eqb_spec (List.length tbr) 1) as [E1|E1]; cbn [andb negb fst]);
        try rewrite E0; try rewrite E1; cbn [andb negb fst Nat.eqb]; intuition (try congruence; try lia).
    + injection S as <- <- <-. split; [discriminate|]. intros (b0 & _ & B & _). congruence.
  - rewrite RE. destruct rec0.
    + left. split; [apply US; reflexivity | reflexivity].
    + right. split; [|reflexivity]. intros H. apply US in H. discriminate.
Qed.

(** ** One event *)

Definition exact (e : env) (base : list place) (v : pev) (o : list out) : Prop :=
  (forall k x p, In (Stopped k x p) o <-> due e base v k x p) /\ List.length (filter is_stop o) <= 1.

Lemma handle_spec e k x p t r :
  (untagged e (t :: r) /\ handle_exception e k x p (t :: r) = [Stopped k x p]) \/
  (~ untagged e (t :: r) /\ handle_exception e k x p (t :: r) = []).
Proof.
  unfold handle_exception, untagged. destruct (honour e); cbn [andb].
  - destruct (tagged e t) eqn:A; cbn [orb].
    + right. split; [|reflexivity]. intros H. destruct (H eq_refl t r eq_refl) as [B _]. congruence.
    + destruct (tagged e (last r t)) eqn:B.
      * right. split; [|reflexivity]. intros H. destruct (H eq_refl t r eq_refl) as [_ C]. congruence.
      * left. split; [|reflexivity]. intros _ t' r' Q. injection Q as <- <-. auto.
  - left. split; [discriminate|reflexivity].
Qed.

Lemma none_stop ev k x p : filter is_stop ev = [] -> ~ In (Stopped k x p) ev.
Proof.
  intros H I. assert (In (Stopped k x p) (filter is_stop ev)) by (apply filter_In; auto). rewrite H in H0. exact H0.
Qed.

Lemma in_app_none ev o k x p : filter is_stop ev = [] -> (In (Stopped k x p) (ev ++ o) <-> In (Stopped k x p) o).
Proof.
  intros H. rewrite in_app_iff. split; [intros [A|A]; [exfalso; exact (none_stop _ _ _ _ H A) | exact A] | auto].
Qed.

Lemma tracks_none e : tracks_caught e = false -> caught (tabs e) = [] /\ user_uncaught (tabs e) = [].
Proof.
  unfold tracks_caught. destruct (caught (tabs e)); [|discriminate].
  destruct (user_uncaught (tabs e)); [auto|discriminate].
Qed.

Lemma raise_event_exact e base m x f n callers k tbr :
  exact e base (PRaise x ((f, n) :: callers) ((f, k) :: tbr)) (snd (raise_event e m x ((f, n) :: callers) ((f, k) :: tbr)))
  /\ m_cache (fst (raise_event e m x ((f, n) :: callers) ((f, k) :: tbr))) = m_cache m.
Proof.
  unfold raise_event. cbn [fst].
  destruct (tracks_caught e) eqn:T; cbn [negb orb].
  2: { split; [|reflexivity]. split; [|cbn; lia]. intros k0 x0 p. split; [intros []|]. intros D.
       inversion D; subst. destruct (tracks_none e T) as [A _]. rewrite A in *. discriminate. }
  destruct (fskip f) eqn:SK.
  { split; [|reflexivity]. split; [|cbn; lia]. intros k0 x0 p. split; [intros []|]. intros D. inversion D; subst. congruence. }
  destruct (should_stop_spec e (m_prev m) x f n callers k tbr) as (stop & ev & i & E & EV & ST & _).
  rewrite E. cbn [fst snd m_cache]. split; [|reflexivity].
  destruct stop.
  - destruct (handle_spec e Handled x (f, n) (f, k) tbr) as [[U H]|[U H]]; rewrite H.
    + split.
      * intros k0 x0 p. rewrite in_app_none by exact EV. split.
        -- intros [Q|[]]. injection Q as <- <- <-. destruct (proj1 ST eq_refl) as (b & O & B & S & C & M).
           eapply due_raised; eassumption.
        -- intros D. inversion D; subst. left. reflexivity.
      * rewrite filter_app, EV. cbn. lia.
    + split.
      * intros k0 x0 p. rewrite in_app_none by exact EV. split; [intros []|]. intros D. inversion D; subst. contradiction.
      * rewrite filter_app, EV. cbn. lia.
  - split.
    + intros k0 x0 p. rewrite in_app_none by exact EV. split; [intros []|]. intros D. inversion D; subst.
      assert (false = true); [|discriminate]. apply ST. exists b. repeat (split; [assumption|]). assumption.
    + rewrite filter_app, EV. cbn. lia.
Qed.

Lemma last_kept_spec e b tb :
  (exists p, last_kept (kept e b) tb = Some p /\ innermost_shown e b tb p) \/
  (last_kept (kept e b) tb = None /\ forall q, In q tb -> ~ shown e b (fst q)).
Proof.
  induction tb as [|t r IH]; [right; split; [reflexivity | intros q []]|].
  cbn [last_kept]. destruct IH as [(p & E & bf & af & T & S & A)|(E & N)].
  - left. exists p. rewrite E. split; [reflexivity|]. exists (t :: bf), af. subst r. auto.
  - rewrite E. destruct (kept e b t) eqn:K.
    + left. exists t. split; [reflexivity|]. exists [], r. split; [reflexivity|]. split; [apply kept_spec; exact K | exact N].
    + right. split; [reflexivity|]. intros q [<-|I]; [|apply N; exact I]. intros S. apply kept_spec in S. congruence.
Qed.

Lemma innermost_unique e b tb p q : innermost_shown e b tb p -> innermost_shown e b tb q -> p = q.
Proof.
  intros (b1 & a1 & T1 & S1 & A1) (b2 & a2 & T2 & S2 & A2). rewrite T1 in T2. clear T1 tb.
  revert b2 T2. induction b1 as [|x b1 IH]; intros [|y b2] T2; cbn [app] in T2.
  - injection T2 as -> _. reflexivity.
  - injection T2 as _ T. exfalso. apply (A1 q); [rewrite T; apply in_elt | exact S2].
  - injection T2 as _ T. exfalso. apply (A2 p); [rewrite <- T; apply in_elt | exact S1].
  - injection T2 as _ T. exact (IH b2 T).
Qed.

Lemma stop_unhandled_spec e x tb :
  List.length (filter is_stop (stop_unhandled e x tb)) <= 1 /\
  forall k y p, In (Stopped k y p) (stop_unhandled e x tb) <->
    (k = UnhandledStop /\ y = x /\ exists b, get_exception_breakpoint (wld e) (cls e x) (uncaught (tabs e)) = Some b /\
      kbd e x = false /\ exit_ok e x = false /\ innermost_shown e b tb p /\ cond e b p = true).
Proof.
  unfold stop_unhandled. destruct (get_exception_breakpoint (wld e) (cls e x) (uncaught (tabs e))) as [b|].
  2: { split; [cbn; lia|]. intros k y p. split; [intros []|]. intros (_ & _ & b & B & _). discriminate. }
  destruct tb as [|t r].
  { split; [cbn; lia|]. intros k y p. split; [intros []|]. intros (_ & _ & b0 & _ & _ & _ & (bf & af & T & _) & _).
    destruct bf; discriminate. }
  destruct (kbd e x) eqn:K.
  { split; [cbn; lia|]. intros k y p. split; [intros []|]. intros (_ & _ & b0 & _ & Q & _). congruence. }
  destruct (exit_ok e x) eqn:X.
  { split; [cbn; lia|]. intros k y p. split; [intros []|]. intros (_ & _ & b0 & _ & _ & Q & _). congruence. }
  destruct (last_kept_spec e b (t :: r)) as [(p & E & I)|(E & N)]; rewrite E.
  - destruct (cond e b p) eqn:C.
    + split.
      * rewrite filter_app. destruct (expr e b); cbn; lia.
      * intros k y q. rewrite in_app_none by (destruct (expr e b); reflexivity). split.
        -- intros [Q|[]]. injection Q as <- <- <-. split; [reflexivity|]. split; [reflexivity|]. exists b. auto.
        -- intros (-> & -> & b0 & B & _ & _ & I0 & _). injection B as <-. rewrite (innermost_unique _ _ _ _ _ I0 I). left. reflexivity.
    + split; [cbn; lia|]. intros k y q. split; [intros []|]. intros (_ & _ & b0 & B & _ & _ & I0 & C0). injection B as <-.
      rewrite (innermost_unique _ _ _ _ _ I0 I) in C0. congruence.
  - split; [cbn; lia|]. intros k y q. split; [intros []|]. intros (_ & _ & b0 & B & _ & _ & (bf & af & T & S & _) & _).
    injection B as <-. apply (N q); [rewrite T; apply in_elt | exact S].
Qed.

(** What the cache of the frame of unhandled exceptions may hold in a thread entered through frame [n]. *)
Definition cache_ok (n : nat) (m : mon) : Prop :=
  match m_cache m with None => True | Some (_, f) => f = Some n end.

Lemma user_dec e x f n callers k tbr : {user_applies e x f n callers ((f, k) :: tbr)} + {~ user_applies e x f n callers ((f, k) :: tbr)}.
Proof.
  assert (D := should_stop_spec e None x f n callers k tbr). cbv beta zeta in D.
  destruct (should_stop e None x ((f, n) :: callers) ((f, k) :: tbr)) as [[s ev] [i|]] eqn:E.
  - left. destruct D as (s' & ev' & i' & Q & _ & _ & D). injection Q as <- <- <-. destruct D as [[A _]|[_ A]]; [exact A | discriminate].
  - right. destruct D as (s' & ev' & i' & Q & _ & _ & D). injection Q as <- <- <-. destruct D as [[_ A]|[A _]]; [discriminate | exact A].
Qed.

Lemma is_unhandled_own infos n : is_unhandled infos n n [n] = true.
Proof. unfold is_unhandled, zmem. cbn [existsb]. rewrite Z.eqb_refl. reflexivity. Qed.

Lemma unwind_event_exact e base m x f n callers k tbr entry :
  cache_ok entry m -> walk None ((f, n) :: callers) = Some entry -> (fid f = entry <-> callers = base) ->
  exact e base (PUnwind x ((f, n) :: callers) ((f, k) :: tbr)) (snd (unwind_event e m x ((f, n) :: callers) ((f, k) :: tbr)))
  /\ cache_ok entry (fst (unwind_event e m x ((f, n) :: callers) ((f, k) :: tbr))).
Proof.
  intros CK W ID. unfold unwind_event. cbn [fst].
  destruct (fskip f) eqn:SK.
  { split; [|exact CK]. split; [|cbn; lia]. intros k0 x0 p. split; [intros []|]. intros D. inversion D; subst; congruence. }
  set (tb := (f, k) :: tbr). set (stack := (f, n) :: callers).
  assert (REST : ~ user_applies e x f n callers tb -> forall ev, filter is_stop ev = [] ->
    let r := (if nonempty (uncaught (tabs e))
            then let '(g, m') := unhandled_frame m x stack in
                 match g with
                 | Some q => if Nat.eqb (fid f) q then (m', ev ++ stop_unhandled e x tb) else (m', ev)
                 | None => (m', ev)
                 end
            else (m, ev)) in
    exact e base (PUnwind x stack tb) (snd r) /\ cache_ok entry (fst r)).
  { intros NU ev EV r. subst r. destruct (nonempty (uncaught (tabs e))) eqn:NE.
    - assert (UF : exists m', unhandled_frame m x stack = (Some entry, m') /\ cache_ok entry m').
      { unfold unhandled_frame. unfold cache_ok in CK. fold stack in W. rewrite W. destruct (m_cache m) as [[y g]|] eqn:MC.
        - destruct (Nat.eqb x y).
          + rewrite CK. exists m. split; [reflexivity|]. unfold cache_ok. rewrite MC. exact CK.
          + eexists. split; [reflexivity|]. reflexivity.
        - eexists. split; [reflexivity|]. reflexivity. }
      destruct UF as (m' & UF & CK'). rewrite UF.
      destruct (stop_unhandled_spec e x tb) as [L S].
      destruct (Nat.eqb_spec (fid f) entry) as [F|F]; cbn [fst snd].
      + split; [|exact CK']. apply ID in F. subst callers. split.
        * intros k0 x0 p. rewrite in_app_none by exact EV. rewrite S. split.
          -- intros (-> & -> & b & B & K & X & I & C). eapply due_unhandled; eassumption.
          -- intros D. inversion D; subst; [contradiction|]. split; [reflexivity|]. split; [reflexivity|]. exists b. auto.
        * rewrite filter_app, EV. exact L.
      + split; [|exact CK']. split; [|rewrite EV; cbn; lia].
        intros k0 x0 p. split; [intros I; exfalso; exact (none_stop _ _ _ _ EV I)|]. intros D. inversion D; subst; [contradiction|].
        exfalso. apply F. apply ID. reflexivity.
    - cbn [fst snd]. split; [|exact CK]. split; [|rewrite EV; cbn; lia].
      intros k0 x0 p. split; [intros I; exfalso; exact (none_stop _ _ _ _ EV I)|]. intros D. inversion D; subst; [contradiction|].
      destruct (uncaught (tabs e)); [|discriminate]. discriminate. }
  destruct (tracks_caught e) eqn:T.
  - destruct (should_stop_spec e None x f n callers k tbr) as (stop & ev & i & E & EV & _ & UU).
    fold stack tb in E. rewrite E. destruct UU as [[UA ->]|[NU ->]].
    + cbn [record_line i_line i_lines i_exc i_tb snd]. rewrite is_unhandled_own. cbn [fst snd i_exc i_tb]. split; [|exact CK].
      destruct (handle_spec e UserUnhandledStop x (f, n) (f, k) tbr) as [[U H]|[U H]]; fold tb in H, U |- *; rewrite H; split.
      * intros k0 x0 p. rewrite in_app_none by exact EV. split.
        -- intros [Q|[]]. injection Q as <- <- <-. apply due_user; assumption.
        -- intros D. inversion D; subst; [left; reflexivity | contradiction].
      * rewrite filter_app, EV. cbn. lia.
      * intros k0 x0 p. rewrite in_app_none by exact EV. split; [intros []|]. intros D. inversion D; subst; contradiction.
      * rewrite filter_app, EV. cbn. lia.
    + exact (REST NU ev EV).
  - assert (NU : ~ user_applies e x f n callers tb).
    { intros (_ & _ & b & B & _). destruct (tracks_none e T) as [_ A]. rewrite A in B. discriminate. }
    exact (REST NU [] eq_refl).
Qed.

(** ** Whole executions *)

Record inv (entry : frame) (p : prog) : Prop := Inv {
  inv_plain : forall q, In q (stk p) -> starter (fst q) = false;
  inv_ids : NoDup (ids (stk p));
  inv_seen : forall i, In i (ids (stk p)) -> In i (seen p);
  inv_entry : stk p = [] \/ exists r n, stk p = r ++ [(entry, n)];
  inv_tb : forall x, flying p = Some x -> exists f n r k tbr, stk p = (f, n) :: r /\ tbs p x = (f, k) :: tbr
}.

Definition wf_ev (base : list place) (entry : frame) (v : pev) : Prop :=
  match v with
  | PRaise x s tb => exists f n c k r, s = (f, n) :: c /\ tb = (f, k) :: r
  | PUnwind x s tb => exists f n c k r, s = (f, n) :: c /\ tb = (f, k) :: r /\
      walk None s = Some (fid entry) /\ (fid f = fid entry <-> c = base)
  | PReturn _ _ => True
  end.

Lemma walk_entry base entry n l : base_ok base -> starter entry = false ->
  forall g, (forall q, In q l -> starter (fst q) = false) -> walk g (l ++ (entry, n) :: base) = Some (fid entry).
Proof.
  intros B E. induction l as [|[f m] l IH]; intros g H.
  - cbn [app walk]. rewrite E. destruct base as [|[b k] base]; [reflexivity|]. cbn [walk]. destruct B as [-> _]. reflexivity.
  - cbn [app walk]. pose proof (H (f, m) (or_introl eq_refl)) as Hf. cbn [fst] in Hf. rewrite Hf.
    apply IH. intros q I. apply H. right. exact I.
Qed.

Lemma app_own {A} (r base : list A) : r ++ base = base -> r = [].
Proof. intros H. apply (f_equal (@List.length A)) in H. rewrite app_length in H. destruct r; [reflexivity | cbn in H; lia]. Qed.

Lemma entry_line (entry f : frame) (n m : Z) r r0 n0 :
  ((f, n) :: r : list place) = r0 ++ [(entry, n0)] -> exists r1 n1, ((f, m) :: r : list place) = r1 ++ [(entry, n1)].
Proof.
  destruct r0 as [|[g k] r0]; cbn [app]; intros H.
  - injection H as -> -> ->. exists [], m. reflexivity.
  - injection H as -> -> ->. exists ((g, m) :: r0), n0. reflexivity.
Qed.

Lemma upd_same t x l : upd t x l x = l.
Proof. unfold upd. rewrite Nat.eqb_refl. reflexivity. Qed.

Lemma pstep_inv base entry p o :
  base_ok base -> starter entry = false -> inv entry p ->
  (forall f n, o = OCall f n -> starter f = false) ->
  inv entry (fst (pstep base p o)) /\ Forall (wf_ev base entry) (snd (pstep base p o)).
Proof.
  intros B SE I OK. pose proof I as [IP IN IS IE IT]. destruct p as [s fl t sn]. cbn [stk flying tbs seen] in *.
  unfold pstep. cbn [stk flying tbs seen].
  destruct o as [f n|n|b|x|n|x n|]; (destruct s as [|[tf tn] r]; [split; [exact I | constructor]|]); destruct fl as [y|];
    try (split; [exact I | constructor]).
  - destruct (existsb (Nat.eqb (fid f)) sn) eqn:EX; [split; [exact I | constructor]|].
    apply existsb_nat in EX. split; [|constructor]. cbn [fst]. constructor; cbn [stk flying tbs seen].
    + intros q [<-|Q]; [exact (OK f n eq_refl) | exact (IP q Q)].
    + cbn [ids map fst] in *. constructor; [|exact IN]. intros Q. apply EX. apply IS. exact Q.
    + cbn [ids map fst]. intros i [<-|Q]; [left; reflexivity | right; apply IS; exact Q].
    + right. destruct IE as [IE|(r0 & n0 & IE)]; [discriminate|]. exists ((f, n) :: r0), n0. rewrite IE. reflexivity.
    + discriminate.
  - split; [|constructor]. cbn [fst]. constructor; cbn [stk flying tbs seen].
    + intros q [<-|Q]; [exact (IP (tf, tn) (or_introl eq_refl)) | exact (IP q (or_intror Q))].
    + exact IN.
    + exact IS.
    + right. destruct IE as [IE|(r0 & n0 & IE)]; [discriminate|]. exact (entry_line _ _ _ _ _ _ _ IE).
    + discriminate.
  - split; [|constructor; [exact Logic.I | constructor]]. cbn [fst]. constructor; cbn [stk flying tbs seen].
    + intros q Q. exact (IP q (or_intror Q)).
    + cbn [ids map] in IN. inversion IN; assumption.
    + intros i Q. apply IS. right. exact Q.
    + destruct IE as [IE|(r0 & n0 & IE)]; [discriminate|]. apply (f_equal (@tl _)) in IE.
      destruct r0 as [|q0 r0]; cbn [app tl] in IE; rewrite IE.
      * left. reflexivity.
      * right. exists r0, n0. reflexivity.
    + discriminate.
  - split.
    + cbn [fst]. constructor; cbn [stk flying tbs seen]; try assumption.
      intros z Q. injection Q as <-. rewrite upd_same. exists tf, tn, r, tn, (t x). auto.
    + constructor; [|constructor]. exists tf, tn, (r ++ base), tn, (t x). auto.
  - split; [|constructor]. cbn [fst]. constructor; cbn [stk flying tbs seen].
    + intros q [<-|Q]; [exact (IP (tf, tn) (or_introl eq_refl)) | exact (IP q (or_intror Q))].
    + exact IN.
    + exact IS.
    + right. destruct IE as [IE|(r0 & n0 & IE)]; [discriminate|]. exact (entry_line _ _ _ _ _ _ _ IE).
    + discriminate.
  - destruct (t x) as [|[g k] tr] eqn:TX; [split; [exact I | constructor]|].
    destruct (frame_eq_dec g tf) as [->|NE]; [|split; [exact I | constructor]].
    split; [|constructor]. cbn [fst]. constructor; cbn [stk flying tbs seen].
    + intros q [<-|Q]; [exact (IP (tf, tn) (or_introl eq_refl)) | exact (IP q (or_intror Q))].
    + exact IN.
    + exact IS.
    + right. destruct IE as [IE|(r0 & n0 & IE)]; [discriminate|]. exact (entry_line _ _ _ _ _ _ _ IE).
    + intros z Q. injection Q as <-. rewrite TX. exists tf, n, r, k, tr. auto.
  - destruct (IT y eq_refl) as (f & n & r' & k & tbr & S & TB). injection S as <- <- <-.
    assert (WU : wf_ev base entry (PUnwind y (((tf, tn) :: r) ++ base) (t y))).
    { exists tf, tn, (r ++ base), k, tbr. split; [reflexivity|]. split; [exact TB|].
      destruct IE as [IE|(r0 & n0 & IE)]; [discriminate|]. split.
      - rewrite IE, <- app_assoc. apply walk_entry; [exact B | exact SE |].
        intros q Q. apply IP. rewrite IE. apply in_or_app. left. exact Q.
      - destruct r0 as [|[g0 k0] r0]; cbn [app] in IE; injection IE as E1 E2 E3.
        + subst. cbn [app]. split; reflexivity.
        + subst g0 k0 r. split.
          * intros Q. exfalso. cbn [ids map fst] in IN. inversion IN as [|? ? NI _]; subst. apply NI.
            rewrite Q. apply in_map_iff. exists (entry, n0). split; [reflexivity | apply in_elt].
          * intros Q. apply app_own in Q. destruct r0; discriminate. }
    destruct (r ++ base) as [|[cf cn] rb] eqn:RB.
    + split; [|constructor; [exact WU | constructor]]. cbn [fst]. constructor; cbn [stk flying tbs seen].
      * intros q [].
      * constructor.
      * intros i [].
      * left. reflexivity.
      * discriminate.
    + split.
      * cbn [fst]. constructor; cbn [stk flying tbs seen].
        -- intros q Q. exact (IP q (or_intror Q)).
        -- cbn [ids map] in IN. inversion IN; assumption.
        -- intros i Q. apply IS. right. exact Q.
        -- destruct IE as [IE|(r0 & n0 & IE)]; [discriminate|]. apply (f_equal (@tl _)) in IE.
      destruct r0 as [|q0 r0]; cbn [app tl] in IE; rewrite IE.
           ++ left. reflexivity.
           ++ right. exists r0, n0. reflexivity.
        -- intros z Q. destruct r as [|[f1 n1] r1]; [discriminate|]. injection Q as <-.
           cbn [app] in RB. injection RB as -> -> _. rewrite upd_same. exists cf, cn, r1, cn, (t y). auto.
      * constructor; [exact WU|]. constructor; [|constructor]. exists cf, cn, rb, cn, (t y). auto.
Qed.

Lemma prun_inv base entry l : base_ok base -> starter entry = false ->
  forall p, inv entry p -> (forall f n, In (OCall f n) l -> starter f = false) ->
  inv entry (fst (prun base p l)) /\ Forall (wf_ev base entry) (snd (prun base p l)).
Proof.
  intros B SE. induction l as [|o l IH]; intros p I OK; [split; [exact I | constructor]|].
  cbn [prun]. destruct (pstep_inv base entry p o B SE I) as [I1 F1].
  { intros f n ->. apply (OK f n). left. reflexivity. }
  destruct (pstep base p o) as [p1 e1]. cbn [fst snd] in *.
  destruct (IH p1 I1) as [I2 F2]. { intros f n H. apply (OK f n). right. exact H. }
  destruct (prun base p1 l) as [p2 e2]. cbn [fst snd] in *. split; [exact I2|]. apply Forall_app. auto.
Qed.

Lemma start_inv base entry n : starter entry = false -> inv entry (start base (entry, n)).
Proof.
  intros S. constructor; cbn [start stk flying tbs].
  - intros q [<-|[]]. exact S.
  - cbn. constructor; [intros []|constructor].
  - cbn. intros i [<-|[]]. left. reflexivity.
  - right. exists [], n. reflexivity.
  - discriminate.
Qed.

Lemma mstep_exact e base entry m v :
  cache_ok (fid entry) m -> wf_ev base entry v ->
  exact e base v (snd (mstep e m v)) /\ cache_ok (fid entry) (fst (mstep e m v)).
Proof.
  intros CK W. destruct v as [x s tb|x s tb|b s]; cbn [wf_ev mstep] in *.
  - destruct W as (f & n & c & k & r & -> & ->). destruct (raise_event_exact e base m x f n c k r) as [A B].
    split; [exact A|]. unfold cache_ok in *. rewrite B. exact CK.
  - destruct W as (f & n & c & k & r & -> & -> & WK & ID). apply unwind_event_exact; assumption.
  - split; [|exact CK]. split; [|cbn; lia]. intros k x p. split; [intros []|]. intros D. inversion D.
Qed.

Lemma mrun_exact e base entry l : forall m, cache_ok (fid entry) m -> Forall (wf_ev base entry) l ->
  exists los, snd (mrun e m l) = List.concat los /\ Forall2 (exact e base) l los.
Proof.
  induction l as [|v l IH]; intros m CK F; [exists []; split; [reflexivity | constructor]|].
  inversion F as [|? ? W F']; subst. destruct (mstep_exact e base entry m v CK W) as [A B].
  cbn [mrun]. destruct (mstep e m v) as [m1 o1]. cbn [fst snd] in *. destruct (IH m1 B F') as (los & E & G).
  destruct (mrun e m1 l) as [m2 o2]. cbn [fst snd] in *. exists (o1 :: los). split; [cbn [List.concat]; rewrite E; reflexivity|].
  constructor; assumption.
Qed.

(** For every execution of a thread: at each event the stops are exactly those due there, whatever was raised,
    caught and raised again before. *)
Theorem flow_stops : forall e base entry l,
  base_ok base -> plain entry l ->
  exists los, snd (session e mon0 base entry l) = List.concat los /\
    Forall2 (exact e base) (snd (prun base (start base entry) l)) los.
Proof.
  intros e base [entry n] l B [SE OK]. cbn [fst] in SE.
  apply (mrun_exact e base entry); [exact Logic.I|].
  apply (prun_inv base entry l B SE (start base (entry, n)) (start_inv base entry n SE) OK).
Qed.

(** *** Unhandled exceptions *)

Lemma mrun_app e l1 l2 : forall m, mrun e m (l1 ++ l2) =
  (fst (mrun e (fst (mrun e m l1)) l2), snd (mrun e m l1) ++ snd (mrun e (fst (mrun e m l1)) l2)).
Proof.
  induction l1 as [|v l1 IH]; intros m; cbn [app mrun fst snd]; [destruct (mrun e m l2); reflexivity|].
  destruct (mstep e m v) as [m1 o1]. rewrite IH. destruct (mrun e m1 l1) as [m2 o2]. cbn [fst snd].
  rewrite app_assoc. reflexivity.
Qed.

Lemma prun_app base l1 l2 : forall p, prun base p (l1 ++ l2) =
  (fst (prun base (fst (prun base p l1)) l2), snd (prun base p l1) ++ snd (prun base (fst (prun base p l1)) l2)).
Proof.
  induction l1 as [|v l1 IH]; intros m; cbn [app prun fst snd]; [destruct (prun base m l2); reflexivity|].
  destruct (pstep base m v) as [m1 o1]. rewrite IH. destruct (prun base m1 l1) as [m2 o2]. cbn [fst snd].
  rewrite app_assoc. reflexivity.
Qed.

Lemma prun_done base l : forall p, stk p = [] -> snd (prun base p l) = [] /\ stk (fst (prun base p l)) = [].
Proof.
  induction l as [|o l IH]; intros p H; cbn [prun]; [auto|].
  assert (S : pstep base p o = (p, [])).
  { unfold pstep. rewrite H. destruct o; reflexivity. }
  rewrite S. destruct (IH p H) as [A C]. destruct (prun base p l) as [p2 e2]. cbn [fst snd] in *. subst e2. auto.
Qed.

(** The exception leaves the first frame of the thread's code. *)
Definition leaves (base : list place) (v : pev) : bool :=
  match v with PUnwind _ s _ => Nat.eqb (List.length s) (S (List.length base)) | _ => false end.

Lemma pstep_leaves base p o : stk (fst (pstep base p o)) <> [] -> forall v, In v (snd (pstep base p o)) -> leaves base v = false.
Proof.
  destruct p as [s fl t sn]. unfold pstep. cbn [stk flying tbs seen].
  destruct o as [f n|n|b|x|n|x n|]; destruct s as [|[tf tn] r]; cbn [fst snd stk]; try (intros _ v C; solve [destruct C]);
    destruct fl as [y|]; cbn [fst snd stk]; try (intros _ v C; solve [destruct C]).
  - destruct (existsb _ _); intros _ v [].
  - intros _ v [<-|[]]. reflexivity.
  - intros _ v [<-|[]]. reflexivity.
  - destruct (t x) as [|[g k] tr]; [intros _ v []|]. destruct (frame_eq_dec g tf); intros _ v [].
  - destruct (r ++ base) as [|c rb] eqn:E; cbn [fst snd stk]; [intros H; contradiction H; reflexivity|].
    intros H v [<-|[<-|[]]]; [|reflexivity]. cbn [leaves app]. rewrite E.
    apply Nat.eqb_neq. intros Q. cbn [List.length] in Q. injection Q as Q. apply H.
    assert (List.length (r ++ base) = List.length base) by (rewrite E; exact Q).
    rewrite app_length in H0. destruct r; [reflexivity | cbn in H0; lia].
Qed.

Lemma pstep_events base p o : List.length (filter (leaves base) (snd (pstep base p o))) <= 1.
Proof.
  destruct p as [s fl t sn]. unfold pstep. cbn [stk flying tbs seen].
  destruct o as [f n|n|b|x|n|x n|]; destruct s as [|[tf tn] r]; cbn [fst snd stk]; try (cbn; lia);
    destruct fl as [y|]; cbn [fst snd stk]; try (cbn; lia).
  - destruct (existsb _ _); cbn; lia.
  - destruct (t x) as [|[g k] tr]; [cbn; lia|]. destruct (frame_eq_dec g tf); cbn; lia.
  - destruct (r ++ base) as [|c rb] eqn:E; cbn [fst snd stk filter].
    + destruct (leaves base _); cbn; lia.
    + destruct (leaves base (PUnwind y (((tf, tn) :: r) ++ base) (t y))); cbn; lia.
Qed.

Lemma prun_leaves base l : forall p,
  (stk (fst (prun base p l)) <> [] -> filter (leaves base) (snd (prun base p l)) = []) /\
  List.length (filter (leaves base) (snd (prun base p l))) <= 1.
Proof.
  induction l as [|o l IH]; intros p; cbn [prun]; [cbn; split; [reflexivity | lia]|].
  destruct (pstep base p o) as [p1 e1] eqn:P.
  destruct (stk p1) as [|q r] eqn:S1.
  - pose proof (prun_done base l p1 S1) as [D1 D2]. pose proof (pstep_events base p o) as L. rewrite P in L.
    destruct (prun base p1 l) as [p2 e2]. cbn [fst snd] in *. subst e2. rewrite app_nil_r. split; [contradiction | exact L].
  - pose proof (pstep_leaves base p o) as L. rewrite P in L. cbn [fst snd] in L. rewrite S1 in L.
    destruct (IH p1) as [A C]. destruct (prun base p1 l) as [p2 e2]. cbn [fst snd] in *. rewrite filter_app.
    assert (E1 : filter (leaves base) e1 = []).
    { assert (N : forall v, In v e1 -> leaves base v = false) by (apply L; discriminate). clear -N.
      induction e1 as [|v e1 IH]; [reflexivity|]. cbn [filter]. rewrite (N v (or_introl eq_refl)). apply IH. intros u H. apply N. right. exact H. }
    rewrite E1. cbn [app]. split; [exact A | exact C].
Qed.

Lemma exact_kind e base v o :
  exact e base v o -> leaves base v = false -> filter (is_kind UnhandledStop) o = [].
Proof.
  intros [D _] L. destruct (filter (is_kind UnhandledStop) o) as [|q r] eqn:E; [reflexivity|].
  assert (I : In q (filter (is_kind UnhandledStop) o)) by (rewrite E; left; reflexivity).
  apply filter_In in I as [I K]. destruct q as [k x p|]; [|discriminate]. destruct k; try discriminate.
  apply D in I. inversion I; subst. cbn [leaves List.length] in L. rewrite Nat.eqb_refl in L. discriminate.
Qed.

Lemma kind_le k o : List.length (filter (is_kind k) o) <= List.length (filter is_stop o).
Proof.
  induction o as [|q o IH]; [cbn; lia|]. cbn [filter]. destruct q as [k' x p|b p].
  - cbn [is_stop]. destruct (is_kind k (Stopped k' x p)); cbn [List.length]; lia.
  - destruct k; cbn; exact IH.
Qed.

Lemma concat_unhandled e base evs los :
  Forall2 (exact e base) evs los ->
  List.length (filter (is_kind UnhandledStop) (List.concat los)) <= List.length (filter (leaves base) evs).
Proof.
  intros F. induction F as [|v o evs los X F IH]; [cbn; lia|].
  cbn [List.concat filter]. rewrite filter_app, app_length. destruct (leaves base v) eqn:L; cbn [List.length].
  - pose proof (kind_le UnhandledStop o). destruct X as [_ X]. lia.
  - rewrite (exact_kind e base v o X L). exact IH.
Qed.

(** A thread stops at most once for an unhandled exception, and not while its first frame is there: an
    exception which somebody catches is never reported as unhandled. *)
Theorem flow_unhandled_once : forall e base entry l,
  base_ok base -> plain entry l ->
  List.length (filter (is_kind UnhandledStop) (snd (session e mon0 base entry l))) <= 1 /\
  (stk (fst (prun base (start base entry) l)) <> [] ->
   forall x p, ~ In (Stopped UnhandledStop x p) (snd (session e mon0 base entry l))).
Proof.
  intros e base entry l B P. destruct (flow_stops e base entry l B P) as (los & E & F). rewrite E.
  apply concat_unhandled in F. destruct (prun_leaves base l (start base entry)) as [A C]. split; [lia|].
  intros S x p I. rewrite (A S) in F. cbn [List.length] in F.
  assert (I2 : In (Stopped UnhandledStop x p) (filter (is_kind UnhandledStop) (List.concat los))) by (apply filter_In; auto).
  destruct (filter (is_kind UnhandledStop) (List.concat los)); [exact I2 | cbn in F; lia].
Qed.

Lemma only_unhandled e base evs los :
  caught (tabs e) = [] -> user_uncaught (tabs e) = [] -> Forall2 (exact e base) evs los ->
  filter is_stop (List.concat los) = filter (is_kind UnhandledStop) (List.concat los).
Proof.
  intros CA US F. induction F as [|v o evs los X F IH]; [reflexivity|].
  cbn [List.concat]. rewrite !filter_app, IH. f_equal. destruct X as [D _]. clear -D CA US.
  apply filter_ext_in. intros q I. destruct q as [k x p|]; [|reflexivity]. apply D in I. inversion I; subst.
  - rewrite CA in *. discriminate.
  - destruct H0 as (_ & _ & b & G & _). rewrite US in G. discriminate.
  - reflexivity.
Qed.

(** With only a breakpoint on unhandled exceptions, an exception which leaves the first frame stops the thread
    once, at the innermost frame of its traceback which is not hidden; nothing stops it before. *)
Theorem flow_unhandled_seen : forall e base entry l f n x b q,
  base_ok base -> plain entry l ->
  caught (tabs e) = [] -> user_uncaught (tabs e) = [] ->
  let p := fst (prun base (start base entry) l) in
  stk p = [(f, n)] -> flying p = Some x -> fskip f = false ->
  get_exception_breakpoint (wld e) (cls e x) (uncaught (tabs e)) = Some b ->
  kbd e x = false -> exit_ok e x = false -> innermost_shown e b (tbs p x) q -> cond e b q = true ->
  filter is_stop (snd (session e mon0 base entry (l ++ [OUnwind]))) = [Stopped UnhandledStop x q].
Proof.
  intros e base entry l f n x b q B P CA US p S FL SK G K X IS C.
  assert (P2 : plain entry (l ++ [OUnwind])).
  { destruct P as [P1 P2]. split; [exact P1|]. intros g k I. apply in_app_or in I as [I|[I|[]]]; [exact (P2 g k I) | discriminate]. }
  destruct (flow_stops e base entry (l ++ [OUnwind]) B P2) as (los & E & F).
  destruct (flow_unhandled_once e base entry (l ++ [OUnwind]) B P2) as [L _].
  rewrite E in *. rewrite (only_unhandled e base _ los CA US F).
  assert (D : due e base (PUnwind x ((f, n) :: base) (tbs p x)) UnhandledStop x q).
  { eapply due_unhandled; try eassumption. intros (_ & _ & b0 & G0 & _). rewrite US in G0. discriminate. }
  assert (IE : In (PUnwind x ((f, n) :: base) (tbs p x)) (snd (prun base (start base entry) (l ++ [OUnwind])))).
  { rewrite prun_app. cbn [snd]. apply in_or_app. right. fold p. cbn [prun].
    unfold pstep. rewrite S, FL. cbn [app]. destruct base; left; reflexivity. }
  assert (IN : In (Stopped UnhandledStop x q) (List.concat los)).
  { clear -F IE D. induction F as [|v o evs los0 X0 F IH]; [destruct IE|]. cbn [List.concat]. apply in_or_app.
    destruct IE as [->|IE]; [left; apply X0; exact D | right; exact (IH IE)]. }
  assert (I2 : In (Stopped UnhandledStop x q) (filter (is_kind UnhandledStop) (List.concat los))) by (apply filter_In; auto).
  destruct (filter (is_kind UnhandledStop) (List.concat los)) as [|o [|o2 r]]; [destruct I2| |cbn in L; lia].
  destruct I2 as [->|[]]. reflexivity.
Qed.

(** *** The first raise *)

Definition handled_of (x : nat) (o : out) : bool := match o with Stopped Handled y _ => Nat.eqb x y | _ => false end.
Definition first_raise (x : nat) (v : pev) : bool :=
  match v with PRaise y _ tb => Nat.eqb x y && Nat.eqb (List.length tb) 1 | _ => false end.

Lemma upd_other t x y l : x <> y -> upd t x l y = t y.
Proof. intros H. unfold upd. destruct (Nat.eqb_spec x y); [contradiction|reflexivity]. Qed.

Lemma pstep_first base p o x :
  (forall y, flying p = Some y -> tbs p y <> []) ->
  (forall y, flying (fst (pstep base p o)) = Some y -> tbs (fst (pstep base p o)) y <> []) /\
  (tbs p x <> [] -> tbs (fst (pstep base p o)) x <> [] /\ filter (first_raise x) (snd (pstep base p o)) = []) /\
  (filter (first_raise x) (snd (pstep base p o)) <> [] -> tbs (fst (pstep base p o)) x <> []) /\
  List.length (filter (first_raise x) (snd (pstep base p o))) <= 1.
Proof.
  intros FL. destruct p as [s fl t sn]. unfold pstep. cbn [stk flying tbs seen] in *.
  destruct o as [f n|n|b|z|n|z n|]; destruct s as [|[tf tn] r]; cbn [fst snd stk flying tbs filter List.length];
    try (split; [exact FL|]; split; [auto|]; split; [contradiction|lia]);
    destruct fl as [y|]; cbn [fst snd stk flying tbs filter first_raise List.length];
    try (split; [first [exact FL | discriminate]|]; split; [auto|]; split; [contradiction|lia]).
  - destruct (existsb _ _); cbn [fst snd flying tbs filter List.length];
    (split; [discriminate|]; split; [auto|]; split; [contradiction|lia]).
  - split; [|split; [|split]].
    + intros y Q. injection Q as <-. rewrite upd_same. discriminate.
    + intros N. split.
      * destruct (Nat.eq_dec z x) as [->|NE]; [rewrite upd_same; discriminate | rewrite upd_other by exact NE; exact N].
      * cbn [first_raise List.length]. destruct (Nat.eqb_spec x z) as [->|NE]; [|reflexivity].
        destruct (t z) eqn:TZ; [contradiction|]. reflexivity.
    + cbn [first_raise List.length]. destruct (Nat.eqb_spec x z) as [->|NE]; [|cbn [andb]; contradiction].
      intros _. rewrite upd_same. discriminate.
    + destruct (_ && _); cbn; lia.
  - destruct (t z) as [|[g k] tr] eqn:TZ; [|destruct (frame_eq_dec g tf)]; cbn [fst snd stk flying tbs filter List.length];
      (split; [|split; [auto|split; [contradiction|lia]]]).
    + exact FL.
    + intros y Q. injection Q as <-. rewrite TZ. discriminate.
    + exact FL.
  - assert (NY : t y <> []) by (apply FL; reflexivity).
    destruct (r ++ base) as [|c rb]; cbn [fst snd stk flying tbs filter first_raise List.length].
    + split; [discriminate|]. split; [auto|]. split; [contradiction|lia].
    + assert (FR : (Nat.eqb x y && Nat.eqb (S (List.length (t y))) 1) = false).
      { destruct (t y); [contradiction|]. cbn [List.length Nat.eqb]. apply andb_false_r. }
      rewrite FR. split; [|split; [|split]].
      * intros z Q. destruct r; [discriminate|]. injection Q as <-. rewrite upd_same. discriminate.
      * intros N. split; [|reflexivity].
        destruct (Nat.eq_dec y x) as [->|NE]; [rewrite upd_same; discriminate | rewrite upd_other by exact NE; exact N].
      * contradiction.
      * cbn. lia.
Qed.

Lemma prun_first base x l : forall p, (forall y, flying p = Some y -> tbs p y <> []) ->
  (tbs p x <> [] -> filter (first_raise x) (snd (prun base p l)) = []) /\
  List.length (filter (first_raise x) (snd (prun base p l))) <= 1.
Proof.
  induction l as [|o l IH]; intros p FL; cbn [prun]; [split; [reflexivity | cbn; lia]|].
  destruct (pstep_first base p o x FL) as (F1 & A1 & N1 & L1).
  destruct (pstep base p o) as [p1 e1]. cbn [fst snd] in *. destruct (IH p1 F1) as [A2 L2].
  destruct (prun base p1 l) as [p2 e2]. cbn [fst snd] in *. rewrite filter_app, app_length. split.
  - intros N. destruct (A1 N) as [T E]. rewrite E, (A2 T). reflexivity.
  - destruct (filter (first_raise x) e1) as [|v r] eqn:E; [cbn; exact L2|].
    rewrite (A2 (N1 ltac:(discriminate))). cbn [List.length] in *. lia.
Qed.

(** With a breakpoint which notifies only of the first raise, an exception object stops the thread at most once
    as raised, whatever catches it and raises it again. *)
Theorem flow_first_raise_once : forall e base entry l x,
  base_ok base -> plain entry l -> skip_same_context (cfg e) = false ->
  (forall b, get_exception_breakpoint (wld e) (cls e x) (caught (tabs e)) = Some b -> e_first_only b = true) ->
  List.length (filter (handled_of x) (snd (session e mon0 base entry l))) <= 1.
Proof.
  intros e base entry l x B P SK FO. destruct (flow_stops e base entry l B P) as (los & E & F). rewrite E.
  assert (ST : forall y, flying (start base entry) = Some y -> tbs (start base entry) y <> []) by discriminate.
  destruct (prun_first base x l (start base entry) ST) as [_ L].
  assert (W : Forall (wf_ev base (fst entry)) (snd (prun base (start base entry) l))).
  { destruct entry as [en n]. destruct P as [SE OK]. apply prun_inv; [exact B | exact SE | apply start_inv; exact SE | exact OK]. }
  apply (Nat.le_trans _ (List.length (filter (first_raise x) (snd (prun base (start base entry) l)))) _); [|exact L].
  clear L E. revert W. induction F as [|v o evs los X F IH]; intros W; [cbn; lia|].
  inversion W as [|? ? WV W']; subst. specialize (IH W').
  cbn [List.concat filter]. rewrite filter_app, app_length.
  destruct X as [D X1].
  assert (HL : List.length (filter (handled_of x) o) <= List.length (filter is_stop o)).
  { clear. induction o as [|q o IH]; [cbn; lia|]. cbn [filter]. destruct q as [k y p|]; cbn [handled_of is_stop].
    - destruct k; try destruct (Nat.eqb x y); cbn [List.length]; lia.
    - exact IH. }
  destruct (first_raise x v) eqn:FR; cbn [List.length].
  - lia.
  - assert (Z : filter (handled_of x) o = []).
    { destruct (filter (handled_of x) o) as [|q r] eqn:EQ; [reflexivity|].
      assert (I : In q (filter (handled_of x) o)) by (rewrite EQ; left; reflexivity).
      apply filter_In in I as [I K]. destruct q as [k y p|]; [|discriminate]. destruct k; try discriminate.
      cbn [handled_of] in K. apply Nat.eqb_eq in K. subst y. apply D in I. inversion I; subst.
      cbn [first_raise] in FR. rewrite Nat.eqb_refl in FR. cbn [andb] in FR.
      match goal with M : moment _ _ _ |- _ => unfold moment in M; rewrite SK in M; rewrite (FO _ ltac:(eassumption)) in M end.
      destruct WV as (f' & n' & c' & k' & r' & _ & ->). cbn [List.length] in *. apply Nat.eqb_neq in FR. lia. }
    rewrite Z. cbn [List.length]. lia.
Qed.

(** *** Tracing *)

Definition user_outs (o : list out) : list out := filter (is_kind UserUnhandledStop) o.

(** No frame of user code called by other code catches an exception. *)
Fixpoint no_boundary_catch (base : list place) (p : prog) (l : list op) : Prop :=
  match l with
  | [] => True
  | o :: r =>
      match o with
      | OCatch _ => forall f n c, stk p = (f, n) :: c -> ~ leaves_user_code f (c ++ base)
      | _ => True
      end /\ no_boundary_catch base (fst (pstep base p o)) r
  end.

Lemma user_nostop ev : filter is_stop ev = [] -> user_outs ev = [].
Proof.
  intros H. pose proof (kind_le UserUnhandledStop ev) as L. rewrite H in L. unfold user_outs.
  destruct (filter (is_kind UserUnhandledStop) ev); [reflexivity | cbn in L; lia].
Qed.

Lemma user_handle e x p t r : user_outs (handle_exception e UserUnhandledStop x p (t :: r)) = handle_exception e UserUnhandledStop x p (t :: r).
Proof. destruct (handle_spec e UserUnhandledStop x p t r) as [[_ ->]|[_ ->]]; reflexivity. Qed.

Lemma user_unh e x tb : user_outs (stop_unhandled e x tb) = [].
Proof.
  unfold user_outs. destruct (filter _ _) as [|q r] eqn:E; [reflexivity|].
  assert (I : In q (filter (is_kind UserUnhandledStop) (stop_unhandled e x tb))) by (rewrite E; left; reflexivity).
  apply filter_In in I as [I K]. destruct q as [k y p|]; [|discriminate].
  apply (proj2 (stop_unhandled_spec e x tb)) in I as (-> & _). discriminate.
Qed.

Lemma mon_user_raise e m x f n c k r :
  user_outs (snd (raise_event e m x ((f, n) :: c) ((f, k) :: r))) = [].
Proof.
  unfold raise_event. cbn [fst]. destruct (negb (tracks_caught e) || fskip f); [reflexivity|].
  destruct (should_stop_spec e (m_prev m) x f n c k r) as (stop & ev & i & E & EV & _). rewrite E. cbn [snd].
  unfold user_outs. rewrite filter_app. fold (user_outs ev). rewrite (user_nostop ev EV). cbn [app].
  destruct stop; [|reflexivity]. destruct (handle_spec e Handled x (f, n) (f, k) r) as [[_ ->]|[_ ->]]; reflexivity.
Qed.

Lemma mon_user_unwind e m x f n c k r :
  user_outs (snd (unwind_event e m x ((f, n) :: c) ((f, k) :: r))) =
  if fskip f then [] else if user_dec e x f n c k r then handle_exception e UserUnhandledStop x (f, n) ((f, k) :: r) else [].
Proof.
  unfold unwind_event. cbn [fst]. destruct (fskip f); [reflexivity|].
  assert (REST : forall ev, filter is_stop ev = [] ->
    user_outs (snd (if nonempty (uncaught (tabs e))
            then let '(g, m') := unhandled_frame m x ((f, n) :: c) in
                 match g with
                 | Some q => if Nat.eqb (fid f) q then (m', ev ++ stop_unhandled e x ((f, k) :: r)) else (m', ev)
                 | None => (m', ev)
                 end
            else (m, ev))) = []).
  { intros ev EV. destruct (nonempty (uncaught (tabs e))); [|exact (user_nostop ev EV)].
    destruct (unhandled_frame m x ((f, n) :: c)) as [[g|] m']; [|exact (user_nostop ev EV)].
    destruct (Nat.eqb (fid f) g); cbn [snd]; [|exact (user_nostop ev EV)].
    unfold user_outs. rewrite filter_app. fold (user_outs ev). rewrite (user_nostop ev EV). apply user_unh. }
  destruct (tracks_caught e) eqn:T.
  - destruct (should_stop_spec e None x f n c k r) as (stop & ev & i & E & EV & _ & UU). rewrite E.
    destruct UU as [[UA ->]|[NU ->]].
    + cbn [record_line i_line i_lines i_exc i_tb snd]. rewrite is_unhandled_own. cbn [fst snd i_exc i_tb].
      unfold user_outs. rewrite filter_app. fold (user_outs ev). rewrite (user_nostop ev EV). cbn [app].
      destruct (user_dec e x f n c k r); [|contradiction]. apply user_handle.
    + destruct (user_dec e x f n c k r); [contradiction|]. exact (REST ev EV).
  - destruct (user_dec e x f n c k r) as [(_ & _ & b & B & _)|_].
    + destruct (tracks_none e T) as [_ A]. rewrite A in B. discriminate.
    + exact (REST [] eq_refl).
Qed.

(** The tracers know of exactly one exception: the one being raised, if it is about to leave user code. *)
Record agree (e : env) (base : list place) (p : prog) (r : trc) : Prop := Agree {
  ag_seen : forall x q, In q (tbs p x) -> In (fid (fst q)) (seen p);
  ag_base : forall q, In q base -> In (fid (fst q)) (seen p);
  ag_head : forall x f n m above c tbr, stk p = above ++ (f, n) :: c -> leaves_user_code f (c ++ base) ->
            tbs p x = (f, m) :: tbr -> flying p = Some x /\ above = [];
  ag_none : flying p = None -> r_infos r = [];
  ag_some : forall x f n c m tbr, flying p = Some x -> stk p = (f, n) :: c -> tbs p x = (f, m) :: tbr ->
            r_infos r = (if fskip f then [] else if user_dec e x f n (c ++ base) m tbr
                         then [(fid f, Info x (tbs p x) n [n])] else [])
}.

Lemma tstep_raise e r x f n c k tbr : starter f = false -> r_infos r = [] ->
  user_outs (snd (trace_exception e r x ((f, n) :: c) ((f, k) :: tbr))) = [] /\
  r_infos (fst (trace_exception e r x ((f, n) :: c) ((f, k) :: tbr))) =
    (if fskip f then [] else if user_dec e x f n c k tbr then [(fid f, Info x ((f, k) :: tbr) n [n])] else []).
Proof.
  intros SF R. unfold trace_exception. cbn [fst]. rewrite SF, R. cbn [get].
  set (infos := if negb (tracks_caught e) || fskip f then [] else _).
  assert (EI : infos = (if fskip f then [] else if user_dec e x f n c k tbr then [(fid f, Info x ((f, k) :: tbr) n [n])] else [])).
  { subst infos. destruct (fskip f); [rewrite orb_true_r; reflexivity|]. rewrite orb_false_r.
    destruct (tracks_caught e) eqn:T; cbn [negb].
    - destruct (should_stop_spec e None x f n c k tbr) as (stop & ev & i & E & _ & _ & UU). rewrite E.
      destruct UU as [[UA ->]|[NU ->]]; destruct (user_dec e x f n c k tbr); try contradiction; reflexivity.
    - destruct (user_dec e x f n c k tbr) as [(_ & _ & b & B & _)|_]; [|reflexivity].
      destruct (tracks_none e T) as [_ A]. rewrite A in B. discriminate. }
  destruct c; cbn [fst snd r_infos]; split; try reflexivity; exact EI.
Qed.

Lemma tstep_starter e r x f n c tb : starter f = true ->
  user_outs (snd (trace_exception e r x ((f, n) :: c) tb)) = [] /\ r_infos (fst (trace_exception e r x ((f, n) :: c) tb)) = r_infos r.
Proof.
  intros SF. unfold trace_exception. cbn [fst]. rewrite SF. destruct (r_seen r); cbn [fst snd r_infos]; split; try reflexivity.
  apply user_unh.
Qed.

Lemma is_unhandled_line infos n l : In n l -> forall m, is_unhandled infos n m l = true.
Proof.
  intros I m. unfold is_unhandled, zmem. replace (existsb (Z.eqb n) l) with true; [reflexivity|].
  symmetry. apply existsb_exists. exists n. split; [exact I | apply Z.eqb_refl].
Qed.

Lemma treturn_infos e r b s : r_infos (fst (trace_return e r b s)) =
  match s with [] => r_infos r | p :: _ => del Nat.eqb (fid (fst p)) (r_infos r) end.
Proof. unfold trace_return. destruct s as [|p c]; [reflexivity|]. destruct c, (r_top r) as [[[? ?] ?]|]; reflexivity. Qed.

Lemma treturn_user e r b p c : user_outs (snd (trace_return e r b (p :: c))) =
  user_outs (if fskip (fst p) then []
        else match get Nat.eqb (fid (fst p)) (r_infos r) with
        | None => []
        | Some i =>
            if ffull (fst p) || (b && is_unhandled (finfos (fst p)) (snd p) (i_line i) (i_lines i))
            then handle_exception e UserUnhandledStop (i_exc i) p (i_tb i) else []
        end).
Proof.
  unfold trace_return.
  set (u := if fskip (fst p) then [] else _).
  destruct c, (r_top r) as [[[? ?] ?]|]; cbn [snd]; try reflexivity.
  unfold user_outs. rewrite filter_app.
  assert (Z : filter (is_kind UserUnhandledStop) (if negb (r_seen r) && is_unhandled (finfos (fst p)) (snd p) z (r_lines r)
                    then stop_unhandled e n l else []) = []).
  { destruct (negb (r_seen r) && _); [apply user_unh | reflexivity]. }
  rewrite Z, app_nil_r. reflexivity.
Qed.

Lemma in_ids q l : In q l -> In (fid (fst q)) (ids l).
Proof. intros I. apply (in_map (fun p : place => fid (fst p))). exact I. Qed.

Lemma agree_step e base entry p r o m :
  base_ok base -> starter entry = false -> inv entry p -> agree e base p r ->
  (forall f n, o = OCall f n -> starter f = false) ->
  (forall n, o = OCatch n -> forall f k c, stk p = (f, k) :: c -> ~ leaves_user_code f (c ++ base)) ->
  user_outs (snd (trun e r (snd (pstep base p o)))) = user_outs (snd (mrun e m (snd (pstep base p o)))) /\
  agree e base (fst (pstep base p o)) (fst (trun e r (snd (pstep base p o)))).
Proof.
  intros B SE I A OK CA. pose proof I as [IP IN IS IE IT]. pose proof A as [AS AB AH A0 A1].
  destruct p as [s fl t sn]. cbn [stk flying tbs seen] in *. unfold pstep. cbn [stk flying tbs seen].
  destruct o as [f n|n|b|x|n|x n|]; (destruct s as [|[tf tn] rs]; [split; [reflexivity | exact A]|]); destruct fl as [y|];
    try (split; [reflexivity | exact A]).
  - destruct (existsb (Nat.eqb (fid f)) sn) eqn:EX; [split; [reflexivity | exact A]|].
    apply existsb_nat in EX. cbn [fst snd trun mrun]. split; [reflexivity|]. constructor; cbn [stk flying tbs seen].
    + intros x q Q. right. exact (AS x q Q).
    + intros q Q. right. exact (AB q Q).
    + intros x g k j above c tbr E LU TX. destruct above as [|a above]; cbn [app] in E.
      * injection E as <- <- <-. exfalso. apply EX. apply (AS x (f, j)). rewrite TX. left. reflexivity.
      * injection E as <- E. destruct (AH x g k j above c tbr E LU TX) as [FX _]. discriminate.
    + exact A0.
    + discriminate.
  - cbn [fst snd trun mrun]. split; [reflexivity|]. constructor; cbn [stk flying tbs seen]; try assumption; [|discriminate].
    intros x g k j above c tbr E LU TX. destruct above as [|a above]; cbn [app] in E.
    + injection E as <- <- <-. exact (AH x tf tn j [] rs tbr eq_refl LU TX).
    + injection E as <- E. destruct (AH x g k j ((tf, tn) :: above) c tbr ltac:(cbn [app]; rewrite E; reflexivity) LU TX) as [FX _]. discriminate.
  - cbn [fst snd trun mrun tstep mstep app]. rewrite (A0 eq_refl) in *.
    destruct (trace_return e r b ((tf, tn) :: rs ++ base)) as [r1 o1] eqn:TR. cbn [fst snd]. rewrite app_nil_r.
    pose proof (treturn_infos e r b ((tf, tn) :: rs ++ base)) as RI. rewrite TR, (A0 eq_refl) in RI. cbn [fst del] in RI.
    pose proof (treturn_user e r b (tf, tn) (rs ++ base)) as RU. rewrite TR, (A0 eq_refl) in RU. cbn [fst snd get] in RU.
    split.
    + rewrite RU. destruct (fskip tf); reflexivity.
    + constructor; cbn [stk flying tbs seen]; try assumption; [|intros _; exact RI|discriminate].
      intros x g k j above c tbr E LU TX.
      destruct (AH x g k j ((tf, tn) :: above) c tbr ltac:(cbn [app]; rewrite E; reflexivity) LU TX) as [FX _]. discriminate.
  - cbn [fst snd trun mrun tstep mstep app].
    pose proof (IP (tf, tn) (or_introl eq_refl)) as ST. cbn [fst] in ST.
    destruct (tstep_raise e r x tf tn (rs ++ base) tn (t x) ST (A0 eq_refl)) as [U R].
    pose proof (mon_user_raise e m x tf tn (rs ++ base) tn (t x)) as MU.
    destruct (trace_exception e r x ((tf, tn) :: rs ++ base) ((tf, tn) :: t x)) as [r1 o1].
    destruct (raise_event e m x ((tf, tn) :: rs ++ base) ((tf, tn) :: t x)) as [m1 q1].
    cbn [fst snd] in *. rewrite !app_nil_r. split; [rewrite U, MU; reflexivity|].
    constructor; cbn [stk flying tbs seen].
    + intros z q Q. destruct (Nat.eq_dec x z) as [<-|NE].
      * rewrite upd_same in Q. destruct Q as [<-|Q]; [|exact (AS x q Q)]. apply IS. left. reflexivity.
      * rewrite upd_other in Q by exact NE. exact (AS z q Q).
    + exact AB.
    + intros z g k j above c tbr E LU TX. destruct (Nat.eq_dec x z) as [<-|NE].
      * rewrite upd_same in TX. injection TX as <- <- <-. destruct above as [|a above]; [auto|]. exfalso.
        cbn [app] in E. injection E as <- ->. cbn [ids map fst] in IN. inversion IN as [|? ? NI _]; subst. apply NI.
        apply (in_ids (tf, k)). apply in_elt.
      * rewrite upd_other in TX by exact NE. destruct (AH z g k j above c tbr E LU TX) as [FX _]. discriminate.
    + discriminate.
    + intros z g k c j tbr FZ E TX. injection FZ as <-. injection E as <- <- <-. rewrite upd_same in *. injection TX as <- <-. exact R.
  - (* OCatch *)
    cbn [fst snd trun mrun]. split; [reflexivity|].
    destruct (IT y eq_refl) as (f0 & n0 & r0 & k0 & tb0 & S0 & T0). injection S0 as <- <- <-.
    pose proof (CA n eq_refl tf tn rs eq_refl) as NB.
    constructor; cbn [stk flying tbs seen]; try assumption; [| |discriminate].
    + intros x g k j above c tbr E LU TX. exfalso. destruct above as [|a above]; cbn [app] in E.
      * injection E as <- <- <-. contradiction.
      * injection E as <- E. destruct (AH x g k j ((tf, tn) :: above) c tbr ltac:(cbn [app]; rewrite E; reflexivity) LU TX) as [_ Q]. discriminate.
    + intros _. rewrite (A1 y tf tn rs k0 tb0 eq_refl eq_refl T0). destruct (fskip tf); [reflexivity|].
      destruct (user_dec e y tf tn (rs ++ base) k0 tb0) as [(_ & LU & _)|_]; [contradiction | reflexivity].
  - (* OReraise *)
    destruct (t x) as [|[g k] tr] eqn:TX; [split; [reflexivity | exact A]|].
    destruct (frame_eq_dec g tf) as [->|NE]; [|split; [reflexivity | exact A]].
    cbn [fst snd trun mrun]. split; [reflexivity|].
    assert (NB : ~ leaves_user_code tf (rs ++ base)).
    { intros LU. destruct (AH x tf tn k [] rs tr eq_refl LU TX) as [Q _]. discriminate. }
    constructor; cbn [stk flying tbs seen]; try assumption.
    + intros z g k' j above c tbr E LU TZ. exfalso. destruct above as [|a above]; cbn [app] in E.
      * injection E as <- <- <-. contradiction.
      * injection E as <- E. destruct (AH z g k' j ((tf, tn) :: above) c tbr ltac:(cbn [app]; rewrite E; reflexivity) LU TZ) as [_ Q]. discriminate.
    + discriminate.
    + intros z g k' c j tbr FZ E TZ. injection FZ as <-. injection E as <- <- <-. rewrite (A0 eq_refl).
      destruct (fskip tf); [reflexivity|]. destruct (user_dec e x tf n (rs ++ base) j tbr) as [(_ & LU & _)|_]; [contradiction | reflexivity].
  - (* OUnwind *)
    destruct (IT y eq_refl) as (f0 & n0 & r0 & k0 & tb0 & S0 & T0). injection S0 as <- <- <-.
    pose proof (A1 y tf tn rs k0 tb0 eq_refl eq_refl T0) as RI.
    assert (RET : user_outs (snd (trace_return e r true ((tf, tn) :: rs ++ base))) =
                  user_outs (snd (unwind_event e m y ((tf, tn) :: rs ++ base) (t y)))
                  /\ r_infos (fst (trace_return e r true ((tf, tn) :: rs ++ base))) = []).
    { split.
      - rewrite treturn_user, T0, mon_user_unwind, RI. cbn [fst snd].
        destruct (fskip tf); [reflexivity|].
        destruct (user_dec e y tf tn (rs ++ base) k0 tb0); cbn [get]; [|reflexivity].
        rewrite Nat.eqb_refl. cbn [i_line i_lines i_exc i_tb]. rewrite is_unhandled_own. cbn [andb]. rewrite orb_true_r, T0.
        apply user_handle.
      - rewrite treturn_infos, RI. cbn [fst]. destruct (fskip tf); [reflexivity|].
        destruct (user_dec e y tf tn (rs ++ base) k0 tb0); [|reflexivity]. cbn [del filter fst]. rewrite Nat.eqb_refl. reflexivity. }
    destruct RET as [RU RZ].
    destruct (rs ++ base) as [|[cf cn] rb] eqn:RB.
    + cbn [fst snd trun mrun tstep mstep app]. rewrite RB.
      destruct (trace_return e r true [(tf, tn)]) as [r1 o1]. destruct (unwind_event e m y [(tf, tn)] (t y)) as [m1 q1].
      cbn [fst snd] in *. rewrite !app_nil_r. split; [exact RU|].
      constructor; cbn [stk flying tbs seen]; try assumption; [|intros _; exact RZ|discriminate].
      intros x g k j above c tbr E. destruct above; discriminate.
    + cbn [fst snd trun mrun tstep mstep app]. rewrite RB.
      destruct (trace_return e r true ((tf, tn) :: (cf, cn) :: rb)) as [r1 o1].
      destruct (unwind_event e m y ((tf, tn) :: (cf, cn) :: rb) (t y)) as [m1 q1]. cbn [fst snd] in *.
      assert (SEEN : In (fid cf) sn).
      { destruct rs as [|[f1 n1] rs]; cbn [app] in RB.
        - apply (AB (cf, cn)). rewrite RB. left. reflexivity.
        - injection RB as -> -> _. apply IS. right. left. reflexivity. }
      assert (AS' : forall x q, In q (upd t y ((cf, cn) :: t y) x) -> In (fid (fst q)) sn).
      { intros x q Q. destruct (Nat.eq_dec y x) as [<-|NE].
        - rewrite upd_same in Q. destruct Q as [<-|Q]; [exact SEEN | exact (AS y q Q)].
        - rewrite upd_other in Q by exact NE. exact (AS x q Q). }
      assert (AH' : forall x f n m0 above c tbr, rs = above ++ (f, n) :: c -> leaves_user_code f (c ++ base) ->
            upd t y ((cf, cn) :: t y) x = (f, m0) :: tbr -> match rs with [] => None | _ :: _ => Some y end = Some x /\ above = []).
      { intros x g k j above c tbr E LU TX. destruct (Nat.eq_dec y x) as [<-|NE].
        - rewrite upd_same in TX. injection TX as <- <- <-.
          destruct above as [|a above]; cbn [app] in E; subst rs; [auto|]. exfalso.
          cbn [app] in RB. injection RB as -> _. cbn [ids map fst] in IN. inversion IN as [|? ? _ IN2]; subst.
          inversion IN2 as [|? ? NI _]; subst. apply NI. apply (in_ids (cf, k)). apply in_elt.
        - rewrite upd_other in TX by exact NE. exfalso.
          destruct (AH x g k j ((tf, tn) :: above) c tbr ltac:(cbn [app]; rewrite E; reflexivity) LU TX) as [_ Q]. discriminate. }
      destruct rs as [|[f1 n1] rs]; cbn [app] in RB.
      * subst base. destruct B as [SB SKB].
        destruct (tstep_starter e r1 y cf cn rb ((cf, cn) :: t y) SB) as [U R].
        pose proof (mon_user_raise e m1 y cf cn rb cn (t y)) as MU.
        destruct (trace_exception e r1 y ((cf, cn) :: rb) ((cf, cn) :: t y)) as [r2 o2].
        destruct (raise_event e m1 y ((cf, cn) :: rb) ((cf, cn) :: t y)) as [m2 q2].
        cbn [fst snd] in *. rewrite !app_nil_r. unfold user_outs in *. rewrite !filter_app, U, MU, RU. split; [reflexivity|].
        constructor; cbn [stk flying tbs seen]; try assumption; [|discriminate]. intros _. rewrite R. exact RZ.
      * injection RB as -> -> RB.
        assert (ST : starter cf = false) by (apply (IP (cf, cn)); right; left; reflexivity).
        destruct (tstep_raise e r1 y cf cn rb cn (t y) ST RZ) as [U R].
        pose proof (mon_user_raise e m1 y cf cn rb cn (t y)) as MU.
        destruct (trace_exception e r1 y ((cf, cn) :: rb) ((cf, cn) :: t y)) as [r2 o2].
        destruct (raise_event e m1 y ((cf, cn) :: rb) ((cf, cn) :: t y)) as [m2 q2].
        cbn [fst snd] in *. rewrite !app_nil_r. unfold user_outs in *. rewrite !filter_app, U, MU, RU. split; [reflexivity|].
        constructor; cbn [stk flying tbs seen]; try assumption; [discriminate|].
        intros z g k c j tbr FZ E TZ. injection FZ as <-. injection E as <- <- <-. rewrite upd_same in *. injection TZ as <- <-.
        rewrite RB. exact R.
Qed.

Lemma trun_app e l1 l2 : forall r, trun e r (l1 ++ l2) =
  (fst (trun e (fst (trun e r l1)) l2), snd (trun e r l1) ++ snd (trun e (fst (trun e r l1)) l2)).
Proof.
  induction l1 as [|v l1 IH]; intros r; cbn [app trun fst snd]; [destruct (trun e r l2); reflexivity|].
  destruct (tstep e r v) as [r1 o1]. rewrite IH. destruct (trun e r1 l1) as [r2 o2]. cbn [fst snd].
  rewrite app_assoc. reflexivity.
Qed.

Lemma trace_agree e base entry l : base_ok base -> starter entry = false ->
  forall p r m, inv entry p -> agree e base p r -> (forall f n, In (OCall f n) l -> starter f = false) ->
  no_boundary_catch base p l ->
  user_outs (snd (trun e r (snd (prun base p l)))) = user_outs (snd (mrun e m (snd (prun base p l)))).
Proof.
  intros B SE. induction l as [|o l IH]; intros p r m I A OK NC; [reflexivity|].
  destruct NC as [NC0 NC].
  assert (OK0 : forall f n, o = OCall f n -> starter f = false).
  { intros f n ->. apply (OK f n). left. reflexivity. }
  destruct (agree_step e base entry p r o m B SE I A OK0) as [U A'].
  { intros n ->. exact NC0. }
  destruct (pstep_inv base entry p o B SE I OK0) as [I' _].
  cbn [prun]. destruct (pstep base p o) as [p1 e1]. cbn [fst snd] in *.
  assert (OK' : forall f n, In (OCall f n) l -> starter f = false) by (intros f n H; apply (OK f n); right; exact H).
  specialize (IH p1 (fst (trun e r e1)) (fst (mrun e m e1)) I' A' OK' NC).
  destruct (prun base p1 l) as [p2 e2]. cbn [fst snd] in *. rewrite trun_app, mrun_app. cbn [fst snd].
  unfold user_outs in *. rewrite !filter_app, U, IH. reflexivity.
Qed.

(** Under tracing the same stops are made for user unhandled exceptions as under monitoring, if no frame of
    user code called by other code catches an exception itself. *)
Theorem trace_user : forall e base entry l,
  base_ok base -> plain entry l -> no_boundary_catch base (start base entry) l ->
  user_outs (snd (traced_session e base entry l)) = user_outs (snd (session e mon0 base entry l)).
Proof.
  intros e base [entry n] l B [SE OK] NC. cbn [fst] in SE. apply (trace_agree e base entry l B SE); try assumption.
  - apply start_inv. exact SE.
  - constructor; cbn [start stk flying tbs seen].
    + intros x q [].
    + intros q Q. right. apply in_ids. exact Q.
    + discriminate.
    + reflexivity.
    + discriminate.
Qed.

(** *** Tracing: unhandled exceptions of a thread started by a known frame *)

Definition unh_outs (o : list out) : list out := filter (is_kind UnhandledStop) o.

Lemma unh_handle e k x p t : k <> UnhandledStop -> unh_outs (handle_exception e k x p t) = [].
Proof.
  intros K. unfold handle_exception. destruct t; [reflexivity|]. destruct (_ && _); [reflexivity|]. destruct k; [reflexivity|reflexivity|contradiction].
Qed.

Lemma treturn_unh e r b p c c' : r_top r = None \/ c = c' :: tl c ->
  unh_outs (snd (trace_return e r b (p :: c))) = [] /\ r_seen (fst (trace_return e r b (p :: c))) = r_seen r
  /\ r_top (fst (trace_return e r b (p :: c))) = r_top r.
Proof.
  intros H. unfold trace_return. set (u := if fskip (fst p) then [] else _).
  assert (U : unh_outs u = []).
  { subst u. destruct (fskip (fst p)); [reflexivity|]. destruct (get _ _ _); [|reflexivity].
    destruct (_ || _); [|reflexivity]. apply unh_handle. discriminate. }
  destruct c as [|c0 c].
  - destruct H as [H|H]; [|discriminate]. rewrite H. cbn [fst snd r_seen r_top]. auto.
  - cbn [fst snd r_seen r_top]. auto.
Qed.

Lemma traise_unh e r x f n c c' tb : starter f = false -> c = c' :: tl c ->
  unh_outs (snd (trace_exception e r x ((f, n) :: c) tb)) = [] /\
  r_seen (fst (trace_exception e r x ((f, n) :: c) tb)) = r_seen r /\ r_top (fst (trace_exception e r x ((f, n) :: c) tb)) = r_top r.
Proof. intros S ->. unfold trace_exception. cbn [fst]. rewrite S. cbn [fst snd r_seen r_top]. auto. Qed.

Lemma mon_unh_raise e m x s tb : unh_outs (snd (raise_event e m x s tb)) = [] /\ m_cache (fst (raise_event e m x s tb)) = m_cache m.
Proof.
  unfold raise_event. destruct s as [|p c]; [auto|]. destruct (_ || _); [auto|].
  unfold should_stop. destruct (should_stop_on_exception _ _ _ _) as [[stop b] rec]. cbn [fst snd m_cache]. split; [|reflexivity].
  unfold unh_outs. rewrite filter_app. fold (unh_outs (if stop then handle_exception e Handled x p tb else [])).
  destruct b as [b|]; [destruct (stop && expr e b)|]; cbn [filter is_kind app];
    (destruct stop; [apply unh_handle; discriminate | reflexivity]).
Qed.

Lemma stop_unhandled_none e x tb : uncaught (tabs e) = [] -> stop_unhandled e x tb = [].
Proof. intros H. unfold stop_unhandled. rewrite H. reflexivity. Qed.

Lemma mon_unh_unwind e m x f n c tb entry :
  tracks_caught e = false -> cache_ok entry m -> walk None ((f, n) :: c) = Some entry -> fskip f = false ->
  unh_outs (snd (unwind_event e m x ((f, n) :: c) tb)) = (if Nat.eqb (fid f) entry then unh_outs (stop_unhandled e x tb) else [])
  /\ cache_ok entry (fst (unwind_event e m x ((f, n) :: c) tb)).
Proof.
  intros T CK W SK. unfold unwind_event. cbn [fst]. rewrite SK, T.
  destruct (nonempty (uncaught (tabs e))) eqn:NE.
  - assert (UF : exists m', unhandled_frame m x ((f, n) :: c) = (Some entry, m') /\ cache_ok entry m').
    { unfold unhandled_frame. unfold cache_ok in CK. rewrite W. destruct (m_cache m) as [[y g]|] eqn:MC.
      - destruct (Nat.eqb x y).
        + rewrite CK. exists m. split; [reflexivity|]. unfold cache_ok. rewrite MC. exact CK.
        + eexists. split; [reflexivity|]. reflexivity.
      - eexists. split; [reflexivity|]. reflexivity. }
    destruct UF as (m' & -> & CK'). destruct (Nat.eqb (fid f) entry); cbn [fst snd app]; auto.
  - cbn [fst snd]. split; [|exact CK]. assert (E : uncaught (tabs e) = []) by (destruct (uncaught (tabs e)); [reflexivity | discriminate]).
    rewrite (stop_unhandled_none e x tb E). destruct (Nat.eqb (fid f) entry); reflexivity.
Qed.

(** The frame which started the thread is hidden whenever anything is. *)
Definition starter_hidden (base : list place) : Prop :=
  match base with [] => False | (b, _) :: _ => fscope b = false /\ fexcl b = true end.

Lemma stop_unhandled_base e x b n t r : fscope b = false -> fexcl b = true ->
  stop_unhandled e x ((b, n) :: t :: r) = stop_unhandled e x (t :: r).
Proof.
  intros S X. unfold stop_unhandled. destruct (get_exception_breakpoint _ _ _) as [u|]; [|reflexivity].
  destruct (kbd e x), (exit_ok e x); try reflexivity.
  change (last_kept (kept e u) ((b, n) :: t :: r)) with
    (match last_kept (kept e u) (t :: r) with Some q => Some q | None => if kept e u (b, n) then Some (b, n) else None end).
  destruct (last_kept (kept e u) (t :: r)) as [q|] eqn:K; [reflexivity|].
  destruct (kept e u (b, n)) eqn:KB; [|reflexivity]. exfalso.
  apply kept_spec in KB as [K1 K2]. cbn [fst] in K1, K2. rewrite S in K1. rewrite X in K2.
  destruct (last_kept_spec e u (t :: r)) as [(p & E & _)|[_ N]]; [congruence|].
  apply (N t); [left; reflexivity|]. split; intros H; [apply K1 in H | apply K2 in H]; discriminate.
Qed.

Record watch (entry : frame) (base : list place) (p : prog) (r : trc) (m : mon) : Prop := Watch {
  wa_top : r_top r = None;
  wa_seen : stk p <> [] -> r_seen r = false;
  wa_cache : cache_ok (fid entry) m
}.

Lemma watch_step e base entry p r o m :
  base_ok base -> starter_hidden base -> starter entry = false -> inv entry p ->
  (forall q, In q (stk p) -> fskip (fst q) = false) ->
  tracks_caught e = false -> watch entry base p r m ->
  unh_outs (snd (trun e r (snd (pstep base p o)))) = unh_outs (snd (mrun e m (snd (pstep base p o)))) /\
  watch entry base (fst (pstep base p o)) (fst (trun e r (snd (pstep base p o)))) (fst (mrun e m (snd (pstep base p o)))).
Proof.
  intros B BH SE I SKS T WA. pose proof I as [IP IN IS IE IT]. pose proof WA as [WT WS WC].
  destruct p as [s fl t sn]. cbn [stk flying tbs seen] in *. unfold pstep. cbn [stk flying tbs seen].
  destruct o as [f n|n|b|x|n|x n|]; (destruct s as [|[tf tn] rs]; [split; [reflexivity | exact WA]|]); destruct fl as [y|];
    try (split; [reflexivity | exact WA]).
  - destruct (existsb (Nat.eqb (fid f)) sn) eqn:EX; [split; [reflexivity | exact WA]|].
    cbn [fst snd trun mrun]. split; [reflexivity|]. constructor; cbn [stk]; try assumption. intros _. apply WS. discriminate.
  - cbn [fst snd trun mrun]. split; [reflexivity|]. constructor; cbn [stk]; try assumption. intros _. apply WS. discriminate.
  - cbn [fst snd trun mrun tstep mstep app].
    destruct (treturn_unh e r b (tf, tn) (rs ++ base) (tf, tn) (or_introl WT)) as (U & S & TP).
    destruct (trace_return e r b ((tf, tn) :: rs ++ base)) as [r1 o1]. cbn [fst snd] in *. rewrite app_nil_r.
    split; [exact U|]. constructor; cbn [stk]; [congruence | | exact WC]. intros _. rewrite S. apply WS. discriminate.
  - cbn [fst snd trun mrun tstep mstep app].
    pose proof (IP (tf, tn) (or_introl eq_refl)) as ST. cbn [fst] in ST.
    assert (NB : exists c', rs ++ base = c' :: tl (rs ++ base)).
    { destruct rs as [|q rs]; [|eexists; reflexivity]. destruct base as [|q base]; [destruct BH | eexists; reflexivity]. }
    destruct NB as [c' NB].
    destruct (traise_unh e r x tf tn (rs ++ base) c' ((tf, tn) :: t x) ST NB) as (U & S & TP).
    destruct (mon_unh_raise e m x ((tf, tn) :: rs ++ base) ((tf, tn) :: t x)) as [MU MC].
    destruct (trace_exception e r x ((tf, tn) :: rs ++ base) ((tf, tn) :: t x)) as [r1 o1].
    destruct (raise_event e m x ((tf, tn) :: rs ++ base) ((tf, tn) :: t x)) as [m1 q1]. cbn [fst snd] in *. rewrite !app_nil_r.
    split; [rewrite U, MU; reflexivity|]. constructor; cbn [stk]; [congruence | | unfold cache_ok in *; rewrite MC; exact WC].
    intros _. rewrite S. apply WS. discriminate.
  - cbn [fst snd trun mrun]. split; [reflexivity|]. constructor; cbn [stk]; try assumption. intros _. apply WS. discriminate.
  - destruct (t x) as [|[g k] tr] eqn:TX; [split; [reflexivity | exact WA]|].
    destruct (frame_eq_dec g tf) as [->|NE]; [|split; [reflexivity | exact WA]].
    cbn [fst snd trun mrun]. split; [reflexivity|]. constructor; cbn [stk]; try assumption. intros _. apply WS. discriminate.
  - destruct (IT y eq_refl) as (f0 & n0 & r0 & k0 & tb0 & S0 & T0). injection S0 as <- <- <-.
    assert (SK : fskip tf = false) by (apply (SKS (tf, tn)); left; reflexivity).
    destruct (pstep_inv base entry (Prog ((tf, tn) :: rs) (Some y) t sn) OUnwind B SE I ltac:(discriminate)) as [_ WF].
    unfold pstep in WF. cbn [stk flying tbs seen] in WF.
    assert (WU : walk None ((tf, tn) :: rs ++ base) = Some (fid entry) /\ (fid tf = fid entry <-> rs ++ base = base)).
    { destruct (rs ++ base) eqn:E; cbn [snd app] in WF; rewrite E in WF; inversion WF as [|? ? W0 _]; subst;
        destruct W0 as (f' & n' & c' & k' & r' & E1 & _ & W1 & W2); injection E1 as <- <- <-; auto. }
    clear WF. destruct WU as [WK ID].
    destruct (treturn_unh e r true (tf, tn) (rs ++ base) (tf, tn) (or_introl WT)) as (U & S & TP).
    destruct (mon_unh_unwind e m y tf tn (rs ++ base) (t y) (fid entry) T WC WK SK) as [MU MC].
    destruct (rs ++ base) as [|[cf cn] rb] eqn:RB.
    { destruct rs; [|discriminate]. cbn [app] in RB. subst base. destruct BH. }
    cbn [fst snd trun mrun tstep mstep app]. rewrite RB.
    destruct (trace_return e r true ((tf, tn) :: (cf, cn) :: rb)) as [r1 o1].
    destruct (unwind_event e m y ((tf, tn) :: (cf, cn) :: rb) (t y)) as [m1 q1]. cbn [fst snd] in *.
    destruct (mon_unh_raise e m1 y ((cf, cn) :: rb) ((cf, cn) :: t y)) as [MU2 MC2].
    destruct rs as [|[f1 n1] rs]; cbn [app] in RB.
    + subst base. destruct B as [SB SKB]. destruct BH as [BS BX].
      assert (F : Nat.eqb (fid tf) (fid entry) = true) by (apply Nat.eqb_eq, ID; reflexivity). rewrite F in MU.
      assert (TE : unh_outs (snd (trace_exception e r1 y ((cf, cn) :: rb) ((cf, cn) :: t y))) = unh_outs (stop_unhandled e y (t y))
                   /\ r_top (fst (trace_exception e r1 y ((cf, cn) :: rb) ((cf, cn) :: t y))) = r_top r1).
      { unfold trace_exception. cbn [fst]. rewrite SB, S, (WS ltac:(discriminate)). cbn [fst snd r_top]. split; [|reflexivity].
        rewrite T0. rewrite stop_unhandled_base by assumption. reflexivity. }
      destruct TE as [TE TT].
      destruct (trace_exception e r1 y ((cf, cn) :: rb) ((cf, cn) :: t y)) as [r2 o2].
      destruct (raise_event e m1 y ((cf, cn) :: rb) ((cf, cn) :: t y)) as [m2 q2].
      cbn [fst snd] in *. rewrite !app_nil_r. unfold unh_outs in *. rewrite !filter_app, U, MU, MU2, TE, app_nil_r.
      split; [reflexivity|]. constructor; cbn [stk]; [congruence | contradiction | unfold cache_ok in *; rewrite MC2; exact MC].
    + injection RB as -> -> RB.
      assert (F : Nat.eqb (fid tf) (fid entry) = false).
      { apply Nat.eqb_neq. intros Q. apply ID in Q. rewrite <- RB in Q.
        apply (f_equal (@List.length _)) in Q. cbn [List.length] in Q. rewrite app_length in Q. lia. }
      rewrite F in MU.
      assert (ST : starter cf = false) by (apply (IP (cf, cn)); right; left; reflexivity).
      assert (NB : exists c', rb = c' :: tl rb).
      { rewrite <- RB. destruct rs as [|q rs]; [|eexists; reflexivity]. destruct base as [|q base]; [destruct BH | eexists; reflexivity]. }
      destruct NB as [c' NB].
      destruct (traise_unh e r1 y cf cn rb c' ((cf, cn) :: t y) ST NB) as (U2 & S2 & TP2).
      destruct (trace_exception e r1 y ((cf, cn) :: rb) ((cf, cn) :: t y)) as [r2 o2].
      destruct (raise_event e m1 y ((cf, cn) :: rb) ((cf, cn) :: t y)) as [m2 q2].
      cbn [fst snd] in *. rewrite !app_nil_r. unfold unh_outs in *. rewrite !filter_app, U, MU, MU2, U2.
      split; [reflexivity|]. constructor; cbn [stk]; [congruence | | unfold cache_ok in *; rewrite MC2; exact MC].
      intros _. rewrite S2, S. apply WS. discriminate.
Qed.

Lemma pstep_skip base p o : (forall q, In q (stk p) -> fskip (fst q) = false) -> (forall f n, o = OCall f n -> fskip f = false) ->
  forall q, In q (stk (fst (pstep base p o))) -> fskip (fst q) = false.
Proof.
  intros H OK. destruct p as [s fl t sn]. unfold pstep. cbn [stk flying tbs seen] in *.
  assert (TL : forall tp rs, s = tp :: rs -> forall n q, In q ((fst tp, n) :: rs) -> fskip (fst q) = false).
  { intros tp rs -> n q [<-|Q]; [exact (H tp (or_introl eq_refl)) | exact (H q (or_intror Q))]. }
  destruct o as [f n|n|b|x|n|x n|]; (destruct s as [|[tf tn] rs]; [exact H|]); destruct fl as [y|]; cbn [fst stk]; try exact H.
  - destruct (existsb _ _); [exact H|]. intros q [<-|Q]; [exact (OK f n eq_refl) | exact (H q Q)].
  - apply (TL (tf, tn) rs eq_refl n).
  - intros q Q. apply H. right. exact Q.
  - apply (TL (tf, tn) rs eq_refl n).
  - destruct (t x) as [|[g k] tr]; [exact H|]. destruct (frame_eq_dec g tf); [|exact H]. apply (TL (tf, tn) rs eq_refl n).
  - destruct (rs ++ base); cbn [fst stk]; [intros q [] | intros q Q; apply H; right; exact Q].
Qed.

Lemma watch_run e base entry l :
  base_ok base -> starter_hidden base -> starter entry = false -> tracks_caught e = false ->
  forall p r m, inv entry p -> (forall q, In q (stk p) -> fskip (fst q) = false) -> watch entry base p r m ->
  (forall f n, In (OCall f n) l -> starter f = false /\ fskip f = false) ->
  unh_outs (snd (trun e r (snd (prun base p l)))) = unh_outs (snd (mrun e m (snd (prun base p l)))).
Proof.
  intros B BH SE T. induction l as [|o l IH]; intros p r m I SK WA OK; [reflexivity|].
  destruct (watch_step e base entry p r o m B BH SE I SK T WA) as [U WA'].
  assert (OK0 : forall f n, o = OCall f n -> starter f = false /\ fskip f = false).
  { intros f n ->. apply (OK f n). left. reflexivity. }
  destruct (pstep_inv base entry p o B SE I (fun f n H => proj1 (OK0 f n H))) as [I' _].
  pose proof (pstep_skip base p o SK (fun f n H => proj2 (OK0 f n H))) as SK'.
  cbn [prun]. destruct (pstep base p o) as [p1 e1]. cbn [fst snd] in *.
  assert (OK' : forall f n, In (OCall f n) l -> starter f = false /\ fskip f = false) by (intros f n H; apply (OK f n); right; exact H).
  specialize (IH p1 _ _ I' SK' WA' OK').
  destruct (prun base p1 l) as [p2 e2]. cbn [fst snd] in *. rewrite trun_app, mrun_app. cbn [fst snd].
  unfold unh_outs in *. rewrite !filter_app, U, IH. reflexivity.
Qed.

(** With only breakpoints on unhandled exceptions, tracing and monitoring make the same stops in a thread
    started by the debugger or by threading. *)
Theorem trace_unhandled : forall e base entry l,
  base_ok base -> starter_hidden base -> plain entry l ->
  fskip (fst entry) = false -> (forall f n, In (OCall f n) l -> fskip f = false) ->
  caught (tabs e) = [] -> user_uncaught (tabs e) = [] ->
  unh_outs (snd (traced_session e base entry l)) = unh_outs (snd (session e mon0 base entry l)).
Proof.
  intros e base [entry n] l B BH [SE OK] SK SKO CA US. cbn [fst] in SE, SK.
  apply (watch_run e base entry l B BH SE).
  - unfold tracks_caught. rewrite CA, US. reflexivity.
  - apply start_inv. exact SE.
  - cbn [start stk]. intros q [<-|[]]. exact SK.
  - constructor; cbn; auto.
  - intros f k H. split; [exact (OK f k H) | exact (SKO f k H)].
Qed.

(** ** Cases *)

Definition xw : world := World (fun a b => Nat.eqb b 0 || Nat.eqb a b) (fun c => if Nat.eqb c 0 then lit "BaseException" else lit "ValueError") (fun _ => RNone).
Definition xb (first : bool) : exb := Exb (lit "BaseException") (Some 0) 0 true true true first false.
Definition xt (c u n : list exb) : tables :=
  let tab := map (fun b => (e_key b, b)) in Tables (tab n) (tab c) (tab u).
Definition xe (t : tables) (has_expr : bool) (tag : place -> bool) : env :=
  Env xw (Config false false [77]) t (fun _ => 5) (fun _ => false) (fun _ => false) (fun _ _ => true) (fun _ => has_expr) true tag.
Definition untag : place -> bool := fun _ => false.

Definition user_frame (i : nat) : frame := Frame i (lit "app") (lit "f") false false true false false false [].
Definition lib_frame (i : nat) : frame := Frame i (lit "lib") (lit "g") false true false true false false [].
Definition run_frame : frame := Frame 90 (lit "threading") (lit "run") true true false true false false [].
Definition xbase : list place := [(run_frame, 1010%Z)].
Definition main : place := (user_frame 1, 10%Z).

(** User code calls a library, which calls user code back; the callback raises, the library catches. *)
Definition callback : list op :=
  [OLine 11; OCall (lib_frame 2) 50; OCall (user_frame 3) 20; ORaise 7; OUnwind; OCatch 52; OReturn true; OReturn true].

Example flow_stops_case :
  base_ok xbase /\ plain main callback /\
  snd (session (xe (xt [] [xb false] [xb false]) false untag) mon0 xbase main callback)
  = [Stopped UserUnhandledStop 7 (user_frame 3, 20%Z)] /\
  due (xe (xt [] [xb false] [xb false]) false untag) xbase
      (PUnwind 7 [(user_frame 3, 20%Z); (lib_frame 2, 50%Z); (user_frame 1, 11%Z); (run_frame, 1010%Z)] [(user_frame 3, 20%Z)])
      UserUnhandledStop 7 (user_frame 3, 20%Z).
Proof.
  split; [split; reflexivity|]. split.
  { split; [reflexivity|]. intros f n [H|[H|[H|H]]]; [discriminate| | |cbn in H; intuition discriminate]; injection H as <- <-; reflexivity. }
  split; [reflexivity|]. apply due_user; [reflexivity | |].
  - split; [|split].
    + split; [reflexivity|]. split; [cbn; intuition discriminate|]. intros p [<-|[]]. reflexivity.
    + split; [reflexivity|]. right. exists (lib_frame 2), 50%Z, [(user_frame 1, 11%Z); (run_frame, 1010%Z)]. split; reflexivity.
    + exists (xb false). split; [reflexivity|]. split; [split; discriminate | reflexivity].
  - intros _ t r Q. injection Q as <- <-. split; reflexivity.
Qed.

(** The callback's exception is raised again by the library and leaves the thread. *)
Definition crash : list op :=
  [OLine 11; OCall (lib_frame 2) 50; OCall (user_frame 3) 20; ORaise 7; OUnwind; OCatch 52; OReraise 7 53; OUnwind].

Example flow_unhandled_case :
  let e := xe (xt [] [] [xb false]) false untag in
  let p := fst (prun xbase (start xbase main) crash) in
  plain main crash /\ stk p = [(user_frame 1, 11%Z)] /\ flying p = Some 7 /\ innermost_shown e (xb false) (tbs p 7) (user_frame 3, 20%Z) /\
  snd (session e mon0 xbase main (crash ++ [OUnwind])) = [Stopped UnhandledStop 7 (user_frame 3, 20%Z)].
Proof.
  split; [|split; [reflexivity|split; [reflexivity|split; [|reflexivity]]]].
  - split; [reflexivity|]. intros f n [H|[H|[H|H]]]; [discriminate| | |cbn in H; intuition discriminate]; injection H as <- <-; reflexivity.
  - exists [(user_frame 1, 11%Z); (lib_frame 2, 50%Z)], []. split; [reflexivity|]. split; [split; discriminate | intros q []].
Qed.

Example flow_first_raise_case :
  let l := [OCall (user_frame 2) 20; ORaise 7; OUnwind; OCatch 12; ORaise 7; OCatch 14] in
  snd (session (xe (xt [xb true] [] []) false untag) mon0 xbase main l) = [Stopped Handled 7 (user_frame 2, 20%Z)] /\
  snd (session (xe (xt [xb false] [] []) false untag) mon0 xbase main l)
  = [Stopped Handled 7 (user_frame 2, 20%Z); Stopped Handled 7 (user_frame 1, 10%Z); Stopped Handled 7 (user_frame 1, 12%Z)].
Proof. split; reflexivity. Qed.

Example trace_user_case :
  no_boundary_catch xbase (start xbase main) callback /\
  user_outs (snd (traced_session (xe (xt [] [xb false] []) false untag) xbase main callback))
  = [Stopped UserUnhandledStop 7 (user_frame 3, 20%Z)].
Proof.
  split; [|reflexivity]. cbn. repeat (split; [exact Logic.I|]). split.
  - intros f n c Q. injection Q as <- <- <-. intros [A _]. discriminate.
  - repeat (split; [exact Logic.I|]). exact Logic.I.
Qed.

Example trace_unhandled_case :
  starter_hidden xbase /\
  unh_outs (snd (traced_session (xe (xt [] [] [xb false]) false untag) xbase main (crash ++ [OUnwind])))
  = [Stopped UnhandledStop 7 (user_frame 3, 20%Z)].
Proof. split; [split; reflexivity | reflexivity]. Qed.

(** ** What does not hold *)

(** The frame found for an exception object is kept: raised again in a later callback of a thread which the
    interpreter did not start, the exception leaves the thread without a stop. *)
Theorem flow_raised_again_refuted : exists e first l1 second l2 x,
  plain first l1 /\ plain second l2 /\
  (let m := fst (session e mon0 [] first l1) in
   snd (session e m [] second l2) = [] /\
   exists p, snd (session e mon0 [] second l2) = [Stopped UnhandledStop x p]).
Proof.
  exists (xe (xt [] [] [xb false]) false untag), main, [OCall (user_frame 2) 20; ORaise 7; OUnwind; OCatch 12; OReturn true],
    (user_frame 4, 10%Z), [ORaise 7; OUnwind], 7.
  split; [|split; [|split; [reflexivity|eexists; reflexivity]]].
  - split; [reflexivity|]. intros f n [H|H]; [injection H as <- <-; reflexivity | cbn in H; intuition discriminate].
  - split; [reflexivity|]. intros f n H. cbn in H. intuition discriminate.
Qed.

(** Code run through the runpy module which raises an exception its caller catches: reported as unhandled. *)
Theorem flow_runpy_refuted : exists e base entry l x p,
  base_ok base /\ starter (fst entry) = false /\
  In (Stopped UnhandledStop x p) (snd (session e mon0 base entry l)) /\
  stk (fst (prun base (start base entry) l)) <> [] /\ flying (fst (prun base (start base entry) l)) = None.
Proof.
  exists (xe (xt [] [] [xb false]) false untag), xbase, main,
    [OCall (Frame 2 (lit "runpy") (lit "run_path") false true false true false false []) 50; OCall (user_frame 3) 1;
     ORaise 7; OUnwind; OUnwind; OCatch 12], 7, (user_frame 3, 1%Z).
  split; [split; reflexivity|]. split; [reflexivity|]. split; [left; reflexivity|]. split; [discriminate | reflexivity].
Qed.

(** A line marked to be ignored also hides that the exception ends the thread, if user unhandled exceptions are
    asked for too. *)
Theorem flow_ignored_line_refuted : exists base entry l tag x p,
  base_ok base /\ plain entry l /\
  snd (session (xe (xt [] [] [xb false]) false tag) mon0 base entry l) = [Stopped UnhandledStop x p] /\
  snd (session (xe (xt [] [xb false] [xb false]) false tag) mon0 base entry l) = [].
Proof.
  exists xbase, main, [OLine 12; ORaise 7; OUnwind], (fun p => Z.eqb (snd p) 12), 7, (user_frame 1, 12%Z).
  split; [split; reflexivity|]. split; [|split; reflexivity].
  split; [reflexivity|]. intros f n H. cbn in H. intuition discriminate.
Qed.

(** The expression of a breakpoint is evaluated again when the exception leaves the frame, without a stop. *)
Theorem flow_expression_once_refuted : exists e base entry l b p,
  base_ok base /\ plain entry l /\
  snd (session e mon0 base entry l) = [Evaluated b p; Stopped Handled 7 p; Evaluated b p].
Proof.
  exists (xe (xt [xb false] [] []) true untag), xbase, main, [ORaise 7; OUnwind], (xb false), main.
  split; [split; reflexivity|]. split; [|reflexivity].
  split; [reflexivity|]. intros f n H. cbn in H. intuition discriminate.
Qed.

(** Tracing: an exception swallowed by a with statement of user code is reported as user unhandled. *)
Theorem trace_with_refuted : exists e base entry l x p,
  base_ok base /\ plain entry l /\
  snd (session e mon0 base entry l) = [] /\ snd (traced_session e base entry l) = [Stopped UserUnhandledStop x p].
Proof.
  exists (xe (xt [] [xb false] []) false untag), xbase, main, [OLine 12; ORaise 7; OCatch 11; OLine 13; OReturn true], 7, (user_frame 1, 13%Z).
  split; [split; reflexivity|]. split; [|split; reflexivity].
  split; [reflexivity|]. intros f n H. cbn in H. intuition discriminate.
Qed.

(** Tracing: an exception handled by a try statement, in a function with a breakpoint, is reported as user
    unhandled when the function returns, even with a value. *)
Theorem trace_breakpoint_refuted : exists e base entry l x p,
  base_ok base /\ plain entry l /\ finfos (fst entry) = [TryExc 11 13 14 []] /\
  snd (session e mon0 base entry l) = [] /\ snd (traced_session e base entry l) = [Stopped UserUnhandledStop x p].
Proof.
  exists (xe (xt [] [xb false] []) false untag), xbase,
    (Frame 1 (lit "app") (lit "f") false false true false false true [TryExc 11 13 14 []], 10%Z),
    [OLine 12; ORaise 7; OCatch 13; OLine 14; OLine 20; OReturn false], 7,
    (Frame 1 (lit "app") (lit "f") false false true false false true [TryExc 11 13 14 []], 20%Z).
  split; [split; reflexivity|]. split; [|split; [reflexivity|split; reflexivity]].
  split; [reflexivity|]. intros f n H. cbn in H. intuition discriminate.
Qed.

(** Tracing: an exception handled by a clause written on the line of its except, where the function returns. *)
Theorem trace_except_line_refuted : exists e base entry l x p,
  base_ok base /\ plain entry l /\ ffull (fst entry) = false /\ finfos (fst entry) = [TryExc 11 13 13 []] /\
  snd (session e mon0 base entry l) = [] /\ snd (traced_session e base entry l) = [Stopped UserUnhandledStop x p].
Proof.
  exists (xe (xt [] [xb false] []) false untag), xbase,
    (Frame 1 (lit "app") (lit "f") false false true false false false [TryExc 11 13 13 []], 10%Z),
    [OLine 12; ORaise 7; OCatch 13; OReturn true], 7,
    (Frame 1 (lit "app") (lit "f") false false true false false false [TryExc 11 13 13 []], 13%Z).
  split; [split; reflexivity|]. split; [|split; [reflexivity|split; [reflexivity|split; reflexivity]]].
  split; [reflexivity|]. intros f n H. cbn in H. intuition discriminate.
Qed.

(** Tracing, in a thread whose first frame has no caller: an exception swallowed there is reported as
    unhandled. *)
Theorem trace_first_frame_refuted : exists e entry l x p,
  plain entry l /\
  snd (session e mon0 [] entry l) = [] /\ snd (traced_session e [] entry l) = [Stopped UnhandledStop x p].
Proof.
  exists (xe (xt [] [] [xb false]) false untag), main, [OLine 12; ORaise 7; OCatch 11; OLine 13; OReturn true], 7, (user_frame 1, 12%Z).
  split; [|split; reflexivity].
  split; [reflexivity|]. intros f n H. cbn in H. intuition discriminate.
Qed.

(** With both kinds of breakpoints, tracing stops twice for the same exception where monitoring stops once. *)
Theorem trace_twice_refuted : exists e base entry l x p,
  base_ok base /\ plain entry l /\
  snd (session e mon0 base entry l) = [Stopped UserUnhandledStop x p] /\
  snd (traced_session e base entry l) = [Stopped UserUnhandledStop x p; Stopped UnhandledStop x p].
Proof.
  exists (xe (xt [] [xb false] [xb false]) false untag), xbase, main, [OLine 12; ORaise 7; OUnwind], 7, (user_frame 1, 12%Z).
  split; [split; reflexivity|]. split; [|split; reflexivity].
  split; [reflexivity|]. intros f n H. cbn in H. intuition discriminate.
Qed.

(** *** The functions which start the code of threads and scripts *)

Definition starts_code (m n : str) : Prop :=
  (m = lit "threading" /\ In n (map lit ["__bootstrap"; "_bootstrap"; "__bootstrap_inner"; "_bootstrap_inner"; "run"]%string)) \/
  (m = lit "pydev_monkey" /\ n = lit "__call__") \/
  (m = lit "pydevd" /\ In n (map lit ["_exec"; "run"; "main"]%string)) \/
  (In m (map lit ["pydevd_runpy"; "<frozen runpy>"; "runpy"]%string) /\ exists r, n = lit "run" ++ r \/ n = lit "_run" ++ r).

Lemma str_in_spec s l : str_in s l = true <-> In s (map lit l).
Proof.
  unfold str_in. rewrite existsb_exists, in_map_iff. split.
  - intros (t & I & E). apply str_eqb_eq in E. exists t. auto.
  - intros (t & E & I). exists t. split; [exact I|]. apply str_eqb_eq. auto.
Qed.

Lemma runs_spec n : runs n = true <-> exists r, n = lit "run" ++ r \/ n = lit "_run" ++ r.
Proof.
  unfold runs. rewrite orb_true_iff, !starts_with_spec. split.
  - intros [[r H]|[r H]]; exists r; auto.
  - intros [r [H|H]]; [left|right]; exists r; exact H.
Qed.

Theorem starter_exact : forall f, starter f = true <-> starts_code (fmod f) (fname f).
Proof.
  intros f. unfold starter, starts_code. rewrite <- !str_in_spec, <- runs_spec.
  destruct (str_eqb (fmod f) (lit "threading")) eqn:A.
  { apply str_eqb_eq in A. rewrite A. change (str_in (lit "threading") ["pydevd_runpy"; "<frozen runpy>"; "runpy"]%string) with false.
    intuition discriminate. }
  destruct (str_eqb (fmod f) (lit "pydev_monkey")) eqn:B.
  { apply str_eqb_eq in B. rewrite B. change (str_in (lit "pydev_monkey") ["pydevd_runpy"; "<frozen runpy>"; "runpy"]%string) with false.
    rewrite str_eqb_eq. intuition discriminate. }
  destruct (str_eqb (fmod f) (lit "pydevd")) eqn:C.
  { apply str_eqb_eq in C. rewrite C. change (str_in (lit "pydevd") ["pydevd_runpy"; "<frozen runpy>"; "runpy"]%string) with false.
    intuition discriminate. }
  assert (A' : fmod f <> lit "threading") by (rewrite <- str_eqb_eq, A; discriminate).
  assert (B' : fmod f <> lit "pydev_monkey") by (rewrite <- str_eqb_eq, B; discriminate).
  assert (C' : fmod f <> lit "pydevd") by (rewrite <- str_eqb_eq, C; discriminate).
  destruct (str_in (fmod f) ["pydevd_runpy"; "<frozen runpy>"; "runpy"]%string); intuition discriminate.
Qed.

Example starter_exact_case :
  starts_code (lit "threading") (lit "_bootstrap") /\ starts_code (lit "runpy") (lit "_run_code") /\
  ~ starts_code (lit "app") (lit "run") /\ ~ starts_code (lit "pydevd") (lit "settrace").
Proof.
  split; [left; split; [reflexivity|right; left; reflexivity]|].
  split; [do 3 right; split; [do 2 right; left; reflexivity|exists (lit "_code"); right; reflexivity]|].
  split; [pose proof (proj2 (starter_exact (Frame 0 (lit "app") (lit "run") false false true false false true []))) as H
         |pose proof (proj2 (starter_exact (Frame 0 (lit "pydevd") (lit "settrace") false false true false false true []))) as H];
    intros X; discriminate (H X).
Qed.

(** *** Tracing: which exception is reported *)

(** the event ends the frame with this number *)
Definition ends_frame (id : nat) (v : pev) : Prop :=
  match v with PUnwind _ ((f, _) :: _) _ | PReturn _ ((f, _) :: _) => fid f = id | _ => False end.

(** The event shows an exception for which user code is to stop, to a frame which the debugger follows. *)
Definition reports (e : env) (id x : nat) (v : pev) : Prop :=
  match v with
  | PRaise y ((f, n) :: c) tb => y = x /\ fid f = id /\ fskip f = false /\ starter f = false /\ user_applies e x f n c tb
  | _ => False
  end.

(** [x] is the last exception of those shown to the frame since it was entered. *)
Definition last_shown (e : env) (id x : nat) (evs : list pev) : Prop :=
  exists a v mid, evs = a ++ v :: mid /\ reports e id x v /\
    forall w, In w mid -> ~ ends_frame id w /\ forall y, ~ reports e id y w.

Lemma last_shown_snoc e id x evs v :
  last_shown e id x evs -> ~ ends_frame id v -> (forall y, ~ reports e id y v) -> last_shown e id x (evs ++ [v]).
Proof.
  intros (a & w & mid & E & R & H) L N. exists a, w, (mid ++ [v]). split; [rewrite E, <- app_assoc; reflexivity|].
  split; [exact R|]. intros z I. apply in_app_or in I as [I|[<-|[]]]; [exact (H z I)|]. auto.
Qed.

Lemma last_shown_new e id x evs v : reports e id x v -> last_shown e id x (evs ++ [v]).
Proof. intros R. exists evs, v, []. split; [reflexivity|]. split; [exact R|]. intros w []. Qed.

Definition infos_ok (e : env) (evs : list pev) (r : trc) : Prop :=
  NoDup (keys (r_infos r)) /\
  forall id i, get Nat.eqb id (r_infos r) = Some i -> last_shown e id (i_exc i) evs.

Lemma tstep_infos e base entry evs r v : wf_ev base entry v -> infos_ok e evs r -> infos_ok e (evs ++ [v]) (fst (tstep e r v)).
Proof.
  intros W [ND H]. destruct v as [x s tb|x s tb|b s]; cbn [tstep].
  - destruct W as (f & n & c & k & tbr & -> & ->).
    destruct (starter f) eqn:ST.
    { destruct (tstep_starter e r x f n c ((f, k) :: tbr) ST) as [_ Q]. unfold infos_ok. rewrite Q. split; [exact ND|].
      intros id i G. apply last_shown_snoc; [apply H, G | intros [] |]. intros y (_ & _ & _ & S & _). congruence. }
    assert (Q : r_infos (fst (trace_exception e r x ((f, n) :: c) ((f, k) :: tbr))) = r_infos r /\
                (forall id y, ~ reports e id y (PRaise x ((f, n) :: c) ((f, k) :: tbr))) \/
                exists i, r_infos (fst (trace_exception e r x ((f, n) :: c) ((f, k) :: tbr))) = set Nat.eqb (fid f) i (r_infos r) /\
                ((i_exc i = x /\ reports e (fid f) x (PRaise x ((f, n) :: c) ((f, k) :: tbr))) \/
                 (get Nat.eqb (fid f) (r_infos r) = Some i /\ forall id y, ~ reports e id y (PRaise x ((f, n) :: c) ((f, k) :: tbr))))).
    { unfold trace_exception. cbn [fst]. rewrite ST.
      set (infos := if negb (tracks_caught e) || fskip f then r_infos r else _).
      assert (Z : (infos = r_infos r /\ (forall id y, ~ reports e id y (PRaise x ((f, n) :: c) ((f, k) :: tbr)))) \/
                  exists i, infos = set Nat.eqb (fid f) i (r_infos r) /\
                  ((i_exc i = x /\ reports e (fid f) x (PRaise x ((f, n) :: c) ((f, k) :: tbr))) \/
                   (get Nat.eqb (fid f) (r_infos r) = Some i /\ forall id y, ~ reports e id y (PRaise x ((f, n) :: c) ((f, k) :: tbr))))).
      { subst infos. destruct (negb (tracks_caught e) || fskip f) eqn:T.
        - left. split; [reflexivity|]. intros id y (_ & _ & S & _ & U). apply orb_true_iff in T as [T|T]; [|congruence].
          apply negb_true_iff in T. destruct (tracks_none e T) as [_ A]. destruct U as (_ & _ & b & B & _). rewrite A in B. discriminate B.
        - apply orb_false_iff in T as [_ SK].
          destruct (should_stop_spec e (get Nat.eqb (fid f) (r_infos r)) x f n c k tbr) as (stop & ev & i & E & _ & _ & UU). rewrite E.
          destruct UU as [[UA ->]|[NU ->]].
          + right. eexists. split; [reflexivity|]. left. split; [|repeat split; auto; apply UA].
            unfold record_line. destruct (get Nat.eqb (fid f) (r_infos r)); reflexivity.
          + assert (NR : forall id y, ~ reports e id y (PRaise x ((f, n) :: c) ((f, k) :: tbr))).
            { intros id y (-> & _ & _ & _ & U). contradiction. }
            destruct (get Nat.eqb (fid f) (r_infos r)) as [i|] eqn:G; [right; exists i|left]; auto. }
      destruct c; cbn [fst r_infos]; exact Z. }
    unfold infos_ok. destruct Q as [[-> NR]|(i & -> & Q)].
    + split; [exact ND|]. intros id i G. apply last_shown_snoc; [apply H, G | intros [] | apply NR].
    + split; [apply NoDup_keys_set; [apply Nat.eqb_spec|exact ND]|]. intros id j G.
      rewrite get_set in G by (intros; apply Nat.eqb_spec). destruct (Nat.eqb_spec id (fid f)) as [->|NE].
      * injection G as <-. destruct Q as [[-> R]|[G NR]]; [apply last_shown_new, R|].
        apply last_shown_snoc; [apply H, G | intros [] | apply NR].
      * apply last_shown_snoc; [apply H, G | intros [] |]. destruct Q as [[_ R]|[_ NR]]; [|apply NR].
        intros y (_ & F & _). congruence.
  - unfold infos_ok. rewrite treturn_infos. destruct s as [|[f n] c]; [destruct W as (? & ? & ? & ? & ? & W & _); discriminate|]. cbn [fst].
    split; [apply NoDup_keys_del; exact ND|]. intros id i G.
    rewrite get_del in G by (exact ND || (intros; apply Nat.eqb_spec)). destruct (Nat.eqb_spec id (fid f)) as [->|NE]; [discriminate|].
    apply last_shown_snoc; [apply H, G | cbn; congruence | intros y []].
  - unfold infos_ok. rewrite treturn_infos. destruct s as [|[f n] c].
    { split; [exact ND|]. intros id i G. apply last_shown_snoc; [apply H, G | intros [] | intros y []]. }
    cbn [fst]. split; [apply NoDup_keys_del; exact ND|]. intros id i G.
    rewrite get_del in G by (exact ND || (intros; apply Nat.eqb_spec)). destruct (Nat.eqb_spec id (fid f)) as [->|NE]; [discriminate|].
    apply last_shown_snoc; [apply H, G | cbn; congruence | intros y []].
Qed.

Lemma in_user x p o : In (Stopped UserUnhandledStop x p) o <-> In (Stopped UserUnhandledStop x p) (user_outs o).
Proof. unfold user_outs. rewrite filter_In. cbn. tauto. Qed.

Lemma trun_latest e base entry : forall evs r before x p,
  Forall (wf_ev base entry) evs -> infos_ok e before r ->
  In (Stopped UserUnhandledStop x p) (snd (trun e r evs)) ->
  exists a v b, evs = a ++ v :: b /\ ends_frame (fid (fst p)) v /\ last_shown e (fid (fst p)) x (before ++ a).
Proof.
  induction evs as [|v evs IH]; intros r before x p W I Q; [destruct Q|].
  inversion W as [|? ? WV W']; subst. cbn [trun] in Q.
  pose proof (tstep_infos e base entry before r v WV I) as I'.
  destruct (tstep e r v) as [r1 o1] eqn:T. cbn [fst] in I'.
  destruct (trun e r1 evs) as [r2 o2] eqn:T2. cbn [snd] in Q. apply in_app_or in Q as [Q|Q].
  - exists [], v, evs. split; [reflexivity|]. rewrite app_nil_r.
    assert (Z : forall b s, v = PReturn b s \/ (exists x tb, v = PUnwind x s tb /\ b = true) ->
      ends_frame (fid (fst p)) v /\ last_shown e (fid (fst p)) x before).
    { intros b s VV. assert (O : o1 = snd (trace_return e r b s)).
      { destruct VV as [->|(y & tb & -> & ->)]; cbn [tstep] in T; rewrite T; reflexivity. }
      subst o1. apply in_user in Q. destruct s as [|[f n] c]; [destruct Q|]. rewrite treturn_user in Q. cbn [fst snd] in Q.
      destruct (fskip f); [destruct Q|]. destruct (get Nat.eqb (fid f) (r_infos r)) as [i|] eqn:G; [|destruct Q].
      destruct (ffull f || _); [|destruct Q]. apply in_user in Q. unfold handle_exception in Q.
      destruct (i_tb i) as [|t tr]; [destruct Q|]. destruct (honour e && _); [destruct Q|]. destruct Q as [Q|[]].
      injection Q as <- <-. cbn [fst]. split; [|apply (proj2 I), G].
      destruct VV as [->|(y & tb & -> & _)]; reflexivity. }
    destruct v as [y s tb|y s tb|b s]; [|apply (Z true s); eauto|apply (Z b s); auto].
    exfalso. destruct WV as (f & n & c & k & tbr & -> & ->). cbn [tstep] in T. apply in_user in Q.
    destruct (starter f) eqn:ST.
    + destruct (tstep_starter e r y f n c ((f, k) :: tbr) ST) as [U _]. rewrite T in U. cbn [snd] in U. rewrite U in Q. destruct Q.
    + unfold trace_exception in T. cbn [fst] in T. rewrite ST in T. destruct c; injection T as _ <-; destruct Q.
  - assert (Q2 : In (Stopped UserUnhandledStop x p) (snd (trun e r1 evs))) by (rewrite T2; exact Q).
    destruct (IH r1 (before ++ [v]) x p W' I' Q2) as (a & w & b & E & L & S).
    exists (v :: a), w, b. split; [rewrite E; reflexivity|]. split; [exact L|]. rewrite <- app_assoc in S. exact S.
Qed.

(** Each stop for an exception leaving user code is made when the frame is left, for the last exception shown
    to that frame for which user code is to stop, also if the frame has caught others before. *)
Theorem trace_latest : forall e base entry l x p,
  base_ok base -> plain entry l ->
  In (Stopped UserUnhandledStop x p) (snd (traced_session e base entry l)) ->
  exists a v b, snd (prun base (start base entry) l) = a ++ v :: b /\
    ends_frame (fid (fst p)) v /\ last_shown e (fid (fst p)) x a.
Proof.
  intros e base [entry n] l x p B [SE OK] Q. cbn [fst] in SE.
  destruct (prun_inv base entry l B SE (start base (entry, n)) (start_inv base entry n SE) OK) as [_ W].
  apply (trun_latest e base entry _ trc0 [] x p W); [|exact Q].
  split; [constructor | discriminate].
Qed.

(** two exceptions, the first one caught: the second one is reported *)
Example trace_latest_case :
  let e := xe (xt [] [xb false] []) false untag in
  let l := [OLine 12; ORaise 7; OCatch 13; OLine 14; ORaise 8; OUnwind] in
  base_ok xbase /\ plain main l /\
  snd (traced_session e xbase main l) = [Stopped UserUnhandledStop 8 (user_frame 1, 14%Z)].
Proof.
  cbv zeta. split; [split; reflexivity|]. split; [|reflexivity].
  split; [reflexivity|]. intros f n H. cbn in H. intuition discriminate.
Qed.

Print Assumptions starter_exact.
Print Assumptions trace_latest.
Print Assumptions flow_stops.
Print Assumptions flow_unhandled_once.
Print Assumptions flow_unhandled_seen.
Print Assumptions flow_first_raise_once.
Print Assumptions trace_user.
Print Assumptions trace_unhandled.
Print Assumptions flow_raised_again_refuted.
Print Assumptions flow_runpy_refuted.
Print Assumptions flow_ignored_line_refuted.
Print Assumptions flow_expression_once_refuted.
Print Assumptions trace_with_refuted.
Print Assumptions trace_breakpoint_refuted.
Print Assumptions trace_except_line_refuted.
Print Assumptions trace_first_frame_refuted.
Print Assumptions trace_twice_refuted.
