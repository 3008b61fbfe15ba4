(** Property C05: no command is obeyed before the client has authenticated. *)
From Coq Require Import List NArith Bool Lia Arith.
From Verif Require Import Base Auth.
Import ListNotations.

(** ** Specification: what a history of requests and replies allows. *)

(** The login attempt made by a request. *)
Definition attempt (r : request) : option (option str) :=
  match r with
  | LineAuthenticate t => Some (Some t)
  | JsonAuthorize t => Some t
  | _ => None
  end.

(** A session ends when the connection is lost or an obeyed disconnect. *)
Definition ends_session (r : request) (a : reply) : Prop :=
  r = ConnectionLost \/ (r = JsonDisconnect /\ a = Executed).

(** [attempts h l]: [l] are the login attempts of the current session of history [h], oldest first. *)
Inductive attempts : list (request * reply) -> list (option str) -> Prop :=
| at_nil : attempts [] []
| at_end h r a l : attempts h l -> ends_session r a -> attempts (h ++ [(r, a)]) []
| at_login h r a l t : attempts h l -> attempt r = Some t -> attempts (h ++ [(r, a)]) (l ++ [t])
| at_other h r a l : attempts h l -> attempt r = None -> ~ ends_session r a ->
                     attempts (h ++ [(r, a)]) l.

(** Ten wrong attempts in a row. *)
Definition locked (token : option str) (l : list (option str)) : Prop :=
  exists x w y, l = x ++ w ++ y /\ length w = 10 /\ Forall (fun t => t <> token) w.

(** Access is granted when no token is configured and nobody tried to log in, or when the last attempt
    of the session gave the configured token and the session was not locked. *)
Definition granted (token : option str) (l : list (option str)) : Prop :=
  match l with
  | [] => token = None
  | _ => (exists x, l = x ++ [token]) /\ ~ locked token l
  end.

(** ** Proofs *)

Lemma opt_eqb_spec a b : reflect (a = b) (opt_eqb a b).
Proof.
  destruct a as [a|], b as [b|]; simpl; try (constructor; congruence).
  destruct (str_eqb_spec a b); constructor; congruence.
Qed.

(** Number of trailing wrong attempts. *)
Fixpoint lead (tok : option str) (l : list (option str)) : nat :=
  match l with [] => 0 | t :: r => if opt_eqb t tok then 0 else S (lead tok r) end.
Definition trail tok l := lead tok (rev l).

Lemma trail_snoc tok l t : trail tok (l ++ [t]) = if opt_eqb t tok then 0 else S (trail tok l).
Proof. unfold trail. rewrite rev_app_distr. reflexivity. Qed.

Lemma lead_spec tok l : exists a b, l = a ++ b /\ length a = lead tok l /\
  Forall (fun t => t <> tok) a /\ match b with [] => True | t :: _ => t = tok end.
Proof.
  induction l as [|t l IH].
  - exists [], []. repeat split; auto.
  - simpl. destruct (opt_eqb_spec t tok).
    + exists [], (t :: l). repeat split; auto.
    + destruct IH as (a & b & -> & Hl & Hf & Hb). exists (t :: a), b. simpl. repeat split; auto.
Qed.

Lemma locked_snoc tok l t : locked tok (l ++ [t]) <->
  locked tok l \/ (t <> tok /\ 9 <= trail tok l).
Proof.
  split.
  - intros (x & w & y & E & Hl & Hw).
    destruct (list_eq_dec (fun a b => match opt_eqb_spec a b with
        | ReflectT _ e => left e | ReflectF _ n => right n end) y []) as [->|Hy].
    + right. rewrite app_nil_r in E.
      assert (Hw0 : w <> []) by (intros ->; discriminate).
      destruct (exists_last Hw0) as (w' & t' & ->). rewrite app_assoc in E.
      apply app_inj_tail in E. destruct E as [-> <-].
      apply Forall_app in Hw. destruct Hw as [Hw Ht]. inversion Ht; subst. split; auto.
      rewrite app_length in Hl. simpl in Hl. unfold trail. rewrite rev_app_distr.
      assert (length (rev w') = 9) by (rewrite rev_length; lia).
      apply Forall_rev in Hw. clear -Hw H. revert H. generalize 9.
      induction Hw; intros n E; simpl in *; [lia|].
      destruct n; [discriminate|]. destruct (opt_eqb_spec x0 tok); [contradiction|].
      apply le_n_S. apply IHHw. lia.
    + left. destruct (exists_last Hy) as (y' & t' & ->).
      rewrite !app_assoc in E. apply app_inj_tail in E. destruct E as [-> <-].
      exists x, w, y'. rewrite <- app_assoc. auto.
  - intros [(x & w & y & -> & Hl & Hw)|[Ht Hn]].
    + exists x, w, (y ++ [t]). rewrite <- !app_assoc. auto.
    + destruct (lead_spec tok (rev l)) as (a & b & E & Hl & Hf & _).
      fold (trail tok l) in Hl.
      assert (El : l = rev b ++ rev a) by (rewrite <- rev_app_distr, <- E, rev_involutive; auto).
      set (ra := rev a) in *.
      assert (Hra : length ra >= 9) by (unfold ra; rewrite rev_length; lia).
      assert (Hfa : Forall (fun t => t <> tok) ra) by (now apply Forall_rev).
      exists (rev b ++ firstn (length ra - 9) ra), (skipn (length ra - 9) ra ++ [t]), [].
      rewrite app_nil_r. split; [|split].
      * rewrite El, <- !app_assoc. f_equal. rewrite app_assoc. now rewrite firstn_skipn.
      * rewrite app_length, skipn_length. simpl. lia.
      * apply Forall_app; split; auto.
        rewrite <- (firstn_skipn (length ra - 9) ra) in Hfa. apply Forall_app in Hfa. tauto.
Qed.

Lemma granted_snoc tok l t : granted tok (l ++ [t]) <-> t = tok /\ ~ locked tok (l ++ [t]).
Proof.
  unfold granted. destruct (l ++ [t]) eqn:E; [destruct l; discriminate|]. rewrite <- E.
  split.
  - intros [[x Hx] H]. apply app_inj_tail in Hx. destruct Hx; subst. auto.
  - intros [-> H]. split; eauto.
Qed.

(** Invariant between the state and the attempts of the session. *)
Definition inv (tok cl : option str) (s : auth) (l : list (option str)) : Prop :=
  access_token s = tok /\ client_access_token s = cl /\
  (locked tok l -> wrong_attempts s = 10 /\ authenticated s = Some false) /\
  (~ locked tok l -> wrong_attempts s = trail tok l /\
     authenticated s = match rev l with [] => None | t :: _ => Some (opt_eqb t tok) end).

Lemma locked_nil tok : ~ locked tok [].
Proof. intros (x & w & y & E & Hl & _). destruct x, w; try discriminate. Qed.

Lemma locked_dec tok l : locked tok l \/ ~ locked tok l.
Proof.
  induction l as [|t l IH] using rev_ind.
  - right. apply locked_nil.
  - rewrite locked_snoc. destruct IH as [H|H]; [auto|].
    destruct (opt_eqb_spec t tok); [right; tauto|].
    destruct (le_dec 9 (trail tok l)); [auto|right; tauto].
Qed.

Lemma trail_lt tok l : ~ locked tok l -> trail tok l < 10.
Proof.
  induction l as [|t l IH] using rev_ind; intros H; [unfold trail; simpl; lia|].
  rewrite trail_snoc. destruct (opt_eqb_spec t tok); [lia|].
  rewrite locked_snoc in H. destruct (le_lt_dec 9 (trail tok l)); [tauto|lia].
Qed.

Lemma inv_login tok cl s l t : inv tok cl s l -> inv tok cl (login s t) (l ++ [t]).
Proof.
  intros (Ht & Hc & HL & HN). unfold login.
  destruct (locked_dec tok l) as [H|H].
  - destruct (HL H) as [Hw Ha]. rewrite Hw. simpl.
    repeat split; auto; intros; exfalso; apply H0; apply locked_snoc; auto.
  - destruct (HN H) as [Hw Ha]. pose proof (trail_lt _ _ H) as Hlt.
    rewrite Hw. destruct (Nat.leb_spec 10 (trail tok l)); [lia|].
    rewrite Ht. unfold inv; simpl. split; [|split; [|split]]; auto.
    + rewrite locked_snoc. intros [?|[Hn Hg]]; [contradiction|].
      destruct (opt_eqb_spec t tok); [contradiction|]. split; auto. lia.
    + intros _. rewrite trail_snoc, rev_app_distr. simpl. split; auto.
Qed.

Lemma inv_logout tok cl s : access_token s = tok -> client_access_token s = cl ->
  inv tok cl (logout s) [].
Proof.
  intros. unfold inv. simpl. split; [|split; [|split]]; auto.
  intros K. exfalso. eapply locked_nil; eauto.
Qed.

Lemma inv_granted tok cl s l : inv tok cl s l -> (is_authenticated s = true <-> granted tok l).
Proof.
  intros (Ht & Hc & HL & HN). unfold is_authenticated. rewrite Ht.
  destruct (locked_dec tok l) as [H|H].
  - destruct (HL H) as [_ ->]. split; [discriminate|]. intros G. exfalso.
    destruct l; [now apply locked_nil in H|]. destruct G. contradiction.
  - destruct (HN H) as [_ ->]. destruct (rev l) as [|t r] eqn:E.
    + assert (l = []) by (rewrite <- (rev_involutive l), E; auto). subst l. unfold granted.
      destruct tok; split; congruence.
    + assert (l = rev r ++ [t]) by (rewrite <- (rev_involutive l), E; auto). subst l.
      rewrite granted_snoc. destruct (opt_eqb_spec t tok); split; try tauto; discriminate.
Qed.

Lemma attempts_snoc_inv h r a l : attempts (h ++ [(r, a)]) l ->
  exists l0, attempts h l0 /\
   ((ends_session r a /\ l = []) \/ (exists t, attempt r = Some t /\ l = l0 ++ [t]) \/
    (attempt r = None /\ ~ ends_session r a /\ l = l0)).
Proof.
  intros H. inversion H.
  - destruct h; discriminate.
  - apply app_inj_tail in H0. destruct H0 as [-> Hp]. inversion Hp; subst. eauto 6.
  - apply app_inj_tail in H0. destruct H0 as [-> Hp]. inversion Hp; subst.
    exists l0. split; auto. right; left. eauto.
  - apply app_inj_tail in H0. destruct H0 as [-> Hp]. inversion Hp; subst.
    exists l. split; auto.
Qed.

Lemma run_snoc s rs r : run s (rs ++ [r]) =
  let (s1, l) := run s rs in let (s2, a) := process s1 r in (s2, l ++ [a]).
Proof.
  revert s; induction rs as [|x rs IH]; intros s; simpl.
  - destruct (process s r); reflexivity.
  - destruct (process s x) as [s1 a1]. rewrite IH.
    destruct (run s1 rs) as [s2 l2]. destruct (process s2 r). reflexivity.
Qed.

Lemma run_length s rs : length (snd (run s rs)) = length rs.
Proof.
  revert s; induction rs as [|r rs IH]; intros s; simpl; auto.
  destruct (process s r) as [s1 a]. specialize (IH s1). destruct (run s1 rs). simpl in *. auto.
Qed.

Lemma combine_snoc {A B} (l : list A) (m : list B) x y : length l = length m ->
  combine (l ++ [x]) (m ++ [y]) = combine l m ++ [(x, y)].
Proof. revert m; induction l; destruct m; simpl; intros; try discriminate; auto. rewrite IHl; auto. Qed.

(** The history of a run: requests with their replies. *)
Definition history (tok cl : option str) (rs : list request) : list (request * reply) :=
  combine rs (snd (run (init tok cl) rs)).

Definition the_state (tok cl : option str) (rs : list request) : auth := fst (run (init tok cl) rs).

Lemma history_snoc tok cl rs r :
  history tok cl (rs ++ [r]) = history tok cl rs ++ [(r, snd (process (the_state tok cl rs) r))].
Proof.
  unfold history, the_state. rewrite run_snoc.
  pose proof (run_length (init tok cl) rs) as Hl.
  destruct (run (init tok cl) rs) as [s l]. simpl in *.
  destruct (process s r) as [s' a]. simpl. now apply combine_snoc.
Qed.

Lemma state_snoc tok cl rs r :
  the_state tok cl (rs ++ [r]) = fst (process (the_state tok cl rs) r).
Proof.
  unfold the_state. rewrite run_snoc. destruct (run (init tok cl) rs). simpl.
  now destruct (process a r).
Qed.

Lemma inv_run tok cl rs : exists l, attempts (history tok cl rs) l /\ inv tok cl (the_state tok cl rs) l /\
  forall l', attempts (history tok cl rs) l' -> l' = l.
Proof.
  induction rs as [|r rs IH] using rev_ind.
  - exists []. split; [constructor|]. split; [now apply inv_logout|].
    intros l' H. inversion H; auto; destruct h; discriminate.
  - destruct IH as (l & Ha & Hi & Hu). rewrite history_snoc, state_snoc.
    set (s := the_state tok cl rs) in *. set (h := history tok cl rs) in *.
    assert (Huniq : forall r' a' l', attempts (h ++ [(r', a')]) l' ->
       (ends_session r' a' /\ l' = []) \/ (exists t, attempt r' = Some t /\ l' = l ++ [t]) \/
       (attempt r' = None /\ ~ ends_session r' a' /\ l' = l)).
    { intros r' a' l' H. destruct (attempts_snoc_inv _ _ _ _ H) as (l0 & H0 & Hc).
      rewrite (Hu _ H0) in Hc. exact Hc. }
    destruct (attempt r) as [t|] eqn:Et.
    + exists (l ++ [t]). split; [econstructor 3; eauto|]. split.
      * destruct r; try discriminate; simpl in *; inversion Et; subst; now apply inv_login.
      * intros l' H. destruct (Huniq _ _ _ H) as [[[Er|[Er _]] _]|[(t' & E & ->)|[E _]]];
          try (rewrite Er in Et; discriminate); congruence.
    + assert (Hdec : ends_session r (snd (process s r)) \/ ~ ends_session r (snd (process s r))).
      { unfold ends_session. destruct r; try (right; intros [|[]]; congruence); auto.
        simpl. destruct (is_authenticated s); simpl; auto. right. intros [|[]]; congruence. }
      destruct Hdec as [He|He].
      * exists []. split; [econstructor 2; eauto|]. split.
        -- destruct He as [->|[-> E]].
           ++ destruct Hi as (? & ? & _). now apply inv_logout.
           ++ simpl in *. destruct (is_authenticated s); [|discriminate].
              destruct Hi as (? & ? & _). now apply inv_logout.
        -- intros l' H. destruct (Huniq _ _ _ H) as [[_ ->]|[(t & E & _)|[_ [E _]]]]; auto; try congruence.
      * exists l. split; [econstructor 4; eauto|]. split.
        -- destruct r; try discriminate; simpl in *; auto.
           ++ destruct (is_authenticated s); auto. exfalso. apply He. right. auto.
           ++ exfalso. apply He. left. auto.
        -- intros l' H. destruct (Huniq _ _ _ H) as [[? _]|[(t & E & _)|[_ [_ ->]]]]; auto; try congruence.
Qed.

(** The session of every history is well defined (the specification always applies). *)
Theorem auth_session_defined :
  forall tok cl rs, exists l, attempts (history tok cl rs) l /\
    forall l', attempts (history tok cl rs) l' -> l' = l.
Proof. intros. destruct (inv_run tok cl rs) as (l & ? & _ & ?). eauto. Qed.
Print Assumptions auth_session_defined.

Lemma inv_at tok cl rs l : attempts (history tok cl rs) l -> inv tok cl (the_state tok cl rs) l.
Proof. intros H. destruct (inv_run tok cl rs) as (l0 & _ & I & U). now rewrite (U _ H). Qed.

(** C05.  After any history, a request that is not a login attempt is obeyed (its handler runs) only if
    the login attempts of the session grant access.  Without access, the reply is a refusal or nothing at all, and no
    part of the authentication state changes except by a lost connection. *)
Theorem auth_gate :
  forall tok cl rs r l,
    attempts (history tok cl rs) l -> attempt r = None ->
    (snd (process (the_state tok cl rs) r) = Executed -> granted tok l) /\
    (~ granted tok l ->
       (snd (process (the_state tok cl rs) r) = Denied \/ snd (process (the_state tok cl rs) r) = Silent) /\
       (r <> ConnectionLost -> the_state tok cl (rs ++ [r]) = the_state tok cl rs)).
Proof.
  intros tok cl rs r l Hat Hr. pose proof (inv_granted _ _ _ _ (inv_at _ _ _ _ Hat)) as G.
  rewrite state_snoc. set (s := the_state tok cl rs) in *. split.
  - intros E. apply G. destruct r; simpl in *; try discriminate;
      destruct (is_authenticated s); auto; discriminate.
  - intros NG. assert (A : is_authenticated s = false) by (destruct (is_authenticated s); tauto).
    destruct r; simpl in *; try discriminate; rewrite ?A; simpl; auto; split; auto; congruence.
Qed.
Print Assumptions auth_gate.

(** C05.  With access, every handled request is obeyed. *)
Theorem auth_obeys :
  forall tok cl rs r l,
    attempts (history tok cl rs) l -> granted tok l ->
    r = LineCommand \/ r = JsonRequest \/ r = JsonDisconnect ->
    snd (process (the_state tok cl rs) r) = Executed.
Proof.
  intros tok cl rs r l Hat HG Hr. apply (inv_granted _ _ _ _ (inv_at _ _ _ _ Hat)) in HG.
  destruct Hr as [->|[->| ->]]; simpl; now rewrite HG.
Qed.
Print Assumptions auth_obeys.

(** C05.  A login attempt is refused exactly when the attempts, this one included, do not grant access. *)
Theorem auth_login_refused :
  forall tok cl rs r t l,
    attempts (history tok cl rs) l -> attempt r = Some t ->
    (snd (process (the_state tok cl rs) r) = Denied <-> ~ granted tok (l ++ [t])).
Proof.
  intros tok cl rs r t l Hat Hr.
  pose proof (inv_granted _ _ _ _ (inv_login _ _ _ _ t (inv_at _ _ _ _ Hat))) as G.
  rewrite <- G. destruct r; simpl in *; try discriminate; inversion Hr; subst;
    destruct (is_authenticated (login _ _)); try destruct (client_access_token _); split;
    try discriminate; try congruence; auto; intros K; exfalso; apply K; auto.
Qed.
Print Assumptions auth_login_refused.

(** C05.  After ten wrong attempts in a row nothing is obeyed and no login succeeds, whatever is sent,
    until the connection is lost. *)
Theorem auth_lockout :
  forall tok cl rs l more,
    attempts (history tok cl rs) l -> locked tok l -> ~ In ConnectionLost more ->
    Forall (fun a => a = Denied \/ a = Silent) (snd (run (the_state tok cl rs) more)) .
Proof.
  intros tok cl rs l more Hat HL.
  destruct (inv_at _ _ _ _ Hat) as (_ & _ & H & _). destruct (H HL) as [Hw Ha]. clear - Hw Ha.
  generalize dependent (the_state tok cl rs). intros s Hw Ha.
  assert (A : is_authenticated s = false) by (unfold is_authenticated; now rewrite Ha).
  assert (L : forall t, login s t = s) by (intros; unfold login; now rewrite Hw).
  induction more as [|r more IH]; intros Hin; [constructor|].
  cbn [run].
  assert (P : process s r = (s, snd (process s r)) /\
              (snd (process s r) = Denied \/ snd (process s r) = Silent)).
  { destruct r; simpl; rewrite ?L, ?A; simpl; auto. exfalso. apply Hin. now left. }
  destruct P as [P1 P2]. rewrite P1.
  assert (Hin' : ~ In ConnectionLost more) by (intros K; apply Hin; now right).
  specialize (IH Hin'). destruct (run s more). simpl in *. constructor; auto.
Qed.
Print Assumptions auth_lockout.

(** Finding: with no token configured a client that logs in anyway is locked out, even though it had
    full access before. *)
Theorem auth_no_token_always_open_refuted :
  exists rs r, snd (process (the_state None None rs) r) = Executed /\
    exists t, snd (process (the_state None None (rs ++ [LineAuthenticate t])) r) = Denied.
Proof. exists [], LineCommand. split; [reflexivity|]. exists [65%N]. reflexivity. Qed.
Print Assumptions auth_no_token_always_open_refuted.

(** Finding: over the line protocol, without a client token, a correct login is answered by an error although
    access is granted. *)
Theorem auth_login_confirmed_refuted :
  exists tok, snd (process (the_state (Some tok) None []) (LineAuthenticate tok)) = ErrorReply /\
    snd (process (the_state (Some tok) None [LineAuthenticate tok]) LineCommand) = Executed.
Proof. exists [65%N]. split; reflexivity. Qed.
Print Assumptions auth_login_confirmed_refuted.

(** Concrete cases: a session with a wrong attempt and then the right one; a locked session. *)
Definition tk : str := [115; 51]%N.
Example auth_case :
  attempts (history (Some tk) (Some tk) [JsonRequest; LineAuthenticate [1%N]; JsonAuthorize (Some tk)])
    [Some [1%N]; Some tk] /\
  granted (Some tk) [Some [1%N]; Some tk] /\
  snd (run (init (Some tk) (Some tk))
        [JsonRequest; LineAuthenticate [1%N]; JsonAuthorize (Some tk); LineCommand; JsonDisconnect; JsonRequest])
    = [Denied; Denied; Granted; Executed; Executed; Denied].
Proof.
  split; [|split]; [| |reflexivity].
  - change (history (Some tk) (Some tk) [JsonRequest; LineAuthenticate [1%N]; JsonAuthorize (Some tk)])
      with (([] ++ [(JsonRequest, Denied)]) ++ [(LineAuthenticate [1%N], Denied)] ++ [(JsonAuthorize (Some tk), Granted)]).
    rewrite app_assoc.
    change [Some [1%N]; Some tk] with (([] ++ [Some [1%N]]) ++ [Some tk]).
    eapply at_login; [|reflexivity]. eapply at_login; [|reflexivity].
    eapply at_other; [constructor|reflexivity|]. intros [|[]]; discriminate.
  - split; [exists [Some [1%N]]; reflexivity|].
    intros (x & w & y & E & Hl & _). apply (f_equal (@length _)) in E.
    rewrite !app_length, Hl in E. simpl in E. lia.
Qed.
Example auth_case_locked :
  snd (run (init (Some tk) (Some tk))
        (repeat (LineAuthenticate [1%N]) 10 ++ [JsonAuthorize (Some tk); JsonRequest; ConnectionLost; JsonAuthorize (Some tk)]))
    = repeat Denied 12 ++ [Silent; Granted].
Proof. reflexivity. Qed.
Example auth_case_locked_spec : locked (Some tk) (repeat (Some [1%N]) 10 ++ [Some tk]).
Proof.
  exists [], (repeat (Some [1%N]) 10), [Some tk]. repeat split.
  apply Forall_forall. intros x H. apply repeat_spec in H. subst. discriminate.
Qed.
