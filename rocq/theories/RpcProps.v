(** Property C51: requests of the debug adapter protocol are answered, once, with their own number and command. *)
From Coq Require Import String.
From Coq Require Import List NArith ZArith Bool Lia Permutation.
From Verif Require Import Base Dict Rpc RpcSpec RpcProofs.
From Verif Require Auth Notify NotifyProps.
Import ListNotations.
Open Scope list_scope.

(** * The account of all requests *)

(** Whatever the client sends and the program does: each request made is answered once, or waits, or is lost. *)
Theorem rpc_accounted (a : Auth.auth) (es : list event) :
  Permutation (answered (run (init a) es) ++ waiting (run (init a) es) ++ lost_in (init a) es) (asked_in (init a) es).
Proof.
  apply (Permutation_count_occ key_dec). intros x. fold (cnt x (asked_in (init a) es)).
  change (count_occ key_dec (answered (run (init a) es) ++ waiting (run (init a) es) ++ lost_in (init a) es) x)
    with (cnt x (answered (run (init a) es) ++ waiting (run (init a) es) ++ lost_in (init a) es)).
  pose proof (total_run x es (init a) (inv_init a)) as H. rewrite total_spec in H. rewrite app_assoc, cnt_app, H. reflexivity.
Qed.

Theorem rpc_at_most_once (a : Auth.auth) (es : list event) :
  NoDup (asked_in (init a) es) -> NoDup (answered (run (init a) es)).
Proof.
  intros H. pose proof (Permutation_NoDup (Permutation_sym (rpc_accounted a es)) H) as H1.
  revert H1. generalize (waiting (run (init a) es) ++ lost_in (init a) es) as l.
  induction (answered (run (init a) es)) as [|k l IH]; intros r Hn; [constructor|].
  cbn [app] in Hn. inversion Hn as [|? ? H2 H3]; subst. constructor; [|eapply IH; eauto].
  intros Hi. apply H2. apply in_or_app. auto.
Qed.

(** An answer is to a request which was made, with its number and its command. *)
Theorem rpc_answers_own (a : Auth.auth) (es : list event) (k : key) :
  In k (answered (run (init a) es)) -> In k (asked_in (init a) es).
Proof. intros H. eapply Permutation_in; [apply rpc_accounted|]. apply in_or_app. auto. Qed.

Theorem rpc_exactly_once (a : Auth.auth) (es : list event) (k : key) :
  count_occ key_dec (asked_in (init a) es) k = 1 ->
  ~ In k (waiting (run (init a) es)) -> ~ In k (lost_in (init a) es) ->
  count_occ key_dec (answered (run (init a) es)) k = 1.
Proof.
  intros H1 H2 H3. pose proof (proj1 (Permutation_count_occ key_dec _ _) (rpc_accounted a es) k) as H.
  rewrite !count_occ_app in H. apply (count_occ_not_In key_dec) in H2, H3. lia.
Qed.

(** A request which is lost is never answered, whatever happens later. *)
Theorem rpc_lost_never_answered (a : Auth.auth) (es later : list event) (k : key) :
  count_occ key_dec (asked_in (init a) (es ++ later)) k = 1 -> In k (lost_in (init a) es) ->
  ~ In k (answered (run (init a) (es ++ later))).
Proof.
  intros H1 H2. pose proof (proj1 (Permutation_count_occ key_dec _ _) (rpc_accounted a (es ++ later)) k) as H.
  rewrite !count_occ_app in H.
  assert (Hl : forall s l, In k (lost_in s es) -> In k (lost_in s (es ++ l))).
  { clear. induction es as [|e es IH]; cbn [app lost_in]; intros s l Hi; [destruct Hi|].
    apply in_app_iff in Hi. apply in_app_iff. destruct Hi; auto. }
  apply (Hl _ later) in H2. apply (count_occ_In key_dec) in H2.
  apply (count_occ_not_In key_dec). lia.
Qed.

(** * What is answered at once *)

(** A message which is a request of the protocol, of command [c] and number [q]. *)
Definition request_of (o : obj) (q : Z) (c : str) : Prop :=
  o_type o = MRequest /\ o_command o = Some c /\ o_seq o = Some q /\ o_ok o = true /\ existsb (str_eqb c) registered = true.

Lemma step_request s o q c :
  reading s = true -> request_of o q c ->
  step s (EMsg (Object o)) =
  match handler_of c with
  | None => s
  | Some h =>
      let s := if is_authorize c then with_auth (Auth.login (auth s) (a_token (o_args o))) s else s in
      if Auth.is_authenticated (auth s) then
        match handle h (q, c) (o_args o) s with
        | (s', HAnswer b) => write [Resp (q, c) b] s'
        | (s', HNothing) => s'
        | (s', HRaise) => stop_reading s'
        end
      else write [Resp (q, c) false] s
  end.
Proof.
  intros Hr (H1 & H2 & H3 & H4 & H5). cbn [step]. rewrite Hr. unfold process, from_json. rewrite H1, H2, H3, H4, H5. reflexivity.
Qed.

Lemma auth_case s o (c : str) :
  exists s0, (if is_authorize c then with_auth (Auth.login (auth s) (a_token (o_args o))) s else s) = s0
    /\ Auth.is_authenticated (auth s0) = authorized c (o_args o) s
    /\ out s0 = out s /\ fatal c (o_args o) s0 = fatal c (o_args o) s /\ reading s0 = reading s.
Proof.
  unfold authorized, is, is_authorize. eexists. split; [reflexivity|].
  destruct (str_eqb c (lit "pydevdAuthorize")); repeat split.
Qed.

Lemma is_lit n m : is (lit n) m = true -> lit n = lit m.
Proof. unfold is. apply str_eqb_eq. Qed.

Lemma immediate_handle n h q a s s' r :
  In (n, h) supported -> among (lit n) immediate = true -> handle h (q, lit n) a s = (s', r) -> fatal (lit n) a s = false ->
  exists b, r = HAnswer b /\ out s' = out s.
Proof.
  intros Hin Hi E Hf. destruct (total_handle n h q a s s' r Hin E) as [Hr _].
  assert (Hne : r <> HRaise) by (intros Hx; apply Hr in Hx; congruence). clear Hr Hf.
  unfold supported in Hin. cbn [In] in Hin.
  repeat (destruct Hin as [Hin | Hin]; [injection Hin as <- <-; try (vm_compute in Hi; discriminate Hi)|]); [..|contradiction];
  unfold handle, request_step in E; clear Hi;
  hcase E; try discriminate E; injection E as <- <-; subst; try congruence;
  repeat match goal with H : Some _ = Some _ |- _ => injection H as <- end; eauto.
  all: destruct (existsb _ (goto_map s)); eauto.
Qed.

(** Requests other than those which need the program are answered by the reader, before the next one is read, with one
    message. *)
Theorem rpc_immediate (s : state) (o : obj) (q : Z) (c : str) :
  reading s = true -> request_of o q c -> among c immediate = true ->
  authorized c (o_args o) s = true -> fatal c (o_args o) s = false ->
  exists b, out (step s (EMsg (Object o))) = out s ++ [Resp (q, c) b].
Proof.
  intros Hr Ho Hi Ha Hf. rewrite (step_request s o q c Hr Ho).
  destruct Ho as (_ & _ & _ & _ & Hreg).
  destruct (registered_supported c Hreg) as [[Hu Hh] | [Hu (n & h & Hin & -> & Hh)]].
  - exfalso. clear - Hu Hi. unfold among in *. apply existsb_exists in Hu, Hi. destruct Hu as (x & Hx & Ex), Hi as (y & Hy & Ey).
    unfold is in Ex, Ey. apply str_eqb_eq in Ex, Ey. rewrite Ex in Ey. clear Ex.
    unfold unsupported in Hx. unfold immediate in Hy. cbn [In] in Hx, Hy.
    repeat (destruct Hx as [<- | Hx]; [repeat (destruct Hy as [<- | Hy]; [vm_compute in Ey; discriminate Ey|]); contradiction|]).
    contradiction.
  - rewrite Hh. destruct (auth_case s o (lit n)) as (s0 & -> & Ea & Eo & Ef & _). cbn zeta. rewrite Ea, Ha.
    destruct (handle h (q, lit n) (o_args o) s0) as [s' r] eqn:E.
    destruct (immediate_handle _ _ _ _ _ _ _ Hin Hi E) as (b & -> & Hout); [congruence|].
    exists b. unfold write. cbn [out]. rewrite Hout, Eo. reflexivity.
Qed.

(** A client which is not authenticated gets one refusal, and nothing else happens. *)
Theorem rpc_unauthenticated (s : state) (o : obj) (q : Z) (c : str) :
  reading s = true -> request_of o q c -> among c unsupported = false -> authorized c (o_args o) s = false ->
  let s' := step s (EMsg (Object o)) in
  out s' = out s ++ [Resp (q, c) false] /\ queues s' = queues s /\ star s' = star s /\ threads s' = threads s
  /\ callbacks s' = callbacks s /\ single s' = single s /\ launched s' = launched s /\ reading s' = true.
Proof.
  intros Hr Ho Hu Ha s'. unfold s'. rewrite (step_request s o q c Hr Ho).
  destruct Ho as (_ & _ & _ & _ & Hreg).
  destruct (registered_supported c Hreg) as [[Hx _] | [_ (n & h & Hin & -> & Hh)]]; [congruence|].
  rewrite Hh. unfold authorized, is, is_authorize in *.
  destruct (str_eqb (lit n) (lit "pydevdAuthorize")); cbn zeta; cbn [auth with_auth]; rewrite Ha; repeat split; auto.
Qed.

(** An object with a number which is no acceptable request gets one refusal, authenticated or not. *)
Theorem rpc_malformed (s : state) (o : obj) (q : Z) :
  reading s = true -> o_seq o = Some q -> accepted o = false -> (o_type o = MOther -> o_ok o = false) ->
  step s (EMsg (Object o)) = write [Resp (q, match o_command o with Some c => c | None => lit "<unknown>" end) false] s.
Proof.
  intros Hr Hq Hacc Hm. cbn [step]. rewrite Hr. unfold process, from_json, accepted in *. rewrite Hq.
  destruct (o_type o), (o_command o); auto; try (rewrite Hm by reflexivity; reflexivity).
  rewrite andb_comm, Hacc. reflexivity.
Qed.

(** * When the session ends *)

(** The reader stops only for a request which is [fatal], or a message of the protocol which is no request. *)
Theorem rpc_reader_ends (s : state) (e : event) :
  reading s = true ->
  (reading (step s e) = false <->
   exists o, e = EMsg (Object o) /\
     ((o_type o = MOther /\ o_ok o = true)
      \/ exists c, o_command o = Some c /\ accepted o = true /\ among c unsupported = false
                   /\ authorized c (o_args o) s = true /\ fatal c (o_args o) s = true)).
Proof.
  intros Hr.
  assert (Hn : forall o0 s0, reading (note o0 s0) = reading s0).
  { intros o0 s0. unfold note. destruct o0; try reflexivity. destruct (Nat.ltb _ _); reflexivity. }
  assert (Hent : forall t h refs plain s0, reading (enter t h refs plain s0) = reading s0).
  { intros. unfold enter. destruct (single s0); rewrite ?Hn; reflexivity. }
  assert (Hlv : forall t h s0, reading (leave t h s0) = reading s0).
  { intros. unfold leave. destruct (th_noted h); rewrite ?Hn; reflexivity. }
  destruct e as [m| | | | | | | | | | | ];
  try (split; [|intros (o & Ho & _); discriminate Ho]; cbn [step];
       repeat match goal with |- context [match ?d with _ => _ end] => destruct d end;
       rewrite ?Hent, ?Hn, ?Hlv; unfold exec;
       repeat match goal with |- context [match ?d with _ => _ end] => destruct d end;
       unfold write, set_thr, resume_others; cbn [reading with_threads with_queues with_star]; congruence).
  destruct m as [|o]; [split; [cbn [step process]; rewrite Hr; congruence | intros (o & Ho & _); discriminate Ho]|].
  cbn [step]. rewrite Hr.
  split.
  - intros He. exists o. split; [reflexivity|]. unfold process, from_json in He.
    destruct (o_type o) eqn:Et.
    + right. destruct (o_command o) as [c|] eqn:Ec.
      * destruct (existsb (str_eqb c) registered) eqn:Ereg; cbn [andb] in He;
          [|destruct (o_seq o); cbn in He; congruence].
        destruct (o_ok o) eqn:Eok; [|destruct (o_seq o); cbn in He; congruence].
        cbn [snd] in He. exists c. split; [reflexivity|]. unfold accepted. rewrite Et, Ec, Eok, Ereg. split; [reflexivity|].
        destruct (registered_supported c Ereg) as [[Hu Hh] | [Hu (n & h & Hin & -> & Hh)]]; rewrite Hh in He; [congruence|].
        split; [exact Hu|].
        destruct (auth_case s o (lit n)) as (s0 & E0 & Ea & Eo & Ef & Erd). rewrite E0 in He. cbn zeta in He. rewrite Ea in He.
        destruct (authorized (lit n) (o_args o) s); [|cbn in He; congruence]. split; [reflexivity|].
        remember (match o_seq o with Some q => q | None => (-1)%Z end) as q eqn:Eq. clear Eq.
        destruct (handle h (q, lit n) (o_args o) s0) as [s' r] eqn:E.
        destruct (total_handle n h q (o_args o) s0 s' r Hin E) as [Hf _].
        rewrite <- Ef. apply Hf.
        assert (Hrd : reading s' = reading s0).
        { clear - E. unfold handle, request_step in E.
          hcase E; try discriminate E; injection E as <- <-; subst; try reflexivity;
          repeat match goal with H : Some _ = Some _ |- _ => injection H as <- end; try reflexivity.
          all: destruct (existsb _ (goto_map s0)); reflexivity. }
        destruct r; [cbn in He; congruence | congruence | reflexivity].
      * destruct (o_seq o); cbn in He; congruence.
    + destruct (o_ok o) eqn:Eok; [left; auto|]. destruct (o_seq o); cbn in He; congruence.
    + destruct (o_seq o); cbn in He; congruence.
  - intros (o' & Ho & H). injection Ho as <-. destruct H as [[Ht Hk] | (c & Hc & Hacc & Hu & Ha & Hf)].
    + unfold process, from_json. rewrite Ht, Hk. reflexivity.
    + unfold accepted in Hacc. unfold process, from_json. destruct (o_type o); try discriminate. rewrite Hc in *.
      apply andb_true_iff in Hacc. destruct Hacc as [Hok Hreg]. rewrite Hok, Hreg. cbn [andb snd].
      destruct (registered_supported c Hreg) as [[Hx _] | [_ (n & h & Hin & -> & Hh)]]; [congruence|]. rewrite Hh.
      destruct (auth_case s o (lit n)) as (s0 & -> & Ea & Eo & Ef & Erd). cbn zeta. rewrite Ea, Ha.
      remember (match o_seq o with Some q => q | None => (-1)%Z end) as q eqn:Eq. clear Eq.
      destruct (handle h (q, lit n) (o_args o) s0) as [s' r] eqn:E.
      destruct (total_handle n h q (o_args o) s0 s' r Hin E) as [Hr2 _].
      assert (r = HRaise) as -> by (apply Hr2; congruence). reflexivity.
Qed.


(** * Requests for a suspended thread *)

(** The commands which look at a suspended thread. *)
Definition inspects (c : icmd) : Prop := match i_kind c with IStack _ | IGoto | IStep => False | _ => True end.
(** The code run for the command ends normally (the frame of completions is known). *)
Definition fine (h : thread) (c : icmd) (x : xres) : Prop :=
  x_raises x = false /\ match i_kind c with ICompletions r => tracked r h = true | _ => True end.

Lemma queue_set t q s : queue t (with_queues (set N.eqb t q (queues s)) s) = q.
Proof. unfold queue. cbn [queues with_queues]. rewrite get_set_same; auto. intros; apply N.eqb_spec. Qed.

Lemma exec_inspect t h c x s :
  inspects c -> fine h c x -> thr t s = Some h ->
  answered (exec t h c x s) = answered s ++ [i_key c] /\ queue t (exec t h c x s) = queue t s
  /\ exists h', thr t (exec t h c x s) = Some h' /\ th_in h' = th_in h /\ th_run h' = th_run h /\ th_refs h' = th_refs h.
Proof.
  intros Hi [Hx Hr] Ht. unfold inspects, exec in *. rewrite Hx.
  destruct (i_kind c) as [ | v | | | v | v | | d | | ]; try contradiction; rewrite ?Hr; cbn [negb andb];
  try (destruct (tracked v h); cbn [andb]);
  repeat split; try apply answered_write; try (exists h; repeat split; auto; fail).
  - rewrite answered_write. reflexivity.
  - eexists. split; [apply thr_set_same|]. repeat split.
Qed.

(** A suspended thread answers the requests in its queue, one by one and in their order. *)
Theorem rpc_thread_answers (t : N) (s : state) (h : thread) (xs : list xres) :
  thr t s = Some h -> th_in h = true -> th_run h = false ->
  Forall inspects (queue t s) -> Forall2 (fine h) (queue t s) xs ->
  let s' := run s (map (EExec t) xs) in
  answered s' = answered s ++ map i_key (queue t s) /\ queue t s' = [].
Proof.
  intros Ht Hin Hrun Hq Hf. cbn zeta. remember (queue t s) as q eqn:Eq.
  assert (Hh : th_refs h = th_refs h) by reflexivity. revert Hh Ht Hin Hrun Eq. generalize h at 1 3 4 5 as h0. intros h0. revert h0 s.
  induction Hf as [|c x q xs Hc Hf IH]; intros h0 s Hrefs Ht Hin Hrun Eq; cbn [map].
  - rewrite app_nil_r. auto.
  - inversion Hq as [|? ? Hic Hq']; subst.
    unfold run. cbn [fold_left]. fold (run (step s (EExec t x)) (map (EExec t) xs)).
    cbn [step]. rewrite Ht, <- Eq, Hin, Hrun. cbn [andb negb].
    remember (with_queues (set N.eqb t q (queues s)) s) as s1 eqn:E1.
    assert (Ht1 : thr t s1 = Some h0) by (subst s1; exact Ht).
    assert (Hc0 : fine h0 c x).
    { destruct Hc as [F1 F2]. split; auto. destruct (i_kind c); auto. unfold tracked in *. rewrite Hrefs. exact F2. }
    destruct (exec_inspect t h0 c x s1 Hic Hc0 Ht1) as (Ha & Hqq & h' & Ht' & Hin' & Hrun' & Hrefs').
    assert (Hq1 : q = queue t (exec t h0 c x s1)) by (rewrite Hqq; subst s1; symmetry; apply queue_set).
    destruct (IH Hq' h' (exec t h0 c x s1)) as [A B]; try congruence.
    split; auto. rewrite A, Ha. subst s1. rewrite <- app_assoc. reflexivity.
Qed.

(** A thread told to jump answers when it wakes up: that it could, or that it could not. *)
Theorem rpc_goto_answers (t : N) (s : state) (h : thread) (c : icmd) (q : list icmd) (x : xres) (ok : bool) (refs : list Z) :
  thr t s = Some h -> th_in h = true -> th_run h = false -> queue t s = c :: q -> i_kind c = IGoto ->
  exists rest, out (run s [EExec t x; EWake t ok refs]) = out s ++ Resp (i_key c) ok :: rest.
Proof.
  intros Ht Hin Hrun Hq Hk. unfold run. cbn [fold_left step]. rewrite Ht, Hq, Hin, Hrun. cbn [andb negb].
  unfold exec. rewrite Hk.
  rewrite thr_set_same. cbn [th_in th_run th_goto]. cbn [andb].
  rewrite Hin. cbn [andb th_refs th_targets th_noted].
  assert (Hn : forall o0 s0, exists l, out (note o0 s0) = out s0 ++ l).
  { intros o0 s0. unfold note. destruct o0; try (exists []; rewrite app_nil_r; reflexivity).
    destruct (Nat.ltb _ _); [eexists; reflexivity | exists []; rewrite app_nil_r; reflexivity]. }
  assert (Hl : forall t h s0, exists l, out (leave t h s0) = out s0 ++ l).
  { intros. unfold leave. destruct (th_noted h0); [|exists []; rewrite app_nil_r; reflexivity].
    match goal with |- context [note ?o ?w] => destruct (Hn o w) as [l E]; exists l; exact E end. }
  assert (He : forall t h refs plain s0, exists l, out (enter t h refs plain s0) = out s0 ++ l).
  { intros. unfold enter. destruct (single s0); [|exists []; rewrite app_nil_r; reflexivity].
    match goal with |- context [note ?o ?w] => destruct (Hn o w) as [l E]; exists l; exact E end. }
  destruct ok; [|exists []; reflexivity].
  match goal with |- context [enter t ?h0 refs false ?w] => destruct (He t h0 refs false w) as [l1 E1]; rewrite E1 end.
  match goal with |- context [note ?o ?w] => destruct (Hn o w) as [l2 E2]; rewrite E2 end.
  match goal with |- context [leave t ?h0 ?w] => destruct (Hl t h0 w) as [l3 E3]; rewrite E3 end.
  exists (l3 ++ l2 ++ l1). cbn [out write set_thr with_threads with_queues]. rewrite <- !app_assoc. reflexivity.
Qed.

(** * Continue when stops of all threads are announced together *)

(** What the reader and the commands of a thread leave alone: what was announced, and whether stops were. *)
Definition quiet (s s' : state) : Prop :=
  notes s' = notes s /\ keys (threads s') = keys (threads s)
  /\ forall t h', thr t s' = Some h' -> th_noted h' = true ->
       exists h, thr t s = Some h /\ th_noted h = true /\ th_in h' = th_in h.
Lemma quiet_refl s : quiet s s.
Proof. repeat split; eauto. Qed.
Lemma quiet_trans a b c : quiet a b -> quiet b c -> quiet a c.
Proof.
  intros (H1 & K1 & H2) (H3 & K2 & H4). split; [congruence|]. split; [congruence|]. intros t h Ht Hn. destruct (H4 t h Ht Hn) as (h1 & A & B & C).
  destruct (H2 t h1 A B) as (h2 & D & E & F). exists h2. repeat split; auto. congruence.
Qed.
Lemma quiet_same s s' : notes s' = notes s -> threads s' = threads s -> quiet s s'.
Proof. intros H1 H2. split; auto. unfold thr. rewrite H2. split; eauto. Qed.
Lemma thr_set t t' h s : thr t' (set_thr t h s) = if N.eqb t' t then Some h else thr t' s.
Proof. unfold thr, set_thr. cbn [threads with_threads]. apply get_set. intros; apply N.eqb_spec. Qed.
Lemma quiet_set_thr t h h' s : thr t s = Some h -> th_noted h' = th_noted h -> th_in h' = th_in h -> quiet s (set_thr t h' s).
Proof.
  intros Ht Hn Hi. split; [reflexivity|]. split.
  { unfold set_thr. cbn [threads with_threads]. rewrite keys_set by (intros; apply N.eqb_spec). unfold mem.
    unfold thr in Ht. rewrite Ht. reflexivity. }
  intros t' h0 Ht' Hn'. rewrite thr_set in Ht'.
  destruct (N.eqb_spec t' t) as [->|]; eauto. injection Ht' as <-. exists h. repeat split; congruence.
Qed.
Lemma get_map_thread (f : N -> thread -> thread) t (l : list (N * thread)) :
  get N.eqb t (map (fun p => (fst p, f (fst p) (snd p))) l) = option_map (f t) (get N.eqb t l).
Proof.
  induction l as [|[t0 h0] l IH]; auto. cbn [map get fst snd]. destruct (N.eqb_spec t t0) as [->|]; auto.
Qed.
Lemma quiet_resume_every s : quiet s (resume_every s).
Proof.
  split; [reflexivity|]. split; [unfold keys, resume_every; cbn [threads with_threads]; rewrite map_map; reflexivity|].
  intros t h' Ht Hn. unfold thr, resume_every in *. cbn [threads with_threads] in Ht.
  rewrite (get_map_thread (fun _ h => run_thread h)) in Ht. destruct (get N.eqb t (threads s)) as [h|]; [|discriminate].
  injection Ht as <-. exists h. auto.
Qed.
Lemma quiet_resume_others t s : quiet s (resume_others t s).
Proof.
  split; [reflexivity|]. split; [unfold keys, resume_others; cbn [threads with_threads]; rewrite map_map; reflexivity|].
  intros t' h' Ht Hn. unfold thr, resume_others in *. cbn [threads with_threads] in Ht.
  rewrite (get_map_thread (fun t0 h => if N.eqb t0 t then h else run_thread h)) in Ht.
  destruct (get N.eqb t' (threads s)) as [h|]; [|discriminate].
  injection Ht as <-. exists h. destruct (N.eqb t' t); auto.
Qed.
Lemma quiet_handle h k a s s' r : handle h k a s = (s', r) -> quiet s s'.
Proof.
  intros E. unfold handle, request_step in E.
  hcase E; try discriminate E; injection E as <- <-; subst;
  repeat match goal with H : Some _ = Some _ |- _ => injection H as <- end;
  try (apply quiet_refl); try (apply quiet_same; reflexivity).
  all: try (eapply quiet_trans; [|apply quiet_resume_every]; apply quiet_same; reflexivity).
  all: try (eapply quiet_set_thr; eauto; fail).
  all: destruct (existsb _ (goto_map s)); [apply quiet_refl | apply quiet_same; reflexivity].
Qed.
Lemma quiet_process m s : quiet s (process m s).
Proof.
  unfold process. destruct m as [|o]; [apply quiet_refl|]. destruct (from_json o) as [k| |].
  - destruct (handler_of (snd k)) as [h|]; [|apply quiet_refl]. cbn zeta.
    remember (if is_authorize (snd k) then with_auth (Auth.login (auth s) (a_token (o_args o))) s else s) as s0 eqn:E0.
    assert (Q0 : quiet s s0) by (subst s0; destruct (is_authorize (snd k)); apply quiet_same; reflexivity).
    destruct (Auth.is_authenticated (auth s0)); [|eapply quiet_trans; [exact Q0 | apply quiet_same; reflexivity]].
    destruct (handle h k (o_args o) s0) as [s' r] eqn:E. apply quiet_handle in E.
    eapply quiet_trans; [exact Q0|]. eapply quiet_trans; [exact E|]. destruct r; apply quiet_same; reflexivity.
  - apply quiet_same; reflexivity.
  - destruct (o_seq o); apply quiet_same; reflexivity.
Qed.
Lemma quiet_exec t h c x s : thr t s = Some h -> quiet s (exec t h c x s).
Proof.
  intros Ht. unfold exec. destruct (i_kind c);
  repeat match goal with |- context [if ?b then _ else _] => destruct b end;
  try (apply quiet_same; reflexivity).
  - match goal with |- quiet _ (write _ ?w) => apply quiet_trans with w end;
      [eapply quiet_set_thr; [exact Ht|reflexivity|reflexivity] | apply quiet_same; reflexivity].
  - eapply quiet_set_thr; [exact Ht|reflexivity|reflexivity].
  - apply quiet_trans with (set_thr t (run_thread h) s);
      [eapply quiet_set_thr; [exact Ht|reflexivity|reflexivity] | apply quiet_resume_others].
  - eapply quiet_set_thr; [exact Ht|reflexivity|reflexivity].
Qed.

Record noted (s : state) : Prop := {
  noted_keys : NoDup (keys (threads s));
  noted_run : exists ops, notes s = Notify.run ops;
  noted_in : forall t h, thr t s = Some h -> th_noted h = true ->
               mem N.eqb t (Notify.suspended (notes s)) = true /\ th_in h = true
}.
Lemma noted_quiet s s' : quiet s s' -> noted s -> noted s'.
Proof.
  intros (Q1 & K & Q2) [N0 A B]. split; [rewrite K; auto|rewrite Q1; auto|rewrite Q1]. intros t h Ht Hn. destruct (Q2 t h Ht Hn) as (h0 & H1 & H2 & H3).
  destruct (B t h0 H1 H2). split; auto. congruence.
Qed.
Lemma notes_note o s : notes (note o s) = Notify.step (notes s) o.
Proof. unfold note. destruct o; try reflexivity. destruct (Nat.ltb _ _); reflexivity. Qed.
Lemma threads_note o s : threads (note o s) = threads s.
Proof. unfold note. destruct o; try reflexivity. destruct (Nat.ltb _ _); reflexivity. Qed.
Lemma run_snoc ops o : Notify.run (ops ++ [o]) = Notify.step (Notify.run ops) o.
Proof. unfold Notify.run. rewrite fold_left_app. reflexivity. Qed.
Lemma mem_set t t' (d : list (N * unit)) : mem N.eqb t' (set N.eqb t tt d) = N.eqb t' t || mem N.eqb t' d.
Proof. unfold mem. rewrite get_set by (intros; apply N.eqb_spec). destruct (N.eqb t' t); reflexivity. Qed.
Lemma mem_del t t' (d : list (N * unit)) : t' <> t -> mem N.eqb t' (del N.eqb t d) = mem N.eqb t' d.
Proof. intros H. unfold mem. rewrite get_del_other; auto. intros; apply N.eqb_spec. Qed.

(** Whether a thread stays in the set of the threads announced as stopped. *)
Lemma suspended_step o n t :
  mem N.eqb t (Notify.suspended n) = true -> o <> Notify.Resume t -> mem N.eqb t (Notify.suspended (Notify.step n o)) = true.
Proof.
  intros H Hne. destruct o as [| |g|u plain|u]; cbn [Notify.step]; auto.
  - destruct (existsb _ _); auto. destruct (Notify.suspended n) as [|[u v] d] eqn:E; [rewrite E; auto|].
    destruct (Z.ltb _ _); unfold Notify.send, Notify.set_last; cbn [Notify.suspended]; rewrite E; auto.
  - assert (Hm : mem N.eqb t (set N.eqb u tt (Notify.suspended n)) = true) by (rewrite mem_set, H; apply orb_true_r).
    destruct (negb plain || Notify.pause n); [destruct (Z.ltb _ _)|]; exact Hm.
  - destruct (mem N.eqb u (Notify.suspended n)); auto.
    assert (Hm : mem N.eqb t (del N.eqb u (Notify.suspended n)) = true) by (rewrite mem_del; auto; congruence).
    destruct (Z.ltb _ _); exact Hm.
Qed.

Lemma noted_note o s : noted s -> (forall t, o <> Notify.Resume t) -> noted (note o s).
Proof.
  intros [N0 [ops A] B] H. split.
  - rewrite threads_note. exact N0.
  - exists (ops ++ [o]). rewrite notes_note, run_snoc, A. reflexivity.
  - intros t h. rewrite thr_note, notes_note. intros Ht Hn. destruct (B t h Ht Hn). split; auto.
    apply suspended_step; auto.
Qed.
Lemma noted_leave t h s : noted s -> noted (leave t h s).
Proof.
  intros [N0 [ops A] B]. unfold leave.
  assert (Q : forall t' h', thr t' (set_thr t (Thread false (th_run h) (th_goto h) [] (th_targets h) false) s) = Some h' ->
              th_noted h' = true -> t' <> t /\ thr t' s = Some h').
  { intros t' h' Ht Hn. rewrite thr_set in Ht. destruct (N.eqb_spec t' t); auto. injection Ht as <-. discriminate Hn. }
  destruct (th_noted h).
  - split.
    + rewrite threads_note. apply NoDup_keys_set; [intros; apply N.eqb_spec | exact N0].
    + exists (ops ++ [Notify.Resume t]). rewrite notes_note, run_snoc. cbn [notes set_thr with_threads]. rewrite A. reflexivity.
    + intros t' h'. rewrite thr_note, notes_note. intros Ht Hn. destruct (Q t' h' Ht Hn) as [Hne Ht0].
      destruct (B t' h' Ht0 Hn). split; auto. apply suspended_step; [auto | congruence].
  - split; [apply NoDup_keys_set; [intros; apply N.eqb_spec | exact N0] | exists ops; exact A|]. intros t' h' Ht Hn. destruct (Q t' h' Ht Hn) as [Hne Ht0]. exact (B t' h' Ht0 Hn).
Qed.
Lemma noted_enter t h refs plain s : noted s -> noted (enter t h refs plain s).
Proof.
  intros [N0 [ops A] B]. unfold enter. cbn zeta. destruct (single s) eqn:Es.
  - split.
    + rewrite threads_note. apply NoDup_keys_set; [intros; apply N.eqb_spec | exact N0].
    + exists (ops ++ [Notify.Suspend t plain]). rewrite notes_note, run_snoc. cbn [notes set_thr with_threads]. rewrite A. reflexivity.
    + intros t' h'. rewrite thr_note, notes_note, thr_set. intros Ht Hn. destruct (N.eqb_spec t' t) as [->|].
      * injection Ht as <-. split; [|reflexivity]. cbn [Notify.step notes set_thr with_threads].
        assert (Hm : mem N.eqb t (set N.eqb t tt (Notify.suspended (notes s))) = true) by (rewrite mem_set, N.eqb_refl; reflexivity).
        destruct (negb plain || _); [destruct (Z.ltb _ _)|]; exact Hm.
      * destruct (B t' h' Ht Hn). split; auto. apply suspended_step; [auto | discriminate].
  - split; [apply NoDup_keys_set; [intros; apply N.eqb_spec | exact N0] | exists ops; exact A|]. intros t' h' Ht Hn. rewrite thr_set in Ht. destruct (N.eqb_spec t' t) as [->|]; [|exact (B t' h' Ht Hn)].
    injection Ht as <-. discriminate Hn.
Qed.

Lemma noted_step s e : noted s -> noted (step s e).
Proof.
  intros I. destruct e as [m|t x|t ok refs|i late x|t|t|t main|t refs plain|t r| | |g]; cbn [step].
  - destruct (reading s); auto. eapply noted_quiet; [apply quiet_process | auto].
  - destruct (thr t s) as [h|] eqn:Ht; auto. destruct (queue t s) as [|c q]; auto.
    destruct (th_in h && negb (th_run h)); auto.
    eapply noted_quiet; [apply quiet_exec; exact Ht|]. apply (noted_quiet s); [apply quiet_same; reflexivity | auto].
  - destruct (thr t s) as [h|] eqn:Ht; auto. destruct (th_in h && th_run h); auto. destruct (th_goto h) as [k|].
    + assert (I1 : noted (write [Resp k ok] s)) by (apply (noted_quiet s); [apply quiet_same; reflexivity | auto]).
      cbn zeta. destruct ok.
      * apply noted_enter. apply noted_note; [|discriminate]. apply noted_leave. auto.
      * eapply noted_quiet; [|exact I1]. eapply quiet_set_thr; [exact Ht|reflexivity|reflexivity].
    + apply noted_leave; auto.
  - destruct (nth_error (star s) i) as [c|]; auto.
    destruct (i_kind c); repeat match goal with |- context [if ?b then _ else _] => destruct b end; auto;
    (apply (noted_quiet s); [apply quiet_same; reflexivity | auto]).
  - destruct (mem N.eqb t (threads s)) eqn:E; auto. destruct I as [N0 A B].
    split; [apply NoDup_keys_set; [intros; apply N.eqb_spec | exact N0] | exact A |].
    intros t' h' Ht Hn. rewrite thr_set in Ht. destruct (N.eqb t' t); [injection Ht as <-; discriminate Hn | exact (B t' h' Ht Hn)].
  - destruct (thr t s) as [h|] eqn:Ht; auto. destruct (th_in h) eqn:Hin; auto.
    destruct I as [N0 A B]. split; [apply NoDup_keys_del; auto | exact A |].
    intros t' h' Ht' Hn. unfold thr in Ht'. cbn [threads with_threads] in Ht'.
    rewrite get_del in Ht'; [|intros; apply N.eqb_spec | auto]. destruct (N.eqb t' t); [discriminate|]. exact (B t' h' Ht' Hn).
  - destruct (thr t s) as [h|] eqn:Ht; auto. eapply noted_quiet; [|exact I].
    eapply quiet_set_thr; [exact Ht|reflexivity|reflexivity].
  - destruct (thr t s) as [h|] eqn:Ht; auto. destruct (th_in h); auto. apply noted_enter; auto.
  - destruct (thr t s) as [h|] eqn:Ht; auto. destruct (th_in h) eqn:Hin; auto. eapply noted_quiet; [|exact I].
    eapply quiet_set_thr; [exact Ht|reflexivity|symmetry; exact Hin].
  - apply noted_note; [auto | discriminate].
  - apply noted_note; [auto | discriminate].
  - apply noted_note; [auto | discriminate].
Qed.

Lemma noted_reach a es : noted (run (init a) es).
Proof.
  unfold run. assert (H : noted (init a)).
  { split; [constructor | exists []; reflexivity | intros t h Ht; discriminate Ht]. }
  revert H. generalize (init a). induction es as [|e es IH]; intros s H; cbn [fold_left]; auto. apply IH, noted_step, H.
Qed.

(** When the client was told that all threads stopped and the first thread whose stop was noted goes on, it is told so,
    and every continue which is pending is answered. *)
Theorem rpc_continue_answered (a : Auth.auth) (es : list event) (t : N) (h : thread) (ok : bool) (refs : list Z) :
  let s := run (init a) es in
  let s' := step s (EWake t ok refs) in
  thr t s = Some h -> th_in h = true -> th_run h = true -> th_goto h = None -> th_noted h = true ->
  NotifyProps.outstanding (rev (Notify.events (notes s))) ->
  Notify.events (notes s') = Notify.Continued t :: Notify.events (notes s)
  /\ out s' = out s ++ map (fun k => Resp k true) (callbacks s) /\ callbacks s' = [].
Proof.
  intros s s' Ht Hin Hrun Hg Hn Ho. subst s'.
  pose proof (noted_reach a es) as [N0 [ops A] B]. fold s in A, B, N0.
  cbn [step]. rewrite Ht, Hin, Hrun, Hg. cbn [andb]. unfold leave. rewrite Hn.
  destruct (B t h Ht Hn) as [Hm _].
  assert (Hlt : (Notify.last_resume (notes s) < Notify.last_suspend (notes s))%Z).
  { rewrite A in *. apply NotifyProps.v_top; [apply NotifyProps.inv_run|]. apply NotifyProps.out_top; auto. }
  assert (E : Notify.events (Notify.step (notes s) (Notify.Resume t)) = Notify.Continued t :: Notify.events (notes s)).
  { cbn [Notify.step]. rewrite Hm. cbn [Notify.set_susp Notify.last_resume Notify.last_suspend].
    apply Z.ltb_lt in Hlt. rewrite Hlt. reflexivity. }
  unfold note. cbn [notes set_thr with_threads]. rewrite E. cbn [length].
  replace (Nat.ltb _ _) with true by (symmetry; apply Nat.ltb_lt; lia).
  split; [exact E|]. split; reflexivity.
Qed.

(** The pending continues are answered at no other time: only when a thread goes on and the client is told so. *)
Lemma callbacks_handle h k a s s' r : handle h k a s = (s', r) -> exists l, callbacks s' = callbacks s ++ l.
Proof.
  intros E. unfold handle, request_step in E.
  hcase E; try discriminate E; injection E as <- <-; subst;
  repeat match goal with H : Some _ = Some _ |- _ => injection H as <- end;
  try (exists []; rewrite app_nil_r; reflexivity);
  try (eexists; reflexivity).
  all: exists []; rewrite app_nil_r; destruct (existsb _ (goto_map s)); reflexivity.
Qed.
Lemma callbacks_process m s : exists l, callbacks (process m s) = callbacks s ++ l.
Proof.
  assert (H0 : exists l, callbacks s = callbacks s ++ l) by (exists []; rewrite app_nil_r; reflexivity).
  unfold process. destruct m as [|o]; auto. destruct (from_json o) as [k| |]; auto.
  - destruct (handler_of (snd k)) as [h|]; auto. cbn zeta.
    remember (if is_authorize (snd k) then with_auth (Auth.login (auth s) (a_token (o_args o))) s else s) as s0 eqn:E0.
    assert (Q0 : callbacks s0 = callbacks s) by (subst s0; destruct (is_authorize (snd k)); reflexivity).
    rewrite <- Q0 in *. destruct (Auth.is_authenticated (auth s0)); auto.
    destruct (handle h k (o_args o) s0) as [s' r] eqn:E. apply callbacks_handle in E.
    destruct r; auto.
  - destruct (o_seq o); auto.
Qed.
Lemma callbacks_note o s :
  callbacks (note o s) = callbacks s
  \/ exists t, o = Notify.Resume t /\ Notify.events (notes (note o s)) = Notify.Continued t :: Notify.events (notes s).
Proof.
  rewrite notes_note. unfold note. destruct o as [| |g|t plain|t]; auto. destruct (Nat.ltb _ _) eqn:E; auto. right. exists t.
  split; [reflexivity|]. apply Nat.ltb_lt in E. revert E. cbn [Notify.step]. destruct (mem N.eqb t _); [|lia].
  destruct (Z.ltb _ _); [reflexivity | cbn [Notify.set_susp Notify.events]; lia].
Qed.
Lemma events_note o s : exists l, Notify.events (notes (note o s)) = l ++ Notify.events (notes s).
Proof.
  rewrite notes_note. destruct o as [| |g|t plain|t]; cbn [Notify.step]; try (exists []; reflexivity).
  - destruct (existsb _ _); [|exists []; reflexivity]. destruct (Notify.suspended (notes s)) as [|[u v] d]; [exists []; reflexivity|].
    destruct (Z.ltb _ _); [|exists []; reflexivity]. exists [Notify.Stopped u]. reflexivity.
  - destruct (negb plain || _); [|exists []; reflexivity]. destruct (Z.ltb _ _); [|exists []; reflexivity].
    exists [Notify.Stopped t]. reflexivity.
  - destruct (mem N.eqb t _); [|exists []; reflexivity]. destruct (Z.ltb _ _); [|exists []; reflexivity].
    exists [Notify.Continued t]. reflexivity.
Qed.

Theorem rpc_continue_only (s : state) (e : event) (k : key) :
  In k (callbacks s) -> ~ In k (callbacks (step s e)) ->
  exists t ok refs l, e = EWake t ok refs /\ Notify.events (notes (step s e)) = l ++ Notify.Continued t :: Notify.events (notes s).
Proof.
  intros Hk Hn.
  assert (Hleave : forall t h s0, callbacks (leave t h s0) = callbacks s0
            \/ Notify.events (notes (leave t h s0)) = Notify.Continued t :: Notify.events (notes s0)).
  { intros t h s0. unfold leave. destruct (th_noted h); [|left; reflexivity].
    match goal with |- context [note ?o ?w] => destruct (callbacks_note o w) as [A | (u & A & B)] end; auto.
    injection A as <-. right. exact B. }
  assert (Henter : forall t h refs plain s0, callbacks (enter t h refs plain s0) = callbacks s0
            /\ exists l, Notify.events (notes (enter t h refs plain s0)) = l ++ Notify.events (notes s0)).
  { intros t h refs plain s0. unfold enter. destruct (single s0); [|split; [reflexivity | exists []; reflexivity]].
    split; [|match goal with |- context [note ?o ?w] => apply (events_note o w) end].
    match goal with |- context [note ?o ?w] => destruct (callbacks_note o w) as [A | (u & A & B)] end; [exact A | discriminate A]. }
  destruct e as [m|t x|t ok refs|i late x|t|t|t main|t refs plain|t r| | |g]; cbn [step] in *.
  - exfalso. destruct (reading s); [|auto]. destruct (callbacks_process m s) as [l E]. rewrite E in Hn. apply Hn.
    apply in_or_app; auto.
  - exfalso. destruct (thr t s) as [h|]; auto. destruct (queue t s) as [|c q]; auto. destruct (th_in h && negb (th_run h)); auto.
    apply Hn. unfold exec.
    destruct (i_kind c); repeat match goal with |- context [if ?b then _ else _] => destruct b end; exact Hk.
  - destruct (thr t s) as [h|]; [|contradiction]. destruct (th_in h && th_run h); [|contradiction].
    destruct (th_goto h) as [k0|].
    + cbn zeta in *. destruct ok; [|contradiction].
      match type of Hn with context [enter t ?h0 refs false ?w] => destruct (Henter t h0 refs false w) as [A [l1 B]] end.
      rewrite A in Hn. rewrite B. clear A B.
      match type of Hn with context [note ?o ?w] => destruct (callbacks_note o w) as [A | (u & A & _)]; [|discriminate A];
        destruct (events_note o w) as [l2 B] end.
      rewrite A in Hn. rewrite B. clear A B.
      match type of Hn with context [leave t ?h0 ?w] => destruct (Hleave t h0 w) as [A | A] end; rewrite A in *.
      * contradiction.
      * exists t, true, refs, (l1 ++ l2). split; [reflexivity|]. rewrite app_assoc. reflexivity.
    + destruct (Hleave t h s) as [A | A]; rewrite A in *; [contradiction|]. exists t, ok, refs, []. split; reflexivity.
  - exfalso. destruct (nth_error (star s) i) as [c|]; auto. apply Hn.
    destruct (i_kind c); repeat match goal with |- context [if ?b then _ else _] => destruct b end; exact Hk.
  - exfalso. destruct (mem N.eqb t (threads s)); auto.
  - exfalso. destruct (thr t s) as [h|]; auto. destruct (th_in h); auto.
  - exfalso. destruct (thr t s) as [h|]; auto.
  - exfalso. destruct (thr t s) as [h|]; auto. destruct (th_in h); auto. destruct (Henter t h refs plain s) as [A _].
    rewrite A in Hn. auto.
  - exfalso. destruct (thr t s) as [h|]; auto. destruct (th_in h); auto.
  - exfalso. destruct (callbacks_note Notify.Increment s) as [A | (u & A & B)]; [rewrite A in Hn; auto | discriminate A].
  - exfalso. destruct (callbacks_note Notify.Pause s) as [A | (u & A & B)]; [rewrite A in Hn; auto | discriminate A].
  - exfalso. destruct (callbacks_note (Notify.Timeout g) s) as [A | (u & A & B)]; [rewrite A in Hn; auto | discriminate A].
Qed.

(** * Requests which are not answered *)

(** A request of the protocol which pydevd does not support has no effect, and no answer. *)
Theorem rpc_unsupported_ignored (s : state) (o : obj) (q : Z) (c : str) :
  request_of o q c -> among c unsupported = true -> step s (EMsg (Object o)) = s.
Proof.
  intros Ho Hu. destruct (reading s) eqn:Hr; [|cbn [step]; rewrite Hr; reflexivity].
  rewrite (step_request s o q c Hr Ho). destruct Ho as (_ & _ & _ & _ & Hreg).
  destruct (registered_supported c Hreg) as [[_ Hh] | [Hx _]]; [rewrite Hh; reflexivity | congruence].
Qed.

(** While no thread is stopped and none stops, a continue which waits goes on waiting. *)
Definition enters (e : event) : bool := match e with EEnter _ _ _ => true | _ => false end.
Theorem rpc_continue_idle (s : state) (es : list event) (k : key) :
  (forall t h, thr t s = Some h -> th_in h = false) -> NoDup (keys (threads s)) -> In k (callbacks s) ->
  existsb enters es = false -> In k (callbacks (run s es)).
Proof.
  intros Hout Hnd Hk He. unfold run. 
  assert (H : forall es s, existsb enters es = false -> Forall (fun p => th_in (snd p) = false) (threads s) -> In k (callbacks s) ->
            In k (callbacks (fold_left step es s))).
  { clear. induction es as [|e es IH]; intros s He Hf Hk; cbn [fold_left]; auto.
    cbn [existsb] in He. apply orb_false_iff in He. destruct He as [He Hes].
    assert (Hthr : forall t h, thr t s = Some h -> th_in h = false)
      by (intros t h Ht; exact (Forall_get (fun h => th_in h = false) t h _ Hf Ht)).
    apply IH; auto.
    - assert (Hset : forall t h s0, Forall (fun p => th_in (snd p) = false) (threads s0) -> th_in h = false ->
                Forall (fun p => th_in (snd p) = false) (threads (set_thr t h s0))).
      { intros t h s0 A B. apply (Forall_set (fun h => th_in h = false)); auto. }
      destruct e as [m|t x|t ok refs|i late x|t|t|t main|t refs plain|t r| | |g]; cbn [step]; try discriminate He.
      + destruct (reading s); auto.
        assert (Hp : forall h0 k0 a s0 s' r, Forall (fun p => th_in (snd p) = false) (threads s0) -> handle h0 k0 a s0 = (s', r) ->
                      Forall (fun p => th_in (snd p) = false) (threads s')).
        { intros h0 k0 a s0 s' r F E. unfold handle, request_step in E.
          hcase E; try discriminate E; injection E as <- <-; subst;
          repeat match goal with H : Some _ = Some _ |- _ => injection H as <- end; auto.
          all: try (unfold resume_every; cbn [threads with_threads]; apply Forall_map; exact F).
          all: try (apply Hset; auto; match goal with H : thr ?t _ = Some ?h |- _ =>
                  exact (Forall_get (fun h => th_in h = false) t h _ F H) end).
          all: destruct (existsb _ (goto_map s0)); exact F. }
        unfold process. destruct m as [|o]; auto. destruct (from_json o) as [k0| |]; auto.
        * destruct (handler_of (snd k0)) as [h|]; auto. cbn zeta.
          remember (if is_authorize (snd k0) then with_auth (Auth.login (auth s) (a_token (o_args o))) s else s) as s0 eqn:E0.
          assert (Q0 : threads s0 = threads s) by (subst s0; destruct (is_authorize (snd k0)); reflexivity).
          rewrite <- Q0 in *. destruct (Auth.is_authenticated (auth s0)); auto.
          destruct (handle h k0 (o_args o) s0) as [s' r] eqn:E. apply Hp in E; auto. destruct r; auto.
        * destruct (o_seq o); auto.
      + destruct (thr t s) as [h|] eqn:Ht; auto. destruct (queue t s); auto. rewrite (Hthr t h Ht). auto.
      + destruct (thr t s) as [h|] eqn:Ht; auto. rewrite (Hthr t h Ht). auto.
      + destruct (nth_error (star s) i) as [c|]; auto.
        destruct (i_kind c); repeat match goal with |- context [if ?b then _ else _] => destruct b end; auto.
      + destruct (mem N.eqb t (threads s)); auto.
      + destruct (thr t s) as [h|] eqn:Ht; auto. destruct (th_in h); auto.
        apply (Forall_del (fun h => th_in h = false)); auto.
      + destruct (thr t s) as [h|] eqn:Ht; auto. apply Hset; auto. cbn [th_in]. eauto.
      + destruct (thr t s) as [h|] eqn:Ht; auto. rewrite (Hthr t h Ht). auto.
      + rewrite threads_note. auto.
      + rewrite threads_note. auto.
      + rewrite threads_note. auto.
    - destruct (in_dec key_dec k (callbacks (step s e))) as [|Hn]; auto. exfalso.
      destruct (rpc_continue_only s e k Hk Hn) as (t & ok & refs & l & -> & E).
      apply Hn. cbn [step]. destruct (thr t s) as [h|] eqn:Ht; auto. rewrite (Hthr t h Ht). auto. }
  apply H; auto. apply Forall_forall. intros [t h] Hin. cbn [snd]. apply (Hout t).
  apply In_get; auto. intros; apply N.eqb_spec.
Qed.

(** A request which was made and is never answered, whatever happens later (it is not made again). *)
Definition never_answered (a : Auth.auth) (es : list event) (k : key) : Prop :=
  count_occ key_dec (asked_in (init a) es) k = 1
  /\ forall later, count_occ key_dec (asked_in (init a) (es ++ later)) k = 1 ->
       ~ In k (answered (run (init a) (es ++ later))).
Lemma never a es k : count_occ key_dec (asked_in (init a) es) k = 1 -> In k (lost_in (init a) es) -> never_answered a es k.
Proof. intros H1 H2. split; [exact H1|]. intros later H. apply rpc_lost_never_answered; auto. Qed.

Definition open_ : Auth.auth := Auth.init None None.
Definition args_ : args := Args (TThread 1) RNone None 0 (Some 7%N) 10 false None true false None true false.
Definition with_thread_id t : args := Args t RNone None 0 (Some 7%N) 10 false None true false None true false.
Definition with_ref r : args := Args (TThread 1) r None 0 (Some 7%N) 10 false None true false None true false.
Definition no_path : args := Args (TThread 1) RNone None 0 None 10 false None true false None true false.
Definition single_on : args := Args (TThread 1) RNone None 0 (Some 7%N) 10 false (Some true) true false None true false.
Definition req (q : Z) (c : string) (a : args) : event := EMsg (Object (Obj MRequest (Some (lit c)) (Some q) true a)).
Definition fine_ : xres := XRes false true 0.
(** A session: attach, a thread starts, is marked and stops. *)
Definition session (a : args) : list event :=
  [req 1 "initialize" args_; req 2 "attach" a; req 3 "configurationDone" args_; EStart 1; EIncrement; EMark 1 true;
   EEnter 1 [100%Z] false].

Ltac lost_ := apply never; [vm_compute; reflexivity | vm_compute; tauto].

(* A request of the protocol without support in pydevd gets no answer at all. *)
Theorem rpc_unsupported_refuted :
  exists es q, never_answered open_ es (q, lit "restartFrame") /\ reading (run (init open_) es) = true.
Proof. exists (session args_ ++ [req 4 "restartFrame" args_]), 4%Z. split; [lost_ | vm_compute; reflexivity]. Qed.

(* A goto for a thread which ended meanwhile gets no answer. *)
Theorem rpc_goto_gone_refuted :
  exists es q, never_answered open_ es (q, lit "goto") /\ reading (run (init open_) es) = true.
Proof.
  exists (session args_ ++ [req 4 "gotoTargets" args_; req 5 "goto" (with_thread_id (TThread 2))]), 5%Z.
  split; [lost_ | vm_compute; reflexivity].
Qed.

(* A goto is forgotten when the thread is told to continue before it has jumped. *)
Theorem rpc_goto_forgotten_refuted :
  exists es q, never_answered open_ es (q, lit "goto") /\ reading (run (init open_) es) = true
               /\ In (6%Z, lit "continue") (answered (run (init open_) es)).
Proof.
  exists (session args_ ++ [req 4 "gotoTargets" args_; req 5 "goto" args_; EExec 1 fine_; req 6 "continue" args_]), 5%Z.
  split; [lost_|]. split; [vm_compute; reflexivity | vm_compute; tauto].
Qed.

Lemma ended s es later m : reading (run s es) = false -> run s (es ++ EMsg m :: later) = run s (es ++ later).
Proof.
  intros E. unfold run in *. rewrite !fold_left_app. cbn [fold_left]. f_equal. cbn [step]. rewrite E. reflexivity.
Qed.

(* A step for an id which is not that of a thread ends the session: nothing sent afterwards is answered. *)
Theorem rpc_bad_thread_refuted :
  exists es q, never_answered open_ es (q, lit "next") /\ reading (run (init open_) es) = false
               /\ forall later m, run (init open_) (es ++ EMsg m :: later) = run (init open_) (es ++ later).
Proof.
  exists (session args_ ++ [req 4 "next" (with_thread_id TOther)]), 4%Z.
  split; [lost_|]. split; [vm_compute; reflexivity|]. intros later m. apply ended. vm_compute. reflexivity.
Qed.

(* So do breakpoints for a source known only by its reference. *)
Theorem rpc_no_path_refuted :
  exists es q, never_answered open_ es (q, lit "setBreakpoints") /\ reading (run (init open_) es) = false.
Proof.
  exists (session args_ ++ [req 4 "setBreakpoints" no_path]), 4%Z. split; [lost_ | vm_compute; reflexivity].
Qed.

(* Completions for a frame which the thread does not have any more are answered by a message which is none of the
   protocol, and carries no command. *)
Theorem rpc_completions_refuted :
  exists es q, never_answered open_ es (q, lit "completions") /\ In (Garbage q) (out (run (init open_) es)).
Proof.
  exists (session args_ ++ [req 4 "completions" (with_ref (RNum 100)); req 5 "continue" args_; EWake 1 true [];
                            EMark 1 true; EEnter 1 [101%Z] false; EExec 1 fine_]), 4%Z.
  split; [lost_ | vm_compute; tauto].
Qed.

Lemma idle_never a es later (k : key) :
  forallb (fun p => negb (th_in (snd p))) (threads (run (init a) es)) = true -> In k (callbacks (run (init a) es)) ->
  existsb enters later = false -> count_occ key_dec (asked_in (init a) (es ++ later)) k = 1 ->
  ~ In k (answered (run (init a) (es ++ later))).
Proof.
  intros Hf Hk He Hc.
  assert (Hw : In k (callbacks (run (init a) (es ++ later)))).
  { assert (Hr : run (init a) (es ++ later) = run (run (init a) es) later) by (unfold run; apply fold_left_app).
    rewrite Hr. apply rpc_continue_idle; auto.
    - intros t h Ht. unfold thr in Ht. apply get_In in Ht; [|intros; apply N.eqb_spec].
      rewrite forallb_forall in Hf. apply Hf in Ht. apply negb_true_iff. exact Ht.
    - apply (noted_reach a es). }
  pose proof (proj1 (Permutation_count_occ key_dec _ _) (rpc_accounted a (es ++ later)) k) as H.
  rewrite Hc in H. rewrite !count_occ_app in H.
  assert (Hw2 : In k (waiting (run (init a) (es ++ later)))).
  { unfold waiting. apply in_or_app. right. apply in_or_app. right. apply in_or_app. left. exact Hw. }
  apply (count_occ_In key_dec) in Hw2. apply (count_occ_not_In key_dec). lia.
Qed.

(* With one notification for all threads, a continue while nothing is stopped is not answered until something stops. *)
Theorem rpc_continue_idle_refuted :
  exists es q, count_occ key_dec (asked_in (init open_) es) (q, lit "continue") = 1
    /\ forall later, existsb enters later = false -> count_occ key_dec (asked_in (init open_) (es ++ later)) (q, lit "continue") = 1 ->
         ~ In (q, lit "continue") (answered (run (init open_) (es ++ later))).
Proof.
  exists [req 1 "initialize" args_; req 2 "attach" single_on; EStart 1; req 3 "continue" args_], 3%Z.
  split; [vm_compute; reflexivity|]. intros later. apply idle_never; [vm_compute; reflexivity | vm_compute; tauto].
Qed.

(** * Examples *)

(* A session: answers in the order of the requests, those for the stopped thread by the thread itself. *)
Example ex_session :
  out (run (init open_) (session args_ ++ [req 4 "threads" args_; req 5 "stackTrace" args_; req 6 "variables" (with_ref (RNum 100));
                                           req 7 "evaluate" (with_ref (RNum 100)); EExec 1 fine_; req 8 "scopes" (with_ref (RNum 100));
                                           EExec 1 (XRes false false 0); req 9 "next" args_; EExec 1 fine_; EWake 1 true []]))
  = [Resp (1%Z, lit "initialize") true; Resp (2%Z, lit "attach") true; Resp (3%Z, lit "configurationDone") true;
     Resp (4%Z, lit "threads") true; Resp (5%Z, lit "stackTrace") true; Resp (6%Z, lit "variables") true;
     Resp (8%Z, lit "scopes") true; Resp (7%Z, lit "evaluate") false; Resp (9%Z, lit "next") true].
Proof. vm_compute. reflexivity. Qed.

(* Distinct requests, none lost: rpc_at_most_once, rpc_exactly_once, rpc_answers_own. *)
Definition es1 : list event :=
  session args_ ++ [req 4 "variables" (with_ref (RNum 100)); EExec 1 fine_; req 5 "evaluate" (with_ref RNone)].
Example ex_once :
  NoDup (asked_in (init open_) es1) /\ count_occ key_dec (asked_in (init open_) es1) (4%Z, lit "variables") = 1
  /\ ~ In (4%Z, lit "variables") (waiting (run (init open_) es1)) /\ lost_in (init open_) es1 = []
  /\ In (4%Z, lit "variables") (answered (run (init open_) es1)) /\ waiting (run (init open_) es1) = [(5%Z, lit "evaluate")].
Proof.
  split; [vm_compute; repeat (constructor; [simpl; intuition discriminate|]); constructor|].
  split; [vm_compute; reflexivity|]. split; [vm_compute; intuition discriminate|]. split; [vm_compute; reflexivity|].
  split; [vm_compute; tauto | vm_compute; reflexivity].
Qed.

(* rpc_immediate *)
Example ex_immediate :
  let s := run (init open_) (session args_) in let o := Obj MRequest (Some (lit "setBreakpoints")) (Some 9%Z) true args_ in
  reading s = true /\ request_of o 9 (lit "setBreakpoints") /\ among (lit "setBreakpoints") immediate = true
  /\ authorized (lit "setBreakpoints") (o_args o) s = true /\ fatal (lit "setBreakpoints") (o_args o) s = false.
Proof. vm_compute. repeat split. Qed.

(* rpc_unauthenticated *)
Example ex_unauthenticated :
  let s := init (Auth.init (Some (lit "token")) None) in let o := Obj MRequest (Some (lit "evaluate")) (Some 9%Z) true args_ in
  reading s = true /\ request_of o 9 (lit "evaluate") /\ among (lit "evaluate") unsupported = false
  /\ authorized (lit "evaluate") (o_args o) s = false.
Proof. vm_compute. repeat split. Qed.

(* rpc_malformed *)
Example ex_malformed :
  let s := init open_ in let o := Obj MRequest (Some (lit "fly")) (Some 9%Z) true args_ in
  reading s = true /\ o_seq o = Some 9%Z /\ accepted o = false /\ (o_type o = MOther -> o_ok o = false)
  /\ out (step s (EMsg (Object o))) = [Resp (9%Z, lit "fly") false].
Proof. vm_compute. repeat split. discriminate. Qed.

(* rpc_thread_answers *)
Example ex_thread :
  let s := run (init open_) (session args_ ++ [req 4 "variables" (with_ref (RNum 100)); req 5 "completions" (with_ref (RNum 100));
                                               req 6 "stepInTargets" (with_ref (RNum 100))]) in
  exists h, thr 1 s = Some h /\ th_in h = true /\ th_run h = false /\ Forall inspects (queue 1 s)
    /\ Forall2 (fine h) (queue 1 s) [fine_; fine_; XRes false true 3] /\ length (queue 1 s) = 3.
Proof.
  eexists. split; [vm_compute; reflexivity|]. split; [reflexivity|]. split; [reflexivity|].
  split; [vm_compute; repeat constructor|]. split; [|vm_compute; reflexivity].
  vm_compute. repeat constructor.
Qed.

(* rpc_goto_answers *)
Example ex_goto :
  let s := run (init open_) (session args_ ++ [req 4 "gotoTargets" args_; req 5 "goto" args_]) in
  exists h c, thr 1 s = Some h /\ th_in h = true /\ th_run h = false /\ queue 1 s = [c] /\ i_kind c = IGoto
    /\ out (run s [EExec 1 fine_; EWake 1 false []]) = out s ++ [Resp (5%Z, lit "goto") false].
Proof.
  eexists. eexists. split; [vm_compute; reflexivity|]. split; [reflexivity|]. split; [reflexivity|].
  split; [vm_compute; reflexivity|]. split; [reflexivity | vm_compute; reflexivity].
Qed.

(* rpc_continue_answered: two requests to continue are answered when the thread goes on. *)
Example ex_continue :
  let es := session single_on ++ [req 4 "continue" args_; req 5 "continue" args_] in
  let s := run (init open_) es in
  exists h, thr 1 s = Some h /\ th_in h = true /\ th_run h = true /\ th_goto h = None /\ th_noted h = true
    /\ NotifyProps.outstanding (rev (Notify.events (notes s))) /\ callbacks s = [(4%Z, lit "continue"); (5%Z, lit "continue")].
Proof.
  eexists. split; [vm_compute; reflexivity|]. split; [reflexivity|]. split; [reflexivity|]. split; [reflexivity|].
  split; [reflexivity|]. split; [exists [], 1%N; vm_compute; reflexivity | vm_compute; reflexivity].
Qed.

(* rpc_unsupported_ignored, rpc_lost_never_answered *)
Example ex_unsupported :
  request_of (Obj MRequest (Some (lit "disassemble")) (Some 9%Z) true args_) 9 (lit "disassemble")
  /\ among (lit "disassemble") unsupported = true
  /\ lost_in (init open_) [req 9 "disassemble" args_] = [(9%Z, lit "disassemble")].
Proof. vm_compute. repeat split. Qed.

(* rpc_reader_ends: a response instead of a request ends the session, a request which cannot be read does not. *)
Example ex_reader :
  reading (step (init open_) (EMsg (Object (Obj MOther None (Some 1%Z) true args_)))) = false
  /\ reading (step (init open_) (EMsg (Object (Obj MRequest (Some (lit "next")) (Some 1%Z) false args_)))) = true
  /\ reading (step (init open_) (req 1 "scopes" args_)) = false.
Proof. vm_compute. repeat split. Qed.

(** A client which disconnects is signed out: with a token, only signing in with it is allowed afterwards.  The threads go
    on, and breakpoints are refused until the next launch or attach. *)
Theorem rpc_disconnect (s : state) (o : obj) (q : Z) (t : str) :
  reading s = true -> request_of o q (lit "disconnect") -> authorized (lit "disconnect") (o_args o) s = true ->
  a_terminate (o_args o) = false -> a_raises (o_args o) = false -> Auth.access_token (auth s) = Some t ->
  let s' := step s (EMsg (Object o)) in
  out s' = out s ++ [Resp (q, lit "disconnect") true] /\ launched s' = false /\ reading s' = true
  /\ (forall c a, authorized c a s' = true <-> c = lit "pydevdAuthorize" /\ a_token a = Some t)
  /\ map fst (threads s') = map fst (threads s) /\ Forall (fun p => th_run (snd p) = true) (threads s').
Proof.
  intros Hr Ho Ha Ht Hx Hk s'. unfold s'. rewrite (step_request s o q _ Hr Ho).
  change (handler_of (lit "disconnect")) with (Some HDisconnect). change (is_authorize (lit "disconnect")) with false. cbv beta iota zeta.
  change (authorized (lit "disconnect") (o_args o) s) with (Auth.is_authenticated (auth s)) in Ha. rewrite Ha.
  unfold handle. rewrite Ht, Hx. unfold write, resume_every.
  cbn [out launched reading threads auth with_threads with_auth with_launched].
  split; [reflexivity|]. split; [reflexivity|]. split; [exact Hr|]. split; [|split].
  - intros c a. unfold authorized, is. cbn [auth]. destruct (str_eqb c (lit "pydevdAuthorize")) eqn:E.
    + apply str_eqb_eq in E. subst c. unfold Auth.login, Auth.logout, Auth.is_authenticated.
      cbn [Auth.wrong_attempts Nat.leb Auth.access_token Auth.authenticated]. rewrite Hk.
      destruct (a_token a) as [x|]; cbn [Auth.opt_eqb]; [rewrite str_eqb_eq|]; intuition congruence.
    + unfold Auth.logout, Auth.is_authenticated. cbn [Auth.authenticated Auth.access_token]. rewrite Hk. split; [discriminate|].
      intros [-> _]. vm_compute in E. discriminate.
  - rewrite map_map. reflexivity.
  - apply Forall_forall. intros p Hp. apply in_map_iff in Hp. destruct Hp as (x & <- & _). reflexivity.
Qed.
Example ex_disconnect :
  let s := run (init (Auth.init (Some (lit "t")) None))
             [req 1 "pydevdAuthorize" (Args (TThread 1) RNone None 0 (Some 7%N) 10 false None true false (Some (lit "t")) true false)] in
  authorized (lit "disconnect") args_ s = true /\ authorized (lit "threads") args_ (step s (req 2 "disconnect" args_)) = false.
Proof. vm_compute. split; reflexivity. Qed.

Print Assumptions rpc_accounted.
Print Assumptions rpc_at_most_once.
Print Assumptions rpc_answers_own.
Print Assumptions rpc_exactly_once.
Print Assumptions rpc_lost_never_answered.
Print Assumptions rpc_immediate.
Print Assumptions rpc_unauthenticated.
Print Assumptions rpc_malformed.
Print Assumptions rpc_reader_ends.
Print Assumptions rpc_thread_answers.
Print Assumptions rpc_goto_answers.
Print Assumptions rpc_continue_answered.
Print Assumptions rpc_continue_only.
Print Assumptions rpc_unsupported_ignored.
Print Assumptions rpc_continue_idle.
Print Assumptions rpc_unsupported_refuted.
Print Assumptions rpc_goto_gone_refuted.
Print Assumptions rpc_goto_forgotten_refuted.
Print Assumptions rpc_bad_thread_refuted.
Print Assumptions rpc_no_path_refuted.
Print Assumptions rpc_completions_refuted.
Print Assumptions rpc_continue_idle_refuted.
Print Assumptions rpc_disconnect.
