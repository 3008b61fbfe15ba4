(** Proofs for property C51: every request is answered, waiting, or lost in one of the ways of RpcSpec.v. *)
From Coq Require Import String.
From Coq Require Import List NArith ZArith Bool Lia Permutation.
From Verif Require Import Base Dict Rpc RpcSpec.
From Verif Require Auth Notify.
Import ListNotations.
Open Scope list_scope.

Lemma key_dec (a b : key) : {a = b} + {a <> b}.
Proof. decide equality; [apply str_eq_dec | apply Z.eq_dec]. Defined.

Definition cnt (x : key) (l : list key) : nat := count_occ key_dec l x.
Lemma cnt_app x a b : cnt x (a ++ b) = cnt x a + cnt x b.
Proof. apply count_occ_app. Qed.
Lemma cnt_nil x : cnt x [] = 0.
Proof. reflexivity. Qed.
Lemma cnt_cons x a l : cnt x (a :: l) = cnt x [a] + cnt x l.
Proof. apply (cnt_app x [a] l). Qed.

(** ** Threads *)
Lemma gotos_set t h' l :
  forall x, match get N.eqb t l with
            | Some h => cnt x (gotos (set N.eqb t h' l)) + cnt x (opt (th_goto h)) = cnt x (gotos l) + cnt x (opt (th_goto h'))
            | None => cnt x (gotos (set N.eqb t h' l)) = cnt x (gotos l) + cnt x (opt (th_goto h'))
            end.
Proof.
  intros x. induction l as [|[t0 h0] l IH]; cbn [get set].
  - unfold gotos. cbn [flat_map]. rewrite app_nil_r. reflexivity.
  - destruct (N.eqb t t0) eqn:E.
    + unfold gotos. cbn [flat_map snd]. rewrite !cnt_app. lia.
    + unfold gotos in *. destruct (get N.eqb t l); cbn [flat_map snd]; rewrite !cnt_app; lia.
Qed.

Lemma gotos_del t l :
  forall x, match get N.eqb t l with
            | Some h => cnt x (gotos (del N.eqb t l)) + cnt x (opt (th_goto h)) = cnt x (gotos l)
            | None => True end.
Proof.
  intros x. induction l as [|[t0 h0] l IH]; cbn [get del]; auto.
  destruct (N.eqb t t0) eqn:E.
  - unfold gotos. cbn [flat_map snd]. rewrite !cnt_app. lia.
  - unfold gotos in *. destruct (get N.eqb t l); auto; cbn [flat_map snd]; rewrite !cnt_app; lia.
Qed.

Lemma gotos_run l : gotos (map (fun p : N * thread => (fst p, run_thread (snd p))) l) = [].
Proof. unfold gotos. induction l; auto. Qed.

Definition gotos_only (t : N) (l : list (N * thread)) : list key :=
  flat_map (fun p => if N.eqb (fst p) t then opt (th_goto (snd p)) else []) l.
Definition gotos_not (t : N) (l : list (N * thread)) : list key :=
  flat_map (fun p => if N.eqb (fst p) t then [] else opt (th_goto (snd p))) l.
Lemma gotos_split t l x : cnt x (gotos l) = cnt x (gotos_only t l) + cnt x (gotos_not t l).
Proof.
  unfold gotos, gotos_only, gotos_not. induction l as [|p l IH]; auto. cbn [flat_map]. rewrite !cnt_app.
  destruct (N.eqb (fst p) t); rewrite cnt_nil; lia.
Qed.
Lemma gotos_others t l :
  gotos (map (fun p : N * thread => (fst p, if N.eqb (fst p) t then snd p else run_thread (snd p))) l) = gotos_only t l.
Proof.
  unfold gotos, gotos_only. induction l as [|p l IH]; auto. cbn [map flat_map fst snd]. rewrite IH.
  destruct (N.eqb (fst p) t); reflexivity.
Qed.
Lemma gotos_not_set t h l : gotos_not t (set N.eqb t h l) = gotos_not t l.
Proof.
  unfold gotos_not. induction l as [|[t0 h0] l IH]; cbn [set flat_map fst snd].
  - rewrite N.eqb_refl. reflexivity.
  - destruct (N.eqb t t0) eqn:E; cbn [flat_map fst snd].
    + apply N.eqb_eq in E. subst. rewrite N.eqb_refl. reflexivity.
    + rewrite IH. reflexivity.
Qed.

(** ** Queues *)
Definition waitq (q : list (N * list icmd)) : list key := flat_map (fun p => flat_map wait_cmd (snd p)) q.
Lemma waitq_set t q' l :
  forall x, cnt x (waitq (set N.eqb t q' l)) + cnt x (flat_map wait_cmd (match get N.eqb t l with Some q => q | None => [] end))
            = cnt x (waitq l) + cnt x (flat_map wait_cmd q').
Proof.
  intros x. induction l as [|[t0 q0] l IH]; cbn [get set].
  - unfold waitq. cbn [flat_map]. rewrite app_nil_r. cbn [snd]. rewrite cnt_nil. lia.
  - destruct (N.eqb t t0) eqn:E; unfold waitq in *; cbn [flat_map snd]; rewrite !cnt_app; lia.
Qed.

(** ** The invariant *)
Definition star_ok (c : icmd) : Prop := match i_kind c with IStack _ | IEvaluate => True | _ => False end.
Definition queue_ok (c : icmd) : Prop := match i_kind c with IStack _ => False | _ => True end.
Record inv (s : state) : Prop := {
  inv_goto : Forall (fun p => th_goto (snd p) <> None -> th_in (snd p) = true) (threads s);
  inv_star : Forall star_ok (star s);
  inv_queues : Forall (fun p => Forall queue_ok (snd p)) (queues s)
}.

(** The sum which stays the same. *)
Definition total (x : key) (s : state) : nat :=
  cnt x (answered s) + cnt x (waitq (queues s)) + cnt x (flat_map wait_cmd (star s)) + cnt x (callbacks s) + cnt x (gotos (threads s)).
Lemma total_spec x s : total x s = cnt x (answered s ++ waiting s).
Proof. unfold total, waiting. fold (waitq (queues s)). rewrite !cnt_app. lia. Qed.

Lemma answered_write l s : answered (write l s) = answered s ++ flat_map (fun m => match m with Resp k _ => [k] | Garbage _ => [] end) l.
Proof. unfold answered, write; cbn [out]. apply flat_map_app. Qed.

Lemma total_write x l s : total x (write l s) = total x s + cnt x (flat_map (fun m => match m with Resp k _ => [k] | Garbage _ => [] end) l).
Proof. unfold total. rewrite answered_write, cnt_app. unfold write; cbn [queues star callbacks threads]. lia. Qed.

Lemma total_set_thr x t h' s :
  match thr t s with
  | Some h => total x (set_thr t h' s) + cnt x (opt (th_goto h)) = total x s + cnt x (opt (th_goto h'))
  | None => total x (set_thr t h' s) = total x s + cnt x (opt (th_goto h'))
  end.
Proof.
  pose proof (gotos_set t h' (threads s) x) as H. unfold thr, total, set_thr, answered in *. cbn [out queues star callbacks threads with_threads].
  destruct (get N.eqb t (threads s)); lia.
Qed.

Lemma total_post x t c s : total x (post t c s) = total x s + cnt x (wait_cmd c).
Proof.
  pose proof (waitq_set t (queue t s ++ [c]) (queues s) x) as H.
  unfold total, post, answered, queue in *. cbn [out queues star callbacks threads with_queues].
  rewrite flat_map_app in H. cbn [flat_map] in H. rewrite app_nil_r, cnt_app in H. lia.
Qed.

Lemma total_post_any x c s : total x (post_any c s) = total x s + cnt x (wait_cmd c).
Proof.
  unfold total, post_any, answered. cbn [out queues star callbacks threads with_star].
  rewrite flat_map_app, cnt_app. cbn [flat_map]. rewrite app_nil_r. lia.
Qed.

Lemma total_resume_every x s : total x (resume_every s) + cnt x (gotos (threads s)) = total x s.
Proof.
  unfold total, resume_every, answered. cbn [out queues star callbacks threads with_threads]. rewrite gotos_run, cnt_nil. lia.
Qed.

Lemma total_resume_others x t s : total x (resume_others t s) + cnt x (gotos_not t (threads s)) = total x s.
Proof.
  unfold total, resume_others, answered. cbn [out queues star callbacks threads with_threads]. rewrite gotos_others.
  pose proof (gotos_split t (threads s) x). lia.
Qed.

Lemma cnt_resps x l : cnt x (flat_map (fun m => match m with Resp k _ => [k] | Garbage _ => [] end) (map (fun k => Resp k true) l)) = cnt x l.
Proof. induction l as [|k l IH]; auto. cbn [map flat_map app]. rewrite cnt_cons, (cnt_cons x k l), IH. reflexivity. Qed.

Lemma total_note x o s : total x (note o s) = total x s.
Proof.
  unfold note. destruct o; try reflexivity.
  destruct (Nat.ltb _ _); try reflexivity. rewrite total_write, cnt_resps.
  unfold total, answered. cbn [out queues star callbacks threads with_callbacks with_notes]. rewrite cnt_nil. lia.
Qed.

(** ** The invariant is kept *)
Lemma inv_write l s : inv s -> inv (write l s).
Proof. intros [A B C]. split; assumption. Qed.
Lemma inv_reading b s : inv s -> inv (with_reading b s).
Proof. intros [A B C]. split; assumption. Qed.
Lemma inv_note o s : inv s -> inv (note o s).
Proof.
  intros [A B C]. unfold note. destruct o; try (split; assumption). destruct (Nat.ltb _ _); split; assumption.
Qed.
Lemma Forall_set {V} (P : V -> Prop) t v (l : list (N * V)) :
  Forall (fun p => P (snd p)) l -> P v -> Forall (fun p => P (snd p)) (set N.eqb t v l).
Proof.
  intros H Hv. induction H as [|[t0 v0] l H0 H IH]; cbn [set]; [constructor; auto|].
  destruct (N.eqb t t0); constructor; auto.
Qed.
Lemma Forall_get {V} (P : V -> Prop) t v (l : list (N * V)) :
  Forall (fun p => P (snd p)) l -> get N.eqb t l = Some v -> P v.
Proof.
  induction 1 as [|[t0 v0] l H0 H IH]; cbn [get]; intros E; [discriminate|].
  destruct (N.eqb t t0); [injection E as <-; exact H0 | auto].
Qed.
Lemma Forall_del {V} (P : V -> Prop) t (l : list (N * V)) :
  Forall (fun p => P (snd p)) l -> Forall (fun p => P (snd p)) (del N.eqb t l).
Proof.
  induction 1 as [|[t0 v0] l H0 H IH]; cbn [del]; auto. destruct (N.eqb t t0); auto.
Qed.
Lemma inv_set_thr t h s : inv s -> (th_goto h <> None -> th_in h = true) -> inv (set_thr t h s).
Proof.
  intros [A B C] H. split; cbn [threads star queues set_thr with_threads]; auto.
  apply (Forall_set (fun h => th_goto h <> None -> th_in h = true)); auto.
Qed.
Lemma inv_thr t h s : inv s -> thr t s = Some h -> th_goto h <> None -> th_in h = true.
Proof. intros [A B C] E. exact (Forall_get (fun h => th_goto h <> None -> th_in h = true) t h _ A E). Qed.
Lemma inv_queue t s : inv s -> Forall queue_ok (queue t s).
Proof.
  intros [A B C]. unfold queue. destruct (get N.eqb t (queues s)) as [q|] eqn:E; [|constructor].
  exact (Forall_get (Forall queue_ok) t q _ C E).
Qed.
Lemma inv_set_queue t q s : inv s -> Forall queue_ok q -> inv (with_queues (set N.eqb t q (queues s)) s).
Proof.
  intros [A B C] H. split; cbn [threads star queues with_queues]; auto.
  apply (Forall_set (Forall queue_ok)); auto.
Qed.
Lemma inv_post t c s : inv s -> queue_ok c -> inv (post t c s).
Proof.
  intros I H. apply inv_set_queue; auto. apply Forall_app; split; [apply inv_queue; auto | constructor; auto].
Qed.
Lemma inv_post_any c s : inv s -> star_ok c -> inv (post_any c s).
Proof.
  intros [A B C] H. split; cbn [threads star queues post_any with_star]; auto.
  apply Forall_app; split; auto.
Qed.
Lemma inv_resume_every s : inv s -> inv (resume_every s).
Proof.
  intros [A B C]. split; cbn [threads star queues resume_every with_threads]; auto.
  apply Forall_map. eapply Forall_impl; [|exact A]. intros p _ Hn. exfalso. apply Hn. reflexivity.
Qed.
Lemma inv_resume_others t s : inv s -> inv (resume_others t s).
Proof.
  intros [A B C]. split; cbn [threads star queues resume_others with_threads]; auto.
  apply Forall_map. eapply Forall_impl; [|exact A]. intros p Hp Hn. cbn [snd] in *.
  destruct (N.eqb (fst p) t); [auto | exfalso; apply Hn; reflexivity].
Qed.
Lemma inv_enter t h refs plain s : inv s -> inv (enter t h refs plain s).
Proof.
  intros I. unfold enter. destruct (single s); [apply inv_note|]; apply inv_set_thr; auto.
Qed.
Lemma inv_leave t h s : inv s -> th_goto h = None -> inv (leave t h s).
Proof.
  intros I E. unfold leave. destruct (th_noted h); [apply inv_note|]; apply inv_set_thr; auto; cbn; congruence.
Qed.

Lemma inv_handle h k a s s' r : inv s -> handle h k a s = (s', r) -> inv s'.
Proof.
  intros I. unfold handle, request_step. intros E.
  repeat match goal with
         | H : context [match ?d with _ => _ end] |- _ => destruct d eqn:?
         end;
  try discriminate;
  try (injection E as <- <-); subst;
  repeat match goal with H : Some _ = Some _ |- _ => injection H as <- end;
  auto;
  try (apply inv_post; [auto | exact Logic.I]);
  try (apply inv_post_any; [auto | exact Logic.I]);
  try apply inv_write; auto;
  try apply inv_resume_every; auto;
  try (destruct I as [A B C]; split; assumption).
  - apply inv_set_thr; auto; cbn; congruence.
Qed.

Lemma inv_process m s : inv s -> inv (process m s).
Proof.
  intros I. unfold process. destruct m as [|o]; auto. destruct (from_json o) as [k| |].
  - destruct (handler_of (snd k)) as [h|]; auto.
    set (s0 := if is_authorize (snd k) then _ else s).
    assert (I0 : inv s0) by (unfold s0; destruct (is_authorize (snd k)); auto; destruct I as [A B C]; split; assumption).
    destruct (Auth.is_authenticated (auth s0)); [|apply inv_write; auto].
    destruct (handle h k (o_args o) s0) as [s' r] eqn:E.
    pose proof (inv_handle _ _ _ _ _ _ I0 E) as I1.
    destruct r; [apply inv_write | | apply inv_reading]; auto.
  - apply inv_reading; auto.
  - destruct (o_seq o); auto. apply inv_write; auto.
Qed.

Lemma inv_exec t h c x s : inv s -> thr t s = Some h -> th_in h = true -> inv (exec t h c x s).
Proof.
  intros I E Hin. unfold exec. destruct (i_kind c);
  repeat match goal with |- context [if ?b then _ else _] => destruct b end;
  repeat apply inv_write; try apply inv_resume_others; try apply inv_set_thr; auto; cbn; congruence.
Qed.

Lemma inv_step s e : inv s -> inv (step s e).
Proof.
  intros I. destruct e as [m|t x|t ok refs|i late x|t|t|t main|t refs plain|t r| | |g]; cbn [step].
  - destruct (reading s); auto. apply inv_process; auto.
  - destruct (thr t s) as [h|] eqn:E; auto. destruct (queue t s) as [|c q] eqn:Eq; auto.
    destruct (th_in h) eqn:Hin; auto. destruct (th_run h); cbn [negb andb]; auto.
    assert (Hq : Forall queue_ok q).
    { pose proof (inv_queue t s I) as H. rewrite Eq in H. inversion H; auto. }
    apply inv_exec; auto. apply inv_set_queue; auto.
  - destruct (thr t s) as [h|] eqn:E; auto. destruct (th_in h && th_run h); auto.
    destruct (th_goto h) eqn:Eg.
    + destruct ok.
      * apply inv_enter. apply inv_note. apply inv_leave; auto. apply inv_write; auto.
      * apply inv_set_thr; [apply inv_write; auto | cbn; congruence].
    + apply inv_leave; auto.
  - destruct (nth_error (star s) i) as [c|] eqn:E; auto.
    assert (I' : inv (with_star (firstn i (star s) ++ skipn (S i) (star s)) s)).
    { destruct I as [A B C]. split; cbn [threads star queues with_star]; auto.
      rewrite <- (firstn_skipn i (star s)) in B. apply Forall_app in B. destruct B as [B1 B2].
      apply Forall_app; split; auto.
      clear - B2 E. revert i E B2. induction (star s) as [|d l IH]; intros [|i] E B2; try discriminate;
        [inversion B2; auto | exact (IH i E B2)]. }
    destruct (i_kind c); repeat match goal with |- context [if ?b then _ else _] => destruct b end;
    try apply inv_write; auto.
  - destruct (mem N.eqb t (threads s)); [auto | apply inv_set_thr; [auto | cbn; congruence]].
  - destruct (thr t s) as [h|] eqn:E; auto. destruct (th_in h); auto.
    destruct I as [A B C]. split; cbn [threads star queues with_threads]; auto.
    apply (Forall_del (fun h => th_goto h <> None -> th_in h = true)); auto.
  - destruct (thr t s) as [h|] eqn:E; auto. apply inv_set_thr; auto. cbn.
    destruct main; [|congruence]. eapply inv_thr; eauto.
  - destruct (thr t s) as [h|] eqn:E; auto. destruct (th_in h); auto. apply inv_enter; auto.
  - destruct (thr t s) as [h|] eqn:E; auto. destruct (th_in h); auto. apply inv_set_thr; auto.
  - apply inv_note; auto.
  - apply inv_note; auto.
  - apply inv_note; auto.
Qed.

Lemma inv_init a : inv (init a).
Proof. split; constructor. Qed.

(** ** Commands and their handlers *)
Ltac closed_eqb :=
  repeat match goal with
         | |- context [str_eqb (lit ?a) (lit ?b)] =>
             let v := eval vm_compute in (str_eqb (lit a) (lit b)) in change (str_eqb (lit a) (lit b)) with v
         end; cbn [orb andb].

Definition supported : list (string * handler) :=
  [("initialize", HInitialize); ("configurationDone", HConfigurationDone); ("launch", HLaunch); ("attach", HLaunch);
   ("disconnect", HDisconnect); ("terminate", HTerminate); ("setBreakpoints", HSetBreakpoints);
   ("setFunctionBreakpoints", HSetFunctionBreakpoints); ("setExceptionBreakpoints", HSetExceptionBreakpoints);
   ("continue", HContinue); ("next", HStep); ("stepIn", HStepIn); ("stepOut", HStep); ("goto", HGoto);
   ("pause", HPause); ("stackTrace", HStackTrace); ("scopes", HScopes); ("variables", HVariables);
   ("setVariable", HSetVariable); ("source", HSource); ("threads", HThreads); ("modules", HModules);
   ("evaluate", HEvaluate); ("setExpression", HSetExpression); ("stepInTargets", HStepInTargets);
   ("gotoTargets", HGotoTargets); ("completions", HCompletions); ("exceptionInfo", HExceptionInfo);
   ("setDebuggerProperty", HSetDebuggerProperty); ("setPydevdSourceMap", HSourceMap);
   ("pydevdSystemInfo", HSystemInfo); ("pydevdAuthorize", HAuthorize)]%string.

Lemma registered_supported c :
  existsb (str_eqb c) registered = true ->
  (among c unsupported = true /\ handler_of c = None)
  \/ (among c unsupported = false /\ exists n h, In (n, h) supported /\ c = lit n /\ handler_of c = Some h).
Proof.
  intros H. apply existsb_exists in H. destruct H as [d [Hin Hd]]. apply str_eqb_eq in Hd. subst d.
  unfold registered in Hin. cbn [map] in Hin.
  repeat (destruct Hin as [<- | Hin];
    [first [left; split; vm_compute; reflexivity
           | right; split; [vm_compute; reflexivity|];
             match goal with |- context [handler_of ?e] =>
               let v := eval vm_compute in (handler_of e) in
               match v with Some ?h => match e with lit ?n => exists n, h end end
             end; split; [unfold supported; cbn [In]; tauto | split; [reflexivity | vm_compute; reflexivity]]] |]).
  destruct Hin.
Qed.


Ltac hcase E :=
  repeat match type of E with
         | context [match ?d with _ => _ end] =>
             match d with
             | context [match _ with _ => _ end] => fail 1
             | _ => destruct d eqn:?
             end
         end.
Ltac use_eqs := repeat match goal with H : ?l = _ |- context [?l] => rewrite H end.

Lemma total_handle n h q a s s' r :
  In (n, h) supported -> handle h (q, lit n) a s = (s', r) ->
  (r = HRaise <-> fatal (lit n) a s = true)
  /\ (forall x, r = HRaise -> total x s' = total x s)
  /\ (forall x, r <> HRaise ->
        total x s' + (match r with HAnswer _ => cnt x [(q, lit n)] | _ => 0 end)
          + cnt x ((if goto_gone (lit n) a s then [(q, lit n)] else []) ++ forgotten_by (lit n) a s)
        = total x s + cnt x [(q, lit n)]).
Proof.
  intros Hin E. unfold supported in Hin. cbn [In] in Hin.
  unfold handle in E. unfold fatal.
  destruct (a_raises a) eqn:Ea.
  { injection E as <- <-. cbn [orb]. repeat split; auto; congruence. }
  cbn [orb].
  repeat (destruct Hin as [Hin | Hin]; [injection Hin as <- <-|]); try destruct Hin;
  unfold among, is, goto_gone, forgotten_by, known_target; cbn [existsb]; unfold is; closed_eqb; cbn [fst snd] in E.
  all: unfold request_step in E; hcase E; try discriminate E; try discriminate; injection E as <- <-; subst;
       repeat match goal with H : Some _ = Some _ |- _ => injection H as <- end.
  all: split; [|split; [try discriminate; reflexivity|]].
  all: match goal with |- _ <-> _ =>
         use_eqs; cbn [negb orb andb];
         repeat match goal with |- context [match ?d with _ => _ end] =>
              match type of d with tid => destruct d | option N => destruct d | ref => destruct d | bool => destruct d end end;
         cbn [orb]; split; congruence
       | _ => idtac end.
  all: try match goal with H : find_thread (a_thread ?a) _ = Some _ |- _ <-> _ =>
         destruct (a_thread a); cbn [find_thread] in H; try discriminate H; destruct (a_path a); cbn [orb]; split; congruence end.
  all: intros x Hr; try (exfalso; apply Hr; reflexivity).
  all: repeat match goal with |- context [lit ?b] => let v := eval vm_compute in (lit b) in change (lit b) with v end.
  all: rewrite ?total_post, ?total_post_any, ?total_write; cbn [wait_cmd i_kind i_key flat_map app negb andb]; rewrite ?cnt_app, ?cnt_nil; try lia.
  all: try (unfold total, answered; cbn [out queues star callbacks threads with_single with_resume_all with_launched with_goto_map]; lia).
  all: try match goal with |- context [resume_every ?w] => pose proof (total_resume_every x w) as Hq end;
       try (unfold total, answered in *; cbn [out queues star callbacks threads with_single with_resume_all with_launched with_goto_map with_auth with_callbacks] in *;
            rewrite ?cnt_app in *; lia).
  all: try match goal with Ht : thr ?t ?w = Some ?h |- _ => pose proof (total_set_thr x t (run_thread h) w) as Hq; unfold goto_of; rewrite Ht in *;
         cbn [run_thread th_goto opt] in Hq; rewrite ?cnt_nil in Hq; lia end.
  all: unfold goto_of; use_eqs; rewrite ?cnt_nil; try lia.
  all: try (rewrite ?Nat.add_0_r; reflexivity).
  1: assert (Hw : forall k, total x (with_callbacks (callbacks s ++ [k]) s) = total x s + cnt x [k]).
    { intros k. unfold total, answered. cbn [out queues star callbacks threads with_callbacks]. rewrite cnt_app. lia. }
    1: rewrite Nat.add_0_r; etransitivity; [exact Hq | apply Hw].
  all: destruct (existsb _ (goto_map s)); unfold total, answered; cbn [out queues star callbacks threads with_goto_map]; rewrite ?Nat.add_0_r; reflexivity.
Qed.


(** ** Every event keeps the account *)
Lemma total_reading x b s : total x (with_reading b s) = total x s.
Proof. reflexivity. Qed.
Lemma resp_one x k b : cnt x (flat_map (fun m => match m with Resp k _ => [k] | Garbage _ => [] end) [Resp k b]) = cnt x [k].
Proof. reflexivity. Qed.
Lemma total_write1 x k b s : total x (write [Resp k b] s) = total x s + cnt x [k].
Proof. rewrite total_write, resp_one. reflexivity. Qed.

Ltac fin := rewrite ?cnt_nil, ?Nat.add_0_r, ?Nat.add_0_l; first [lia | reflexivity].
Lemma total_process x m s :
  reading s = true -> total x (process m s) + cnt x (lost s (EMsg m)) = total x s + cnt x (asked_by m).
Proof.
  intros Hr. destruct m as [|o]; [reflexivity|].
  destruct o as [ty oc os ok a]. unfold lost, process, from_json, accepted. cbn [o_type o_command o_seq o_ok o_args].
  rewrite Hr. cbn [andb].
  destruct ty.
  - destruct oc as [c|].
    + rewrite (andb_comm ok). destruct (existsb (str_eqb c) registered) eqn:Ereg; cbn [andb].
      * destruct ok; cbn [andb].
        -- assert (Hask : asked_by (Object (Obj MRequest (Some c) os true a))
                          = [(match os with Some q => q | None => (-1)%Z end, c)]).
           { unfold asked_by. cbn [o_type o_command o_seq o_ok o_args]. destruct os; [reflexivity|].
             rewrite Ereg. reflexivity. }
           rewrite Hask. remember (match os with Some q => q | None => (-1)%Z end) as q.
           cbn [snd]. destruct (registered_supported c Ereg) as [[Hu Hh] | [Hu [n [h [Hin [Hc Hh]]]]]]; rewrite Hu, Hh.
           ++ reflexivity.
           ++ unfold authorized, is, is_authorize. remember (str_eqb c (lit "pydevdAuthorize")) as au eqn:Eau.
              remember (if au then with_auth (Auth.login (auth s) (a_token a)) s else s) as s0 eqn:Es0.
              assert (Hs0 : auth s0 = (if au then Auth.login (auth s) (a_token a) else auth s)) by (subst s0; destruct au; reflexivity).
              rewrite <- Hs0.
              assert (Ht : total x s0 = total x s) by (subst s0; destruct au; reflexivity).
              assert (Hf : fatal c a s0 = fatal c a s) by (subst s0; destruct au; reflexivity).
              assert (Hg : goto_gone c a s0 = goto_gone c a s) by (subst s0; destruct au; reflexivity).
              assert (Ho : forgotten_by c a s0 = forgotten_by c a s) by (subst s0; destruct au; reflexivity).
              destruct (Auth.is_authenticated (auth s0)); cbn [negb].
              ** subst c. destruct (handle h (q, lit n) a s0) as [s' r] eqn:E.
                 destruct (total_handle n h q a s0 s' r Hin E) as [Hfat [Hkeep Hacc]].
                 rewrite <- Hf, <- Hg, <- Ho, <- Ht. destruct (fatal (lit n) a s0) eqn:Ef.
                 --- assert (r = HRaise) as -> by (apply Hfat; reflexivity).
                     unfold stop_reading. rewrite total_reading, (Hkeep x eq_refl). reflexivity.
                 --- assert (Hne : r <> HRaise) by (intros Hx; apply Hfat in Hx; congruence).
                     specialize (Hacc x Hne). rewrite <- Hacc.
                     destruct r as [b | |]; [rewrite total_write1 | rewrite Nat.add_0_r | congruence]; reflexivity.
              ** rewrite total_write1, cnt_nil, Ht; fin.
        -- unfold asked_by. cbn [o_type o_command o_seq o_ok o_args]. rewrite ?cnt_nil.
           destruct os; cbn [andb]; rewrite ?total_write1, ?cnt_nil; fin.
      * unfold asked_by. cbn [o_type o_command o_seq o_ok o_args]. rewrite Ereg, ?cnt_nil, andb_false_r.
        destruct os; rewrite ?total_write1, ?cnt_nil; fin.
    + unfold asked_by. cbn [o_type o_command o_seq o_ok o_args]. rewrite ?cnt_nil.
      destruct os; rewrite ?total_write1, ?cnt_nil; fin.
  - unfold asked_by. cbn [o_type o_command o_seq o_ok o_args]. rewrite ?cnt_nil.
    destruct ok, os; cbn [stop_reading]; unfold stop_reading; rewrite ?total_reading, ?total_write1, ?cnt_nil; fin.
  - unfold asked_by. cbn [o_type o_command o_seq o_ok o_args]. rewrite ?cnt_nil.
    destruct os; rewrite ?total_write1, ?cnt_nil; fin.
Qed.

Lemma total_pop x t c q s :
  queue t s = c :: q -> total x (with_queues (set N.eqb t q (queues s)) s) + cnt x (wait_cmd c) = total x s.
Proof.
  intros E. pose proof (waitq_set t q (queues s) x) as H. unfold queue in E. rewrite E in H. cbn [flat_map] in H. rewrite cnt_app in H.
  unfold total, answered. cbn [out queues star callbacks threads with_queues]. lia.
Qed.

Lemma thr_set_same t h s : thr t (set_thr t h s) = Some h.
Proof.
  unfold thr, set_thr. cbn [threads with_threads]. induction (threads s) as [|[t0 h0] l IH]; cbn [set get].
  - rewrite N.eqb_refl. reflexivity.
  - destruct (N.eqb t t0) eqn:E; cbn [get]; rewrite E; auto.
Qed.

Lemma total_exec x t h c r s :
  inv s -> thr t s = Some h -> th_in h = true -> th_run h = false -> queue_ok c ->
  total x (exec t h c r s)
  + cnt x (match i_kind c with
           | ISetVariable v => if tracked v h && x_raises r then [i_key c] else []
           | IEvaluate | ISetExpression => if x_raises r then [i_key c] else []
           | ICompletions v => if tracked v h && negb (x_raises r) then [] else [i_key c]
           | IGoto => goto_of t s
           | IStep => goto_of t s ++ (if resume_all s then gotos_but t s else [])
           | _ => []
           end)
  = total x s + cnt x (wait_cmd c).
Proof.
  intros I Ht Hin Hrun Hq. unfold exec, wait_cmd, queue_ok in *. unfold goto_of, gotos_but. rewrite Ht.
  pose proof (total_set_thr x t) as Hset.
  destruct (i_kind c) as [ | v | | | v | v | | d | | ].
  - rewrite total_write1, cnt_nil. lia.
  - destruct (tracked v h); [destruct (x_raises r)|]; cbn [andb]; rewrite ?total_write1, ?cnt_nil; lia.
  - destruct (x_raises r); rewrite ?total_write1, ?cnt_nil; lia.
  - destruct (x_raises r); rewrite ?total_write1, ?cnt_nil; lia.
  - destruct (tracked v h); [destruct (x_raises r)|]; cbn [andb negb]; rewrite ?total_write1, ?total_write, ?cnt_nil;
      cbn [flat_map app]; rewrite ?cnt_nil; lia.
  - destruct (tracked v h && negb (x_raises r)); rewrite ?total_write1, ?cnt_nil; [|lia].
    specialize (Hset (Thread (th_in h) (th_run h) (th_goto h) (th_refs h) (map N.of_nat (seq 0 (x_targets r))) (th_noted h)) s).
    rewrite Ht in Hset. cbn [th_goto] in Hset. lia.
  - rewrite total_write1, cnt_nil. lia.
  - contradiction.
  - specialize (Hset (Thread (th_in h) true (Some (i_key c)) (th_refs h) (th_targets h) (th_noted h)) s).
    rewrite Ht in Hset. cbn [th_goto opt] in *. lia.
  - specialize (Hset (run_thread h) s). rewrite Ht in Hset. cbn [th_goto opt run_thread] in Hset. rewrite cnt_nil in Hset.
    change (resume_all (set_thr t (run_thread h) s)) with (resume_all s). rewrite cnt_app, cnt_nil.
    destruct (resume_all s); [|rewrite cnt_nil; lia].
    pose proof (total_resume_others x t (set_thr t (run_thread h) s)) as Ho.
    cbn [threads set_thr with_threads] in Ho. rewrite gotos_not_set in Ho. unfold gotos_not in Ho. lia.
Qed.

Lemma total_enter x t h h0 refs plain s :
  thr t s = Some h0 -> th_goto h0 = th_goto h -> total x (enter t h refs plain s) = total x s.
Proof.
  intros Ht Hg. unfold enter.
  pose proof (total_set_thr x t (Thread true (th_run h) (th_goto h) refs (th_targets h) (single s)) s) as H.
  rewrite Ht in H. cbn [th_goto] in H. rewrite Hg in H.
  destruct (single s); rewrite ?total_note; lia.
Qed.
Lemma total_leave x t h h0 s :
  thr t s = Some h0 -> total x (leave t h s) + cnt x (opt (th_goto h0)) = total x s + cnt x (opt (th_goto h)).
Proof.
  intros Ht. unfold leave.
  pose proof (total_set_thr x t (Thread false (th_run h) (th_goto h) [] (th_targets h) false) s) as H.
  rewrite Ht in H. cbn [th_goto] in H.
  destruct (th_noted h); rewrite ?total_note; lia.
Qed.
Lemma thr_note t o s : thr t (note o s) = thr t s.
Proof. unfold note. destruct o; try reflexivity. destruct (Nat.ltb _ _); reflexivity. Qed.
Lemma thr_leave t h s : thr t (leave t h s) = Some (Thread false (th_run h) (th_goto h) [] (th_targets h) false).
Proof. unfold leave. destruct (th_noted h); rewrite ?thr_note; apply thr_set_same. Qed.

Lemma total_star x i c s :
  nth_error (star s) i = Some c ->
  total x (with_star (firstn i (star s) ++ skipn (S i) (star s)) s) + cnt x (wait_cmd c) = total x s.
Proof.
  intros E. unfold total, answered. cbn [out queues star callbacks threads with_star].
  assert (H : cnt x (flat_map wait_cmd (star s))
              = cnt x (flat_map wait_cmd (firstn i (star s) ++ skipn (S i) (star s))) + cnt x (wait_cmd c)).
  { revert i E. induction (star s) as [|d l IH]; intros [|i] E; try discriminate; cbn [nth_error] in E.
    - injection E as <-. cbn [firstn skipn app flat_map]. rewrite cnt_app. lia.
    - cbn [firstn skipn app flat_map]. rewrite !cnt_app, (IH i E). cbn [skipn]. lia. }
  lia.
Qed.

Lemma total_step x s e : inv s -> total x (step s e) + cnt x (lost s e) = total x s + cnt x (asked s e).
Proof.
  intros I. destruct e as [m|t r|t ok refs|i late r|t|t|t main|t refs plain|t v| | |g]; unfold asked; rewrite ?cnt_nil.
  - cbn [step]. destruct (reading s) eqn:Hr; [apply total_process; auto|].
    unfold lost. rewrite Hr. destruct m; reflexivity.
  - cbn [step]. unfold lost. destruct (thr t s) as [h|] eqn:Ht; [|reflexivity].
    destruct (queue t s) as [|c q] eqn:Eq; [reflexivity|].
    destruct (th_in h) eqn:Hin; [|reflexivity]. destruct (th_run h) eqn:Hrun; [reflexivity|]. cbn [andb negb].
    pose proof (inv_queue t s I) as Hok. rewrite Eq in Hok. inversion Hok as [|? ? Hc Hq]; subst.
    assert (I' : inv (with_queues (set N.eqb t q (queues s)) s)) by (apply inv_set_queue; auto).
    pose proof (total_exec x t h c r (with_queues (set N.eqb t q (queues s)) s) I' Ht Hin Hrun Hc) as H1.
    pose proof (total_pop x t c q s Eq) as H2.
    unfold goto_of, gotos_but in *. cbn [threads resume_all with_queues] in H1.
    change (thr t (with_queues (set N.eqb t q (queues s)) s)) with (thr t s) in H1.
    destruct (i_kind c); lia.
  - cbn [step lost]. rewrite ?cnt_nil. destruct (thr t s) as [h|] eqn:Ht; [|reflexivity].
    destruct (th_in h) eqn:Hin; [|reflexivity]. destruct (th_run h) eqn:Hrun; [|reflexivity]. cbn [andb].
    destruct (th_goto h) as [k|] eqn:Hg.
    + assert (Hw : thr t (write [Resp k ok] s) = Some h) by exact Ht.
      pose proof (total_write1 x k ok s) as H1.
      destruct ok.
      * erewrite total_enter; [|rewrite thr_note; apply thr_leave|reflexivity].
        rewrite total_note.
        pose proof (total_leave x t (Thread true false None (th_refs h) (th_targets h) (th_noted h)) h _ Hw) as H2.
        rewrite Hg in H2. cbn [th_goto opt] in H2. rewrite cnt_nil in H2. lia.
      * pose proof (total_set_thr x t (Thread true false None (th_refs h) (th_targets h) (th_noted h)) (write [Resp k false] s)) as H2.
        rewrite Hw in H2. rewrite Hg in H2. cbn [th_goto opt] in H2. rewrite cnt_nil in H2. lia.
    + pose proof (total_leave x t h h s Ht) as H2. lia.
  - cbn [step]. unfold lost. destruct (nth_error (star s) i) as [c|] eqn:E; [|reflexivity].
    pose proof (total_star x i c s E) as H.
    assert (Hok : star_ok c).
    { destruct I as [_ B _]. rewrite Forall_forall in B. apply B. eapply nth_error_In; eauto. }
    unfold star_ok, wait_cmd in *. destruct (i_kind c) as [ | v | | | v | v | | d | | ]; try contradiction.
    + cbn [andb]. destruct (x_raises r); rewrite ?total_write1, ?cnt_nil; lia.
    + remember (match find_thread d s with Some t => match thr t s with Some h => th_in h | None => false end | None => false end) as w.
      rewrite (orb_comm late). destruct (w || late); cbn [andb]; [|rewrite cnt_nil; lia].
      destruct (x_raises r); rewrite ?total_write1, ?cnt_nil; lia.
  - cbn [step lost]. rewrite ?cnt_nil. destruct (mem N.eqb t (threads s)) eqn:E; [reflexivity|].
    pose proof (total_set_thr x t (Thread false true None [] [] false) s) as H.
    assert (thr t s = None) as Hn by (unfold thr, mem in *; destruct (get N.eqb t (threads s)); [discriminate | reflexivity]).
    rewrite Hn in H. cbn [th_goto opt] in H. rewrite cnt_nil in H. lia.
  - cbn [step lost]. rewrite ?cnt_nil. destruct (thr t s) as [h|] eqn:Ht; [|reflexivity].
    destruct (th_in h) eqn:Hin; [reflexivity|].
    pose proof (gotos_del t (threads s) x) as H. unfold thr in Ht. rewrite Ht in H.
    assert (th_goto h = None) as Hg.
    { destruct (th_goto h) eqn:Hg; auto. assert (th_in h = true) by (eapply inv_thr; eauto; congruence). congruence. }
    rewrite Hg in H. cbn [opt] in H. rewrite cnt_nil in H.
    unfold total, answered. cbn [out queues star callbacks threads with_threads]. lia.
  - cbn [step]. unfold lost, goto_of. destruct (thr t s) as [h|] eqn:Ht; [|destruct main; reflexivity].
    pose proof (total_set_thr x t (Thread (th_in h) false (if main then th_goto h else None) (th_refs h) (th_targets h) (th_noted h)) s) as H.
    rewrite Ht in H. cbn [th_goto] in H. destruct main; cbn [opt] in H; rewrite ?cnt_nil in *; lia.
  - cbn [step lost]. rewrite ?cnt_nil. destruct (thr t s) as [h|] eqn:Ht; [|reflexivity].
    destruct (th_in h); [reflexivity|]. erewrite total_enter; eauto.
  - cbn [step lost]. rewrite ?cnt_nil. destruct (thr t s) as [h|] eqn:Ht; [|reflexivity].
    destruct (th_in h) eqn:Hin; [|reflexivity].
    pose proof (total_set_thr x t (Thread true (th_run h) (th_goto h) (v :: th_refs h) (th_targets h) (th_noted h)) s) as H.
    rewrite Ht in H. cbn [th_goto] in H. lia.
  - cbn [step lost]. rewrite total_note, ?cnt_nil. lia.
  - cbn [step lost]. rewrite total_note, ?cnt_nil. lia.
  - cbn [step lost]. rewrite total_note, ?cnt_nil. lia.
Qed.

Lemma total_run x es : forall s, inv s -> total x (run s es) + cnt x (lost_in s es) = total x s + cnt x (asked_in s es).
Proof.
  unfold run. induction es as [|e es IH]; intros s I; cbn [fold_left lost_in asked_in]; [reflexivity|].
  rewrite !cnt_app. pose proof (total_step x s e I) as H1. pose proof (IH _ (inv_step s e I)) as H2. lia.
Qed.
