(** Property C76: after the client has disconnected the program runs on. *)
From Coq Require Import List NArith Bool Lia.
From Verif Require Import Base Detach.
Import ListNotations.
Open Scope list_scope.

(** ** Specification *)

Definition is_thread_op (o : op) : Prop :=
  match o with Reach _ _ _ | Suspend _ | Enter _ | Leave _ => True | _ => False end.
Definition threads_only (l : list op) : Prop := Forall is_thread_op l.

(** A disconnect: its four steps in their order, with steps of the threads in between. *)
Inductive disconnect : list op -> Prop :=
| D a b c d : threads_only a -> threads_only b -> threads_only c ->
    d = DropBreakpoints :: a ++ DropExceptions :: b ++ Logout :: c ++ [ResumeAll] -> disconnect d.

(** ** Lemmas *)

Lemma exec_app g s a b : exec g s (a ++ b) = exec g (exec g s a) b.
Proof. unfold exec. apply fold_left_app. Qed.
Lemma exec_cons g s o b : exec g s (o :: b) = exec g (step g s o) b.
Proof. reflexivity. Qed.

Lemma thread_op_bp g s o : is_thread_op o -> bp (step g s o) = bp s /\ attached (step g s o) = attached s.
Proof.
  destruct o as [r| | | |t| | | | |t e x|t|t|t]; intros h; try contradiction; cbn [step].
  - destruct (ph (ths s t)); try (now split). destruct (_ || _); [now split|]. now destruct (negb _).
  - now destruct (ph (ths s t)).
  - now destruct (ph (ths s t)).
  - destruct (ph (ths s t)); try (now split). now destruct (run _).
Qed.

Lemma threads_bp g l : threads_only l -> forall s, bp (exec g s l) = bp s /\ attached (exec g s l) = attached s.
Proof.
  induction 1 as [|o l h _ IH]; intros s; [now split|]. rewrite exec_cons. destruct (IH (step g s o)) as (-> & ->).
  now apply thread_op_bp.
Qed.

Lemma disconnect_bp g s d : disconnect d ->
  bp (exec g s d) = Bps [] [] [] (functions (bp s)) /\ attached (exec g s d) = false /\
  forall u, run (ths (exec g s d) u) = true /\ stepping (ths (exec g s d) u) = false.
Proof.
  intros [a b c d' ha hb hc ->].
  rewrite exec_cons, exec_app, exec_cons, exec_app, exec_cons, exec_app.
  destruct (threads_bp g a ha (step g s DropBreakpoints)) as (a1 & a2).
  set (s1 := exec g (step g s DropBreakpoints) a) in *.
  destruct (threads_bp g b hb (step g s1 DropExceptions)) as (b1 & b2).
  set (s2 := exec g (step g s1 DropExceptions) b) in *.
  destruct (threads_bp g c hc (step g s2 Logout)) as (c1 & c2).
  set (s3 := exec g (step g s2 Logout) c) in *.
  unfold exec. cbn [fold_left step bp attached ths]. rewrite c1, c2. cbn [step bp attached]. rewrite b1. cbn [step bp]. rewrite a1. cbn [step bp lines excs templates functions].
  split; [reflexivity|]. split; [reflexivity|]. intros u. now split.
Qed.

(** Nothing can stop a thread any more. *)
Definition calm (s : state) : Prop :=
  bp s = Bps [] [] [] [] /\ forall u, run (ths s u) = true /\ stepping (ths s u) = false /\ ph (ths s u) <> Found.

Lemma calm_step g s o : is_thread_op o -> calm s -> calm (step g s o).
Proof.
  intros h (B & T). split; [rewrite (proj1 (thread_op_bp g s o h)); exact B|]. intros u.
  destruct o as [r| | | |t| | | | |t e x|t|t|t]; try contradiction; cbn [step].
  - destruct (ph (ths s t)) eqn:P; try apply T. destruct (T t) as (r1 & s1 & _). rewrite B, s1. cbn [andb].
    replace (hits (Bps [] [] [] []) e) with false by (now destruct e). cbn [orb]. rewrite r1. cbn [negb]. apply T.
  - destruct (ph (ths s t)) eqn:P; try apply T. destruct (T t) as (_ & _ & k). congruence.
  - destruct (ph (ths s t)) eqn:P; try apply T. cbn [ths]. unfold upd. destruct (N.eqb u t); [|apply T].
    cbn. destruct (T t) as (r1 & s1 & _). repeat split; auto. discriminate.
  - destruct (ph (ths s t)) eqn:P; try apply T. destruct (T t) as (r1 & s1 & _). rewrite r1. cbn [ths]. unfold upd.
    destruct (N.eqb u t); [|apply T]. cbn. repeat split; auto. discriminate.
Qed.

Lemma calm_exec g l : threads_only l -> forall s, calm s -> calm (exec g s l).
Proof. induction 1 as [|o l h _ IH]; intros s k; [exact k|]. rewrite exec_cons. apply IH. now apply calm_step. Qed.

(** ** Theorems *)

(** If there are no function breakpoints, and no thread is between finding that it has to stop and marking itself at the
    moment when the threads are resumed, then from then on no thread is to stop: those which wait go on, whatever lines they
    reach and whatever is raised. *)
Theorem detached_runs g s d l : disconnect d -> functions (bp s) = [] ->
  (forall u, ph (ths (exec g s d) u) <> Found) -> threads_only l ->
  let f := exec g s (d ++ l) in
  forall u, run (ths f u) = true /\ ph (ths f u) <> Found /\
    (ph (ths f u) = Waiting -> ph (ths (step g f (Leave u)) u) = Free) /\
    (ph (ths f u) = Free -> forall e x, ths (step g f (Reach u e x)) u = ths f u).
Proof.
  intros hd hf hn hl f u. destruct (disconnect_bp g s d hd) as (B & _ & T).
  assert (K : calm (exec g s d)).
  { split; [now rewrite B, hf|]. intros v. destruct (T v). auto. }
  assert (K' : calm f) by (unfold f; rewrite exec_app; now apply calm_exec).
  destruct K' as (B' & T'). destruct (T' u) as (r1 & s1 & p1). split; [exact r1|]. split; [exact p1|]. split.
  - intros P. cbn [step]. rewrite P, r1. cbn [ths]. unfold upd. now rewrite N.eqb_refl.
  - intros P e x. cbn [step]. rewrite P, B', s1, r1. replace (hits (Bps [] [] [] []) e) with false by (now destruct e). reflexivity.
Qed.

(** A thread which waits when the client disconnects is let go. *)
Theorem waiting_let_go g s d u : disconnect d -> ph (ths (exec g s d) u) = Waiting ->
  ph (ths (step g (exec g s d) (Leave u)) u) = Free.
Proof.
  intros hd P. destruct (disconnect_bp g s d hd) as (_ & _ & T). destruct (T u) as (r & _).
  cbn [step]. rewrite P, r. cbn [ths]. unfold upd. now rewrite N.eqb_refl.
Qed.

(** A client which attaches later finds no line, exception or template breakpoints but its own. *)
Definition request_op (o : op) : Prop := match o with Request _ => True | _ => is_thread_op o end.

Lemma requests_bp g l : Forall request_op l -> forall s s',
  lines (bp s) = lines (bp s') -> excs (bp s) = excs (bp s') -> templates (bp s) = templates (bp s') ->
  let a := bp (exec g s l) in let b := bp (exec g s' l) in
  lines a = lines b /\ excs a = excs b /\ templates a = templates b.
Proof.
  induction 1 as [|o l h _ IH]; intros s s' h1 h2 h3; [auto|].
  cbv zeta. rewrite !exec_cons. destruct o as [r| | | |t| | | | |t e x|t|t|t]; try contradiction.
  - cbn [step]. apply IH; destruct r; cbn; auto.
  - destruct (thread_op_bp g s (Reach t e x) I) as (e1 & _). destruct (thread_op_bp g s' (Reach t e x) I) as (e3 & _).
    apply IH; rewrite ?e1, ?e3; auto.
  - destruct (thread_op_bp g s (Suspend t) I) as (e1 & _). destruct (thread_op_bp g s' (Suspend t) I) as (e3 & _).
    apply IH; rewrite ?e1, ?e3; auto.
  - destruct (thread_op_bp g s (Enter t) I) as (e1 & _). destruct (thread_op_bp g s' (Enter t) I) as (e3 & _).
    apply IH; rewrite ?e1, ?e3; auto.
  - destruct (thread_op_bp g s (Leave t) I) as (e1 & _). destruct (thread_op_bp g s' (Leave t) I) as (e3 & _).
    apply IH; rewrite ?e1, ?e3; auto.
Qed.

Theorem new_session g s s0 d m l : disconnect d -> threads_only m -> bp s0 = Bps [] [] [] [] -> Forall request_op l ->
  let a := bp (exec g s (d ++ m ++ Attach :: l)) in let b := bp (exec g s0 (Attach :: l)) in
  lines a = lines b /\ excs a = excs b /\ templates a = templates b.
Proof.
  intros hd hm h0 hl. cbv zeta. rewrite !exec_app, !exec_cons.
  destruct (disconnect_bp g s d hd) as (B & _). destruct (threads_bp g m hm (exec g s d)) as (B' & _).
  apply requests_bp; auto; cbn [step bp]; rewrite ?B', ?B, h0; reflexivity.
Qed.

(** ** Examples *)

Definition idle : thread := Thread Free true false.
Definition s1 : state := State (Bps [(1, 10)%N] [5%N] [(2, 3)%N] []) (fun _ => idle) true.
Definition bye : list op := [DropBreakpoints; DropExceptions; Logout; ResumeAll].
Lemma bye_ok : disconnect bye.
Proof. apply (D [] [] []); repeat constructor. Qed.

(** A thread waits at a breakpoint, the other one is stopped with it; after the disconnect both go on, also over the line. *)
Definition stopped : list op := [Reach 1 (Line 1 10) false; Suspend 1; Enter 1; Reach 2 Quiet false; Enter 2]%N.
Example stopped_case : let s := exec true s1 stopped in ph (ths s 1%N) = Waiting /\ ph (ths s 2%N) = Waiting /\
  let f := exec true s (bye ++ [Leave 1; Leave 2; Reach 2 (Line 1 10) true; Reach 1 (Raise 5) false]%N) in
  ths f 1%N = idle /\ ths f 2%N = idle.
Proof. vm_compute. repeat split. Qed.

Example stopped_runs u : run (ths (exec true (exec true s1 stopped) (bye ++ [Leave 1; Reach 1 (Line 1 10) true]%N)) u) = true.
Proof.
  apply (detached_runs true (exec true s1 stopped) bye [Leave 1; Reach 1 (Line 1 10) true]%N bye_ok); [reflexivity| |repeat constructor].
  intros v. cbn. unfold upd. destruct (N.eqb v 2); [discriminate|]. destruct (N.eqb v 1); discriminate.
Qed.

(** ** What does not hold *)

(** Function breakpoints are kept: the program stops at one after the client has gone, and nobody is there to continue it. *)
Theorem functions_kept_refuted : exists g s d n u, disconnect d /\ (forall v, ths s v = idle) /\
  let f := exec g s (d ++ [Reach u (Function n) false; Suspend u; Enter u]) in
  attached f = false /\ ph (ths f u) = Waiting /\ run (ths f u) = false /\
  forall l, threads_only l -> ph (ths (exec g f l) u) = Waiting.
Proof.
  exists false, (State (Bps [] [] [] [7%N]) (fun _ => idle) true), bye, 7%N, 1%N. split; [exact bye_ok|]. split; [reflexivity|].
  cbv zeta. split; [reflexivity|]. split; [reflexivity|]. split; [reflexivity|]. intros l hl.
  assert (K : forall l, threads_only l -> forall s, ph (ths s 1%N) = Waiting /\ run (ths s 1%N) = false ->
    ph (ths (exec false s l) 1%N) = Waiting /\ run (ths (exec false s l) 1%N) = false).
  { clear. induction 1 as [|o l h _ IH]; intros s (p & r); [now split|]. rewrite exec_cons. apply IH.
    destruct o as [q| | | |t| | | | |t e x|t|t|t]; try contradiction; cbn [step].
    - destruct (ph (ths s t)) eqn:P; try (now split). assert (t <> 1%N) by (intros ->; congruence).
      destruct (_ || _); [|destruct (negb _)]; cbn [ths]; try (now split); unfold upd; destruct (N.eqb_spec 1 t); [congruence|now split|congruence|now split].
    - destruct (ph (ths s t)) eqn:P; try (now split). assert (t <> 1%N) by (intros ->; congruence). cbn [ths].
      destruct (N.eqb_spec 1 t); [congruence|now split].
    - destruct (ph (ths s t)) eqn:P; try (now split). assert (t <> 1%N) by (intros ->; congruence). cbn [ths]. unfold upd.
      destruct (N.eqb_spec 1 t); [congruence|now split].
    - destruct (ph (ths s t)) eqn:P; try (now split). destruct (run (ths s t)) eqn:R; [|now split].
      assert (t <> 1%N) by (intros ->; congruence). cbn [ths]. unfold upd. destruct (N.eqb_spec 1 t); [congruence|now split]. }
  apply K; [exact hl|]. now split.
Qed.

(** A thread which found a breakpoint just before they were removed marks itself after all were resumed, and waits. *)
Theorem late_mark_refuted : exists g s d u l, disconnect d /\ functions (bp s) = [] /\ ph (ths s u) = Found /\ threads_only l /\
  let f := exec g s (d ++ l) in attached f = false /\ ph (ths f u) = Waiting /\ run (ths f u) = false /\
  exists v, v <> u /\ run (ths f v) = false.
Proof.
  exists true, (exec true s1 [Reach 1 (Line 1 10) false]%N), bye, 1%N, [Suspend 1; Enter 1]%N.
  split; [exact bye_ok|]. split; [reflexivity|]. split; [reflexivity|]. split; [repeat constructor|].
  vm_compute. repeat split. exists 2%N. split; [discriminate|reflexivity].
Qed.

Print Assumptions detached_runs.
Print Assumptions waiting_let_go.
Print Assumptions new_session.
Print Assumptions functions_kept_refuted.
Print Assumptions late_mark_refuted.
