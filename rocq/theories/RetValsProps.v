(** Property C75: the values which functions return are shown while stepping. *)
From Coq Require Import List NArith Bool Lia.
From Verif Require Import Base Dict RetVals.
Import ListNotations.
Open Scope list_scope.

(** ** Specification *)

(** The calls made during a step, as trees: the function, the calls it makes, how it is left, and what the handler sees
    then of its caller. *)
Inductive call := C (f : frame) (inner : list call) (k : leave) (skips initial : bool).

Fixpoint ops_of (t : call) : list op :=
  match t with C f inner k sk i => Call f :: flat_map ops_of inner ++ [Leave k sk i] end.

Definition root (t : call) : frame := match t with C f _ _ _ _ => f end.
Definition left_by (t : call) : leave := match t with C _ _ k _ _ => k end.

(** All frames of the calls. *)
Fixpoint frames_of (t : call) : list frame := match t with C f inner _ _ _ => f :: flat_map frames_of inner end.

(** The values returned by the functions called directly, those whose return is seen, in the order in which they return;
    of functions with the same name the last one counts. *)
Definition returned (t : call) : list (str * N) :=
  match left_by t with Returned v => if seen (root t) then [(fname (root t), v)] else [] | Raised => [] end.
Definition results (ts : list call) : list (str * N) := flat_map returned ts.

Fixpoint lookup (n : str) (l : list (str * N)) : option N :=
  match l with
  | [] => None
  | (m, v) :: r => match lookup n r with Some x => Some x | None => if str_eqb n m then Some v else None end
  end.

(** What the namespace [l] shows for the name [n]. *)
Definition shown (ns : spaces) (l : N) (n : str) : option N :=
  match ns l with Some d => get str_eqb n d | None => None end.

Definition orelse {A} (a b : option A) : option A := match a with Some _ => a | None => b end.

(** ** Lemmas *)

Section ind.
Variable P : call -> Prop.
Hypothesis h : forall f inner k sk i, Forall P inner -> P (C f inner k sk i).
Fixpoint call_ind' (t : call) : P t :=
  match t with
  | C f inner k sk i => h f inner k sk i
      ((fix go l : Forall P l := match l with [] => Forall_nil P | x :: r => Forall_cons x (call_ind' x) (go r) end) inner)
  end.
End ind.

Lemma exec_app e sh c st s a b : exec e sh c st s (a ++ b) = exec e sh c st (exec e sh c st s a) b.
Proof. unfold exec. apply fold_left_app. Qed.

Lemma shown_show ns f b v l n : shown (show ns f b v) l n =
  if N.eqb l (floc b) && str_eqb n (fname f) then Some v else shown ns l n.
Proof.
  unfold shown, show, put. destruct (N.eqb_spec l (floc b)) as [->|m]; cbn [andb]; [|reflexivity].
  rewrite (get_set str_eqb str_eqb_spec). destruct (str_eqb n (fname f)); [reflexivity|]. destruct (ns (floc b)); reflexivity.
Qed.

Lemma lookup_app n a b : lookup n (a ++ b) = orelse (lookup n b) (lookup n a).
Proof.
  induction a as [|[m v] a IH]; cbn [lookup app]; [now destruct (lookup n b)|].
  rewrite IH. destruct (lookup n b); reflexivity.
Qed.

(** Calls made while a step command is active whose handler does nothing for frames further inside. *)
Definition inert (e : engine) (c : cmd) (st : option N) (f b : frame) : Prop :=
  forall sh sk i ns k, on_leave e sh c st sk i ns f b k = ns.

Lemma over_inert e c st f b : c = Over \/ c = OverMy \/ c = Smart -> is_stop st f = false -> is_stop st b = false -> inert e c st f b.
Proof.
  intros hc hf hb sh sk i ns k. unfold on_leave. destruct (negb (seen f) || negb sh); [reflexivity|].
  assert (T : cond_tracing c st f b = false).
  { unfold cond_tracing. rewrite hf. cbn [andb]. destruct hc as [->|[->| ->]]; cbn; rewrite hb; reflexivity. }
  assert (M : forall sk i, cond_monitoring c st sk i f b = false).
  { intros. unfold cond_monitoring. destruct hc as [->|[->| ->]]; rewrite hf, hb; reflexivity. }
  destruct e, k; rewrite ?T, ?M; reflexivity.
Qed.

Definition fresh (st : option N) (fs : list frame) : Prop := forall f, In f fs -> is_stop st f = false.

Lemma fresh_app st a b : fresh st (a ++ b) -> fresh st a /\ fresh st b.
Proof. intros h. split; intros f i; apply h, in_or_app; auto. Qed.

Definition stepping (c : cmd) : Prop := c = Over \/ c = OverMy \/ c = Smart.

(** Inside of a frame which is not the one of the step nothing is shown. *)
Lemma deep e sh c st : stepping c -> forall t b r ns, fresh st (frames_of t) -> is_stop st b = false ->
  exec e sh c st (State (b :: r) ns) (ops_of t) = State (b :: r) ns.
Proof.
  intros hc. apply (call_ind' (fun t => forall b r ns, fresh st (frames_of t) -> is_stop st b = false ->
    exec e sh c st (State (b :: r) ns) (ops_of t) = State (b :: r) ns)).
  intros f inner k sk i IH b r ns hf hb. cbn [ops_of frames_of] in *.
  assert (F : is_stop st f = false) by (apply hf; now left).
  change (Call f :: flat_map ops_of inner ++ [Leave k sk i]) with ([Call f] ++ flat_map ops_of inner ++ [Leave k sk i]).
  rewrite !exec_app. change (exec e sh c st (State (b :: r) ns) [Call f]) with (State (f :: b :: r) ns).
  assert (E : exec e sh c st (State (f :: b :: r) ns) (flat_map ops_of inner) = State (f :: b :: r) ns).
  { assert (hi : fresh st (flat_map frames_of inner)) by (intros g j; apply hf; now right). clear hf.
    induction IH as [|t l Ht _ IHl]; [reflexivity|]. cbn [flat_map] in *. apply fresh_app in hi. destruct hi as (h1 & h2).
    rewrite exec_app, Ht by assumption. now apply IHl. }
  rewrite E. unfold exec. cbn [fold_left step stack RetVals.ns]. now rewrite over_inert.
Qed.

Lemma deep_all e sh c st ts b r ns : stepping c -> fresh st (flat_map frames_of ts) -> is_stop st b = false ->
  exec e sh c st (State (b :: r) ns) (flat_map ops_of ts) = State (b :: r) ns.
Proof.
  intros hc hf hb. induction ts as [|t ts IH]; [reflexivity|]. cbn [flat_map] in *. apply fresh_app in hf. destruct hf as (h1 & h2).
  rewrite exec_app, deep by assumption. now apply IH.
Qed.

Lemma exec_call e sh c st f inner k sk i b r ns :
  exec e sh c st (State (b :: r) ns) (ops_of (C f inner k sk i)) =
  step e sh c st (exec e sh c st (State (f :: b :: r) ns) (flat_map ops_of inner)) (Leave k sk i).
Proof.
  cbn [ops_of]. change (Call f :: flat_map ops_of inner ++ [Leave k sk i]) with ([Call f] ++ flat_map ops_of inner ++ [Leave k sk i]).
  now rewrite !exec_app.
Qed.

(** No exception leaves a function called directly, or these are not told as returns. *)
Definition tame (e : engine) (ts : list call) : Prop :=
  match e with Monitoring => True | Tracing => forall t, In t ts -> seen (root t) = true -> left_by t <> Raised end.

Lemma direct e c F b f k sk i ns l n : stepping c -> fid F = fid b -> is_stop (Some (fid F)) f = false ->
  (e = Tracing -> seen f = true -> k <> Raised) ->
  shown (on_leave e true c (Some (fid F)) sk i ns f b k) l n =
  if N.eqb l (floc b) then orelse (lookup n (returned (C f [] k sk i))) (shown ns l n) else shown ns l n.
Proof.
  intros hc hF hf ht.
  assert (B : is_stop (Some (fid F)) b = true) by (cbn; rewrite hF; apply N.eqb_refl).
  assert (T : cond_tracing c (Some (fid F)) f b = true).
  { unfold cond_tracing. rewrite hf. cbn [andb]. destruct hc as [->|[->| ->]]; cbn [is_ret andb orb]; now rewrite B. }
  assert (M : forall sk i, cond_monitoring c (Some (fid F)) sk i f b = true).
  { intros. unfold cond_monitoring. destruct hc as [->|[->| ->]]; rewrite hf, B; reflexivity. }
  unfold on_leave, returned. cbn [left_by root]. destruct (seen f) eqn:S; cbn [negb orb].
  - destruct k as [v|].
    + assert (E : shown (show ns f b v) l n = if N.eqb l (floc b) then orelse (lookup n [(fname f, v)]) (shown ns l n) else shown ns l n).
      { rewrite shown_show. cbn [lookup]. destruct (N.eqb l (floc b)); [|reflexivity]. cbn [andb]. destruct (str_eqb n (fname f)); reflexivity. }
      destruct e; rewrite ?T, ?M; exact E.
    + destruct e; [destruct (ht eq_refl eq_refl eq_refl)|]. cbn [lookup orelse]. now destruct (N.eqb l (floc b)).
  - destruct k; cbn [lookup orelse]; now destruct (N.eqb l (floc b)).
Qed.

(** ** Theorems *)

(** Stepping over: afterwards the frame shows, for each function which was called directly and returned, its last value,
    and else what it showed before; no other frame shows anything new. *)
Theorem over_shows e c F r ns ts : stepping c -> fresh (Some (fid F)) (flat_map frames_of ts) -> tame e ts ->
  let s' := exec e true c (Some (fid F)) (State (F :: r) ns) (flat_map ops_of ts) in
  stack s' = F :: r /\
  (forall n, shown (RetVals.ns s') (floc F) n = orelse (lookup n (results ts)) (shown ns (floc F) n)) /\
  (forall l n, l <> floc F -> shown (RetVals.ns s') l n = shown ns l n).
Proof.
  intros hc. revert ns. induction ts as [|[f inner k sk i] ts IH]; intros ns hf ht s'.
  - split; [reflexivity|]. split; [reflexivity|reflexivity].
  - cbn [flat_map] in hf. apply fresh_app in hf. destruct hf as (hf1 & hf2).
    assert (Ff : is_stop (Some (fid F)) f = false) by (apply hf1; now left).
    assert (E : exec e true c (Some (fid F)) (State (F :: r) ns) (ops_of (C f inner k sk i)) =
                State (F :: r) (on_leave e true c (Some (fid F)) sk i ns f F k)).
    { rewrite exec_call, deep_all; [reflexivity|exact hc| |exact Ff]. intros g j. apply hf1. now right. }
    assert (ht' : tame e ts) by (destruct e; [intros t j; apply ht; now right|exact I]).
    destruct (IH (on_leave e true c (Some (fid F)) sk i ns f F k) hf2 ht') as (h1 & h2 & h3).
    unfold s'. cbn [flat_map]. rewrite exec_app, E.
    assert (D := fun l n => direct e c F F f k sk i ns l n hc eq_refl Ff
                   ltac:(intros ->; intros sf; apply (ht (C f inner k sk i)); [now left|exact sf])).
    split; [exact h1|]. split.
    + intros n. rewrite h2, D, N.eqb_refl. unfold results. cbn [flat_map].
      change (returned (C f inner k sk i)) with (returned (C f [] k sk i)).
      rewrite lookup_app. destruct (lookup n (flat_map returned ts)); reflexivity.
    + intros l n m. rewrite h3, D by exact m. destruct (N.eqb_spec l (floc F)); [contradiction|reflexivity].
Qed.

(** Whatever the command, calls change only the namespaces of the frames which make them. *)
Lemma on_leave_other e sh c st sk i ns f b k l : l <> floc b -> on_leave e sh c st sk i ns f b k l = ns l.
Proof.
  intros h. assert (S : forall v, show ns f b v l = ns l).
  { intros v. unfold show, put. destruct (N.eqb_spec l (floc b)); [contradiction|reflexivity]. }
  unfold on_leave. destruct (negb (seen f) || negb sh); [reflexivity|].
  destruct e, k; try reflexivity; [destruct (cond_tracing c st f b)|destruct (cond_tracing c st f b)|destruct (cond_monitoring c st sk i f b)];
    auto.
Qed.

Lemma confined e sh c st : forall t b r ns l, l <> floc b -> ~ In l (map floc (frames_of t)) ->
  stack (exec e sh c st (State (b :: r) ns) (ops_of t)) = b :: r /\
  RetVals.ns (exec e sh c st (State (b :: r) ns) (ops_of t)) l = ns l.
Proof.
  apply (call_ind' (fun t => forall b r ns l, l <> floc b -> ~ In l (map floc (frames_of t)) ->
    stack (exec e sh c st (State (b :: r) ns) (ops_of t)) = b :: r /\
    RetVals.ns (exec e sh c st (State (b :: r) ns) (ops_of t)) l = ns l)).
  intros f inner k sk i IH b r ns l hb hf. rewrite exec_call.
  assert (E : stack (exec e sh c st (State (f :: b :: r) ns) (flat_map ops_of inner)) = f :: b :: r /\
              RetVals.ns (exec e sh c st (State (f :: b :: r) ns) (flat_map ops_of inner)) l = ns l).
  { cbn [frames_of map In] in hf. assert (h1 : l <> floc f) by (intros ->; apply hf; now left).
    assert (h2 : ~ In l (map floc (flat_map frames_of inner))) by (intros j; apply hf; now right). clear hf.
    revert ns. induction IH as [|t q Ht _ IHq]; intros ns; [now split|]. cbn [flat_map] in *. rewrite map_app in h2.
    rewrite exec_app. destruct (Ht f (b :: r) ns l h1) as (a1 & a2); [intros j; apply h2, in_or_app; now left|].
    destruct (exec e sh c st (State (f :: b :: r) ns) (ops_of t)) as [st1 ns1]. cbn [stack RetVals.ns] in a1, a2. subst st1.
    destruct (IHq (fun j => h2 (in_or_app _ _ _ (or_intror j))) ns1) as (b1 & b2). split; [exact b1|congruence]. }
  destruct (exec e sh c st (State (f :: b :: r) ns) (flat_map ops_of inner)) as [st1 ns1]. cbn [stack RetVals.ns] in E.
  destruct E as (-> & E). cbn [step stack RetVals.ns]. split; [reflexivity|]. now rewrite on_leave_other.
Qed.

Lemma stack_calls e sh c st ts : forall b r ns, stack (exec e sh c st (State (b :: r) ns) (flat_map ops_of ts)) = b :: r.
Proof.
  assert (X : forall t b r ns, stack (exec e sh c st (State (b :: r) ns) (ops_of t)) = b :: r).
  { apply (call_ind' (fun t => forall b r ns, stack (exec e sh c st (State (b :: r) ns) (ops_of t)) = b :: r)).
    intros f inner k sk i IH b r ns. rewrite exec_call.
    assert (E : forall ns, stack (exec e sh c st (State (f :: b :: r) ns) (flat_map ops_of inner)) = f :: b :: r).
    { induction IH as [|t q Ht _ IHq]; intros ns'; [reflexivity|]. cbn [flat_map]. rewrite exec_app. specialize (Ht f (b :: r) ns').
      destruct (exec e sh c st (State (f :: b :: r) ns') (ops_of t)) as [st1 ns1]. cbn [stack] in Ht. subst st1. apply IHq. }
    specialize (E ns). destruct (exec e sh c st (State (f :: b :: r) ns) (flat_map ops_of inner)) as [st1 ns1].
    cbn [stack] in E. now subst st1. }
  induction ts as [|t ts IH]; intros b r ns; [reflexivity|]. cbn [flat_map]. rewrite exec_app. specialize (X t b r ns).
  destruct (exec e sh c st (State (b :: r) ns) (ops_of t)) as [st1 ns1]. cbn [stack] in X. subst st1. apply IH.
Qed.

Lemma confined_all e sh c st ts b r l : l <> floc b -> ~ In l (map floc (flat_map frames_of ts)) -> forall ns,
  RetVals.ns (exec e sh c st (State (b :: r) ns) (flat_map ops_of ts)) l = ns l.
Proof.
  intros hb hf. induction ts as [|t ts IH]; intros ns; [reflexivity|]. cbn [flat_map] in *. rewrite map_app in hf. rewrite exec_app.
  destruct (confined e sh c st t b r ns l hb) as (a1 & a2); [intros j; apply hf, in_or_app; now left|].
  destruct (exec e sh c st (State (b :: r) ns) (ops_of t)) as [st1 ns1]. cbn [stack RetVals.ns] in a1, a2. subst st1.
  rewrite IH; [exact a2|]. intros j. apply hf, in_or_app. now right.
Qed.

(** Stepping into: also then, for the frame into which the functions return. *)
Theorem into_shows e c st F r ns ts : c = Into \/ c = IntoCo -> tame e ts ->
  (forall f, In f (flat_map frames_of ts) -> floc f <> floc F) ->
  let s' := exec e true c st (State (F :: r) ns) (flat_map ops_of ts) in
  stack s' = F :: r /\
  (forall n, shown (RetVals.ns s') (floc F) n = orelse (lookup n (results ts)) (shown ns (floc F) n)) /\
  (forall l, l <> floc F -> ~ In l (map floc (flat_map frames_of ts)) -> RetVals.ns s' l = ns l).
Proof.
  intros hc ht hd s'. split; [apply stack_calls|]. split; [|intros l a b; now apply confined_all].
  subst s'. revert ns. induction ts as [|[f inner k sk i] ts IH]; intros ns n; [reflexivity|].
  cbn [flat_map]. rewrite exec_app, exec_call.
  assert (K1 := stack_calls e true c st inner f (F :: r) ns).
  assert (K2 : RetVals.ns (exec e true c st (State (f :: F :: r) ns) (flat_map ops_of inner)) (floc F) = ns (floc F)).
  { apply confined_all.
    - intros E. apply (hd f); [cbn; now left|now symmetry].
    - intros j. apply in_map_iff in j. destruct j as (g & E & j). apply (hd g); [|exact E]. cbn. right. apply in_or_app. now left. }
  destruct (exec e true c st (State (f :: F :: r) ns) (flat_map ops_of inner)) as [st1 ns1]. cbn [stack RetVals.ns] in K1, K2. subst st1.
  cbn [step stack RetVals.ns].
  assert (ht' : tame e ts) by (destruct e; [intros t j; apply ht; now right|exact I]).
  rewrite IH; [|exact ht'|intros g j; apply hd; cbn; right; apply in_or_app; now right].
  unfold results. cbn [flat_map]. rewrite lookup_app.
  assert (D : shown (on_leave e true c st sk i ns1 f F k) (floc F) n = orelse (lookup n (returned (C f inner k sk i))) (shown ns (floc F) n)).
  { assert (T : cond_tracing c st f F = true) by (unfold cond_tracing; destruct hc as [->| ->]; rewrite andb_false_r; cbn; now rewrite ?orb_true_r).
    assert (M : forall sk i, cond_monitoring c st sk i f F = true).
    { intros. unfold cond_monitoring. destruct hc as [->| ->]; now destruct (_ && _). }
    assert (S1 : shown ns1 (floc F) n = shown ns (floc F) n) by (unfold shown; now rewrite K2).
    unfold on_leave, returned. cbn [left_by root]. destruct (seen f) eqn:S; cbn [negb orb].
    - destruct k as [v|].
      + assert (E : shown (show ns1 f F v) (floc F) n = orelse (lookup n [(fname f, v)]) (shown ns (floc F) n)).
        { rewrite shown_show, N.eqb_refl. cbn [lookup andb]. rewrite S1. destruct (str_eqb n (fname f)); reflexivity. }
        destruct e; rewrite ?T, ?M; exact E.
      + destruct e; [|exact S1]. destruct (ht (C f inner Raised sk i)); [now left|exact S|reflexivity].
    - destruct k; exact S1. }
  rewrite D. destruct (lookup n (flat_map returned ts)); reflexivity.
Qed.

(** The frame of the step is left by return, whether stepping out or over: its caller shows the value. *)
Theorem left_shows e c F b r ns ts v sk i : In c [Over; OverMy; Ret; RetMy; Smart] -> seen F = true -> filtered b = false ->
  floc b <> floc F -> (forall f, In f (flat_map frames_of ts) -> floc f <> floc b) ->
  let s' := exec e true c (Some (fid F)) (State (F :: b :: r) ns) (flat_map ops_of ts ++ [Leave (Returned v) sk i]) in
  stack s' = b :: r /\
  (forall n, shown (RetVals.ns s') (floc b) n = if str_eqb n (fname F) then Some v else shown ns (floc b) n) /\
  (forall l, ~ In l (map floc (b :: F :: flat_map frames_of ts)) -> RetVals.ns s' l = ns l).
Proof.
  intros hc hs hb hl hd s'. unfold s'. rewrite exec_app.
  assert (K1 := stack_calls e true c (Some (fid F)) ts F (b :: r) ns).
  assert (K2 : forall l, l <> floc F -> ~ In l (map floc (flat_map frames_of ts)) ->
    RetVals.ns (exec e true c (Some (fid F)) (State (F :: b :: r) ns) (flat_map ops_of ts)) l = ns l) by (intros; now apply confined_all).
  destruct (exec e true c (Some (fid F)) (State (F :: b :: r) ns) (flat_map ops_of ts)) as [st1 ns1]. cbn [stack RetVals.ns] in K1, K2. subst st1.
  unfold exec. cbn [fold_left step stack RetVals.ns]. split; [reflexivity|].
  assert (O : on_leave e true c (Some (fid F)) sk i ns1 F b (Returned v) = show ns1 F b v).
  { unfold on_leave. rewrite hs. cbn [negb orb].
    assert (T : cond_tracing c (Some (fid F)) F b = true).
    { unfold cond_tracing, is_stop. rewrite N.eqb_refl. cbn in hc. destruct hc as [<-|[<-|[<-|[<-|[<-|[]]]]]]; cbn; now rewrite ?hb. }
    assert (M : cond_monitoring c (Some (fid F)) sk i F b = true).
    { unfold cond_monitoring, is_stop. rewrite N.eqb_refl. cbn in hc. now destruct hc as [<-|[<-|[<-|[<-|[<-|[]]]]]]. }
    destruct e; now rewrite ?T, ?M. }
  rewrite O. split.
  - intros n. rewrite shown_show, N.eqb_refl. cbn [andb]. destruct (str_eqb n (fname F)); [reflexivity|].
    unfold shown. rewrite K2; [reflexivity|exact hl|]. intros j. apply in_map_iff in j. destruct j as (g & E & j). now apply (hd g).
  - intros l m. cbn [map In] in m. unfold show, put. destruct (N.eqb_spec l (floc b)); [exfalso; apply m; now left|].
    apply K2; [intros E; apply m; right; left; now symmetry|intros j; apply m; right; now right].
Qed.

(** With the option off nothing is shown. *)
Theorem off_silent e c st s l : RetVals.ns (exec e false c st s l) = RetVals.ns s.
Proof.
  revert s. induction l as [|o l IH]; intros s; [reflexivity|]. unfold exec in *. cbn [fold_left]. rewrite IH.
  destruct o as [f|k sk i]; [reflexivity|]. cbn [step]. destruct (stack s) as [|f [|b r]]; try reflexivity.
  cbn [RetVals.ns]. unfold on_leave. now rewrite orb_true_r.
Qed.

(** Turning it off when tracing: at the next event the values are gone from the frame and its caller, and from no other. *)
Theorem off_removed x s : let p := touch Tracing (set_show (true, x) false) s in
  fst p = (false, false) /\ stack (snd p) = stack s /\
  (forall f, In f (firstn 2 (stack s)) -> forall n, shown (RetVals.ns (snd p)) (floc f) n = None) /\
  (forall l, ~ In l (map floc (firstn 2 (stack s))) -> RetVals.ns (snd p) l = RetVals.ns s l) /\
  touch Tracing (fst p) (snd p) = p.
Proof.
  destruct s as [st ns]. cbn [touch set_show fst snd stack RetVals.ns]. split; [reflexivity|]. split; [reflexivity|].
  assert (P : forall m l v n, shown (put m l v) l n = match v with Some d => get str_eqb n d | None => None end).
  { intros. unfold shown, put. now rewrite N.eqb_refl. }
  split; [|split; [|reflexivity]].
  - intros f i n. destruct st as [|a [|b r]]; [destruct i| |]; cbn [firstn In] in i.
    + destruct i as [<-|[]]. apply P.
    + unfold shown, put. destruct i as [<-|[<-|[]]]; [destruct (N.eqb (floc a) (floc b)); [reflexivity|now rewrite N.eqb_refl]|now rewrite N.eqb_refl].
  - intros l m. destruct st as [|a [|b r]]; [reflexivity| |]; cbn [firstn map In] in m; unfold put.
    + destruct (N.eqb_spec l (floc a)) as [->|]; [exfalso; apply m; now left|reflexivity].
    + destruct (N.eqb_spec l (floc b)) as [->|]; [exfalso; apply m; right; now left|].
      destruct (N.eqb_spec l (floc a)) as [->|]; [exfalso; apply m; now left|reflexivity].
Qed.

(** While it is on they are kept, also if it had been turned off just before. *)
Theorem on_kept e fl s : touch e (set_show (set_show fl false) true) s = (set_show (set_show fl false) true, s).
Proof. destruct e; reflexivity. Qed.

(** ** Examples *)

Definition main : frame := Frame 1 [109]%N 1 true false.
Definition outer : frame := Frame 2 [111]%N 2 true false.
Definition f3 : frame := Frame 3 [102]%N 3 true false.
Definition g4 : frame := Frame 4 [103]%N 4 true false.
Definition f5 : frame := Frame 5 [102]%N 5 true false.
Definition empty : spaces := fun _ => None.

(** outer calls f, which calls g, and then g itself, and f again. *)
Definition line : list call :=
  [C f3 [C g4 [] (Returned 7%N) false false] (Returned 8%N) false false; C (Frame 6 [103]%N 6 true false) [] (Returned 9%N) false false;
   C f5 [] (Returned 10%N) false false].

Example line_over : forall e, let s' := exec e true Over (Some 2%N) (State [outer; main] empty) (flat_map ops_of line) in
  RetVals.ns s' 2%N = Some [([102]%N, 10%N); ([103]%N, 9%N)] /\ RetVals.ns s' 3%N = None /\ RetVals.ns s' 1%N = None.
Proof. intros []; vm_compute; repeat split. Qed.

Example line_over_shows e : let s' := exec e true Over (Some 2%N) (State [outer; main] empty) (flat_map ops_of line) in
  shown (RetVals.ns s') 2%N [102]%N = Some 10%N.
Proof.
  destruct (over_shows e Over outer [main] empty line) as (_ & h & _).
  - now left.
  - intros f i. cbn in i. destruct i as [<-|[<-|[<-|[<-|[]]]]]; reflexivity.
  - destruct e; [|exact I]. intros t i. cbn in i. destruct i as [<-|[<-|[<-|[]]]]; discriminate.
  - exact (h [102]%N).
Qed.

Example line_into e : shown (RetVals.ns (exec e true Into None (State [outer; main] empty) (flat_map ops_of line))) 2%N [103]%N = Some 9%N.
Proof.
  destruct (into_shows e Into None outer [main] empty line) as (_ & h & _).
  - now left.
  - destruct e; [|exact I]. intros t i. cbn in i. destruct i as [<-|[<-|[<-|[]]]]; discriminate.
  - intros f i. cbn in i. destruct i as [<-|[<-|[<-|[<-|[]]]]]; discriminate.
  - exact (h [103]%N).
Qed.

Example line_left e : let s' := exec e true Ret (Some 2%N) (State [outer; main] empty) (flat_map ops_of line ++ [Leave (Returned 11%N) false false]) in
  shown (RetVals.ns s') 1%N [111]%N = Some 11%N /\ shown (RetVals.ns s') 1%N [102]%N = None.
Proof.
  destruct (left_shows e Ret outer main [] empty line 11%N false false) as (_ & h & _).
  - cbn. tauto.
  - reflexivity.
  - reflexivity.
  - discriminate.
  - intros f i. cbn in i. destruct i as [<-|[<-|[<-|[<-|[]]]]]; discriminate.
  - split; [exact (h [111]%N)|exact (h [102]%N)].
Qed.

(** ** What does not hold *)

(** When tracing, a function left by an exception is shown as one which returned None. *)
Theorem raised_refuted : exists F ts ns n, fresh (Some (fid F)) (flat_map frames_of ts) /\ lookup n (results ts) = None /\
  shown ns (floc F) n = None /\
  shown (RetVals.ns (exec Tracing true Over (Some (fid F)) (State [F] ns) (flat_map ops_of ts))) (floc F) n = Some none /\
  shown (RetVals.ns (exec Monitoring true Over (Some (fid F)) (State [F] ns) (flat_map ops_of ts))) (floc F) n = None.
Proof.
  exists outer, [C f3 [] Raised false false], empty, [102]%N. split; [intros f i; cbn in i; destruct i as [<-|[]]; reflexivity|].
  repeat split.
Qed.

(** The values of earlier steps remain: after a step which called nothing that name is still shown. *)
Theorem earlier_refuted : forall e, exists F ns a b n, results b = [] /\
  shown ns (floc F) n = None /\
  shown (RetVals.ns (exec e true Over (Some (fid F)) (exec e true Over (Some (fid F)) (State [F] ns) (flat_map ops_of a)) (flat_map ops_of b))) (floc F) n = Some 8%N.
Proof. intros e. exists outer, empty, [C f3 [] (Returned 8%N) false false], [], [102]%N. destruct e; repeat split. Qed.

(** Two functions with one name: only the last value is shown. *)
Theorem same_name_refuted : forall e, exists F ts v w, fid (root v) <> fid (root w) /\ In v ts /\ In w ts /\
  left_by v = Returned 8%N /\ left_by w = Returned 10%N /\
  RetVals.ns (exec e true Over (Some (fid F)) (State [F] empty) (flat_map ops_of ts)) (floc F) = Some [([102]%N, 10%N)].
Proof.
  intros e. exists outer, [C f3 [] (Returned 8%N) false false; C f5 [] (Returned 10%N) false false], (C f3 [] (Returned 8%N) false false), (C f5 [] (Returned 10%N) false false).
  split; [discriminate|]. split; [now left|]. split; [right; now left|]. destruct e; repeat split.
Qed.

(** Turning the option off leaves the values in the frames further out, and with sys.monitoring in all of them. *)
Theorem off_kept_refuted : (exists s l n, In l (map floc (stack s)) /\ shown (RetVals.ns s) l n = Some 8%N /\
    shown (RetVals.ns (snd (touch Tracing (set_show (true, false) false) s))) l n = Some 8%N /\
    fst (touch Tracing (set_show (true, false) false) s) = (false, false)) /\
  (forall fl s, touch Monitoring fl s = (fl, s)).
Proof.
  split; [|reflexivity]. exists (State [f3; outer; main] (put empty 1 (Some [([102]%N, 8%N)]))), 1%N, [102]%N.
  split; [cbn; tauto|]. repeat split.
Qed.

(** Stepping out with sys.monitoring also records the values of functions called on the way, when tracing not. *)
Theorem out_inside_refuted : exists F b ts n,
  shown (RetVals.ns (exec Monitoring true Ret (Some (fid F)) (State [F; b] empty) (flat_map ops_of ts))) (floc F) n = Some 8%N /\
  shown (RetVals.ns (exec Tracing true Ret (Some (fid F)) (State [F; b] empty) (flat_map ops_of ts))) (floc F) n = None.
Proof. exists outer, main, [C f3 [] (Returned 8%N) false false], [102]%N. split; reflexivity. Qed.

Print Assumptions over_shows.
Print Assumptions into_shows.
Print Assumptions left_shows.
Print Assumptions off_silent.
Print Assumptions off_removed.
Print Assumptions on_kept.
Print Assumptions raised_refuted.
Print Assumptions earlier_refuted.
Print Assumptions same_name_refuted.
Print Assumptions off_kept_refuted.
Print Assumptions out_inside_refuted.
