(** Property C61: with frame evaluation the program does what it did, and no breakpoint is missed. *)
From Coq Require Import String.
From Coq Require Import List NArith ZArith Bool Lia.
From Verif Require Import Base Dict FrameEval.
Import ListNotations.
Open Scope list_scope.

(** * Specification *)
(** What the program did, and what the debugger is told of a traced frame *)
Definition is_did {U S} (e : event U S) : bool := match e with Did _ _ => true | _ => false end.
Definition is_program {U S} (e : event U S) : bool := match e with Did _ _ | Line _ => true | _ => false end.
Definition dids {U S} (l : list (event U S)) := filter is_did l.
Definition told {U S} (l : list (event U S)) := filter is_program l.
(** Code of the program: its own labels and instructions *)
Definition plain {U} (x : item U) : Prop := match x with Lab (CodeLabel _) => True | Ins _ (User _) => True | _ => False end.
(** What follows a label has a line. *)
Definition lined {U} (code : list (item U)) : Prop := forall a l line o b, code = a ++ Lab l :: Ins line o :: b -> line <> None.

Section Simulation.
Context {U S : Type}.
Variable multi : bool.
Variable B : list N.
Variable pop_top : U -> bool.
Variable M : interp U S.
Notation ins := (insert multi B pop_top).

(** * Walking over the code *)
Definition emit (w : walk) (x : item U) : list (item U) * walk :=
  match x with
  | Lab l => ([Lab l], Walk true (last_lineno w) (added w) (count w))
  | Ins None o => ([Ins None o], Walk false (last_lineno w) (added w) (count w))
  | Ins (Some n) o =>
      if skips multi w n then ([Ins (Some n) o], Walk false (last_lineno w) (added w) (count w))
      else if existsb (N.eqb n) B then
        if prev_label w && pop_op pop_top o then (Ins (Some n) o :: block n (count w), Walk true (Some n) (n :: added w) (count w + 1))
        else (block n (count w) ++ [Ins (Some n) o], Walk false (Some n) (n :: added w) (count w + 1))
      else ([Ins (Some n) o], Walk false (Some n) (added w) (count w))
  end.
Fixpoint outs (w : walk) (l : list (item U)) : list (item U) * walk :=
  match l with [] => ([], w) | x :: r => let '(a, w) := emit w x in let '(b, w) := outs w r in (a ++ b, w) end.
Lemma insert_cons w x r : ins w (x :: r) = fst (emit w x) ++ ins (snd (emit w x)) r.
Proof.
  destruct x as [l|[n|] o]; cbn [insert emit fst snd app]; try reflexivity.
  destruct (skips multi w n); [reflexivity|]. destruct (existsb (N.eqb n) B); [|reflexivity].
  destruct (prev_label w && pop_op pop_top o); reflexivity.
Qed.
Lemma insert_app a : forall w b, ins w (a ++ b) = fst (outs w a) ++ ins (snd (outs w a)) b.
Proof.
  induction a as [|x a IH]; intros w b; [reflexivity|].
  change ((x :: a) ++ b) with (x :: (a ++ b)). rewrite insert_cons, IH. cbn [outs]. destruct (emit w x) as [o w1]. cbn [fst snd].
  destruct (outs w1 a) as [o2 w2]. cbn [fst snd]. now rewrite app_assoc.
Qed.
Lemma outs_app a : forall w b, snd (outs w (a ++ b)) = snd (outs (snd (outs w a)) b).
Proof.
  induction a as [|x a IH]; intros w b; [reflexivity|]. cbn [app outs]. destruct (emit w x) as [o w1]. specialize (IH w1 b).
  destruct (outs w1 (a ++ b)) as [o2 w2], (outs w1 a) as [o3 w3]. exact IH.
Qed.
Lemma outs_snoc a w x : snd (outs w (a ++ [x])) = snd (emit (snd (outs w a)) x).
Proof. rewrite outs_app. cbn [outs]. destruct (emit (snd (outs w a)) x). reflexivity. Qed.

Lemma block_labels n k x : In (Lab (BreakLabel x)) (block (U := U) n k) -> x = k.
Proof. unfold block. cbn [In]. intuition congruence. Qed.
Lemma emit_labels w x : plain x -> (count w <= count (snd (emit w x)))%N
  /\ forall k, In (Lab (BreakLabel k)) (fst (emit w x)) -> (k < count (snd (emit w x)))%N.
Proof.
  destruct x as [[l|k]|[n|] o]; cbn [plain emit]; intros P; try contradiction; try (cbn [fst snd count In]; split; [lia|]; intros k [H|[]]; discriminate).
  assert (D : forall z, Ins (Some n) o <> Lab z) by discriminate.
  destruct (skips multi w n); [cbn [fst snd count In]; split; [lia|]; intros k [H|[]]; discriminate|].
  destruct (existsb (N.eqb n) B); [|cbn [fst snd count In]; split; [lia|]; intros k [H|[]]; discriminate].
  destruct (prev_label w && pop_op pop_top o); cbn [fst snd count]; (split; [lia|]); intros k H.
  - destruct H as [H|H]; [discriminate|]. apply block_labels in H. lia.
  - apply in_app_or in H as [H|[H|[]]]; [apply block_labels in H; lia|discriminate].
Qed.
Lemma outs_labels l : Forall plain l -> forall w, (count w <= count (snd (outs w l)))%N
  /\ forall k, In (Lab (BreakLabel k)) (fst (outs w l)) -> (k < count (snd (outs w l)))%N.
Proof.
  induction l as [|x l IH]; intros P w; cbn [outs fst snd]; [split; [lia|intros k []]|].
  inversion P as [|? ? P1 P2]; subst. pose proof (emit_labels w x P1) as [E1 E2]. destruct (emit w x) as [o w1]. cbn [fst snd] in *.
  destruct (IH P2 w1) as [I1 I2]. destruct (outs w1 l) as [o2 w2]. cbn [fst snd] in *. split; [lia|].
  intros k H. apply in_app_or in H as [H|H]; [apply E2 in H; lia|auto].
Qed.
Lemma label_eqb_eq a b : label_eqb a b = true <-> a = b.
Proof. destruct a, b; cbn [label_eqb]; rewrite ?N.eqb_eq; split; congruence. Qed.
Lemma find_skip l (a b : list (item U)) : ~ In (Lab l) a -> find_label l (a ++ b) = find_label l b.
Proof.
  induction a as [|[x|line o] a IH]; intros H; cbn [app find_label]; [reflexivity| |apply IH; intros X; apply H; now right].
  destruct (label_eqb x l) eqn:E; [apply label_eqb_eq in E as ->; exfalso; apply H; now left|]. apply IH. intros X. apply H. now right.
Qed.
Lemma block_code n k l : ~ In (Lab (CodeLabel l)) (block (U := U) n k).
Proof. unfold block. cbn [In]. intuition congruence. Qed.
Lemma find_block n k R : find_label (BreakLabel k) (block (U := U) n k ++ R) = Some R.
Proof. unfold block. cbn [app find_label label_eqb]. now rewrite N.eqb_refl. Qed.
(** A label of the program is found at the same place. *)
Lemma find_code l code : forall w, match find_label (CodeLabel l) code with
  | Some r => exists a, code = (a ++ [Lab (CodeLabel l)]) ++ r /\ find_label (CodeLabel l) (ins w code) = Some (ins (snd (outs w (a ++ [Lab (CodeLabel l)]))) r)
  | None => find_label (CodeLabel l) (ins w code) = None
  end.
Proof.
  induction code as [|x code IH]; intros w; [reflexivity|]. rewrite insert_cons.
  destruct x as [y|line o].
  - cbn [find_label emit fst snd app]. destruct (label_eqb y (CodeLabel l)) eqn:E.
    + apply label_eqb_eq in E as ->. exists []. split; reflexivity.
    + specialize (IH (Walk true (last_lineno w) (added w) (count w))). destruct (find_label (CodeLabel l) code) as [r|].
      * destruct IH as (a & -> & F). exists (Lab y :: a). split; [reflexivity|]. rewrite F. cbn [app outs emit].
        destruct (outs _ (a ++ _)); reflexivity.
      * exact IH.
  - assert (N0 : ~ In (Lab (CodeLabel l)) (fst (emit w (Ins line o)))).
    { cbn [emit]. destruct line as [n|]; [|cbn [fst In]; intuition congruence].
      destruct (skips multi w n); [cbn [fst In]; intuition congruence|]. destruct (existsb (N.eqb n) B); [|cbn [fst In]; intuition congruence].
      destruct (prev_label w && pop_op pop_top o); cbn [fst].
      - intros [H|H]; [discriminate|revert H; apply block_code].
      - intros H. apply in_app_or in H as [H|[H|[]]]; [revert H; apply block_code|discriminate]. }
    rewrite find_skip by exact N0. cbn [find_label].
    specialize (IH (snd (emit w (Ins line o)))). destruct (find_label (CodeLabel l) code) as [r|].
    + destruct IH as (a & -> & F). exists (Ins line o :: a). split; [reflexivity|]. rewrite F. cbn [app outs].
      destruct (emit w (Ins line o)) as [o1 w1]. cbn [snd]. destruct (outs w1 (a ++ _)); reflexivity.
    + exact IH.
Qed.

(** * Running an inserted block *)
Lemma run_app code m : forall n f, run M code (m + n) f = let '(e, f) := run M code m f in let '(e', f) := run M code n f in (e ++ e', f).
Proof.
  induction m as [|m IH]; intros n f; cbn [plus run]; [destruct (run M code n f); reflexivity|].
  destruct (step M code f) as [[e f1]|] eqn:E.
  - rewrite IH. destruct (run M code m f1) as [e1 f2]. destruct (run M code n f2) as [e2 f3]. now rewrite app_assoc.
  - destruct n; cbn [run]; [reflexivity|]. rewrite E. reflexivity.
Qed.
Lemma spurious_other n : n <> 0%N -> spurious_line n <> n.
Proof. unfold spurious_line. intros H. destruct (N.eqb_spec (n - 1) 0); lia. Qed.
Definition at_line (f : frame U S) (n : N) (R : list (item U)) (tr : bool) : frame U S :=
  Frame R (dstack f) (us f) tr (Some n) false (time f).
Lemma run_block code n k R f : n <> 0%N -> rest f = block n k ++ R -> dstack f = [] -> find_label (BreakLabel k) code = Some R ->
  exists m, run M code m f
  = if negb (traced f) && breaks M (time f) n then ([Needed n; StopCalled n; Line n], at_line f n R true)
    else (line_event f (Some n) ++ [Needed n], at_line f n R (traced f)).
Proof.
  intros Hn HR HD HF. destruct f as [r d s tr la ba t]. cbn [rest dstack traced time] in *. subst r d.
  destruct (negb tr && breaks M t n) eqn:E.
  - apply andb_true_iff in E as [E1 E2]. destruct tr; [discriminate|]. clear E1.
    exists 10. unfold block. cbn [app]. cbn [run step rest dstack moved line_event traced andb app with_stack needs_stop time negb].
    rewrite E2. cbn [run step rest dstack moved line_event traced andb app with_stack needs_stop time negb with_trace last back].
    rewrite N.eqb_refl. cbn [negb orb andb app run step rest dstack moved line_event traced last back with_stack with_trace].
    destruct (N.eqb_spec (spurious_line n) n) as [X|_]; [now apply spurious_other in X|].
    cbn [negb orb andb app run step rest dstack moved line_event traced last back with_stack with_trace with_rest us time]. reflexivity.
  - exists 4. unfold block. cbn [app]. cbn [run step rest dstack moved with_stack needs_stop time].
    unfold needs_stop, with_stack. cbn [traced time moved rest dstack us last back]. rewrite E. rewrite HF.
    cbn [line_event traced last back with_rest with_stack rest dstack us time]. rewrite N.eqb_refl. cbn [negb orb]. rewrite andb_false_r.
    cbn [app]. reflexivity.
Qed.

(** * One step of the program *)
Definition agree (so sm : frame U S) : Prop :=
  dstack so = [] /\ dstack sm = [] /\ us sm = us so /\ time sm = time so /\ last sm = last so /\ back sm = back so.
Definition ends_lab (l : list (item U)) : Prop := exists a x, l = a ++ [Lab x].
Definition kept (so : frame U S) (pre : list (item U)) : Prop :=
  rest so = [] \/ ends_lab pre \/ back so = false /\ (last so = last_lineno (snd (outs start_walk pre)) \/ last_lineno (snd (outs start_walk pre)) = None).
Definition related (code : list (item U)) (so sm : frame U S) : Prop :=
  exists pre, code = pre ++ rest so /\ rest sm = ins (snd (outs start_walk pre)) (rest so) /\ agree so sm
  /\ (multi = true -> lined code -> kept so pre).
Definition is_stop (e : event U S) : bool := match e with StopCalled _ => true | _ => false end.
Definition no_stop (l : list (event U S)) : Prop := forall e, In e l -> is_stop e = false.
Lemma related_goto code l b s fo fm : agree fo fm ->
  related code (after code (Goto l b s) fo) (after (ins start_walk code) (Goto l b s) fm).
Proof.
  intros (A1 & A2 & A3 & A4 & A5 & A6). pose proof (find_code l code start_walk) as F. cbn [after].
  destruct (find_label (CodeLabel l) code) as [r|].
  - destruct F as (a & E & F). rewrite F. exists (a ++ [Lab (CodeLabel l)]). cbn [rest]. split; [exact E|]. split; [reflexivity|].
    split; [unfold agree; cbn [dstack us time last back]; rewrite A1, A2, A4, A5, A6; repeat (split; [reflexivity|]); reflexivity|].
    intros _ _. right. left. now exists a, (CodeLabel l).
  - rewrite F. exists code. cbn [rest insert]. split; [now rewrite app_nil_r|]. split; [reflexivity|].
    split; [unfold agree; cbn [dstack us time last back]; rewrite A1, A2, A4, A5, A6; repeat (split; [reflexivity|]); reflexivity|].
    intros _ _. now left.
Qed.
Lemma related_leave code s fo fm : agree fo fm -> related code (after code (Leave s) fo) (after (ins start_walk code) (Leave s) fm).
Proof.
  intros (A1 & A2 & A3 & A4 & A5 & A6). cbn [after]. exists code. cbn [rest insert]. split; [now rewrite app_nil_r|]. split; [reflexivity|].
  split; [unfold agree; cbn [dstack us time last back]; rewrite A1, A2, A4, A5, A6; repeat (split; [reflexivity|]); reflexivity|].
  intros _ _. now left.
Qed.
Lemma ends_lab_prev pre w : ends_lab pre -> prev_label (snd (outs w pre)) = true.
Proof. intros (a & x & ->). rewrite outs_snoc. reflexivity. Qed.
Lemma run_one code f line u r : rest f = Ins line (User u) :: r -> dstack f = [] ->
  run M code 1 f = (line_event f line ++ [Did u (us f)], after code (exec M u (us f)) (moved f line r)).
Proof. intros H1 H2. cbn [run]. unfold step. rewrite H1, H2. now rewrite app_nil_r. Qed.
(** How one step of the program is matched *)
Definition quiet (code : list (item U)) (so sm : frame U S) (line : option N) (u : U) (evs' : list (event U S)) (sm' : frame U S) : Prop :=
  told evs' = line_event sm line ++ [Did u (us so)] /\ no_stop evs' /\ traced sm' = traced sm
  /\ (multi = true -> lined code -> traced sm = false -> forall n, line = Some n -> In n B -> breaks M (time so) n = true -> breaks M (time so + 1) n = true ->
      traced so = true -> line_event so line <> [] -> pop_top u = true /\ (forall s, exec M u (us so) <> Next s)).
Definition before (so sm : frame U S) (line : option N) (u : U) (evs' : list (event U S)) (sm' : frame U S) : Prop :=
  exists n, line = Some n /\ traced sm = false /\ In n B /\ breaks M (time so) n = true
  /\ evs' = [Needed n; StopCalled n; Line n; Did u (us so)] /\ traced sm' = true.
Definition afterwards (so sm : frame U S) (line : option N) (u : U) (evs' : list (event U S)) (sm' : frame U S) : Prop :=
  exists n, line = Some n /\ traced sm = false /\ In n B /\ breaks M (time so + 1) n = true /\ pop_top u = true
  /\ evs' = [Did u (us so); Needed n; StopCalled n; Line n] /\ traced sm' = true.
Definition matched (code : list (item U)) (so sm : frame U S) (evs : list (event U S)) (evs' : list (event U S)) (sm' : frame U S) : Prop :=
  evs = [] /\ evs' = [] /\ traced sm' = traced sm
  \/ exists line u, evs = line_event so line ++ [Did u (us so)]
     /\ (quiet code so sm line u evs' sm' \/ before so sm line u evs' sm' \/ afterwards so sm line u evs' sm').
Lemma told_line (f : frame U S) line r : told (line_event f line ++ r) = line_event f line ++ told r.
Proof. destruct line as [n|]; [|reflexivity]. cbn [line_event]. destruct (_ && _); reflexivity. Qed.
Lemma no_stop_line (f : frame U S) line r : no_stop r -> no_stop (line_event f line ++ r).
Proof.
  intros H e I. apply in_app_or in I as [I|I]; [|auto]. destruct line as [n|]; [|destruct I]. cbn [line_event] in I.
  destruct (_ && _); [|destruct I]. destruct I as [<-|[]]. reflexivity.
Qed.
Lemma existsb_In n : existsb (N.eqb n) B = true <-> In n B.
Proof. rewrite existsb_exists. split; [intros (x & I & E); apply N.eqb_eq in E as ->; exact I|intros I; exists n; now rewrite N.eqb_refl]. Qed.
Lemma agree_moved so sm line r r' : agree so sm -> agree (moved so line r) (moved sm line r').
Proof. intros (A1 & A2 & A3 & A4 & A5 & A6). destruct line; unfold agree; cbn [moved dstack us time last back]; auto 10. Qed.
Lemma related_next code pre so line u r s fm :
  code = pre ++ Ins line (User u) :: r -> agree (moved so line r) fm -> 
  rest fm = ins (snd (outs start_walk (pre ++ [Ins line (User u)]))) r ->
  (multi = true -> lined code -> kept so pre) -> rest so = Ins line (User u) :: r -> 
  related code (after code (Next s) (moved so line r)) (after (ins start_walk code) (Next s) fm).
Proof.
  intros E (A1 & A2 & A3 & A4 & A5 & A6) HR K HS. exists (pre ++ [Ins line (User u)]). cbn [after rest].
  destruct line as [n|]; cbn [moved rest dstack us time last back] in *.
  - split; [rewrite E; now rewrite <- app_assoc|]. split; [exact HR|].
    split; [unfold agree; cbn [dstack us time last back]; rewrite A4; auto 10|].
    intros Hm _. right. right. cbn [back last]. split; [reflexivity|]. left. rewrite outs_snoc. cbn [emit].
    unfold skips. rewrite Hm. destruct (last_lineno (snd (outs start_walk pre))) as [m|] eqn:El.
    + destruct ((m =? n)%N && _) eqn:Es; [apply andb_true_iff in Es as [Es _]; apply N.eqb_eq in Es as ->; now rewrite <- El|].
      destruct (existsb _ B); [destruct (_ && pop_op _ _)|]; reflexivity.
    + destruct (existsb _ B); [destruct (_ && pop_op _ _)|]; reflexivity.
  - split; [rewrite E; now rewrite <- app_assoc|]. split; [exact HR|].
    split; [unfold agree; cbn [dstack us time last back]; rewrite A4; auto 10|].
    intros Hm L. right. right. cbn [back last]. rewrite outs_snoc. cbn [emit snd last_lineno].
    destruct (K Hm L) as [X|[X|X]]; [congruence| |exact X].
    exfalso. destruct X as (a & x & ->). rewrite <- app_assoc in E. cbn [app] in E. exact (L _ _ _ _ _ E eq_refl).
Qed.
Lemma not_out pre : Forall plain pre -> ~ In (Lab (BreakLabel (count (snd (outs start_walk pre))))) (fst (outs start_walk pre)).
Proof. intros P H. apply (proj2 (outs_labels pre P start_walk)) in H. lia. Qed.
Lemma line_event_at (f : frame U S) n r r' : line_event (moved f (Some n) r) (Some n) = [] /\ line_event (at_line f n r' (traced f)) (Some n) = [].
Proof. cbn [line_event moved at_line traced last back]. rewrite N.eqb_refl. cbn [negb orb]. rewrite andb_false_r. split; reflexivity. Qed.
Lemma sim_step code so sm evs so' : Forall plain code -> ~ In 0%N B -> related code so sm -> step M code so = Some (evs, so') ->
  exists m evs' sm', 1 <= m /\ run M (ins start_walk code) m sm = (evs', sm') /\ related code so' sm' /\ traced so' = traced so
  /\ time so' = time so + length (dids evs) /\ matched code so sm evs evs' sm'.
Proof.
  intros HP H0 (pre & E & HR & A & K) HS. pose proof A as (A1 & A2 & A3 & A4 & A5 & A6).
  assert (PP : Forall plain pre /\ Forall plain (rest so)) by (rewrite E in HP; now apply Forall_app in HP). destruct PP as [PP PR].
  unfold step in HS. destruct (rest so) as [|[l|line o] r] eqn:RS; [discriminate| |].
  - injection HS as <- <-. exists 1. rewrite insert_cons in HR. cbn [emit fst snd app] in HR.
    exists [], (with_rest (ins (snd (outs start_walk (pre ++ [Lab l]))) r) sm). split; [lia|].
    split; [cbn [run]; unfold step; rewrite HR; rewrite outs_snoc; reflexivity|].
    split; [|split; [reflexivity|split; [cbn [with_rest time]; cbn; lia|left; auto]]].
    exists (pre ++ [Lab l]). cbn [with_rest rest]. split; [rewrite E; now rewrite <- app_assoc|]. split; [reflexivity|].
    split; [unfold agree; cbn [with_rest dstack us time last back]; auto 10|]. intros _ _. right. left. now exists pre, l.
  - apply Forall_inv in PR. destruct o as [u| | |n| |l| |]; cbn [plain] in PR; try contradiction. rewrite A1 in HS. injection HS as <- <-.
    set (w := snd (outs start_walk pre)) in *. set (code' := ins start_walk code).
    assert (TR : traced (after code (exec M u (us so)) (moved so line r)) = traced so) by (destruct (exec M u (us so)), line; reflexivity).
    assert (TI : time (after code (exec M u (us so)) (moved so line r)) = time so + length (dids (line_event so line ++ [Did u (us so)]))).
    { assert (D : dids (line_event so line ++ [Did u (us so)]) = [Did u (us so)]).
      { destruct line as [n|]; [|reflexivity]. cbn [line_event]. destruct (_ && _); reflexivity. }
      rewrite D. destruct (exec M u (us so)), line; reflexivity. }
    assert (CC : code' = fst (outs start_walk pre) ++ ins w (Ins line (User u) :: r)) by (unfold code', w; rewrite E, insert_app; reflexivity).
    assert (REL : forall fm, agree (moved so line r) fm -> rest fm = ins (snd (outs start_walk (pre ++ [Ins line (User u)]))) r ->
      related code (after code (exec M u (us so)) (moved so line r)) (after code' (exec M u (us so)) fm)).
    { intros fm F1 F2. destruct (exec M u (us so)) as [s|l b s|s]; [|now apply related_goto|now apply related_leave].
      eapply related_next; eauto. }
    rewrite insert_cons in HR. 
    (* no call at this place *)
    assert (PLAIN : emit w (Ins line (User u)) = ([Ins line (User u)], snd (emit w (Ins line (User u)))) ->
      (multi = true -> lined code -> traced so = true -> forall n, line = Some n -> In n B -> line_event so line <> [] -> False) ->
      exists m evs' sm', 1 <= m /\ run M code' m sm = (evs', sm') /\ related code (after code (exec M u (us so)) (moved so line r)) sm'
      /\ traced (after code (exec M u (us so)) (moved so line r)) = traced so
      /\ time (after code (exec M u (us so)) (moved so line r)) = time so + length (dids (line_event so line ++ [Did u (us so)]))
      /\ matched code so sm (line_event so line ++ [Did u (us so)]) evs' sm').
    { intros EM HH. rewrite EM in HR. cbn [fst app] in HR.
      exists 1, (line_event sm line ++ [Did u (us so)]), (after code' (exec M u (us so)) (moved sm line (ins (snd (outs start_walk (pre ++ [Ins line (User u)]))) r))).
      split; [lia|]. split; [rewrite <- A3; rewrite outs_snoc; apply run_one; [exact HR|exact A2]|].
      split; [apply REL; [now apply agree_moved|destruct line; reflexivity]|]. split; [exact TR|]. split; [exact TI|].
      right. exists line, u. split; [reflexivity|]. left. split; [now rewrite told_line|].
      split; [apply no_stop_line; intros e [<-|[]]; reflexivity|]. split; [destruct (exec M u (us so)), line; reflexivity|].
      intros. exfalso. eauto. }
    destruct line as [n|]; [|apply PLAIN; [reflexivity|discriminate]].
    cbn [emit] in *. destruct (skips multi w n) eqn:SK.
    { apply PLAIN; [reflexivity|]. intros Hm HL0 HT n' X HI HL. injection X as <-. unfold skips in SK. rewrite Hm in SK.
      destruct (last_lineno w) as [m0|] eqn:LW; [|discriminate]. apply andb_true_iff in SK as [SK1 SK2]. apply N.eqb_eq in SK1 as ->.
      apply negb_true_iff in SK2. destruct (K Hm HL0) as [X|[X|[X1 X2]]]; [congruence|apply (ends_lab_prev pre start_walk) in X; fold w in X; congruence|].
      fold w in X2. rewrite LW in X2. destruct X2 as [X2|X2]; [|discriminate]. apply HL. cbn [line_event]. rewrite X1, X2, N.eqb_refl.
      now rewrite andb_false_r. }
    destruct (existsb (N.eqb n) B) eqn:IB; cycle 1.
    { apply PLAIN; [reflexivity|]. intros _ _ _ n' X HI _. injection X as <-. apply existsb_In in HI. congruence. }
    apply existsb_In in IB. assert (Hn : n <> 0%N) by (intros ->; contradiction).
    destruct (prev_label w && pop_op pop_top (User u)) eqn:PO; cbn [fst snd] in HR.
    + (* the call comes after the instruction *)
      apply andb_true_iff in PO as [PO1 PO2]. cbn [pop_op] in PO2.
      set (R := ins (snd (outs start_walk (pre ++ [Ins (Some n) (User u)]))) r).
      assert (HR' : rest sm = Ins (Some n) (User u) :: block n (count w) ++ R).
      { rewrite HR. unfold R. rewrite outs_snoc. fold w. cbn [emit]. rewrite SK, (proj2 (existsb_In n) IB), PO1. cbn [pop_op]. rewrite PO2. reflexivity. }
      assert (FL : find_label (BreakLabel (count w)) code' = Some R).
      { rewrite CC, insert_cons. cbn [emit]. rewrite SK, (proj2 (existsb_In n) IB), PO1. cbn [pop_op]. rewrite PO2. cbn [andb fst].
        rewrite find_skip by (apply not_out; exact PP). cbn [app find_label].
        rewrite find_block. unfold R. rewrite outs_snoc. fold w. cbn [emit]. rewrite SK, (proj2 (existsb_In n) IB), PO1. cbn [pop_op]. rewrite PO2. reflexivity. }
      pose proof (run_one code' sm _ _ _ HR' A2) as ONE. rewrite A3 in ONE.
      destruct (exec M u (us so)) as [s|l b s|s] eqn:EX.
      * set (f1 := after code' (Next s) (moved sm (Some n) (block n (count w) ++ R))) in *.
        destruct (run_block code' n (count w) R f1 Hn eq_refl A2 FL) as (m & RB).
        assert (F1 : traced f1 = traced sm /\ time f1 = time so + 1) by (unfold f1; cbn [after moved traced time]; rewrite A4; auto). destruct F1 as [F1 F2].
        assert (F3 : line_event f1 (Some n) = []) by (unfold f1; cbn [after moved line_event traced last back]; rewrite N.eqb_refl; cbn [negb orb]; now rewrite andb_false_r).
        assert (RL : forall tr, related code (after code (Next s) (moved so (Some n) r)) (at_line f1 n R tr)).
        { intros tr. specialize (REL (Frame R [] (us so) tr (Some n) false (time so))). cbn [after rest dstack us traced last back time moved] in REL.
          unfold f1, at_line. cbn [after moved dstack us time]. rewrite A2, A4. apply REL; [unfold agree; cbn [dstack us time last back]; auto 10|reflexivity]. }
        rewrite F1, F2, F3 in RB. exists (1 + m).
        destruct (negb (traced sm) && breaks M (time so + 1) n) eqn:NB.
        -- apply andb_true_iff in NB as [NB1 NB2]. apply negb_true_iff in NB1.
          exists [Did u (us so); Needed n; StopCalled n; Line n], (at_line f1 n R true). split; [lia|]. split.
          { rewrite run_app, ONE, RB. cbn [line_event]. rewrite NB1. reflexivity. }
          split; [apply RL|]. split; [exact TR|]. split; [exact TI|]. right. exists (Some n), u. split; [reflexivity|]. right. right.
          exists n. auto 10.
        -- exists (line_event sm (Some n) ++ [Did u (us so); Needed n]), (at_line f1 n R (traced sm)). split; [lia|]. split.
          { rewrite run_app, ONE, RB. now rewrite <- app_assoc. }
          split; [apply RL|]. split; [exact TR|]. split; [exact TI|]. right. exists (Some n), u. split; [reflexivity|]. left.
          split; [rewrite told_line; reflexivity|]. split; [apply no_stop_line; intros e [<-|[<-|[]]]; reflexivity|]. split; [reflexivity|].
          intros _ _ T n' X _ _ B2. injection X as <-. rewrite T, B2 in NB. discriminate.
      * exists 1, (line_event sm (Some n) ++ [Did u (us so)]), (after code' (Goto l b s) (moved sm (Some n) (block n (count w) ++ R))).
        split; [lia|]. split; [exact ONE|]. split; [apply related_goto; now apply agree_moved|]. split; [exact TR|]. split; [exact TI|].
        right. exists (Some n), u. split; [reflexivity|]. left. split; [now rewrite told_line|]. split; [apply no_stop_line; intros e [<-|[]]; reflexivity|].
        split; [reflexivity|]. intros. split; [exact PO2|]. intros s'. rewrite EX. discriminate.
      * exists 1, (line_event sm (Some n) ++ [Did u (us so)]), (after code' (Leave s) (moved sm (Some n) (block n (count w) ++ R))).
        split; [lia|]. split; [exact ONE|]. split; [apply related_leave; now apply agree_moved|]. split; [exact TR|]. split; [exact TI|].
        right. exists (Some n), u. split; [reflexivity|]. left. split; [now rewrite told_line|]. split; [apply no_stop_line; intros e [<-|[]]; reflexivity|].
        split; [reflexivity|]. intros. split; [exact PO2|]. intros s'. rewrite EX. discriminate.
    + (* the call comes before the instruction *)
      set (R := ins (snd (outs start_walk (pre ++ [Ins (Some n) (User u)]))) r).
      assert (HR' : rest sm = block n (count w) ++ Ins (Some n) (User u) :: R).
      { rewrite HR, <- app_assoc. unfold R. rewrite outs_snoc. fold w. cbn [emit]. rewrite SK, (proj2 (existsb_In n) IB), PO. reflexivity. }
      assert (FL : find_label (BreakLabel (count w)) code' = Some (Ins (Some n) (User u) :: R)).
      { rewrite CC, insert_cons. cbn [emit]. rewrite SK, (proj2 (existsb_In n) IB), PO. cbn [fst snd].
        rewrite find_skip by (apply not_out; exact PP). rewrite <- app_assoc, find_block. unfold R. rewrite outs_snoc. fold w. cbn [emit].
        rewrite SK, (proj2 (existsb_In n) IB), PO. reflexivity. }
      destruct (run_block code' n (count w) _ sm Hn HR' A2 FL) as (m & RB). rewrite A4 in RB. exists (m + 1).
      assert (RUN : forall tr, run M code' 1 (at_line sm n (Ins (Some n) (User u) :: R) tr)
        = ([Did u (us so)], after code' (exec M u (us so)) (at_line sm n R tr))).
      { intros tr. rewrite (run_one code' (at_line sm n (Ins (Some n) (User u) :: R) tr) (Some n) u R eq_refl A2). cbn [at_line us moved dstack traced time]. rewrite A3.
        
        unfold line_event, moved, at_line. cbn [traced last back dstack us time]. rewrite N.eqb_refl. cbn [negb orb]. now rewrite andb_false_r. }
      assert (RL : forall tr, related code (after code (exec M u (us so)) (moved so (Some n) r)) (after code' (exec M u (us so)) (at_line sm n R tr))).
      { intros tr. apply REL; [|reflexivity]. unfold agree, at_line. cbn [moved dstack us time last back]. auto 10. }
      destruct (negb (traced sm) && breaks M (time so) n) eqn:NB.
      * apply andb_true_iff in NB as [NB1 NB2]. apply negb_true_iff in NB1.
        exists [Needed n; StopCalled n; Line n; Did u (us so)], (after code' (exec M u (us so)) (at_line sm n R true)). split; [lia|].
        split; [rewrite run_app, RB, RUN; reflexivity|]. split; [apply RL|]. split; [exact TR|]. split; [exact TI|].
        right. exists (Some n), u. split; [reflexivity|]. right. left. exists n. repeat (split; [assumption || reflexivity|]).
        destruct (exec M u (us so)); reflexivity.
      * exists (line_event sm (Some n) ++ [Needed n; Did u (us so)]), (after code' (exec M u (us so)) (at_line sm n R (traced sm))). split; [lia|].
        split; [rewrite run_app, RB, RUN; now rewrite <- app_assoc|]. split; [apply RL|]. split; [exact TR|]. split; [exact TI|].
        right. exists (Some n), u. split; [reflexivity|]. left. split; [now rewrite told_line|].
        split; [apply no_stop_line; intros e [<-|[<-|[]]]; reflexivity|]. split; [destruct (exec M u (us so)); reflexivity|].
        intros _ _ T n' X _ B1 _. injection X as <-. rewrite T, B1 in NB. discriminate.
Qed.

(** * Whole runs *)
(** POP_TOP only goes on. *)
Definition pops : Prop := forall u s, pop_top u = true -> exists s', exec M u s = Next s'.
(** The program arrives at a line with a breakpoint which stays there while its first instruction is executed. *)
Definition due (code : list (item U)) (p : list (event U S)) (n : N) : Prop :=
  multi = true /\ lined code /\ pops /\ In n B /\ breaks M (length (dids p)) n = true /\ breaks M (length (dids p) + 1) n = true.
Definition untold (code : list (item U)) (ev ev' : list (event U S)) : Prop :=
  no_stop ev' /\ told ev' = dids ev /\ (forall p n q, ev = p ++ Line n :: q -> due code p n -> False).
Definition stopped (code : list (item U)) (ev ev' : list (event U S)) : Prop :=
  exists p' x q' p0 q0, ev' = p' ++ StopCalled x :: q' /\ no_stop p' /\ no_stop q' /\ told p' = dids p0 /\ told q' = Line x :: q0
  /\ In x B /\ breaks M (length (dids p')) x = true /\ (ev = p0 ++ q0 \/ ev = p0 ++ Line x :: q0)
  /\ (forall p n q, p0 = p ++ Line n :: q -> due code p n -> exists u s, q = [Did u s] /\ pop_top u = true /\ x = n).
Lemma dids_app (a b : list (event U S)) : dids (a ++ b) = dids a ++ dids b.
Proof. apply filter_app. Qed.
Lemma told_app (a b : list (event U S)) : told (a ++ b) = told a ++ told b.
Proof. apply filter_app. Qed.
Lemma dids_told (a : list (event U S)) : dids (told a) = dids a.
Proof. induction a as [|[] a IH]; cbn [told dids filter is_program is_did] in *; unfold dids, told in *; congruence. Qed.
Lemma dids_dids (a : list (event U S)) : dids (dids a) = dids a.
Proof. induction a as [|[] a IH]; unfold dids in *; cbn [filter is_did] in *; congruence. Qed.
Lemma no_stop_app (a b : list (event U S)) : no_stop a -> no_stop b -> no_stop (a ++ b).
Proof. intros H1 H2 e I. apply in_app_or in I as [I|I]; auto. Qed.
Lemma dids_line (f : frame U S) line u s : dids (line_event f line ++ [Did u s]) = [Did u s].
Proof. destruct line as [n|]; [|reflexivity]. cbn [line_event]. destruct (_ && _); reflexivity. Qed.
Lemma line_event_cases (f : frame U S) line : line_event f line = [] \/ exists n, line = Some n /\ line_event f line = [Line n].
Proof. destruct line as [n|]; [|now left]. cbn [line_event]. destruct (_ && _); [right|left]; eauto. Qed.
(** Where a line is reported in a longer run *)
Lemma split_line ev (f : frame U S) line u s p n q : ev ++ line_event f line ++ [Did u s] = p ++ Line n :: q ->
  (exists q1, ev = p ++ Line n :: q1) \/ p = ev /\ line = Some n /\ line_event f line = [Line n] /\ q = [Did u s].
Proof.
  revert p. induction ev as [|e ev IH]; intros p H.
  - right. cbn [app] in H. destruct (line_event_cases f line) as [L|(m & -> & L)]; rewrite L in *; cbn [app] in H.
    + destruct p as [|? [|]]; discriminate.
    + destruct p as [|y p]; [injection H as -> <-; auto|]. injection H as _ H. destruct p as [|? [|]]; discriminate.
  - destruct p as [|y p].
    + cbn [app] in H. injection H as -> <-. left. now exists ev.
    + cbn [app] in H. injection H as <- H. destruct (IH _ H) as [(q1 & ->)|(-> & X)]; [left; now exists q1|right; auto].
Qed.
Lemma run_snoc code n f : run M code (n + 1) f
  = let '(e, f1) := run M code n f in match step M code f1 with None => (e, f1) | Some (e', f2) => (e ++ e', f2) end.
Proof.
  rewrite run_app. destruct (run M code n f) as [e f1]. cbn [run]. destruct (step M code f1) as [[e' f2]|]; [now rewrite app_nil_r|].
  now rewrite app_nil_r.
Qed.
Lemma extend code so sm ev ev' evs evs' sm' : agree so sm -> traced so = true -> time so = length (dids ev) -> matched code so sm evs evs' sm' ->
  (traced sm = false /\ untold code ev ev' \/ traced sm = true /\ stopped code ev ev') ->
  traced sm' = false /\ untold code (ev ++ evs) (ev' ++ evs') \/ traced sm' = true /\ stopped code (ev ++ evs) (ev' ++ evs').
Proof.
  intros (A1 & A2 & A3 & A4 & A5 & A6) TS TI MA HH. destruct MA as [(-> & -> & T)|(line & u & -> & MA)].
  { rewrite !app_nil_r, T. exact HH. }
  destruct HH as [(T & N1 & N2 & N3)|(T & p' & x & q' & p0 & q0 & -> & G1 & G2 & G3 & G4 & G5 & G6 & G7 & G8)].
  - assert (LM : line_event sm line = []) by (destruct line; [|reflexivity]; cbn [line_event]; now rewrite T).
    destruct MA as [(Q1 & Q2 & Q3 & Q4)|[(n & -> & _ & I & Br & -> & T')|(n & -> & _ & I & Br & PT & -> & T')]].
    + left. split; [congruence|]. split; [now apply no_stop_app|]. split; [rewrite told_app, dids_app, N2, Q1, LM, dids_line; reflexivity|].
      intros p n q X D. apply split_line in X as [(q1 & X)|(-> & -> & LE & _)]; [eauto|].
      destruct D as (D1 & D2 & D3 & D4 & D5 & D6). rewrite <- TI in D5, D6.
      destruct (Q4 D1 D2 T n eq_refl D4 D5 D6 TS) as [Y1 Y2]; [rewrite LE; discriminate|]. destruct (D3 u (us so) Y1) as (s' & Y3). now apply Y2 in Y3.
    + right. split; [exact T'|]. exists (ev' ++ [Needed n]), n, [Line n; Did u (us so)], ev, [Did u (us so)].
      split; [now rewrite <- app_assoc|]. split; [apply no_stop_app; [exact N1|intros e [<-|[]]; reflexivity]|].
      split; [intros e [<-|[<-|[]]]; reflexivity|]. split; [rewrite told_app, N2; apply app_nil_r|]. split; [reflexivity|].
      split; [exact I|]. split.
      { rewrite dids_app, <- (dids_told ev'), N2, dids_dids. cbn [dids filter is_did]. now rewrite app_nil_r, <- TI. }
      split; [|intros; exfalso; eauto]. destruct (line_event_cases so (Some n)) as [L|(m & X & L)]; rewrite L; [now left|injection X as <-; now right].
    + right. split; [exact T'|]. exists (ev' ++ [Did u (us so); Needed n]), n, [Line n], (ev ++ line_event so (Some n) ++ [Did u (us so)]), [].
      split; [now rewrite <- app_assoc|]. split; [apply no_stop_app; [exact N1|intros e [<-|[<-|[]]]; reflexivity]|].
      split; [intros e [<-|[]]; reflexivity|]. split; [rewrite told_app, N2, dids_app, dids_line; reflexivity|]. split; [reflexivity|].
      split; [exact I|]. split.
      { rewrite dids_app, <- (dids_told ev'), N2, dids_dids, app_length, <- TI. exact Br. }
      split; [left; now rewrite app_nil_r|]. intros p m q X D. apply split_line in X as [(q1 & X)|(-> & Y & _ & ->)]; [exfalso; eauto|].
      injection Y as ->. exists u, (us so). auto.
  - right. destruct MA as [(Q1 & Q2 & Q3 & Q4)|[(n & _ & X & _)|(n & _ & X & _)]]; try congruence. split; [congruence|].
    assert (LE : line_event sm line = line_event so line).
    { destruct line; [|reflexivity]. cbn [line_event]. now rewrite T, TS, A5, A6. }
    exists p', x, (q' ++ evs'), p0, (q0 ++ line_event so line ++ [Did u (us so)]).
    split; [now rewrite <- app_assoc|]. split; [exact G1|]. split; [now apply no_stop_app|]. split; [exact G3|].
    split; [rewrite told_app, G4, Q1, LE; reflexivity|]. split; [exact G5|]. split; [exact G6|].
    split; [destruct G7 as [-> | ->]; [left|right]; now rewrite <- app_assoc|exact G8].
Qed.
Lemma step_none code so sm : Forall plain (rest so) -> related code so sm -> step M code so = None -> rest so = [].
Proof.
  intros P (pre & E & HR & (A1 & _) & _) HS. unfold step in HS. destruct (rest so) as [|[l|line o] r]; [reflexivity|discriminate|].
  apply Forall_inv in P. destruct o; cbn [plain] in P; try contradiction. rewrite A1 in HS. discriminate.
Qed.
Lemma insert_nil w l : ins w l = [] <-> l = [].
Proof.
  split; [|intros ->; reflexivity]. destruct l as [|x l]; [reflexivity|]. rewrite insert_cons. intros H. apply app_eq_nil in H as [H _]. exfalso.
  destruct x as [l0|[n|] o]; cbn [emit] in H; try discriminate. destruct (skips multi w n); [discriminate|]. destruct (existsb _ B); [|discriminate].
  destruct (_ && _); cbn [fst] in H; [discriminate|]. unfold block in H. discriminate.
Qed.
Lemma matched_dids code so sm evs evs' sm' : matched code so sm evs evs' sm' -> dids evs' = dids evs.
Proof.
  intros [(-> & -> & _)|(line & u & -> & [(Q & _)|[(n & _ & _ & _ & _ & -> & _)|(n & _ & _ & _ & _ & _ & -> & _)]])]; rewrite ?dids_line; [reflexivity| |reflexivity|reflexivity].
  now rewrite <- (dids_told evs'), Q, dids_line.
Qed.
Lemma matched_traced code so sm evs evs' sm' : agree so sm -> traced so = true -> traced sm = true -> matched code so sm evs evs' sm' ->
  told evs' = evs /\ traced sm' = true.
Proof.
  intros (A1 & A2 & A3 & A4 & A5 & A6) T1 T2 [(-> & -> & T)|(line & u & -> & [(Q1 & _ & Q3 & _)|[(n & _ & X & _)|(n & _ & X & _)]])]; try congruence.
  - split; [reflexivity|congruence].
  - split; [|congruence]. rewrite Q1. destruct line; [|reflexivity]. cbn [line_event]. now rewrite T1, T2, A5, A6.
Qed.
Lemma sim_run code s tr0 tr n : Forall plain code -> ~ In 0%N B ->
  exists m ev so ev' sm, run M code n (enter code s tr0) = (ev, so) /\ run M (ins start_walk code) m (enter (ins start_walk code) s tr) = (ev', sm)
  /\ n <= m /\ related code so sm /\ traced so = tr0 /\ time so = length (dids ev) /\ dids ev' = dids ev
  /\ (tr0 = true -> tr = true -> told ev' = ev /\ traced sm = true)
  /\ (tr0 = true -> tr = false -> traced sm = false /\ untold code ev ev' \/ traced sm = true /\ stopped code ev ev').
Proof.
  intros HP H0. induction n as [|n IH].
  - exists 0, [], (enter code s tr0), [], (enter (ins start_walk code) s tr). split; [reflexivity|]. split; [reflexivity|]. split; [lia|].
    split.
    { exists []. split; [reflexivity|]. split; [reflexivity|]. split; [unfold agree; auto 10|]. intros _ _. right. right. cbn. auto. }
    split; [reflexivity|]. split; [reflexivity|]. split; [reflexivity|]. split; [intros _ ->; auto|]. intros _ ->. left. split; [reflexivity|].
    split; [intros e []|]. split; [reflexivity|]. intros p k q X _. now destruct p.
  - destruct IH as (m & ev & so & ev' & sm & R1 & R2 & Le & RE & T & TI & D & H1 & H2).
    replace (Datatypes.S n) with (n + 1) by lia. rewrite run_snoc, R1. destruct (step M code so) as [[evs so']|] eqn:ST.
    + destruct (sim_step code so sm evs so' HP H0 RE ST) as (m2 & evs' & sm' & L2 & R3 & RE' & T' & TI' & MA).
      pose proof RE as (pre & _ & _ & AG & _).
      exists (m + m2), (ev ++ evs), so', (ev' ++ evs'), sm'. split; [reflexivity|]. split; [rewrite run_app, R2, R3; reflexivity|].
      split; [lia|]. split; [exact RE'|]. split; [congruence|]. split; [rewrite dids_app, app_length; congruence|].
      split; [rewrite !dids_app, D; f_equal; eapply matched_dids; eauto|]. split.
      * intros X1 X2. destruct (H1 X1 X2) as [Y1 Y2]. destruct (matched_traced _ _ _ _ _ _ AG (eq_trans T X1) Y2 MA) as [Y3 Y4].
        split; [rewrite told_app; congruence|exact Y4].
      * intros X1 X2. eapply extend; eauto.
    + assert (RS : rest so = []).
      { eapply step_none; eauto. destruct RE as (pre & E & _). rewrite E in HP. now apply Forall_app in HP. }
      exists (m + 1), ev, so, ev', sm. split; [reflexivity|]. split; [|split; [lia|auto 10]].
      rewrite run_snoc, R2. destruct RE as (pre & _ & HR & _). rewrite RS in HR. unfold step. rewrite HR. reflexivity.
Qed.
End Simulation.

(** * The code as the interpreter shows it: an instruction it predicted from the one before has no line of its own *)
Fixpoint shown {U} (predicts : U -> U -> bool) (prev : option U) (l : list (item U)) : list (item U) :=
  match l with
  | [] => []
  | Ins line (User u) :: r =>
      let hidden := match prev, line with Some p, Some n => predicts p u && negb (n =? 0)%N | _, _ => false end in
      Ins (if hidden then None else line) (User u) :: shown predicts (Some u) r
  | x :: r => x :: shown predicts None r
  end.
Lemma shown_head {U} (predicts : U -> U -> bool) p l : shown predicts (Some p) l
  = match shown predicts None l with Ins (Some n) (User v) :: r => Ins (if predicts p v && negb (n =? 0)%N then None else Some n) (User v) :: r | r => r end.
Proof. destruct l as [|[x|[n|] []] l]; cbn [shown]; try reflexivity. Qed.
Lemma fix_predict_shown {U} (predicts : U -> U -> bool) l : fix_predict predicts l = shown predicts None l.
Proof.
  induction l as [|x l IH]; [reflexivity|]. cbn [fix_predict]. rewrite IH.
  destruct x as [x|line [u| | | | | | |]]; try reflexivity. cbn [shown]. rewrite shown_head. destruct line; reflexivity.
Qed.
(** The code the theorems speak about: from Python 3.10 on without the lines of predicted instructions *)
Definition viewed {U} (multi : bool) (predicts : U -> U -> bool) (l : list (item U)) : list (item U) := if multi then shown predicts None l else l.
Definition alike {U} (x y : item U) : Prop := match x, y with Lab a, Lab b => a = b | Ins _ o, Ins _ o' => o = o' | _, _ => False end.
Lemma shown_alike {U} (predicts : U -> U -> bool) l : forall p, Forall2 alike l (shown predicts p l).
Proof.
  induction l as [|x l IH]; intros p; [constructor|]. destruct x as [x|line [u| | | | | | |]]; cbn [shown]; constructor; try apply IH; reflexivity.
Qed.
Lemma shown_plain {U} (predicts : U -> U -> bool) l : forall p, Forall plain l -> Forall plain (shown predicts p l).
Proof.
  induction l as [|x l IH]; intros p H; [constructor|]. inversion H as [|? ? H1 H2]; subst.
  destruct x as [x|line [u| | | | | | |]]; cbn [shown]; constructor; try apply IH; assumption.
Qed.
Lemma find_alike {U} x (l l' : list (item U)) : Forall2 alike l l' ->
  match find_label x l, find_label x l' with Some r, Some r' => Forall2 alike r r' | None, None => True | _, _ => False end.
Proof.
  induction 1 as [|a b l l' H HH IH]; [exact I|]. destruct a as [la|ln o], b as [lb|ln' o']; cbn [alike] in H; try contradiction; cbn [find_label].
  - subst lb. destruct (label_eqb la x); [exact HH|exact IH].
  - exact IH.
Qed.
Lemma run_alike {U S} (M : interp U S) code code' : Forall2 alike code code' -> Forall plain code -> forall n f f',
  Forall2 alike (rest f) (rest f') -> Forall plain (rest f) -> dstack f = [] -> dstack f' = [] -> us f' = us f ->
  let '(ev, g) := run M code n f in let '(ev', g') := run M code' n f' in
  dids ev' = dids ev /\ us g' = us g /\ (rest g' = [] <-> rest g = []).
Proof.
  intros HC HP. assert (NIL : forall r r' : list (item U), Forall2 alike r r' -> (r' = [] <-> r = [])).
  { intros r r' H. inversion H; subst; split; congruence. }
  assert (FP : forall x r, find_label x code = Some r -> Forall plain r).
  { clear -HP. induction HP as [|y l P HP IH]; [discriminate|]. intros x r. destruct y as [y|]; cbn [find_label]; [|apply IH].
    destruct (label_eqb y x); [intros X; now injection X as <-|apply IH]. }
  induction n as [|n IH]; intros f f' H1 H2 H3 H4 H5; cbn [run].
  { split; [reflexivity|]. split; [exact H5|]. now apply NIL. }
  unfold step. pose proof (NIL _ _ H1) as HN. inversion H1 as [E1 E2|x y r r' HX HR E1 E2].
  { rewrite <- E1, <- E2 in *. split; [reflexivity|]. split; [exact H5|reflexivity]. }
  rewrite <- E1 in H2. inversion H2 as [|? ? P1 P2]; subst.
  destruct x as [x|line o], y as [y|line' o']; cbn [alike] in HX; try contradiction.
  - specialize (IH (with_rest r f) (with_rest r' f') HR P2 H3 H4 H5). destruct (run M code n _) as [e g], (run M code' n _) as [e' g']. exact IH.
  - subst o'. destruct o as [u| | | | | | |]; cbn [plain] in P1; try contradiction. rewrite H3, H4, H5.
    specialize (IH (after code (exec M u (us f)) (moved f line r)) (after code' (exec M u (us f)) (moved f' line' r'))).
    assert (G : Forall2 alike (rest (after code (exec M u (us f)) (moved f line r))) (rest (after code' (exec M u (us f)) (moved f' line' r')))
      /\ Forall plain (rest (after code (exec M u (us f)) (moved f line r)))
      /\ dstack (after code (exec M u (us f)) (moved f line r)) = [] /\ dstack (after code' (exec M u (us f)) (moved f' line' r')) = []
      /\ us (after code' (exec M u (us f)) (moved f' line' r')) = us (after code (exec M u (us f)) (moved f line r))).
    { destruct (exec M u (us f)) as [s|l b s|s].
      - destruct line, line'; cbn [after moved rest dstack us]; auto 10.
      - pose proof (find_alike (CodeLabel l) code code' HC) as FA. pose proof (FP (CodeLabel l)) as FPl.
        destruct (find_label (CodeLabel l) code) as [z|] eqn:Z, (find_label (CodeLabel l) code') as [z'|] eqn:Z'; try contradiction;
          destruct line, line'; cbn [after moved rest dstack us]; rewrite Z, Z'; auto 10.
      - destruct line, line'; cbn [after moved rest dstack us]; auto 10. }
    destruct G as (G1 & G2 & G3 & G4 & G5). specialize (IH G1 G2 G3 G4 G5).
    destruct (run M code n _) as [e g], (run M code' n _) as [e' g']. destruct IH as (I1 & I2 & I3).
    split; [|split; assumption]. rewrite (dids_app _ e), (dids_app _ e'), I1, !dids_line. reflexivity.
Qed.

(** * Theorems *)
Lemma inserted {U} multi (predicts : U -> U -> bool) pop_top encodes B l code : insert_pydevd_breaks multi predicts pop_top encodes B l = Some code ->
  ~ In 0%N B /\ code = insert multi B pop_top start_walk (viewed multi predicts l).
Proof.
  unfold insert_pydevd_breaks, viewed. destruct (existsb (N.eqb 0) B) eqn:E; [discriminate|]. destruct encodes; [|discriminate].
  intros X. injection X as <-. split; [intros I; apply existsb_In in I; congruence|]. destruct multi; [|reflexivity]. now rewrite fix_predict_shown.
Qed.
Lemma viewed_plain {U} multi (predicts : U -> U -> bool) l : Forall plain l -> Forall plain (viewed multi predicts l).
Proof. unfold viewed. destruct multi; [apply shown_plain|auto]. Qed.
Lemma viewed_alike {U} multi (predicts : U -> U -> bool) l : Forall2 alike l (viewed multi predicts l).
Proof.
  unfold viewed. destruct multi; [apply shown_alike|]. induction l as [|x l IH]; constructor; [|exact IH]. destruct x; reflexivity.
Qed.
(** Whatever the breakpoints and however they change while it runs, the program does the same, and ends when it ended. *)
Theorem frameeval_same {U S} multi (predicts : U -> U -> bool) pop_top encodes B l code (M : interp U S) s tr tr' n :
  Forall plain l -> insert_pydevd_breaks multi predicts pop_top encodes B l = Some code ->
  exists m, n <= m /\ let '(ev, f) := run M l n (enter l s tr) in let '(ev', f') := run M code m (enter code s tr') in
    dids ev' = dids ev /\ us f' = us f /\ (rest f' = [] <-> rest f = []).
Proof.
  intros HP HI. apply inserted in HI as [H0 ->]. pose proof (viewed_plain multi predicts l HP) as VP.
  destruct (sim_run multi B pop_top M _ s tr tr' n VP H0) as (m & ev & so & ev' & sm & R1 & R2 & Le & (pre & _ & HR & (_ & _ & A3 & _) & _) & _ & _ & D & _).
  exists m. split; [exact Le|].
  pose proof (run_alike M l _ (viewed_alike multi predicts l) HP n (enter l s tr) (enter _ s tr) (viewed_alike multi predicts l) HP eq_refl eq_refl eq_refl) as RA.
  rewrite R1 in RA. rewrite R2. destruct (run M l n (enter l s tr)) as [ev0 f0]. destruct RA as (B1 & B2 & B3).
  split; [congruence|]. split; [congruence|]. rewrite HR, insert_nil. exact B3.
Qed.
(** So at any time it has done a part of what the program does. *)
Theorem frameeval_nothing_else {U S} multi (predicts : U -> U -> bool) pop_top encodes B l code (M : interp U S) s tr tr' m :
  Forall plain l -> insert_pydevd_breaks multi predicts pop_top encodes B l = Some code ->
  exists n later, dids (fst (run M l n (enter l s tr))) = dids (fst (run M code m (enter code s tr'))) ++ later.
Proof.
  intros HP HI. destruct (frameeval_same multi predicts pop_top encodes B l code M s tr tr' m HP HI) as (m' & Le & H).
  replace m' with (m + (m' - m)) in H by lia. rewrite run_app in H. exists m.
  destruct (run M l m (enter l s tr)) as [ev f], (run M code m (enter code s tr')) as [ev1 f1]. destruct (run M code (m' - m) f1) as [ev2 f2].
  destruct H as (H & _). cbn [fst]. exists (dids ev2). now rewrite <- H, dids_app.
Qed.
(** A frame which is traced is reported line by line as without the calls. *)
Theorem frameeval_traced {U S} multi (predicts : U -> U -> bool) pop_top encodes B l code (M : interp U S) s n :
  Forall plain l -> insert_pydevd_breaks multi predicts pop_top encodes B l = Some code ->
  exists m, n <= m /\ told (fst (run M code m (enter code s true))) = fst (run M (viewed multi predicts l) n (enter (viewed multi predicts l) s true)).
Proof.
  intros HP HI. apply inserted in HI as [H0 ->]. pose proof (viewed_plain multi predicts l HP) as VP.
  destruct (sim_run multi B pop_top M _ s true true n VP H0) as (m & ev & so & ev' & sm & R1 & R2 & Le & _ & _ & _ & _ & H & _).
  exists m. split; [exact Le|]. rewrite R1, R2. exact (proj1 (H eq_refl eq_refl)).
Qed.
(** From Python 3.10 on no breakpoint is missed: take the run a tracing debugger sees; where it is told of a line which has a
    breakpoint and a call, the frame which was not traced has been stopped at the latest before that line (or, when the line starts
    with the POP_TOP of a label, right after it), and from there on the debugger is told what the tracing one is told. *)
Theorem frameeval_hit {U S} (predicts : U -> U -> bool) pop_top encodes B l code (M : interp U S) s n ev f p x q :
  Forall plain l -> insert_pydevd_breaks true predicts pop_top encodes B l = Some code -> lined (viewed true predicts l) ->
  (forall u s, pop_top u = true -> exists s', exec M u s = Next s') ->
  run M (viewed true predicts l) n (enter (viewed true predicts l) s true) = (ev, f) -> ev = p ++ Line x :: q ->
  In x B -> breaks M (length (dids p)) x = true -> breaks M (length (dids p) + 1) x = true ->
  exists m g p' y q' p0 q0, run M code m (enter code s false) = (p' ++ StopCalled y :: q', g)
  /\ dids p' = dids p0 /\ told q' = Line y :: q0 /\ (ev = p0 ++ q0 \/ ev = p0 ++ Line y :: q0)
  /\ (length p0 <= length p \/ exists u s', p0 = p ++ [Line x; Did u s'] /\ pop_top u = true /\ y = x).
Proof.
  intros HP HI HL PT R EV IB B1 B2. apply inserted in HI as [H0 ->]. pose proof (viewed_plain true predicts l HP) as VP.
  assert (DU : due true B pop_top M (viewed true predicts l) p x) by (unfold due, pops; auto 10).
  destruct (sim_run true B pop_top M _ s true false n VP H0) as (m & ev1 & so & ev' & sm & R1 & R2 & Le & _ & _ & _ & D & _ & H).
  rewrite R in R1. injection R1 as <- <-. destruct (H eq_refl eq_refl) as [(_ & _ & _ & N3)|(_ & p' & y & q' & p0 & q0 & -> & G1 & G2 & G3 & G4 & G5 & G6 & G7 & G8)].
  { exfalso. eauto. }
  exists m, sm, p', y, q', p0, q0. split; [exact R2|]. split; [now rewrite <- (dids_told p'), G3, dids_dids|]. split; [exact G4|]. split; [exact G7|].
  destruct (Nat.le_gt_cases (length p0) (length p)) as [Le2|Gt]; [now left|]. right.
  assert (X : exists q1, p0 = p ++ Line x :: q1).
  { assert (Y : exists z, p0 ++ z = p ++ Line x :: q) by (destruct G7 as [G7|G7]; eexists; rewrite <- EV; symmetry; exact G7).
    destruct Y as (z & Y). clear -Y Gt. revert p Y Gt. induction p0 as [|a p0 IH]; intros [|b p] Y Gt; cbn [length] in Gt; try lia.
    - cbn [app] in Y. injection Y as -> Y. now exists p0.
    - cbn [app] in Y. injection Y as -> Y. destruct (IH p Y) as (q1 & ->); [lia|]. now exists q1. }
  destruct X as (q1 & X). destruct (G8 p x q1 X DU) as (u & s' & -> & PU & ->). exists u, s'. auto.
Qed.
(** The debugger only stops the frame at a line which has a breakpoint at that moment, and once. *)
Theorem frameeval_only {U S} multi (predicts : U -> U -> bool) pop_top encodes B l code (M : interp U S) s m f p x q :
  Forall plain l -> insert_pydevd_breaks multi predicts pop_top encodes B l = Some code ->
  run M code m (enter code s false) = (p ++ StopCalled x :: q, f) ->
  In x B /\ breaks M (length (dids p)) x = true /\ (forall y, ~ In (StopCalled y) (p ++ q)) /\ (forall y, ~ In (Line y) p).
Proof.
  intros HP HI R. apply inserted in HI as [H0 ->]. pose proof (viewed_plain multi predicts l HP) as VP.
  destruct (sim_run multi B pop_top M _ s true false m VP H0) as (m' & ev1 & so & ev' & sm & R1 & R2 & Le & _ & _ & _ & D & _ & H).
  replace m' with (m + (m' - m)) in R2 by lia. rewrite run_app, R in R2. destruct (run M _ (m' - m) f) as [e2 f2]. injection R2 as R2 _.
  rewrite <- app_assoc in R2. cbn [app] in R2.
  destruct (H eq_refl eq_refl) as [(_ & N1 & _)|(_ & p' & y & q' & p0 & q0 & E & G1 & G2 & G3 & G4 & G5 & G6 & G7 & G8)].
  { specialize (N1 (StopCalled x)). rewrite <- R2 in N1. discriminate N1. apply in_or_app. right. now left. }
  rewrite <- R2 in E. assert (X : p = p' /\ x = y /\ q ++ e2 = q').
  { clear -E G1 G2. revert p' E G1. induction p as [|a p IH]; intros [|b p'] E G1; cbn [app] in E; injection E as E1 E2; subst.
    - auto.
    - specialize (G1 _ (or_introl eq_refl)). discriminate.
    - specialize (G2 (StopCalled x)). discriminate G2. apply in_or_app. right. now left.
    - destruct (IH _ E2) as (-> & -> & ->); [intros e I; apply G1; now right|]. auto. }
  destruct X as (-> & -> & X). split; [exact G5|]. split; [exact G6|]. split.
  - intros z I. apply in_app_or in I as [I|I]; [apply G1 in I; discriminate|].
    specialize (G2 (StopCalled z)). discriminate G2. rewrite <- X. apply in_or_app. now left.
  - intros z I. assert (J : In (Line z) (dids p0)) by (rewrite <- G3; apply filter_In; split; [exact I|reflexivity]).
    apply filter_In in J as [_ J]. discriminate.
Qed.

(** * A concrete case: a loop over line 3 with a breakpoint set after the first round, and line 4, which starts with a POP_TOP *)
Definition loop_exec (u : N) (s : nat) : outcome nat :=
  if (u =? 1)%N then match s with 0 => Goto 2 false s | _ => Next s end
  else if (u =? 2)%N then Next (Nat.pred s) else if (u =? 3)%N then Goto 1 true s else if (u =? 5)%N then Leave s else Next s.
Definition loop_code : list (item N) :=
  [Ins (Some 1%N) (User 0%N); Lab (CodeLabel 1); Ins (Some 2%N) (User 6%N); Ins (Some 2%N) (User 1%N); Ins (Some 3%N) (User 2%N); Ins (Some 3%N) (User 3%N); Lab (CodeLabel 2);
   Ins (Some 4%N) (User 4%N); Ins (Some 5%N) (User 5%N)].
Definition loop_pop (u : N) : bool := (u =? 4)%N.
Definition loop_predicts (a b : N) : bool := (a =? 6)%N && (b =? 1)%N.
Definition loop_breaks (b : nat -> N -> bool) : interp N nat := Interp _ _ loop_exec b.
Definition late (n : N) (t : nat) (m : N) : bool := (m =? n)%N && Nat.leb 5 t.
Definition loop_new (B : list N) : list (item N) :=
  match insert_pydevd_breaks true loop_predicts loop_pop true B loop_code with Some c => c | None => [] end.
Example ex_loop_plain : Forall plain loop_code.
Proof. unfold loop_code. repeat constructor. Qed.
Example ex_loop_some : insert_pydevd_breaks true loop_predicts loop_pop true [3%N; 4%N] loop_code = Some (loop_new [3%N; 4%N]).
Proof. reflexivity. Qed.
Example ex_loop_lined : lined (viewed true loop_predicts loop_code).
Proof.
  intros a l line o b H. cbn in H. repeat (destruct a as [|? a]; [injection H; intros; subst; discriminate|injection H as _ H; try discriminate H]).
  all: try (destruct a; discriminate H). 
Qed.
Example ex_loop_pops u s : loop_pop u = true -> exists s', exec (loop_breaks (late 3)) u s = Next s'.
Proof. unfold loop_pop. intros H. apply N.eqb_eq in H as ->. now exists s. Qed.
Example ex_loop_first : fst (run (loop_breaks (late 3)) (loop_new [3%N; 4%N]) 100 (enter (loop_new [3%N; 4%N]) 2 false))
  = [Did 0%N 2; Did 6%N 2; Did 1%N 2; Needed 3; Did 2%N 2; Did 3%N 1; Did 6%N 1; Did 1%N 1; Needed 3; StopCalled 3; Line 3; Did 2%N 1; Did 3%N 0;
     Line 2; Did 6%N 0; Did 1%N 0; Line 4; Did 4%N 0; Needed 4; Line 5; Did 5%N 0].
Proof. reflexivity. Qed.
Example ex_loop_traced : fst (run (loop_breaks (late 3)) (viewed true loop_predicts loop_code) 100 (enter (viewed true loop_predicts loop_code) 2 true))
  = [Line 1; Did 0%N 2; Line 2; Did 6%N 2; Did 1%N 2; Line 3; Did 2%N 2; Did 3%N 1; Line 2; Did 6%N 1; Did 1%N 1; Line 3; Did 2%N 1; Did 3%N 0;
     Line 2; Did 6%N 0; Did 1%N 0; Line 4; Did 4%N 0; Line 5; Did 5%N 0].
Proof. reflexivity. Qed.
(** The stop at line 4 comes after its first instruction. *)
Example ex_loop_pop : fst (run (loop_breaks (late 4)) (loop_new [3%N; 4%N]) 100 (enter (loop_new [3%N; 4%N]) 1 false))
  = [Did 0%N 1; Did 6%N 1; Did 1%N 1; Needed 3; Did 2%N 1; Did 3%N 0; Did 6%N 0; Did 1%N 0; Did 4%N 0; Needed 4; StopCalled 4; Line 4; Line 5; Did 5%N 0].
Proof. reflexivity. Qed.

Lemma ended {U S} (M : interp U S) code k f m e : rest (snd (run M code k f)) = [] -> In e (fst (run M code m f)) -> In e (fst (run M code k f)).
Proof.
  intros H. destruct (Nat.le_ge_cases m k) as [L|L].
  - replace k with (m + (k - m)) by lia. rewrite run_app. destruct (run M code m f) as [a g]. destruct (run M code (k - m) g). cbn [fst].
    intros I. apply in_or_app. now left.
  - replace m with (k + (m - k)) by lia. rewrite run_app. destruct (run M code k f) as [a g]. cbn [snd] in H. destruct (m - k) as [|d]; cbn [run];
      [|unfold step; rewrite H]; rewrite app_nil_r; auto.
Qed.
(** Before Python 3.10 a line which is in the code twice gets one call: whoever comes the other way is not stopped. *)
Definition twice : list (item N) :=
  [Ins (Some 1%N) (User 3%N); Ins (Some 2%N) (User 0%N); Ins (Some 3%N) (User 5%N); Lab (CodeLabel 1); Ins (Some 2%N) (User 0%N); Ins (Some 4%N) (User 5%N)].
Definition always (n : N) (t : nat) (m : N) : bool := (m =? n)%N.
Theorem frameeval_hit_refuted : exists (l code : list (item N)) (M : interp N nat) (p q : list (event N nat)) f,
  insert_pydevd_breaks false loop_predicts loop_pop true [2%N] l = Some code /\ Forall plain l /\ lined (viewed false loop_predicts l)
  /\ (forall t, breaks M t 2 = true) /\ run M l 100 (enter l 0 true) = (p ++ Line 2 :: q, f)
  /\ forall m x, ~ In (StopCalled x) (fst (run M code m (enter code 0 false))).
Proof.
  exists twice. eexists. exists (loop_breaks (always 2)), [Line 1; Did 3%N 0], [Did 0%N 0; Line 4; Did 5%N 0]. eexists.
  split; [reflexivity|]. split; [unfold twice; repeat constructor|]. split.
  { intros a l line o b H. cbn in H. repeat (destruct a as [|? a]; [injection H; intros; subst; discriminate|injection H as _ H; try discriminate H]).
    all: try (destruct a; discriminate H). }
  split; [reflexivity|]. split; [reflexivity|].
  intros m x H. eapply (ended _ _ 40) in H; [|reflexivity]. cbn in H. intuition congruence.
Qed.
(** From Python 3.10 on so is a line which is entered by a jump to an instruction without a line. *)
Definition unlined : list (item N) :=
  [Ins (Some 1%N) (User 3%N); Ins (Some 2%N) (User 5%N); Lab (CodeLabel 1); Ins None (User 0%N); Ins (Some 2%N) (User 0%N); Ins (Some 4%N) (User 5%N)].
Theorem frameeval_unlined_refuted : exists (l code : list (item N)) (M : interp N nat) (p q : list (event N nat)) f,
  insert_pydevd_breaks true loop_predicts loop_pop true [2%N] l = Some code /\ Forall plain l
  /\ (forall t, breaks M t 2 = true) /\ run M l 100 (enter l 0 true) = (p ++ Line 2 :: q, f) /\ viewed true loop_predicts l = l
  /\ forall m x, ~ In (StopCalled x) (fst (run M code m (enter code 0 false))).
Proof.
  exists unlined. eexists. exists (loop_breaks (always 2)), [Line 1; Did 3%N 0; Did 0%N 0], [Did 0%N 0; Line 4; Did 5%N 0]. eexists.
  split; [reflexivity|]. split; [unfold unlined; repeat constructor|]. 
  split; [reflexivity|]. split; [reflexivity|]. split; [reflexivity|].
  intros m x H. eapply (ended _ _ 40) in H; [|reflexivity]. cbn in H. intuition congruence.
Qed.
Print Assumptions frameeval_same.
Print Assumptions frameeval_nothing_else.
Print Assumptions frameeval_traced.
Print Assumptions frameeval_hit.
Print Assumptions frameeval_only.
Print Assumptions frameeval_hit_refuted.
Print Assumptions frameeval_unlined_refuted.
