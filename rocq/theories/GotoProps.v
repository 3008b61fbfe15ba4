(** Property C59: moving the next statement. *)
From Coq Require Import String.
From Coq Require Import List NArith ZArith Bool Lia.
From Verif Require Import Base Dict Goto.
Import ListNotations.
Open Scope list_scope.

(** * Targets *)
Lemma target_eqb_spec a b : reflect (a = b) (target_eqb a b).
Proof.
  destruct a as [p l], b as [q k]. unfold target_eqb. cbn [fst snd]. destruct (str_eqb_spec p q) as [-> | N]; cbn [andb].
  - destruct (Z.eqb_spec l k) as [-> | N]; constructor; congruence.
  - constructor. congruence.
Qed.
Definition map_ok (m : idmap) : Prop :=
  (forall v k, get target_eqb v (value_to_key m) = Some k <-> get N.eqb k (key_to_value m) = Some v) /\ (forall k v, get N.eqb k (key_to_value m) = Some v -> (k < next_id m)%N).
Lemma obtain_key_ok m v : map_ok m -> let '(m', k) := obtain_key m v in map_ok m' /\ obtain_value m' k = Some v /\ forall k' v', obtain_value m k' = Some v' -> obtain_value m' k' = Some v'.
Proof.
  intros [H1 H2]. unfold obtain_key. destruct (get target_eqb v (value_to_key m)) as [k|] eqn:E.
  - split; [split; auto|]. split; [apply H1; auto|auto].
  - assert (F : get N.eqb (next_id m) (key_to_value m) = None). { destruct (get N.eqb (next_id m) (key_to_value m)) eqn:F; auto. apply H2 in F. lia. }
    unfold obtain_value. cbn [key_to_value value_to_key next_id]. split; [split; cbn [key_to_value value_to_key next_id]|split].
    + intros v' k. rewrite (get_set _ target_eqb_spec), (get_set _ N.eqb_spec). destruct (target_eqb_spec v' v) as [-> | Nv], (N.eqb_spec k (next_id m)) as [-> | Nk]; split; intros X; auto; try congruence.
      * apply H1 in X. congruence.
      * apply H1 in X. congruence.
      * apply H1; auto.
      * apply H1; auto.
    + intros k v'. rewrite (get_set _ N.eqb_spec). destruct (N.eqb_spec k (next_id m)); [lia|]. intros X. apply H2 in X. lia.
    + apply (get_set_same _ N.eqb_spec).
    + intros k' v' X. rewrite (get_set _ N.eqb_spec). destruct (N.eqb_spec k' (next_id m)) as [-> | _]; auto. congruence.
Qed.
Lemma obtain_keys_ok l : forall m, map_ok m -> let '(m', ks) := obtain_keys m l in
  map_ok m' /\ map (obtain_value m') ks = map Some l /\ forall k v, obtain_value m k = Some v -> obtain_value m' k = Some v.
Proof.
  induction l as [|v l IH]; intros m H; cbn [obtain_keys]; [auto|]. pose proof (obtain_key_ok m v H) as K. destruct (obtain_key m v) as [m1 k]. destruct K as (K1 & K2 & K3).
  specialize (IH m1 K1). destruct (obtain_keys m1 l) as [m2 ks]. destruct IH as (I1 & I2 & I3). split; auto. split; auto. cbn [map]. rewrite I2. f_equal. auto.
Qed.
Lemma map_ok_empty : map_ok empty_map.
Proof. split; cbn; intros; [split|]; discriminate. Qed.
(** Each id given to the client stands for the target it was given for, then and after any further requests; different targets have different ids, and a target has one. *)
Theorem goto_targets l l' : let '(m, ks) := obtain_keys empty_map l in let '(m', _) := obtain_keys m l' in
  length ks = length l /\ map (obtain_value m') ks = map Some l /\ forall i j v w, nth_error l i = Some v -> nth_error l j = Some w -> nth_error ks i = nth_error ks j <-> v = w.
Proof.
  pose proof (obtain_keys_ok l empty_map map_ok_empty) as K. destruct (obtain_keys empty_map l) as [m ks]. destruct K as (K1 & K2 & _).
  pose proof (obtain_keys_ok l' m K1) as K'. destruct (obtain_keys m l') as [m' ks']. destruct K' as (_ & _ & K3).
  assert (L : length ks = length l) by (rewrite <- (map_length (obtain_value m) ks), K2, map_length; auto).
  assert (N : forall i k, nth_error ks i = Some k -> exists v, nth_error l i = Some v /\ obtain_value m k = Some v).
  { intros i k E. apply (map_nth_error (obtain_value m)) in E. rewrite K2 in E. destruct (nth_error l i) as [v|] eqn:F.
    - rewrite (map_nth_error Some i l F) in E. exists v. split; auto. congruence.
    - apply nth_error_None in F. assert (X : nth_error (map Some l) i <> None) by congruence. apply nth_error_Some in X. rewrite map_length in X. lia. }
  split; auto. split.
  - rewrite <- K2. apply map_ext_in. intros k Hk. apply In_nth_error in Hk. destruct Hk as (i & Hi). destruct (N _ _ Hi) as (v & _ & E). rewrite E. auto.
  - intros i j v w Hi Hj. assert (X : forall i v, nth_error l i = Some v -> exists k, nth_error ks i = Some k /\ obtain_value m k = Some v).
    { clear -N L. intros i v H. destruct (nth_error ks i) as [k|] eqn:E; [|apply nth_error_None in E; assert (nth_error l i <> None) by congruence; apply nth_error_Some in H0; lia]. destruct (N _ _ E) as (v' & A & B). exists k. split; auto. congruence. }
    destruct (X i v Hi) as (k & A & B), (X j w Hj) as (k' & A' & B'). rewrite A, A'. split; [intros E; congruence|]. intros ->. destruct K1 as [K1 _]. unfold obtain_value in B, B'. apply K1 in B, B'. congruence.
Qed.

(** A goto to a target moves to the line which was asked for, or to the line of the generated source it stands for; whatever else was asked for in between. *)
Theorem goto_request server mapped (l l' : list target) seq i path x : nth_error l i = Some ((path, x) : target) ->
  let '(m, ks) := obtain_keys empty_map l in let '(m', _) := obtain_keys m l' in
  exists k, nth_error ks i = Some k /\ request_goto server mapped m' seq k = Some (Goto SetNext seq (match mapped (server path) x with Some y => y | None => x end) (lit "*")).
Proof.
  intros E. pose proof (goto_targets l l') as T. destruct (obtain_keys empty_map l) as [m ks]. destruct (obtain_keys m l') as [m' ks']. destruct T as (L & M & _).
  destruct (nth_error ks i) as [k|] eqn:K; [|assert (Y : nth_error l i = None) by (apply nth_error_None; rewrite <- L; apply nth_error_None; exact K); congruence].
  exists k. split; auto. apply (map_nth_error (obtain_value m')) in K. rewrite M in K. rewrite (map_nth_error Some i l E) in K. unfold request_goto. injection K as <-. auto.
Qed.

(** * Moving *)
(** A command of the client: its number, the line and the function, star for any. *)
Record wish := Wish { wkind : step_cmd; wseq : N; wline : Z; wfunc : str }.
Definition goes (w : wish) : list happening := [Take (Goto (wkind w) (wseq w) (wline w) (wfunc w)); Check].
(** Whether the wish is for the frame at the top. *)
(** A wish for any function is for the function at the top, called [n]; the code of a module has no name. *)
Definition modules : list str := [lit "<module>"; lit "?"].
Definition for_top (n : str) (w : wish) : bool :=
  str_eqb (wfunc w) (lit "*") || str_eqb (wfunc w) (if existsb (str_eqb n) modules then [] else n).
Lemma eqb_sym a b : str_eqb a b = str_eqb b a.
Proof. destruct (str_eqb_spec a b) as [->|H]; [symmetry; apply str_eqb_refl|]. symmetry. apply str_eqb_neq. congruence. Qed.
Lemma shown_name_top n f : str_eqb (shown_name n) f = str_eqb f (if existsb (str_eqb n) modules then [] else n).
Proof. unfold shown_name, modules. cbn [existsb]. rewrite orb_false_r, orb_comm. apply eqb_sym. Qed.
Definition not_here : str := lit "jump is available only within the bottom frame".
(** What the client is told, and where the program then is. *)
Fixpoint told (jump : Z -> Z -> Z + str) (n : str) (at_ : Z) (l : list wish) : list out * Z :=
  match l with
  | [] => ([], at_)
  | w :: r =>
      match (if for_top n w then jump at_ (wline w) else inr not_here) with
      | inl x => let '(o, y) := told jump n x r in (Answer (Z.of_N (wseq w)) true [] :: Continued :: Stopped RGoto [] x :: o, y)
      | inr e => let '(o, y) := told jump n at_ r in (Answer (Z.of_N (wseq w)) false e :: o, y)
      end
  end.
Definition is_goto (k : step_cmd) : Prop := k = SetNext \/ k = RunTo.
Definition suspended (s : thr) : Prop := ph s = Waiting /\ running s = false /\ disposed s = false /\ tracked s = true.
Lemma run_app json jump a : forall s b, run json jump s (a ++ b) = let '(s1, o1) := run json jump s a in let '(s2, o2) := run json jump s1 b in (s2, o1 ++ o2).
Proof.
  induction a as [|h a IH]; intros s b; cbn [app run]; [destruct (run json jump s b); auto|]. destruct (happen json jump s h) as [s1 o1]. rewrite IH. destruct (run json jump s1 a) as [s2 o2]. destruct (run json jump s2 b) as [s3 o3]. rewrite app_assoc. auto.
Qed.
Lemma goto_one json jump s w : suspended s -> (ev s = Line \/ ev s = Exc) -> is_goto (wkind w) ->
  let '(s', o) := run json jump s (goes w) in (o, line s') = told (jump (ev s)) (name s) (line s) [w] /\ suspended s' /\ ev s' = ev s /\ name s' = name s.
Proof.
  destruct s as [r c nl fu me re e n li tr di p], w as [k q x f]. unfold suspended. cbn [ph running disposed tracked ev wkind]. intros (-> & -> & -> & ->) HE HW.
  unfold told, for_top. cbn [wfunc]. rewrite <- shown_name_top. unfold goes, run, happen, do_it, after_loop, set_next_statement, status_message, with_line, not_here.
  destruct HW as [-> | ->], HE as [-> | ->]; cbn -[lit py_int dec str_eqb shown_name Z.of_N app]; destruct (str_eqb f (lit "*") || str_eqb (shown_name n) f);
    try (destruct (jump _ li x) as [y|err]); cbn -[lit py_int dec str_eqb shown_name Z.of_N app]; rewrite py_int_dec0; cbn -[lit py_int dec str_eqb shown_name Z.of_N]; rewrite ?andb_true_r, ?andb_false_r; try (destruct json); repeat split; auto.
Qed.
Lemma told_cons jump n x w l : told jump n x (w :: l) = let '(o, y) := told jump n x [w] in let '(o', z) := told jump n y l in (o ++ o', z).
Proof. cbn [told]. destruct (if for_top n w then jump x (wline w) else inr not_here); cbn [app]; destruct (told jump n _ l); auto. Qed.
(** A thread suspended at a line: each command is answered once; when the jump is possible the program is at the new line and the thread is told as continued
    and stopped again, otherwise nothing else happens; the thread stays suspended. *)
Theorem goto_moves json jump s l : suspended s -> (ev s = Line \/ ev s = Exc) -> Forall (fun w => is_goto (wkind w)) l ->
  let '(s', o) := run json jump s (flat_map goes l) in
  (o, line s') = told (jump (ev s)) (name s) (line s) l /\ suspended s' /\ ev s' = ev s /\ name s' = name s.
Proof.
  intros HS HE HL. revert s HS HE. induction HL as [|w l Hw HL IH]; intros s HS HE; [cbn; repeat split; auto; apply HS|].
  cbn [flat_map]. rewrite run_app, told_cons. pose proof (goto_one json jump s w HS HE Hw) as G. destruct (run json jump s (goes w)) as [s1 o1]. destruct G as (G1 & G2 & G3 & G4). rewrite <- G1.
  specialize (IH s1 G2). rewrite G3, G4 in IH. destruct (run json jump s1 (flat_map goes l)) as [s2 o2]. destruct (IH HE) as (I1 & I2 & I3 & I4). rewrite <- I1. auto.
Qed.

(** * Whatever happens *)
Inductive sub {A : Type} : list A -> list A -> Prop :=
| sub_nil l : sub [] l
| sub_keep x l l' : sub l l' -> sub (x :: l) (x :: l')
| sub_drop x l l' : sub l l' -> sub l (x :: l').
Definition answers (o : list out) : list Z := flat_map (fun x => match x with Answer q _ _ => [q] | _ => [] end) o.
Definition asked (l : list happening) : list Z := flat_map (fun h => match h with Take (Goto k q _ _) => match k with SetNext | RunTo => [Z.of_N q] | _ => [] end | _ => [] end) l.
(** Told as continued and stopped in turn, from when it is stopped. *)
Fixpoint in_turn (stopped : bool) (o : list out) : option bool :=
  match o with
  | [] => Some stopped
  | Continued :: r => if stopped then in_turn false r else None
  | Stopped _ _ _ :: r => if stopped then None else in_turn true r
  | _ :: r => in_turn stopped r
  end.
Definition pending (s : thr) : list Z := match cmd s with SetNext | RunTo => if running s then match py_int (message s) with Some q => [q] | None => [] end else [] | _ => [] end.
(** The debugger is not disposed of; the thread is in a state in which the wait loop can be. *)
Definition sane (s : thr) : Prop :=
  ph s <> Raised /\ disposed s = false /\ (ph s = Waiting -> tracked s = true /\ (cmd s = SetNext \/ cmd s = RunTo -> running s = true -> exists q, message s = dec q)).
Definition stopped (s : thr) : bool := match ph s with Waiting => true | _ => false end.
Lemma sub_refl {A : Type} (l : list A) : sub l l.
Proof. induction l; constructor; auto. Qed.
Lemma sub_app_l {A : Type} (a l : list A) : sub l (a ++ l).
Proof. induction a; cbn [app]; [apply sub_refl|constructor; auto]. Qed.
Lemma sub_trans {A : Type} (a b c : list A) : sub a b -> sub b c -> sub a c.
Proof.
  intros H K. revert a H. induction K as [l|x l l' K IH|x l l' K IH]; intros a H.
  - inversion H; constructor.
  - inversion H; subst; [constructor|constructor; auto|constructor; auto].
  - constructor. auto.
Qed.
Lemma sub_app {A : Type} (a b c d : list A) : sub a b -> sub c d -> sub (a ++ c) (b ++ d).
Proof. intros H K. induction H as [l|x l l' H IH|x l l' H IH]; cbn [app]; [|constructor; auto|constructor; auto]. induction l; cbn [app]; auto. constructor. auto. Qed.
Lemma in_turn_app a b : forall x, in_turn x (a ++ b) = match in_turn x a with Some y => in_turn y b | None => None end.
Proof. induction a as [|h a IH]; intros x; auto. cbn [app in_turn]. destruct h; auto; destruct x; auto. Qed.
Lemma happen_ok json jump s h : sane s -> h <> Dispose -> let '(s', o) := happen json jump s h in
  sane s' /\ sub (answers o ++ pending s') (pending s ++ asked [h]) /\ in_turn (stopped s) o = Some (stopped s') /\ ((forall q t, ~ In (Answer q true t) o) -> line s' = line s).
Proof.
  intros (H1 & H2 & H3) HD. unfold happen. destruct (ph s) eqn:P; [|split; [split; [rewrite P; discriminate|split; auto; rewrite P; discriminate]|]; split; [cbn [answers flat_map app]; rewrite <- (app_nil_r (pending s)) at 1; apply sub_app; [apply sub_refl|constructor]|]; split; [reflexivity|auto]|congruence].
  destruct (H3 eq_refl) as [T M]. destruct s as [r c nl fu me re e n li tr di p]. cbn [ph running disposed tracked cmd message] in *. subst. destruct h as [[k q x f|]| | | |]; try congruence; unfold do_it, with_state, stopped; cbn -[py_int dec lit Z.of_N].
  - split; [split; [discriminate|split; auto; intros _; split; auto; intros _ _; exists q; reflexivity]|]. split; [|auto]. eapply sub_trans; [|apply sub_app_l].
    unfold pending. cbn [cmd running message]. rewrite py_int_dec0. destruct k; cbn [app]; apply sub_refl || constructor.
  - split; [split; [discriminate|split; auto; intros _; split; auto; intros [E|E]; discriminate]|]. split; [constructor|auto].
  - split; [split; [discriminate|split; auto; intros _; split; auto; intros [E|E]; discriminate]|]. split; [constructor|auto].
  - split; [split; [discriminate|split; auto; intros _; split; auto; intros [E|E]; discriminate]|]. split; [constructor|auto].
  - rewrite orb_false_r. destruct r; [|split; [split; [discriminate|split; auto]|]; split; [unfold pending; cbn [cmd running]; destruct c; apply sub_refl|auto]].
    unfold after_loop. cbn [cmd].
    assert (G : c = SetNext \/ c = RunTo -> let '(s', o) := (let '(s, stop, text) := set_next_statement jump (Thr true c nl fu me re e n li true false Waiting) in match status_message json (message s) stop text with None => (set_phase Raised s, []) | Some o => if stop then (Thr false (cmd s) (next_line s) (func s) [] RGoto (ev s) (name s) (line s) true (disposed s) Waiting, [o; Continued; Stopped RGoto [] (line s)]) else (Thr false NoCmd (next_line s) (func s) [] RSuspend (ev s) (name s) (line s) (tracked s) (disposed s) Waiting, [o]) end) in
      sane s' /\ sub (answers o ++ pending s') (pending (Thr true c nl fu me re e n li true false Waiting) ++ []) /\ in_turn true o = Some (stopped s') /\ ((forall q t, ~ In (Answer q true t) o) -> line s' = li)).
    { intros Hc. destruct (M Hc eq_refl) as (q & ->). unfold set_next_statement, status_message. cbn [ev func name line next_line].
      assert (PD : pending (Thr true c nl fu (dec q) re e n li true false Waiting) = [Z.of_N q]) by (unfold pending; cbn [cmd running message]; rewrite py_int_dec0; destruct Hc as [-> | ->]; auto). rewrite PD.
      assert (A : forall s stop text, message s = dec q -> disposed s = false -> (stop = false -> line s = li /\ tracked s = true) ->
        let '(s', o) := (match (match py_int (message s) with Some n0 => Some (Answer n0 stop (if json && stop then [] else text)) | None => if json then None else Some ErrorSent end) with None => (set_phase Raised s, []) | Some o => if stop then (Thr false (cmd s) (next_line s) (func s) [] RGoto (ev s) (name s) (line s) true (disposed s) Waiting, [o; Continued; Stopped RGoto [] (line s)]) else (Thr false NoCmd (next_line s) (func s) [] RSuspend (ev s) (name s) (line s) (tracked s) (disposed s) Waiting, [o]) end) in
        sane s' /\ sub (answers o ++ pending s') ([Z.of_N q] ++ []) /\ in_turn true o = Some (stopped s') /\ ((forall q t, ~ In (Answer q true t) o) -> line s' = li)).
      { intros s stop text Em Ed El. rewrite Em, py_int_dec0. destruct stop.
        - split; [split; [discriminate|split; auto; intros _; split; auto; intros _ X; discriminate]|]. split; [unfold pending; cbn [cmd running]; destruct (cmd s); cbn; apply sub_refl|]. split; [reflexivity|]. intros X. exfalso. eapply X. left. reflexivity.
        - destruct (El eq_refl) as [E1 E2]. split; [split; [discriminate|split; auto; intros _; split; auto; intros _ X; discriminate]|]. split; [unfold pending; cbn; apply sub_refl|]. split; [reflexivity|]. auto. }
      destruct e; [| |apply A; auto|apply A; auto]; (destruct (str_eqb fu (lit "*") || str_eqb (shown_name n) fu); [destruct (jump _ li nl)|]); apply A; auto; discriminate. }
    destruct c; try (apply G; auto); (split; [split; [discriminate|split; auto; discriminate]|split; [constructor|auto]]).
Qed.
(** [a1] answered then [a2]; [p1] waits in between. *)
Lemma sub_trans' {A : Type} (a1 a2 p0 p1 p2 k1 k2 : list A) : sub (a1 ++ p1) (p0 ++ k1) -> sub (a2 ++ p2) (p1 ++ k2) -> sub (a1 ++ a2 ++ p2) (p0 ++ k1 ++ k2).
Proof.
  intros H K. eapply sub_trans; [apply sub_app; [apply sub_refl|exact K]|]. rewrite !app_assoc. apply sub_app; [auto|apply sub_refl].
Qed.
(** Whatever the client, the other threads and the thread do: no command is answered twice nor one which was not given, the answers are in order, the thread is told
    as continued and stopped in turn, it is not left to the exception of a failed answer, and without a successful answer the program is where it was. *)
Theorem goto_any json jump s l : sane s -> pending s = [] -> ~ In Dispose l -> let '(s', o) := run json jump s l in
  sub (answers o) (asked l) /\ in_turn (stopped s) o = Some (stopped s') /\ ph s' <> Raised /\ ((forall q t, ~ In (Answer q true t) o) -> line s' = line s).
Proof.
  intros HS HP HD. assert (G : let '(s', o) := run json jump s l in sane s' /\ sub (answers o ++ pending s') (pending s ++ asked l) /\ in_turn (stopped s) o = Some (stopped s') /\ ((forall q t, ~ In (Answer q true t) o) -> line s' = line s)).
  { clear HP. revert s HS. induction l as [|h l IH]; intros s HS; [cbn [run]; split; auto; split; [cbn; rewrite app_nil_r; apply sub_refl|auto]|]. cbn [run].
    assert (Hh : h <> Dispose) by (intros ->; apply HD; left; auto). pose proof (happen_ok json jump s h HS Hh) as K. destruct (happen json jump s h) as [s1 o1]. destruct K as (K1 & K2 & K3 & K4).
    specialize (IH ltac:(intros X; apply HD; right; auto) s1 K1). destruct (run json jump s1 l) as [s2 o2]. destruct IH as (I1 & I2 & I3 & I4). split; auto. split; [|split].
    - unfold answers in *. rewrite flat_map_app. change (asked (h :: l)) with (flat_map (fun h => match h with Take (Goto k q _ _) => match k with SetNext | RunTo => [Z.of_N q] | _ => [] end | _ => [] end) ([h] ++ l)). rewrite flat_map_app. fold (asked [h]) (asked l). rewrite <- app_assoc. eapply sub_trans'; [exact K2|exact I2].
    - rewrite in_turn_app, K3. auto.
    - intros X. rewrite I4, K4; auto; intros q t Y; apply (X q t); apply in_or_app; auto. }
  destruct (run json jump s l) as [s' o]. destruct G as (G1 & G2 & G3 & G4). rewrite HP in G2. cbn [app] in G2. split; [|split; auto; split; auto; apply G1].
  eapply sub_trans; [|exact G2]. rewrite <- (app_nil_r (answers o)) at 1. apply sub_app; [apply sub_refl|constructor].
Qed.

(** * What does not hold *)
Definition ex_jump : jumps := fun _ _ l => if (l <? 20)%Z then inl l else inr (lit "line 30 comes after the current code block").
Definition ex_thr (e : event) : thr := Thr false Step 0 [] [] ROther e (lit "main") 10 true false Waiting.
(** The file of the target does not count: the top frame is moved to that line of its own file. *)
Theorem goto_file_refuted : exists m id id' seq, obtain_value m id = Some (lit "/w/a.py", 12%Z) /\ obtain_value m id' = Some (lit "/w/other.py", 12%Z) /\
  request_goto (fun p => p) (fun _ _ => None) m seq id = request_goto (fun p => p) (fun _ _ => None) m seq id'.
Proof. exists (fst (obtain_keys empty_map [(lit "/w/a.py", 12%Z); (lit "/w/other.py", 12%Z)])), 0%N, 1%N, 7%N. repeat split. Qed.
(** A thread suspended when a function returns or is called: the refusal has no text. *)
Theorem goto_return_refuted : exists json jump s seq l, suspended s /\ snd (run json jump s (goes (Wish SetNext seq l (lit "*")))) = [Answer (Z.of_N seq) false []].
Proof. exists true, ex_jump, (ex_thr Return), 7%N, 12%Z. repeat split. Qed.
(** When another thread stops all threads, or the client continues, between the command and its execution, it is neither executed nor answered. *)
Theorem goto_lost_refuted : exists json jump s c, suspended s /\ (forall h, h = SuspendAll \/ h = Resume -> answers (snd (run json jump s [Take c; h; Check; Resume; Check])) = []) /\
  answers (snd (run json jump s [Take c; Check; Resume; Check])) <> [].
Proof. exists true, ex_jump, (ex_thr Line), (Goto SetNext 7 12 (lit "*")). split; [repeat split|]. split; [intros h [-> | ->]; reflexivity|discriminate]. Qed.
(** After a jump, when the connection to a client of the debug adapter protocol is lost, the program gets a ValueError of the debugger. *)
Theorem goto_dispose_refuted : exists jump s c, suspended s /\
  let '(s', o) := run true jump s [Take c; Check; Dispose; Check] in ph s' = Raised /\ answers o = [7%Z] /\ ph (fst (run true jump s [Dispose; Check])) = Left.
Proof. exists ex_jump, (ex_thr Line), (Goto SetNext 7 12 (lit "*")). repeat split. Qed.
(** A step into a function by its name leaves the number of the request as the message of the thread. *)
Theorem goto_smart_refuted : exists json jump s seq, suspended s /\ message s = [] /\
  let s' := fst (run json jump s [Take (Goto Smart seq 12 (lit "f")); Check]) in ph s' = Left /\ message s' = dec seq.
Proof. exists true, ex_jump, (ex_thr Line), 7%N. repeat split. Qed.

(** * Concrete cases *)
Example ex_targets : snd (obtain_keys empty_map [(lit "/w/a.py", 12%Z); (lit "/w/b.py", 3%Z); (lit "/w/a.py", 12%Z)]) = [0%N; 1%N; 0%N].
Proof. reflexivity. Qed.
Example ex_moves : suspended (ex_thr Line) /\ run true ex_jump (ex_thr Line) (flat_map goes [Wish SetNext 7 12 (lit "*"); Wish SetNext 8 30 (lit "*"); Wish RunTo 9 3 (lit "other"); Wish RunTo 10 4 (lit "main")]) =
  (Thr false RunTo 4 (lit "main") [] RGoto Line (lit "main") 4 true false Waiting,
   [Answer 7 true []; Continued; Stopped RGoto [] 12; Answer 8 false (lit "line 30 comes after the current code block"); Answer 9 false not_here; Answer 10 true []; Continued; Stopped RGoto [] 4]).
Proof. split; [repeat split|reflexivity]. Qed.
Example ex_sane : sane (ex_thr Line) /\ pending (ex_thr Line) = [].
Proof. split; [|reflexivity]. split; [discriminate|]. split; [reflexivity|]. intros _. split; [reflexivity|]. intros [E|E]; discriminate. Qed.

Print Assumptions goto_targets.
Print Assumptions goto_request.
Print Assumptions goto_moves.
Print Assumptions goto_any.
Print Assumptions goto_file_refuted.
Print Assumptions goto_return_refuted.
Print Assumptions goto_lost_refuted.
Print Assumptions goto_dispose_refuted.
Print Assumptions goto_smart_refuted.
