(** What the client is told about the exception the debugger stopped for (property C86). *)
From Coq Require Import String.
From Coq Require Import List NArith ZArith Bool Lia.
From Verif Require Import Base ExcInfo.
Import ListNotations.
Open Scope list_scope.

(** Specification: the frames to be shown, and what is shown of one. *)
Definition to_show (filter_on : bool) (e : exc) : list frame :=
  filter (fun f => is_plugin f || negb (filter_on && filtered f)) (frames e).
Definition one_line (f : frame) : Prop := forall last, position f = Some (Some last) -> last <= line f.
Definition entry_for (lines : str -> list str) (f : frame) (x : entry) : Prop :=
  e_file x = client f /\ e_line x = line f /\
  e_method x = method f ++ (if is_current f then lit " (Current frame)"%string else []) /\
  (one_line f -> 0 < line f -> nth_error (lines (original f)) (line f - 1) = Some (e_text x) \/
     length (lines (original f)) < line f /\ e_text x = []).
Definition type_text (e : exc) (s : str) : Prop :=
  forall t q m, exc_type e = Some t -> qualname t = Some q -> module t = Some m ->
    ((m = lit "__main__"%string \/ m = lit "builtins"%string) /\ s = q) \/
    (m <> lit "__main__"%string /\ m <> lit "builtins"%string /\ s = m ++ lit "."%string ++ q).
(** The text for one exception: entries for the frames, the last ones if there is a limit, the line with type and description, and how
    it is related to the next one *)
Definition block (lines : str -> list str) (format : list entry -> str) (filter_on : bool) (max : Z) (e : exc) (b : str) : Prop :=
  exists pre fs xs ty d, to_show filter_on e = pre ++ fs /\ (max = 0%Z -> pre = []) /\
    ((0 < max)%Z -> length fs = Nat.min (Z.to_nat max) (length (to_show filter_on e))) /\
    Forall2 (entry_for lines) fs xs /\ type_text e ty /\ (exc_desc e = Text d \/ exc_desc e = NoDesc /\ d = lit "None"%string) /\
    b = format xs ++ ty ++ lit ": "%string ++ d ++ [10%N] ++ context_msg e.
Definition tellable (e : exc) : Prop := frames e <> [] /\ exc_desc e <> Bad.

Lemma kept_eq filter_on e : kept filter_on e = to_show filter_on e.
Proof.
  unfold kept, to_show. apply filter_ext. intros f. unfold left_out. destruct (is_plugin f); [reflexivity|].
  now destruct filter_on, (filtered f).
Qed.

Lemma entry_of_ok py311 lines f : entry_for lines f (entry_of py311 lines f).
Proof.
  unfold entry_for, entry_of. cbv zeta. cbn [e_file e_line e_method e_text]. repeat split.
  - unfold method_text. destruct (is_current f); [reflexivity|now rewrite app_nil_r].
  - intros ho hl.
    assert (E : (if py311 then match position f with
                | Some (Some last) => if Nat.ltb (line f) last then join_lines (slice (line f) (last + 1) (lines (client f))) else getline lines (original f) (line f)
                | _ => getline lines (original f) (line f) end else getline lines (original f) (line f)) = getline lines (original f) (line f)).
    { destruct py311; [|reflexivity]. unfold one_line in ho. destruct (position f) as [[last|]|]; try reflexivity.
      specialize (ho last eq_refl). destruct (Nat.ltb_spec (line f) last); [lia|reflexivity]. }
    rewrite E. unfold getline. destruct (line f) as [|k]; [lia|]. replace (S k - 1) with k by lia.
    destruct (Nat.lt_ge_cases k (length (lines (original f)))) as [h|h].
    + left. now apply nth_error_nth'.
    + right. split; [lia|]. now apply nth_overflow.
Qed.

Lemma type_ok e : type_text e (stype_of e).
Proof.
  intros t q m ht hq hm. unfold stype_of. rewrite ht, hq, hm.
  destruct (str_eqb_spec m (lit "__main__"%string)) as [->|n1]; cbn [orb]; [auto|].
  destruct (str_eqb_spec m (lit "builtins"%string)) as [->|n2]; cbn [orb]; auto.
Qed.

Lemma limited_ok {A} (max : Z) (l : list A) : (0 <= max)%Z ->
  exists pre, l = pre ++ limited max l /\ (max = 0%Z -> pre = []) /\ ((0 < max)%Z -> length (limited max l) = Nat.min (Z.to_nat max) (length l)).
Proof.
  intros h. unfold limited. destruct (Z.eqb_spec max 0) as [->|n].
  - exists []. repeat split. lia.
  - destruct (Z.ltb_spec 0 max) as [h2|h2]; [|lia]. exists (firstn (length l - Z.to_nat max) l). rewrite firstn_skipn. repeat split; [lia|].
    intros _. rewrite skipn_length. lia.
Qed.

Lemma limited_map {A B} (g : A -> B) max l : limited max (map g l) = map g (limited max l).
Proof. unfold limited. rewrite map_length, !skipn_map. destruct (Z.eqb max 0); [reflexivity|]. now destruct (Z.ltb 0 max). Qed.

Lemma Forall2_map_r {A B} (R : A -> B -> Prop) g l : (forall a, R a (g a)) -> Forall2 R l (map g l).
Proof. intros h. induction l; cbn [map]; constructor; auto. Qed.

Lemma turn_ok py311 lines format filter_on max r e : (0 <= max)%Z -> exc_desc e <> Bad ->
  exists b, block lines format filter_on max e b /\ snd (turn py311 lines format filter_on max r e) = true /\
    stacks (fst (turn py311 lines format filter_on max r e)) = stacks r ++ [b].
Proof.
  intros hm hb. destruct (limited_ok max (to_show filter_on e) hm) as (pre & h1 & h2 & h3).
  assert (hF : Forall2 (entry_for lines) (limited max (to_show filter_on e)) (limited max (map (entry_of py311 lines) (kept filter_on e)))).
  { rewrite kept_eq, limited_map. apply Forall2_map_r. intros f. apply entry_of_ok. }
  unfold turn. destruct (exc_desc e) as [|s|] eqn:E; [| |congruence]; cbn [fst snd stacks];
    eexists; (split; [|split; reflexivity]); exists pre, (limited max (to_show filter_on e)), (limited max (map (entry_of py311 lines) (kept filter_on e))), (stype_of e).
  - exists (lit "None"%string). repeat split; try assumption; [apply type_ok|now right|]. now rewrite <- !app_assoc.
  - exists s. repeat split; try assumption; [apply type_ok|now left|]. now rewrite <- !app_assoc.
Qed.

(** The stack trace has the text of every exception, the first cause first. *)
Theorem stack_told : forall py311 lines format filter_on max stop l, (0 <= max)%Z -> Forall tellable l ->
  exists blocks, Forall2 (block lines format filter_on max) l blocks /\
    stack_trace (build py311 lines format filter_on max true stop l) = concat (rev blocks).
Proof.
  intros py311 lines format filter_on max stop l hm hl. unfold build. cbn [stack_trace].
  assert (h : forall r, exists blocks, Forall2 (block lines format filter_on max) l blocks /\
     stacks (turns py311 lines format filter_on max r l) = stacks r ++ blocks).
  { induction hl as [|e l [hf hd] _ IH]; intros r; [exists []; split; [constructor|now rewrite app_nil_r]|].
    destruct (turn_ok py311 lines format filter_on max r e hm hd) as (b & hb & h1 & h2). cbn [turns].
    destruct (frames e) as [|f fs] eqn:E; [congruence|].
    destruct (turn py311 lines format filter_on max r e) as [r' go]. cbn [fst snd] in h1, h2. subst go.
    destruct (IH r') as (blocks & hB & hs). exists (b :: blocks). split; [now constructor|]. rewrite hs, h2, <- app_assoc. reflexivity. }
  destruct (h (Found None None [] [] [])) as (blocks & hB & hs). exists blocks. split; [assumption|]. rewrite hs. reflexivity.
Qed.

(** Name and description are those of the exception itself, whatever it came from; the name says where the program is if the frame it
    stands in is not the first one shown. *)
Lemma turns_keep py311 lines format filter_on max l : forall r, nonempty (name r) = true ->
  name (turns py311 lines format filter_on max r l) = name r.
Proof.
  induction l as [|e l IH]; intros r h; [reflexivity|]. cbn [turns]. destruct (frames e) as [|f fs]; [reflexivity|].
  unfold turn. cbv zeta. destruct (exc_desc e); rewrite h; try (rewrite IH; [reflexivity|exact h]). reflexivity.
Qed.
Lemma turns_keep_description py311 lines format filter_on max l : forall r, nonempty (description r) = true ->
  description (turns py311 lines format filter_on max r l) = description r.
Proof.
  induction l as [|e l IH]; intros r h; [reflexivity|]. cbn [turns]. destruct (frames e) as [|f fs]; [reflexivity|].
  unfold turn. cbv zeta. destruct (exc_desc e); rewrite h; try (rewrite IH; [reflexivity|exact h]). reflexivity.
Qed.
Lemma turns_keep_source py311 lines format filter_on max l : forall r, source r <> [] ->
  source (turns py311 lines format filter_on max r l) = source r.
Proof.
  induction l as [|e l IH]; intros r h; [reflexivity|]. cbn [turns]. destruct (frames e) as [|f fs]; [reflexivity|].
  unfold turn. cbv zeta. destruct (source r) as [|c s] eqn:E; [congruence|].
  destruct (exc_desc e); try (rewrite IH; cbn [source]; [reflexivity|discriminate]). reflexivity.
Qed.
Lemma paused_none filter_on e before : (forall f, In f (frames e) -> is_current f = false) -> paused filter_on e before = before.
Proof.
  intros h. unfold paused. rewrite kept_eq. unfold to_show. assert (g : forall l b, (forall f, In f l -> is_current f = false) -> fold_left (fun s f => if is_current f then method f else s) l b = b).
  { induction l as [|f l IH]; intros b hl; [reflexivity|]. cbn [fold_left]. rewrite (hl f) by now left. apply IH. intros x hx. apply hl. now right. }
  apply g. intros f hf. apply filter_In in hf as [hf _]. now apply h.
Qed.
Lemma turns_keep_paused py311 lines format filter_on max l : (forall e f, In e l -> In f (frames e) -> is_current f = false) ->
  forall r, paused_at (turns py311 lines format filter_on max r l) = paused_at r.
Proof.
  induction l as [|e l IH]; intros hc r; [reflexivity|]. cbn [turns]. destruct (frames e) as [|f fs] eqn:E; [reflexivity|].
  assert (hp : paused filter_on e (paused_at r) = paused_at r) by (apply paused_none; intros x hx; apply (hc e); [now left|assumption]).
  assert (hr : forall e' f', In e' l -> In f' (frames e') -> is_current f' = false) by (intros e' f' h1 h2; apply (hc e' f'); [now right|assumption]).
  unfold turn. cbv zeta. destruct (exc_desc e); rewrite hp; try (rewrite (IH hr); reflexivity). reflexivity.
Qed.

Lemma turns_cons py311 lines format filter_on max r e rest : frames e <> [] ->
  turns py311 lines format filter_on max r (e :: rest) =
  (let (r', go) := turn py311 lines format filter_on max r e in if go then turns py311 lines format filter_on max r' rest else r').
Proof. intros h. cbn [turns]. destruct (frames e); [congruence|reflexivity]. Qed.

Definition chained_ok (rest : list exc) : Prop := forall e f, In e rest -> In f (frames e) -> is_current f = false.
Definition first_of (py311 : bool) lines format filter_on max (e : exc) : found :=
  fst (turn py311 lines format filter_on max (Found None None [] [] []) e).
Lemma first_name py311 lines format filter_on max e : name (first_of py311 lines format filter_on max e) = name_of e.
Proof. unfold first_of, turn. cbn [name nonempty]. destruct (exc_desc e), (name_of e); reflexivity. Qed.
Lemma first_description py311 lines format filter_on max e : description (first_of py311 lines format filter_on max e) = description_of e.
Proof. unfold first_of, turn, description_of. cbn [description nonempty]. destruct (exc_desc e); reflexivity. Qed.
Lemma first_paused py311 lines format filter_on max e : paused_at (first_of py311 lines format filter_on max e) = paused filter_on e [].
Proof. unfold first_of, turn. destruct (exc_desc e); reflexivity. Qed.

Lemma after_first (P : found -> Prop) py311 lines format filter_on max e rest : frames e <> [] ->
  P (first_of py311 lines format filter_on max e) -> P (turns py311 lines format filter_on max (first_of py311 lines format filter_on max e) rest) ->
  P (turns py311 lines format filter_on max (Found None None [] [] []) (e :: rest)).
Proof.
  intros hf h1 h2. rewrite turns_cons by assumption. unfold first_of in *. destruct (turn _ _ _ _ _ _ e) as [r' [|]]; assumption.
Qed.

Theorem exception_told : forall py311 lines format filter_on max stop e rest t c q, frames e <> [] -> chained_ok rest ->
  exc_type e = Some t -> qualname t = Some (c :: q) ->
  ((forall f, In f (to_show filter_on e) -> is_current f = false) ->
     exception_id (build py311 lines format filter_on max true stop (e :: rest)) = c :: q) /\
  (forall a f b, to_show filter_on e = a ++ f :: b -> is_current f = true -> method f <> [] -> (forall x, In x b -> is_current x = false) ->
     exception_id (build py311 lines format filter_on max true stop (e :: rest)) =
     (c :: q) ++ lit "       (note: full exception trace is shown but execution is paused at: "%string ++ method f ++ lit ")"%string).
Proof.
  intros py311 lines format filter_on max stop e rest t c q hf hc ht hq.
  assert (hn : name_of e = Some (c :: q)) by (unfold name_of; now rewrite ht, hq).
  set (R := turns py311 lines format filter_on max (Found None None [] [] []) (e :: rest)).
  assert (h1 : name R = Some (c :: q)).
  { apply (after_first (fun r => name r = Some (c :: q))); [assumption|now rewrite first_name|].
    rewrite turns_keep; rewrite first_name, hn; reflexivity. }
  assert (h2 : paused_at R = paused filter_on e []).
  { apply (after_first (fun r => paused_at r = paused filter_on e [])); [assumption|apply first_paused|].
    rewrite turns_keep_paused by assumption. apply first_paused. }
  assert (hid : exception_id (build py311 lines format filter_on max true stop (e :: rest)) =
                match paused filter_on e [] with [] => c :: q | p => (c :: q) ++ note p end).
  { unfold build. cbn [exception_id]. fold R. rewrite h1, h2. reflexivity. }
  assert (hfold : forall l b, (forall x, In x l -> is_current x = false) -> fold_left (fun s x => if is_current x then method x else s) l b = b).
  { induction l as [|x l IH]; intros b hl; [reflexivity|]. cbn [fold_left]. rewrite (hl x) by now left. apply IH. intros y hy. apply hl. now right. }
  split.
  - intros hno. rewrite hid. unfold paused. rewrite kept_eq, hfold by assumption. reflexivity.
  - intros a f b hs hcur hm hb. rewrite hid. unfold paused. rewrite kept_eq, hs, fold_left_app. cbn [fold_left]. rewrite hcur, hfold by assumption.
    destruct (method f) as [|k m] eqn:E; [congruence|]. reflexivity.
Qed.

Theorem description_told : forall py311 lines format filter_on max stop e rest c d, frames e <> [] -> exc_desc e = Text (c :: d) ->
  r_description (build py311 lines format filter_on max true stop (e :: rest)) = c :: d.
Proof.
  intros py311 lines format filter_on max stop e rest c d hf hd.
  assert (hn : description_of e = Some (c :: d)) by (unfold description_of; now rewrite hd).
  set (R := turns py311 lines format filter_on max (Found None None [] [] []) (e :: rest)).
  assert (h1 : description R = Some (c :: d)).
  { apply (after_first (fun r => description r = Some (c :: d))); [assumption|now rewrite first_description|].
    rewrite turns_keep_description; rewrite first_description, hn; reflexivity. }
  unfold build. cbn [r_description]. fold R. now rewrite h1.
Qed.

(** The source is the file of the first frame shown. *)
Theorem source_told : forall py311 lines format filter_on max stop e rest f fs, to_show filter_on e = f :: fs -> client f <> [] ->
  r_source (build py311 lines format filter_on max true stop (e :: rest)) = client f.
Proof.
  intros py311 lines format filter_on max stop e rest f fs hs hc.
  assert (hf : frames e <> []) by (intros h; unfold to_show in hs; rewrite h in hs; discriminate).
  assert (h0 : source (first_of py311 lines format filter_on max e) = client f).
  { unfold first_of, turn. cbv zeta. rewrite kept_eq, hs. destruct (exc_desc e); reflexivity. }
  unfold build. cbn [r_source].
  apply (after_first (fun r => source r = client f)); [assumption|assumption|].
  rewrite turns_keep_source; rewrite h0; [reflexivity|assumption].
Qed.

(** It was caught just when the thread stopped for an exception which may be caught. *)
Theorem mode_told : forall py311 lines format filter_on max topmost stop l,
  mode (build py311 lines format filter_on max topmost stop l) = Always <-> stop = 137%N.
Proof.
  intros. unfold build. cbn [mode]. unfold CMD_STEP_CAUGHT_EXCEPTION. destruct (N.eqb_spec stop 137); split; congruence.
Qed.

(** What the stopped event says does not depend on how many frames are asked for later, and is what exceptionInfo says. *)
Lemma turns_max py311 lines format filter_on m1 m2 l : forall r1 r2,
  name r1 = name r2 -> description r1 = description r2 -> paused_at r1 = paused_at r2 ->
  let a := turns py311 lines format filter_on m1 r1 l in let b := turns py311 lines format filter_on m2 r2 l in
  name a = name b /\ description a = description b /\ paused_at a = paused_at b.
Proof.
  induction l as [|e l IH]; intros r1 r2 h1 h2 h3; cbv zeta; [auto|]. cbn [turns]. destruct (frames e) as [|f fs]; [auto|].
  unfold turn. cbv zeta. destruct (exc_desc e); try (apply IH; cbn [name description paused_at]; rewrite ?h1, ?h2, ?h3; reflexivity).
  cbn [name description paused_at]. rewrite h1, h2, h3. auto.
Qed.
Theorem notice_agrees : forall py311 lines format filter_on m1 m2 topmost stop original l, stop = 137%N \/ stop = 122%N ->
  let s := fst (notification (fun r => build py311 lines format filter_on m1 topmost r l) original stop) in
  let r := build py311 lines format filter_on m2 topmost stop l in
  s_reason s = Exception_ /\ s_text s = Some (exception_id r) /\ s_description s = Some (r_description r).
Proof.
  intros py311 lines format filter_on m1 m2 topmost stop original l hs. cbv zeta.
  assert (h : fst (notification (fun r => build py311 lines format filter_on m1 topmost r l) original stop) =
    Stopped Exception_ (Some (r_description (build py311 lines format filter_on m1 topmost stop l)))
      (Some (exception_id (build py311 lines format filter_on m1 topmost stop l))) false) by (destruct hs as [-> | ->]; reflexivity).
  rewrite h. cbn [s_reason s_text s_description]. unfold build. cbn [exception_id r_description].
  destruct topmost; [|auto].
  destruct (turns_max py311 lines format filter_on m1 m2 l (Found None None [] [] []) (Found None None [] [] []) eq_refl eq_refl eq_refl) as (-> & -> & ->).
  auto.
Qed.

(** The reason told is the one for which the thread stopped.  107 to 109 and 144, 159, 160 are the steps, 206 the step into a coroutine, 128 the
    step into a chosen call, 154 the stop at the start. *)
Definition steps : list N := [107; 108; 109; 144; 159; 160; 206; 128; 154]%N.
Theorem reason_told : forall info original stop,
  let s := fst (notification info original stop) in
  (s_reason s = Entry_ <-> In stop steps /\ original = Some 154%N) /\
  (s_reason s = Step <-> In stop steps /\ original <> Some 154%N) /\
  (s_reason s = Exception_ <-> stop = 137%N \/ stop = 122%N) /\
  (s_reason s = Breakpoint <-> stop = 111%N) /\ (s_reason s = FunctionBreakpoint <-> stop = 208%N) /\ (s_reason s = Goto <-> stop = 127%N) /\
  (preserve_focus s = true <-> s_reason s = Pause) /\
  (s_reason s <> Exception_ -> s_text s = None /\ s_description s = None).
Proof.
  intros info original stop. cbv zeta.
  assert (hin : has stop step_reasons = true <-> In stop steps).
  { unfold has, step_reasons, steps. rewrite existsb_exists. split.
    - intros (x & hx & hxe). apply N.eqb_eq in hxe. subst x. cbn [In] in *. tauto.
    - intros h. exists stop. split; [cbn [In] in *; tauto|apply N.eqb_refl]. }
  assert (hexc : has stop exception_reasons = true <-> stop = 137%N \/ stop = 122%N).
  { unfold has, exception_reasons. cbn [existsb]. rewrite !orb_true_iff, !N.eqb_eq. split; [intros [h|[h|h]]; auto; discriminate|tauto]. }
  assert (hdis : In stop steps -> (stop <> 137 /\ stop <> 122 /\ stop <> 111 /\ stop <> 208 /\ stop <> 127)%N).
  { unfold steps. cbn [In]. intros h. repeat (destruct h as [<-|h]; [repeat split; discriminate|]). destruct h. }
  unfold notification. destruct (has stop step_reasons) eqn:E1.
  - destruct hin as [hin _]. specialize (hin eq_refl). destruct (hdis hin) as (d1 & d2 & d3 & d4 & d5). unfold STOP_ON_START.
    destruct original as [o|]; [destruct (N.eqb_spec o 154) as [->|n]|]; cbn [fst s_reason s_text s_description preserve_focus];
      repeat split; try discriminate; try congruence; try tauto; intuition congruence.
  - assert (hnot : ~ In stop steps) by (intros h; apply hin in h; discriminate).
    destruct (has stop exception_reasons) eqn:E2.
    + destruct hexc as [hexc _]. specialize (hexc eq_refl). cbn [fst s_reason s_text s_description preserve_focus].
      destruct hexc as [-> | ->]; intuition (try discriminate; try congruence).
    + assert (hnot2 : ~ (stop = 137%N \/ stop = 122%N)) by (intros h; apply hexc in h; discriminate).
      destruct (N.eqb_spec stop 111) as [e3|n3]; [|destruct (N.eqb_spec stop 208) as [e4|n4]; [|destruct (N.eqb_spec stop 127) as [e5|n5]]];
        cbn [fst s_reason s_text s_description preserve_focus]; intuition (try discriminate; try congruence).
Qed.
(** The stop at the start is told once: the next step is a step. *)
Theorem entry_once : forall info1 info2 original stop1 stop2, s_reason (fst (notification info1 original stop1)) = Entry_ ->
  s_reason (fst (notification info2 (snd (notification info1 original stop1)) stop2)) <> Entry_.
Proof.
  intros info1 info2 original stop1 stop2 h.
  assert (hs : snd (notification info1 original stop1) = None).
  { unfold notification in *. destruct (has stop1 step_reasons).
    - destruct original as [o|]; [destruct (N.eqb o STOP_ON_START); [reflexivity|discriminate]|discriminate].
    - destruct (has stop1 exception_reasons); [discriminate|].
      destruct (N.eqb stop1 111); [discriminate|]. destruct (N.eqb stop1 208); [discriminate|]. destruct (N.eqb stop1 127); discriminate. }
  rewrite hs. intros h2. apply reason_told in h2 as [_ h2]. discriminate.
Qed.

(** With a limit the frames left out are the first ones: where the exception was raised. *)
Theorem limit_refuted : exists py311 lines format stop f2 ty d msg, forall f1, is_current f1 = false ->
  stack_trace (build py311 lines format false 1 true stop [Exc [f1; f2] ty d msg]) =
  stack_trace (build py311 lines format false 1 true stop [Exc [f2] ty d msg]).
Proof.
  exists true, (fun _ => []), (fun l => flat_map (fun x => e_method x ++ [10%N]) l), 137%N, (Frame (lit "<module>"%string) [] [] 1 false false false None), None, NoDesc, [].
  intros f1 h. unfold build, turns, turn, kept, left_out. cbn [frames filter is_plugin filtered andb]. destruct (is_plugin f1); reflexivity.
Qed.
(** An exception without text is described with the text of its cause. *)
Theorem description_refuted : exists py311 lines format stop e1 e2, exc_desc e1 = Text [] /\ exc_desc e2 = Text (lit "x"%string) /\
  r_description (build py311 lines format false 0 true stop [e1; e2]) = lit "x"%string.
Proof.
  exists true, (fun _ => []), (fun _ => []), 137%N, (Exc [Frame [] [] [] 1 false false false None] None (Text []) []),
    (Exc [Frame [] [] [] 1 false false false None] None (Text (lit "x"%string)) []). repeat split.
Qed.
(** An exception whose text cannot be made has no stack trace at all. *)
Theorem text_refuted : forall py311 lines format filter_on max stop e rest, exc_desc e = Bad ->
  stack_trace (build py311 lines format filter_on max true stop (e :: rest)) = [].
Proof.
  intros py311 lines format filter_on max stop e rest h. unfold build. cbn [stack_trace turns]. destruct (frames e); [reflexivity|].
  unfold turn. rewrite h. reflexivity.
Qed.
(** Of a statement of several lines the first line is not shown, but the line after the last is. *)
Theorem several_lines_refuted : exists lines f, lines (original f) = [lit "f("%string; lit "1)"%string; lit "g"%string] /\ client f = original f /\
  line f = 1 /\ position f = Some (Some 2) /\ e_text (entry_of true lines f) = lit "1)"%string ++ [10%N] ++ lit "g"%string.
Proof.
  exists (fun _ => [lit "f("%string; lit "1)"%string; lit "g"%string]), (Frame [] [] [] 1 false false false (Some (Some 2))). repeat split.
Qed.
(** And it is looked for in the file of the client: when paths are mapped nothing is shown. *)
Theorem mapped_refuted : exists lines f, lines (original f) = [lit "f("%string; lit "1)"%string; lit "g"%string] /\
  lines (client f) = [] /\ line f = 1 /\ position f = Some (Some 2) /\ e_text (entry_of true lines f) = [].
Proof.
  exists (fun p => match p with [] => [lit "f("%string; lit "1)"%string; lit "g"%string] | _ => [] end), (Frame [] [] [99%N] 1 false false false (Some (Some 2))).
  repeat split.
Qed.

(** The same further down: the causes from there on are not shown, nor those of an exception without frames. *)
Theorem chain_cut : forall py311 lines format filter_on max stop l1 e l2, Forall tellable l1 -> ~ tellable e ->
  stack_trace (build py311 lines format filter_on max true stop (l1 ++ e :: l2)) = stack_trace (build py311 lines format filter_on max true stop l1).
Proof.
  intros py311 lines format filter_on max stop l1 e l2 hl he. unfold build. cbn [stack_trace].
  generalize (Found None None [] [] []). induction hl as [|x l [hx hd] _ IH]; intros r.
  - cbn [app turns]. destruct (frames e) as [|f fs] eqn:E; [reflexivity|].
    assert (hb : exc_desc e = Bad).
    { destruct (exc_desc e) eqn:Ed; [exfalso|exfalso|reflexivity]; apply he; split; congruence. }
    unfold turn. rewrite hb. reflexivity.
  - cbn [app turns]. destruct (frames x) as [|f fs]; [reflexivity|]. destruct (turn py311 lines format filter_on max r x) as [r' [|]]; [apply IH|reflexivity].
Qed.

(** Examples *)
Definition ex_type : option etype := Some (Etype (Some (lit "E"%string)) (Some (lit "E"%string)) None (Some (lit "m"%string))).
Definition ex_frame (n : string) (k : nat) (cur : bool) : frame := Frame (lit n) (lit "a"%string) (lit "b"%string) k cur false false None.
Definition ex_chain : list exc :=
  [Exc [ex_frame "f" 1 false; ex_frame "g" 2 true] ex_type (Text (lit "x"%string)) []; Exc [ex_frame "h" 1 false] ex_type NoDesc (lit "caused"%string)].
Example told_example : Forall tellable ex_chain /\ chained_ok (tl ex_chain) /\
  stack_trace (build true (fun _ => [lit "1"%string; lit "2"%string]) (flat_map (fun x => e_method x ++ e_text x)) false 0 true 137 ex_chain) =
  lit "h1m.E: None"%string ++ [10%N] ++ lit "causedf1g (Current frame)2m.E: x"%string ++ [10%N] /\
  exception_id (build true (fun _ => []) (fun _ => []) false 0 true 137 ex_chain) =
  lit "E       (note: full exception trace is shown but execution is paused at: g)"%string.
Proof.
  split; [repeat constructor; discriminate|]. split; [|split; reflexivity].
  intros e f [<-|[]] [<-|[]]. reflexivity.
Qed.

Print Assumptions stack_told.
Print Assumptions exception_told.
Print Assumptions description_told.
Print Assumptions source_told.
Print Assumptions mode_told.
Print Assumptions notice_agrees.
Print Assumptions reason_told.
Print Assumptions entry_once.
Print Assumptions limit_refuted.
Print Assumptions description_refuted.
Print Assumptions text_refuted.
Print Assumptions several_lines_refuted.
Print Assumptions mapped_refuted.
Print Assumptions chain_cut.
