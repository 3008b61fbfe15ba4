(** C36: extra frames shown for a suspended thread are gone when it resumes. C43: the greenlets shown as paused are the
    paused ones. *)
From Coq Require Import List NArith ZArith Bool Lia.
From Verif Require Import Base Dict CustomFrames.
Import ListNotations.

(** ** Specification, C36 *)
(** What the client shows, from the messages *)
Definition shown (l : list msg) (id : N) : bool :=
  fold_left (fun b m => match m with Created i _ => if N.eqb i id then true else b | Killed i => if N.eqb i id then false else b | _ => b end) l false.
(** How many frames were added *)
Definition added (h : list op) : N := N.of_nat (List.length (filter (fun o => match o with Add _ _ _ => true | _ => false end) h)).
(** The thread a frame belongs to, the n-th frame added being number n; None if removed or not added *)
Fixpoint owner_rev (r : list op) (id : N) : option val :=
  match r with
  | [] => None
  | Add _ _ t :: r => if N.eqb id (N.succ (added r)) then Some t else owner_rev r id
  | Update i _ t _ :: r => if N.eqb id i then match owner_rev r id with Some _ => Some t | None => None end else owner_rev r id
  | Remove i :: r => if N.eqb id i then None else owner_rev r id
  | _ :: r => owner_rev r id
  end.
Definition owner (h : list op) (id : N) : option val := owner_rev (rev h) id.
Definition about_frames (o : op) : Prop := match o with Stop _ | Resume _ => False | _ => True end.
(** One thread at a time is suspended; the history until it stopped is kept. *)
Inductive turns : list op -> option (Z * list op) -> Prop :=
| turns_nil : turns [] None
| turns_frames : forall h st o, turns h st -> about_frames o -> turns (h ++ [o]) st
| turns_stop : forall h t, turns h None -> turns (h ++ [Stop t]) (Some (t, h))
| turns_resume : forall h t h0, turns h (Some (t, h0)) -> turns (h ++ [Resume t]) None.

(** ** Proofs *)
Lemma val_eqb_spec a b : reflect (a = b) (val_eqb a b).
Proof.
  destruct a as [x|x], b as [y|y]; cbn [val_eqb]; try (right; discriminate).
  - destruct (Z.eqb_spec x y); [left | right]; congruence.
  - destruct (str_eqb_spec x y); [left | right]; congruence.
Qed.
Lemma run_app h o : run (h ++ [o]) = exec (run h) o.
Proof. unfold run. rewrite fold_left_app. reflexivity. Qed.
Lemma owner_app h o id : owner (h ++ [o]) id =
  match o with
  | Add _ _ t => if N.eqb id (N.succ (added h)) then Some t else owner h id
  | Update i _ t _ => if N.eqb id i then match owner h id with Some _ => Some t | None => None end else owner h id
  | Remove i => if N.eqb id i then None else owner h id
  | _ => owner h id
  end.
Proof.
  unfold owner. rewrite rev_app_distr. cbn [rev app owner_rev].
  replace (added (rev h)) with (added h); [destruct o; reflexivity|].
  unfold added. f_equal. induction h as [|x h IH]; [reflexivity|]. cbn [rev filter]. rewrite filter_app, app_length. cbn [filter].
  destruct x; cbn [List.length]; lia.
Qed.
Lemma added_app h o : added (h ++ [o]) = match o with Add _ _ _ => N.succ (added h) | _ => added h end.
Proof. unfold added. rewrite filter_app, app_length. destruct o; cbn; lia. Qed.

Lemma custom_owner h : NoDup (keys (custom (cf (run h)))) /\ next_id (cf (run h)) = added h
  /\ (forall id c, get N.eqb id (custom (cf (run h))) = Some c -> (id <= added h)%N)
  /\ forall id, option_map thread (get N.eqb id (custom (cf (run h)))) = owner h id.
Proof.
  induction h as [|o h (ND & Nx & Le & IH)] using rev_ind; [repeat split; [constructor | discriminate]|].
  rewrite run_app, added_app. destruct o as [f nm t|i f t nm|i|t|t]; cbn [exec cf].
  - cbn [add_custom fst custom next_id]. rewrite Nx. split; [apply (NoDup_keys_set _ N.eqb_spec), ND|]. split; [reflexivity|]. split.
    + intros id c. rewrite (get_set _ N.eqb_spec). destruct (N.eqb_spec id (N.succ (added h))); [lia|]. intro H. apply Le in H. lia.
    + intro id. rewrite (get_set _ N.eqb_spec), owner_app. destruct (N.eqb id (N.succ (added h))); [reflexivity | apply IH].
  - unfold update_custom. destruct (get N.eqb i (custom (cf (run h)))) as [old|] eqn:E; cbn [custom next_id].
    + split; [apply (NoDup_keys_set _ N.eqb_spec), ND|]. split; [exact Nx|]. split.
      * intros id c. rewrite (get_set _ N.eqb_spec). destruct (N.eqb_spec id i) as [->|]; [intros _; eapply Le, E | apply Le].
      * intro id. rewrite (get_set _ N.eqb_spec), owner_app. destruct (N.eqb_spec id i) as [->|]; [|apply IH].
        rewrite <- IH, E. reflexivity.
    + split; [exact ND|]. split; [exact Nx|]. split; [exact Le|]. intro id. rewrite owner_app.
      destruct (N.eqb_spec id i) as [->|]; [|apply IH]. rewrite <- IH, E. reflexivity.
  - cbn [remove_custom custom next_id]. split; [apply NoDup_keys_del, ND|]. split; [exact Nx|]. split.
    + intros id c. rewrite (get_del _ N.eqb_spec) by exact ND. destruct (N.eqb id i); [discriminate | apply Le].
    + intro id. rewrite (get_del _ N.eqb_spec) by exact ND. rewrite owner_app. destruct (N.eqb id i); [reflexivity | apply IH].
  - cbn [stop cf]. repeat split; auto. intro id. rewrite owner_app. apply IH.
  - unfold resume. destruct (get Z.eqb t (waiting (run h))); cbn [cf]; repeat split; auto; intro id; rewrite owner_app; apply IH.
Qed.
Lemma shown_app l m id : shown (l ++ m) id =
  fold_left (fun b m => match m with Created i _ => if N.eqb i id then true else b | Killed i => if N.eqb i id then false else b | _ => b end) m (shown l id).
Proof. unfold shown. rewrite fold_left_app. reflexivity. Qed.

Lemma shown_created (d : list (N * cframe)) t id : forall b, NoDup (keys d) ->
  fold_left (fun b m => match m with Created i _ => if N.eqb i id then true else b | Killed i => if N.eqb i id then false else b | _ => b end)
    (flat_map (fun x => if val_eqb (thread (snd x)) (Ident t) then [Created (fst x) (name (snd x)); Suspended (fst x)] else []) d) b
  = b || match get N.eqb id d with Some c => val_eqb (thread c) (Ident t) | None => false end.
Proof.
  induction d as [|[i c] d IH]; intros b N; cbn [flat_map]; [rewrite orb_false_r; reflexivity|].
  cbn [keys map fst] in N. inversion N as [|? ? Hn N']; subst. rewrite fold_left_app, IH by exact N'. cbn [fst snd get].
  rewrite (N.eqb_sym id i). destruct (N.eqb_spec i id) as [->|].
  - replace (get N.eqb id d) with (@None cframe).
    + destruct (val_eqb (thread c) (Ident t)); cbn [fold_left]; rewrite ?N.eqb_refl, ?orb_true_r, ?orb_false_r; reflexivity.
    + symmetry. apply (get_None _ N.eqb_spec). exact Hn.
  - destruct (val_eqb (thread c) (Ident t)); cbn [fold_left]; [|reflexivity].
    destruct (N.eqb_spec i id); [contradiction | reflexivity].
Qed.
Lemma shown_killed l id : forall b,
  fold_left (fun b m => match m with Created i _ => if N.eqb i id then true else b | Killed i => if N.eqb i id then false else b | _ => b end) (map Killed l) b
  = b && negb (existsb (N.eqb id) l).
Proof.
  induction l as [|i l IH]; intro b; cbn [map fold_left existsb]; [rewrite andb_true_r; reflexivity|]. rewrite IH, (N.eqb_sym id i).
  destruct (N.eqb i id); cbn [orb negb]; [rewrite andb_false_r|]; reflexivity.
Qed.
Lemma existsb_keys (d : list (N * cframe)) id : existsb (N.eqb id) (keys d) = match get N.eqb id d with Some _ => true | None => false end.
Proof.
  induction d as [|[i c] d IH]; [reflexivity|]. cbn [keys map fst existsb get]. destruct (N.eqb id i); [reflexivity | exact IH].
Qed.

(** What a stop adds to what is shown *)
Lemma shown_stop h t id : shown (sent (run (h ++ [Stop t]))) id = shown (sent (run h)) id ||
  match owner h id with Some o => val_eqb o (Ident t) | None => false end.
Proof.
  rewrite run_app. cbn [exec stop sent]. destruct (custom_owner h) as (ND & _ & _ & O).
  rewrite shown_app, (shown_created _ t id _ ND), <- O. destruct (get N.eqb id (custom (cf (run h)))); reflexivity.
Qed.
Lemma about_frames_run h o : about_frames o -> sent (run (h ++ [o])) = sent (run h) /\ waiting (run (h ++ [o])) = waiting (run h).
Proof. intro A. rewrite run_app. destruct o; cbn [exec sent waiting]; try destruct A; auto. Qed.

(** ** Theorems, C36 *)

(** With one thread suspended at a time, the client shows, while a thread is suspended, exactly the extra frames which
    belonged to it when it stopped, and none after it resumed. *)
Theorem custom_frames_shown : forall h st, turns h st -> forall id,
  shown (sent (run h)) id = true <-> exists t h0, st = Some (t, h0) /\ owner h0 id = Some (Ident t).
Proof.
  assert (G : forall h st, turns h st ->
    (forall id, shown (sent (run h)) id = match st with Some (t, h0) => match owner h0 id with Some o => val_eqb o (Ident t) | None => false end | None => false end)
    /\ match st with Some (t, h0) => exists from, get Z.eqb t (waiting (run h)) = Some from /\ forall id, owner h0 id <> None -> existsb (N.eqb id) from = true | None => True end).
  { induction 1 as [|h st o H [IH W] A|h t H [IH W]|h t h0 H [IH W]].
    - split; [reflexivity | exact I].
    - destruct (about_frames_run h o A) as [-> ->]. auto.
    - split; [intro id; rewrite shown_stop, IH; reflexivity|]. exists (keys (custom (cf (run h)))). split.
      + rewrite run_app. cbn [exec stop waiting]. apply (get_set_same _ Z.eqb_spec).
      + intros id Hid. rewrite existsb_keys. destruct (custom_owner h) as (_ & _ & _ & O). rewrite <- O in Hid.
        destruct (get N.eqb id (custom (cf (run h)))); [reflexivity | contradiction].
    - split; [|exact I]. intro id. destruct W as (from & E & Hf). rewrite run_app. cbn [exec]. unfold resume. rewrite E. cbn [sent].
      rewrite shown_app. cbn [fold_left]. rewrite shown_killed, IH. specialize (Hf id).
      destruct (owner h0 id) as [o|]; [|reflexivity]. rewrite Hf by discriminate. apply andb_false_r. }
  intros h st H id. rewrite (proj1 (G h st H) id). split.
  - destruct st as [[t h0]|]; [|discriminate]. destruct (owner h0 id) as [o|] eqn:E; [|discriminate]. intro X.
    destruct (val_eqb_spec o (Ident t)); [|discriminate]. subst. eauto.
  - intros (t & h0 & -> & E). rewrite E. cbn. apply Z.eqb_refl.
Qed.

(** Whatever other threads do, when a thread resumes none of the extra frames which were shown for it is left. *)
Theorem custom_frames_gone : forall h t h2 id, ~ In (Resume t) h2 -> ~ In (Stop t) h2 -> owner h id = Some (Ident t) ->
  shown (sent (run (h ++ [Stop t] ++ h2 ++ [Resume t]))) id = false.
Proof.
  intros h t h2 id NR NS O. rewrite !app_assoc, run_app. cbn [exec]. unfold resume.
  assert (W : get Z.eqb t (waiting (run ((h ++ [Stop t]) ++ h2))) = Some (keys (custom (cf (run h))))).
  { induction h2 as [|o h2 IH] using rev_ind.
    - rewrite app_nil_r, run_app. cbn [exec stop waiting]. apply (get_set_same _ Z.eqb_spec).
    - rewrite in_app_iff in NR, NS. assert (X := IH (fun H => NR (or_introl H)) (fun H => NS (or_introl H))).
      rewrite app_assoc, run_app. destruct o as [f nm x|i f x nm|i|x|x]; cbn [exec waiting]; auto.
      + cbn [stop waiting]. rewrite (get_set_other _ Z.eqb_spec); [exact X|]. intros ->. apply NS. right. left. reflexivity.
      + unfold resume. destruct (get Z.eqb x (waiting (run ((h ++ [Stop t]) ++ h2)))); [|exact X]. cbn [waiting].
        rewrite (get_del_other _ Z.eqb_spec); [exact X|]. intros ->. apply NR. right. left. reflexivity. }
  rewrite W. cbn [sent]. rewrite shown_app. cbn [fold_left]. rewrite shown_killed, existsb_keys.
  destruct (custom_owner h) as (_ & _ & _ & Ow). rewrite <- Ow in O. destruct (get N.eqb id (custom (cf (run h)))); [|discriminate].
  apply andb_false_r.
Qed.

(** With two threads suspended, resuming one removes the frames shown for the other as well. *)
Theorem custom_frames_others_refuted : exists h t t' id, t' <> t /\ owner h id = Some (Ident t')
  /\ shown (sent (run (h ++ [Stop t'; Stop t]))) id = true /\ shown (sent (run (h ++ [Stop t'; Stop t; Resume t]))) id = false.
Proof. exists [Add 0 (Text []) (Ident 7)], 8%Z, 7%Z, 1%N. repeat split. discriminate. Qed.

(** ** Specification, C43 *)
(** A switch of greenlets: thread, origin, target and, if the origin goes on later, its frame and name *)
Definition switch := (Z * N * N * option (N * str))%type.
Definition grun (h : list switch) : gstate :=
  fold_left (fun s e => let '(t, o, g, p) := e in greenlet_switch s t o g p) h (GState [] no_frames).
(** Every switch goes from the greenlet running in the thread to one of the same thread. *)
Inductive gtrace (belongs : N -> Z) : list switch -> (Z -> N) -> Prop :=
| gtrace_nil : forall cur, (forall t, belongs (cur t) = t) -> gtrace belongs [] cur
| gtrace_switch : forall h cur t g p, gtrace belongs h cur -> belongs g = t -> (g = cur t -> p = None) ->
    gtrace belongs (h ++ [(t, cur t, g, p)]) (fun x => if Z.eqb x t then g else cur x).
(** The greenlets which were switched from and not yet switched to again *)
Definition paused (h : list switch) (g : N) : option (N * str * Z) :=
  fold_left (fun acc e => let '(t, o, tg, p) := e in
    if N.eqb g tg then None
    else if N.eqb g o then match p with Some (f, nm) => Some (f, nm, t) | None => None end
    else acc) h None.

Record ginv (belongs : N -> Z) (s : gstate) (h : list switch) (cur : Z -> N) : Prop := {
  g_saved : NoDup (keys (saved s));
  g_custom : NoDup (keys (custom (gf s)));
  g_get : forall g, match get N.eqb g (saved s) with
                    | Some id => (id <= next_id (gf s))%N /\ exists f nm t, paused h g = Some (f, nm, t) /\ get N.eqb id (custom (gf s)) = Some (CFrame f (Text nm) (Ident t))
                    | None => paused h g = None
                    end;
  g_inj : forall g g' id, get N.eqb g (saved s) = Some id -> get N.eqb g' (saved s) = Some id -> g = g';
  g_only : forall id c, get N.eqb id (custom (gf s)) = Some c -> exists g, get N.eqb g (saved s) = Some id;
  g_cur : forall t, belongs (cur t) = t /\ get N.eqb (cur t) (saved s) = None
}.
Lemma grun_app h e : grun (h ++ [e]) = let '(t, o, g, p) := e in greenlet_switch (grun h) t o g p.
Proof. unfold grun. rewrite fold_left_app. reflexivity. Qed.
Lemma paused_app h t o tg p g : paused (h ++ [(t, o, tg, p)]) g =
  if N.eqb g tg then None else if N.eqb g o then match p with Some (f, nm) => Some (f, nm, t) | None => None end else paused h g.
Proof. unfold paused. rewrite fold_left_app. reflexivity. Qed.

Lemma gtrace_inv belongs h cur : gtrace belongs h cur -> ginv belongs (grun h) h cur.
Proof.
  induction 1 as [cur C|h cur t g p H [Is Ic Ig Ii Io Iu] B P].
  - constructor; cbn; try constructor; try discriminate; try reflexivity. apply C.
  - rewrite grun_app. unfold greenlet_switch. cbv zeta. destruct (Iu t) as [Bc Gc]. rewrite Gc.
    (* after the origin's part *)
    set (s1 := match p with
               | Some (f, nm) => let (fs, id) := add_custom (gf (grun h)) f (Text nm) (Ident t) in GState (set N.eqb (cur t) id (saved (grun h))) fs
               | None => grun h
               end).
    change (ginv belongs (match get N.eqb g (saved s1) with
                          | Some id => GState (del N.eqb g (saved s1)) (remove_custom (gf s1) id)
                          | None => s1
                          end) (h ++ [(t, cur t, g, p)]) (fun x => if Z.eqb x t then g else cur x)).
    assert (I1 : NoDup (keys (saved s1)) /\ NoDup (keys (custom (gf s1)))
       /\ (forall x, match get N.eqb x (saved s1) with
            | Some id => (id <= next_id (gf s1))%N /\ exists f nm t', (if N.eqb x (cur t) then match p with Some (f, nm) => Some (f, nm, t) | None => None end else paused h x) = Some (f, nm, t') /\ get N.eqb id (custom (gf s1)) = Some (CFrame f (Text nm) (Ident t'))
            | None => (if N.eqb x (cur t) then match p with Some (f, nm) => Some (f, nm, t) | None => None end else paused h x) = None
            end)
       /\ (forall x x' id, get N.eqb x (saved s1) = Some id -> get N.eqb x' (saved s1) = Some id -> x = x')
       /\ (forall id c, get N.eqb id (custom (gf s1)) = Some c -> exists x, get N.eqb x (saved s1) = Some id)
       /\ (forall x, x <> cur t -> get N.eqb x (saved s1) = get N.eqb x (saved (grun h)))).
    { unfold s1. destruct p as [[f nm]|].
      - cbn [add_custom saved gf custom next_id]. set (n := N.succ (next_id (gf (grun h)))).
        assert (Fresh : forall x id, get N.eqb x (saved (grun h)) = Some id -> id <> n).
        { intros x id E. specialize (Ig x). rewrite E in Ig. unfold n. lia. }
        split; [apply (NoDup_keys_set _ N.eqb_spec), Is|]. split; [apply (NoDup_keys_set _ N.eqb_spec), Ic|].
        split; [|split; [|split]].
        + intro x. rewrite (get_set _ N.eqb_spec). destruct (N.eqb_spec x (cur t)) as [->|].
          * split; [lia|]. exists f, nm, t. split; [reflexivity|]. apply (get_set_same _ N.eqb_spec).
          * specialize (Ig x). destruct (get N.eqb x (saved (grun h))) as [id|] eqn:E; [|exact Ig].
            destruct Ig as [L (f' & nm' & t' & Q & G)]. split; [unfold n; lia|]. exists f', nm', t'. split; [exact Q|].
            rewrite (get_set_other _ N.eqb_spec); [exact G|]. apply not_eq_sym, (Fresh x), E.
        + intros x x' id. rewrite !(get_set _ N.eqb_spec). destruct (N.eqb_spec x (cur t)), (N.eqb_spec x' (cur t)); subst; auto.
          * intros A A'. injection A as <-. exfalso. exact (Fresh x' _ A' eq_refl).
          * intros A A'. injection A' as <-. exfalso. exact (Fresh x _ A eq_refl).
          * apply Ii.
        + intros id c. rewrite (get_set _ N.eqb_spec). destruct (N.eqb_spec id n) as [->|].
          * intros _. exists (cur t). apply (get_set_same _ N.eqb_spec).
          * intro E. destruct (Io id c E) as [x Ex]. exists x. rewrite (get_set_other _ N.eqb_spec); [exact Ex|].
            intros <-. congruence.
        + intros x Hx. rewrite (get_set_other _ N.eqb_spec); [reflexivity | congruence].
      - split; [exact Is|]. split; [exact Ic|]. split; [|split; [exact Ii|split; [exact Io | reflexivity]]].
        intro x. destruct (N.eqb_spec x (cur t)) as [->|]; [rewrite Gc; reflexivity | apply Ig]. }
    destruct I1 as (Is1 & Ic1 & Ig1 & Ii1 & Io1 & Iu1).
    assert (Hcur : forall x, belongs (if Z.eqb x t then g else cur x) = x).
    { intro x. destruct (Z.eqb_spec x t) as [->|]; [exact B | apply Iu]. }
    assert (Other : forall x, x <> t -> cur x <> cur t) by (intros x Hx E; apply Hx; rewrite <- (proj1 (Iu x)), E; apply Iu).
    assert (OtherG : forall x, x <> t -> cur x <> g) by (intros x Hx E; apply Hx; rewrite <- (proj1 (Iu x)), E; exact B).
    destruct (get N.eqb g (saved s1)) as [id|] eqn:Eg.
    + constructor; cbn [saved gf remove_custom custom next_id].
      * apply NoDup_keys_del, Is1.
      * apply NoDup_keys_del, Ic1.
      * intro x. rewrite (get_del _ N.eqb_spec) by exact Is1. rewrite paused_app. destruct (N.eqb_spec x g) as [->|Hx]; [reflexivity|].
        specialize (Ig1 x). destruct (get N.eqb x (saved s1)) as [i|] eqn:Ex; [|exact Ig1].
        destruct Ig1 as [L (f & nm & t' & Q & G)]. split; [exact L|]. exists f, nm, t'. split; [exact Q|].
        rewrite (get_del_other _ N.eqb_spec); [exact G|]. intros <-. apply Hx. exact (Ii1 x g _ Ex Eg).
      * intros x x' i. rewrite !(get_del _ N.eqb_spec) by exact Is1. destruct (N.eqb x g); [discriminate|]. destruct (N.eqb x' g); [discriminate|]. apply Ii1.
      * intros i c. rewrite (get_del _ N.eqb_spec) by exact Ic1. destruct (N.eqb_spec i id) as [->|Hi]; [discriminate|]. intro E.
        destruct (Io1 i c E) as [x Ex]. exists x. rewrite (get_del_other _ N.eqb_spec); [exact Ex|]. intros <-. congruence.
      * intro x. split; [apply Hcur|]. rewrite (get_del _ N.eqb_spec) by exact Is1. destruct (Z.eqb_spec x t) as [->|Hx]; [rewrite N.eqb_refl; reflexivity|].
        destruct (N.eqb_spec (cur x) g); [reflexivity|]. rewrite Iu1 by (apply Other, Hx). apply Iu.
    + constructor; auto.
      * intro x. rewrite paused_app. destruct (N.eqb_spec x g) as [->|Hx]; [rewrite Eg; reflexivity | apply Ig1].
      * intro x. split; [apply Hcur|]. destruct (Z.eqb_spec x t) as [->|Hx]; [exact Eg|].
        rewrite Iu1 by (apply Other, Hx). apply Iu.
Qed.

(** ** Theorems, C43 *)

(** The extra frames are exactly the paused greenlets, each once, with its frame, name and thread, in all interleavings of
    the switches of all threads; the greenlets which are running are not among them. *)
Theorem greenlets_shown : forall belongs h cur, gtrace belongs h cur ->
  exists frame_of : N -> option N,
    (forall g g' id, frame_of g = Some id -> frame_of g' = Some id -> g = g')
    /\ (forall id c, get N.eqb id (custom (gf (grun h))) = Some c <->
         exists g f nm t, frame_of g = Some id /\ paused h g = Some (f, nm, t) /\ c = CFrame f (Text nm) (Ident t))
    /\ (forall g, frame_of g = None <-> paused h g = None)
    /\ (forall t, frame_of (cur t) = None).
Proof.
  intros belongs h cur H. destruct (gtrace_inv _ _ _ H) as [Is Ic Ig Ii Io Iu].
  exists (fun g => get N.eqb g (saved (grun h))). split; [exact Ii|]. split.
  - intros id c. split.
    + intro E. destruct (Io id c E) as [g Eg]. specialize (Ig g). rewrite Eg in Ig. destruct Ig as [_ (f & nm & t & Q & G)].
      exists g, f, nm, t. repeat split; auto. congruence.
    + intros (g & f & nm & t & Eg & Q & ->). specialize (Ig g). rewrite Eg in Ig. destruct Ig as [_ (f' & nm' & t' & Q' & G)].
      rewrite Q in Q'. injection Q' as <- <- <-. exact G.
  - split; [|intro t; apply Iu]. intro g. specialize (Ig g). destruct (get N.eqb g (saved (grun h))); [|split; auto].
    destruct Ig as [_ (f & nm & t & Q & _)]. split; intro X; [discriminate | congruence].
Qed.
(** If a switch was not reported, so that a greenlet recorded as paused switches again, its name and thread are mixed up:
    it is not shown any more for its thread. *)
Theorem greenlets_missed_refuted : exists h g f nm t, paused h g = Some (f, nm, t)
  /\ forall id c, get N.eqb id (custom (gf (grun h))) = Some c -> thread c <> Ident t.
Proof.
  exists [(7%Z, 1%N, 2%N, Some (5%N, [97%N])); (7%Z, 1%N, 3%N, Some (5%N, [97%N]))], 1%N, 5%N, [97%N], 7%Z.
  split; [reflexivity|]. intros id c H. destruct id as [|[p|p|]]; cbv in H; try discriminate; injection H as <-; cbn; discriminate.
Qed.

(** ** Concrete cases *)
Example ex_turns : turns [Add 0 (Text []) (Ident 7); Add 1 (Text []) (Ident 8); Stop 7; Remove 1]
  (Some (7%Z, [Add 0 (Text []) (Ident 7); Add 1 (Text []) (Ident 8)])).
Proof.
  apply (turns_frames [Add 0 (Text []) (Ident 7); Add 1 (Text []) (Ident 8); Stop 7]); [|exact I].
  apply (turns_stop [Add 0 (Text []) (Ident 7); Add 1 (Text []) (Ident 8)]).
  apply (turns_frames [Add 0 (Text []) (Ident 7)]); [|exact I]. apply (turns_frames []); [constructor | exact I].
Qed.
Example ex_shown : let h := [Add 0 (Text []) (Ident 7); Add 1 (Text []) (Ident 8); Stop 7; Remove 1] in
  shown (sent (run h)) 1 = true /\ shown (sent (run h)) 2 = false /\ owner [Add 0 (Text []) (Ident 7); Add 1 (Text []) (Ident 8)] 2 = Some (Ident 8).
Proof. repeat split. Qed.
(** Greenlets numbered so that each thread has ten *)
Definition ex_belongs (g : N) : Z := let k := (Z.of_N g / 10)%Z in if Z.even k then Z.div k 2 else Z.opp (Z.div (k + 1) 2).
Definition ex_first (t : Z) : N := Z.to_N (10 * (if Z.ltb t 0 then -2 * t - 1 else 2 * t)).
Example ex_gtrace : exists cur, gtrace ex_belongs
  [(7%Z, 140%N, 141%N, Some (5%N, [97%N])); (8%Z, 160%N, 161%N, Some (6%N, [98%N])); (7%Z, 141%N, 140%N, None)] cur.
Proof.
  assert (C : forall t, ex_belongs (ex_first t) = t).
  { intro t. unfold ex_belongs, ex_first. cbv zeta. destruct (Z.ltb_spec t 0).
    - rewrite Z2N.id by lia. rewrite (Z.mul_comm 10), Z.div_mul by lia.
      replace (-2 * t - 1)%Z with (1 + 2 * (- t - 1))%Z by lia. rewrite Z.even_add_mul_2. cbn [Z.even].
      replace (1 + 2 * (- t - 1) + 1)%Z with ((- t) * 2)%Z by lia. rewrite Z.div_mul by lia. lia.
    - rewrite Z2N.id by lia. rewrite (Z.mul_comm 10), Z.div_mul by lia. rewrite Z.even_mul. cbn [Z.even orb].
      rewrite (Z.mul_comm 2), Z.div_mul by lia. reflexivity. }
  assert (G0 := gtrace_nil ex_belongs ex_first C).
  assert (G1 := gtrace_switch ex_belongs _ _ 7%Z 141%N (Some (5%N, [97%N])) G0 eq_refl ltac:(discriminate)).
  assert (G2 := gtrace_switch ex_belongs _ _ 8%Z 161%N (Some (6%N, [98%N])) G1 eq_refl ltac:(discriminate)).
  assert (G3 := gtrace_switch ex_belongs _ _ 7%Z 140%N None G2 eq_refl ltac:(reflexivity)).
  eexists. exact G3.
Qed.
Example ex_paused : let h := [(7%Z, 140%N, 141%N, Some (5%N, [97%N])); (8%Z, 160%N, 161%N, Some (6%N, [98%N])); (7%Z, 141%N, 140%N, None)] in
  paused h 160 = Some (6%N, [98%N], 8%Z) /\ paused h 140 = None
  /\ values (custom (gf (grun h))) = [CFrame 6 (Text [98%N]) (Ident 8)].
Proof. repeat split. Qed.

Print Assumptions custom_frames_shown.
Print Assumptions custom_frames_gone.
Print Assumptions custom_frames_others_refuted.
Print Assumptions greenlets_shown.
Print Assumptions greenlets_missed_refuted.
