(** C46: every module is announced once. *)
From Coq Require Import List NArith Bool Lia.
From Verif Require Import Base Dict Modules.
Import ListNotations.
Local Open Scope list_scope.

(** ** Specification *)
Definition announced (l : list msg) : list (N * N) := flat_map (fun m => match m with Module f i => [(f, i)] | _ => [] end) l.
(** The files of a request *)
Fixpoint asked (h : list op) (r : N) : option (list N) :=
  match h with
  | [] => None
  | Ask r' files :: h => if N.eqb r r' then Some files else asked h r
  | _ :: h => asked h r
  end.
Definition answered (s : state) (r : N) : Prop := In (Response r) (out s).

(** ** Proofs *)
Definition pending (q : req) : list (N * N) :=
  match q with Tracking _ _ evs | Sending evs | Failed evs => evs | _ => [] end.
Record inv (h : list op) (s : state) : Prop := {
  i_keys : NoDup (keys (mods s));
  i_ids : forall f i, get N.eqb f (mods s) = Some i -> (i < next s)%N;
  i_inj : forall f f' i, get N.eqb f (mods s) = Some i -> get N.eqb f' (mods s) = Some i -> f = f';
  i_pend : forall r f i, In (f, i) (pending (reqs s r)) -> get N.eqb f (mods s) = Some i /\ ~ In f (map fst (announced (out s)))
             /\ forall r', r' <> r -> ~ In f (map fst (pending (reqs s r')));
  i_pnd : forall r, NoDup (map fst (pending (reqs s r)));
  i_out : NoDup (map fst (announced (out s)));
  i_reg : forall f i, In (f, i) (announced (out s)) -> get N.eqb f (mods s) = Some i;
  i_all : forall f i, get N.eqb f (mods s) = Some i -> In (f, i) (announced (out s)) \/ exists r, In (f, i) (pending (reqs s r));
  i_asked : forall r files, asked h r = Some files -> forall f, In f files ->
     match reqs s r with
     | Idle => False
     | Tracking todo _ _ => In f todo \/ mem N.eqb f (mods s) = true
     | Failed _ => True
     | _ => mem N.eqb f (mods s) = true
     end;
  i_idle : forall r, asked h r = None <-> reqs s r = Idle;
  i_resp : forall r, answered s r <-> reqs s r = Done
}.
Lemma run_app h o : run (h ++ [o]) = exec (run h) o.
Proof. unfold run. rewrite fold_left_app. reflexivity. Qed.
Lemma asked_app h o r : asked (h ++ [o]) r = match asked h r with Some x => Some x | None => match o with Ask r' files => if N.eqb r r' then Some files else None | _ => None end end.
Proof.
  induction h as [|[r' files|r'] h IH]; cbn [app asked].
  - destruct o; reflexivity.
  - destruct (N.eqb r r'); [reflexivity | exact IH].
  - exact IH.
Qed.
Lemma announced_app a b : announced (a ++ b) = announced a ++ announced b.
Proof. unfold announced. apply flat_map_app. Qed.
Lemma mem_get (d : list (N * N)) f : mem N.eqb f d = true <-> exists i, get N.eqb f d = Some i.
Proof. unfold mem. destruct (get N.eqb f d); split; intro H; [eauto | reflexivity | discriminate | destruct H; discriminate]. Qed.
Lemma upd_same s r q : upd s r q r = q.
Proof. unfold upd. rewrite N.eqb_refl. reflexivity. Qed.
Lemma upd_other s r q x : x <> r -> upd s r q x = reqs s x.
Proof. unfold upd. intro H. destruct (N.eqb_spec x r); [contradiction | reflexivity]. Qed.

(** A step of [r] which only changes the request, keeping its pending events *)
Lemma inv_local h h' s r q : inv h s -> pending q = pending (reqs s r) -> (forall x, x <> r -> asked h' x = asked h x) ->
  (forall files, asked h' r = Some files -> forall f, In f files ->
     match q with Idle => False | Tracking todo _ _ => In f todo \/ mem N.eqb f (mods s) = true | Failed _ => True | _ => mem N.eqb f (mods s) = true end) ->
  (asked h' r = None <-> q = Idle) -> (reqs s r <> Done) -> q <> Done ->
  inv h' (State (mods s) (next s) (upd s r q) (out s)).
Proof.
  intros [A B C D E F G H I J K] P O Q R ND ND'.
  assert (Pe : forall x, pending (upd s r q x) = pending (reqs s x)) by (intro x; unfold upd; destruct (N.eqb_spec x r) as [->|]; auto).
  constructor; cbn [mods next reqs out]; auto.
  - intros x f i Hin. rewrite Pe in Hin. destruct (D x f i Hin) as (D1 & D2 & D3). repeat split; auto. intros x' Hx. rewrite Pe. auto.
  - intro x. rewrite Pe. apply E.
  - intros f i Hg. destruct (H f i Hg) as [W|[x W]]; [left; exact W | right; exists x; rewrite Pe; exact W].
  - intros x files Ha f Hf. destruct (N.eqb_spec x r) as [->|Hx].
    + rewrite upd_same. exact (Q files Ha f Hf).
    + rewrite upd_other by exact Hx. rewrite O in Ha by exact Hx. exact (I x files Ha f Hf).
  - intro x. destruct (N.eqb_spec x r) as [->|Hx]; [rewrite upd_same; exact R | rewrite upd_other, O by exact Hx; apply J].
  - intro x. unfold answered. cbn [out]. destruct (N.eqb_spec x r) as [->|Hx]; [rewrite upd_same | rewrite upd_other by exact Hx; apply K].
    split; intro W; [exfalso; apply ND, K, W | contradiction].
Qed.
Lemma inv_run h : inv h (run h).
Proof.
  induction h as [|o h IH] using rev_ind.
  { constructor; cbn; try constructor; try discriminate; try contradiction; auto; intros []. }
  rewrite run_app. pose proof IH as IH'. destruct IH as [A B C D E F G H I J K]. remember (run h) as s eqn:Es. clear Es.
  assert (Go_asked : forall r x, asked (h ++ [Go r]) x = asked h x) by (intros r x; rewrite asked_app; destruct (asked h x); reflexivity).
  destruct o as [r files|r]; cbn [exec].
  - destruct (reqs s r) eqn:Er; try (
      assert (As : forall x, asked (h ++ [Ask r files]) x = asked h x) by
        (intro x; rewrite asked_app; destruct (asked h x) eqn:Ea; [reflexivity|]; destruct (N.eqb_spec x r) as [->|]; [|reflexivity];
         apply J in Ea; congruence);
      constructor; auto; [intros x fs; rewrite As; apply I | intro x; rewrite As; apply J]).
    assert (Ea := proj2 (J r) Er).
    apply (inv_local h); auto.
    + rewrite Er. reflexivity.
    + intros x Hx. rewrite asked_app. destruct (asked h x); [reflexivity|]. destruct (N.eqb_spec x r); [contradiction | reflexivity].
    + rewrite asked_app, Ea, N.eqb_refl. intros fs X f Hf. injection X as <-. left. exact Hf.
    + rewrite asked_app, Ea, N.eqb_refl. split; discriminate.
    + rewrite Er. discriminate.
    + discriminate.
  - unfold step. destruct (reqs s r) as [|todo chk evs|evs| |evs] eqn:Er.
    + constructor; auto; [intros x fs; rewrite Go_asked; apply I | intro x; rewrite Go_asked; apply J].
    + assert (Ir := I r). rewrite Er in Ir. assert (Jr := J r). rewrite Er in Jr.
      destruct todo as [|f t].
      * apply (inv_local h); auto; try discriminate; rewrite ?Er, ?Go_asked; auto; try discriminate.
        -- intros fs Ha g Hg. destruct (Ir fs Ha g Hg) as [[]|W]; exact W.
        -- rewrite Jr. split; discriminate.
      * destruct chk.
        -- destruct (mem N.eqb f (mods s)) eqn:Em.
           ++ apply (inv_local h); auto; try discriminate; rewrite ?Er, ?Go_asked; auto; try discriminate. rewrite Jr. split; discriminate.
           ++ assert (Ng : get N.eqb f (mods s) = None).
              { unfold mem in Em. destruct (get N.eqb f (mods s)); [discriminate | reflexivity]. }
              assert (Old : forall g i, get N.eqb g (mods s) = Some i -> g <> f) by (intros g i Hg ->; congruence).
              assert (Mm : forall g, mem N.eqb g (mods s) = true -> mem N.eqb g (set N.eqb f (next s) (mods s)) = true).
              { intros g Hg. apply mem_get. apply mem_get in Hg. destruct Hg as [i Hg]. exists i.
                rewrite (get_set_other _ N.eqb_spec); [exact Hg|]. exact (not_eq_sym (Old g i Hg)). }
              assert (Gs : forall g i, get N.eqb g (mods s) = Some i -> get N.eqb g (set N.eqb f (next s) (mods s)) = Some i).
              { intros g i Hg. rewrite (get_set_other _ N.eqb_spec); [exact Hg | exact (not_eq_sym (Old g i Hg))]. }
              assert (Dr := fun g i => D r g i). rewrite Er in Dr. cbn [pending] in Dr.
              assert (Nf : forall x, ~ In f (map fst (pending (reqs s x)))).
              { intros x Hin. apply in_map_iff in Hin. destruct Hin as ([g i] & Eg & Hin). cbn in Eg. subst g. destruct (D x f i Hin). congruence. }
              assert (No : ~ In f (map fst (announced (out s)))).
              { intro Hin. apply in_map_iff in Hin. destruct Hin as ([g i] & Eg & Hin). cbn in Eg. subst g. apply G in Hin. congruence. }
              constructor; cbn [mods next reqs out].
              ** apply (NoDup_keys_set _ N.eqb_spec), A.
              ** intros g i. rewrite (get_set _ N.eqb_spec). destruct (N.eqb g f); [intro X; injection X as <-; lia|]. intro X. apply B in X. lia.
              ** intros g g' i. rewrite !(get_set _ N.eqb_spec). destruct (N.eqb_spec g f), (N.eqb_spec g' f); subst; auto.
                 --- intros X Y. injection X as <-. apply B in Y. lia.
                 --- intros X Y. injection Y as <-. apply B in X. lia.
                 --- apply C.
              ** intros x g i. destruct (N.eqb_spec x r) as [->|Hx].
                 --- rewrite upd_same. cbn [pending]. rewrite in_app_iff. intros [Hin|[Hin|[]]].
                     +++ destruct (Dr g i Hin) as (D1 & D2 & D3). repeat split; auto. intros x' Hx'. rewrite upd_other by exact Hx'. auto.
                     +++ injection Hin as <- <-. repeat split; [apply (get_set_same _ N.eqb_spec) | exact No|]. intros x' Hx'. rewrite upd_other by exact Hx'. apply Nf.
                 --- rewrite upd_other by exact Hx. intro Hin. destruct (D x g i Hin) as (D1 & D2 & D3). repeat split; auto.
                     intros x' Hx'. destruct (N.eqb_spec x' r) as [->|Hr]; [|rewrite upd_other by exact Hr; auto].
                     rewrite upd_same. cbn [pending]. rewrite map_app, in_app_iff. intros [W|[W|[]]].
                     +++ apply (D3 r Hx'). rewrite Er. exact W.
                     +++ cbn in W. subst g. apply (Nf x). apply (in_map fst) in Hin. exact Hin.
              ** intro x. destruct (N.eqb_spec x r) as [->|Hx]; [|rewrite upd_other by exact Hx; apply E].
                 rewrite upd_same. cbn [pending]. rewrite map_app. cbn [map fst].
                 assert (Er' := E r). rewrite Er in Er'. cbn [pending] in Er'. assert (Nr := Nf r). rewrite Er in Nr. cbn [pending] in Nr.
                 clear -Er' Nr. induction (map fst evs) as [|y l IH]; [repeat constructor; intros []|]. inversion Er' as [|? ? Hy Hl]; subst.
                 cbn. constructor; [|apply IH; [exact Hl | intro W; apply Nr; right; exact W]]. rewrite in_app_iff. intros [W|[W|[]]]; [contradiction|].
                 apply Nr. left. congruence.
              ** exact F.
              ** intros g i Hin. apply Gs, G, Hin.
              ** intros g i. rewrite (get_set _ N.eqb_spec). destruct (N.eqb_spec g f) as [->|Hg].
                 --- intro X. injection X as <-. right. exists r. rewrite upd_same. cbn [pending]. apply in_app_iff. right. left. reflexivity.
                 --- intro X. destruct (H g i X) as [W|[x W]]; [left; exact W|]. right. exists x. destruct (N.eqb_spec x r) as [->|Hx].
                     +++ rewrite upd_same. cbn [pending]. rewrite Er in W. apply in_app_iff. left. exact W.
                     +++ rewrite upd_other by exact Hx. exact W.
              ** intros x fs. rewrite Go_asked. intros Ha g Hg. destruct (N.eqb_spec x r) as [->|Hx].
                 --- rewrite upd_same. destruct (Ir fs Ha g Hg) as [[<-|W]|W]; [|left; exact W|right; apply Mm, W].
                     right. apply mem_get. exists (next s). apply (get_set_same _ N.eqb_spec).
                 --- rewrite upd_other by exact Hx. specialize (I x fs Ha g Hg). destruct (reqs s x); auto. destruct I as [W|W]; auto.
              ** intro x. rewrite Go_asked. destruct (N.eqb_spec x r) as [->|Hx]; [rewrite upd_same, Jr; split; discriminate | rewrite upd_other by exact Hx; apply J].
              ** intro x. unfold answered. cbn [out]. destruct (N.eqb_spec x r) as [->|Hx]; [rewrite upd_same | rewrite upd_other by exact Hx; apply K].
                 assert (Kr := K r). rewrite Er in Kr. unfold answered in Kr. rewrite Kr. split; discriminate.
        -- apply (inv_local h); auto; rewrite ?Er, ?Go_asked; auto; try discriminate.
           ++ destruct (mem N.eqb f (mods s)); reflexivity.
           ++ intros fs Ha g Hg. destruct (Ir fs Ha g Hg) as [[<-|W]|W]; destruct (mem N.eqb f (mods s)) eqn:Em; auto; left; [left; reflexivity | right; exact W].
           ++ rewrite Jr. destruct (mem N.eqb f (mods s)); split; discriminate.
           ++ destruct (mem N.eqb f (mods s)); discriminate.
    + assert (Ir := I r). rewrite Er in Ir. assert (Jr := J r). rewrite Er in Jr. assert (Kr := K r). rewrite Er in Kr. unfold answered in Kr.
      assert (Dr := D r). rewrite Er in Dr. cbn [pending] in Dr. assert (Er' := E r). rewrite Er in Er'. cbn [pending] in Er'.
      destruct evs as [|[f i] evs].
      * constructor; cbn [mods next reqs out]; auto.
        -- intros x g j Hin. destruct (N.eqb_spec x r) as [->|Hx]; [rewrite upd_same in Hin; destruct Hin|]. rewrite upd_other in Hin by exact Hx.
           destruct (D x g j Hin) as (D1 & D2 & D3). rewrite announced_app. cbn [announced flat_map]. rewrite app_nil_r. repeat split; auto.
           intros x' Hx'. destruct (N.eqb_spec x' r) as [->|Hr]; [rewrite upd_same; intros [] | rewrite upd_other by exact Hr; auto].
        -- intro x. destruct (N.eqb_spec x r) as [->|Hx]; [rewrite upd_same; constructor | rewrite upd_other by exact Hx; apply E].
        -- rewrite announced_app. cbn [announced flat_map]. rewrite app_nil_r. exact F.
        -- rewrite announced_app. cbn [announced flat_map]. rewrite app_nil_r. exact G.
        -- intros g j Hg. rewrite announced_app. cbn [announced flat_map]. rewrite app_nil_r. destruct (H g j Hg) as [W|[x W]]; [left; exact W|].
           right. exists x. destruct (N.eqb_spec x r) as [->|Hx]; [rewrite Er in W; destruct W | rewrite upd_other by exact Hx; exact W].
        -- intros x fs. rewrite Go_asked. intros Ha g Hg. destruct (N.eqb_spec x r) as [->|Hx]; [rewrite upd_same; exact (Ir fs Ha g Hg) | rewrite upd_other by exact Hx; exact (I x fs Ha g Hg)].
        -- intro x. rewrite Go_asked. destruct (N.eqb_spec x r) as [->|Hx]; [rewrite upd_same, Jr; split; discriminate | rewrite upd_other by exact Hx; apply J].
        -- intro x. unfold answered. cbn [out]. rewrite in_app_iff. cbn [In]. destruct (N.eqb_spec x r) as [->|Hx].
           ++ rewrite upd_same. split; [reflexivity | intros _; right; left; reflexivity].
           ++ rewrite upd_other by exact Hx. rewrite <- K. unfold answered. split; [intros [W|[W|[]]]; [exact W | congruence] | auto].
      * destruct (Dr f i (or_introl eq_refl)) as (D1 & D2 & D3). cbn [map fst] in Er'. inversion Er' as [|? ? Hf Hl]; subst.
        constructor; cbn [mods next reqs out]; auto.
        -- intros x g j Hin. rewrite announced_app, map_app. cbn [announced flat_map app map fst]. destruct (N.eqb_spec x r) as [->|Hx].
           ++ rewrite upd_same in Hin. cbn [pending] in Hin. destruct (Dr g j (or_intror Hin)) as (Q1 & Q2 & Q3). split; [exact Q1|]. split.
              ** rewrite in_app_iff. intros [W|[W|[]]]; [contradiction|]. subst g. apply Hf. apply (in_map fst) in Hin. exact Hin.
              ** intros x' Hx'. rewrite upd_other by exact Hx'. auto.
           ++ rewrite upd_other in Hin by exact Hx. destruct (D x g j Hin) as (Q1 & Q2 & Q3). split; [exact Q1|]. split.
              ** rewrite in_app_iff. intros [W|[W|[]]]; [contradiction|]. subst g. apply (D3 x Hx). apply (in_map fst) in Hin. exact Hin.
              ** intros x' Hx'. destruct (N.eqb_spec x' r) as [->|Hr]; [|rewrite upd_other by exact Hr; auto]. rewrite upd_same. cbn [pending].
                 intro W. apply (Q3 r Hx'). rewrite Er. cbn [pending map fst]. right. exact W.
        -- intro x. destruct (N.eqb_spec x r) as [->|Hx]; [rewrite upd_same; exact Hl | rewrite upd_other by exact Hx; apply E].
        -- rewrite announced_app, map_app. cbn [announced flat_map app map fst]. clear -F D2. induction (map fst (announced (out s))) as [|y l IH]; [repeat constructor; intros []|].
           inversion F as [|? ? Hy Hl]; subst. cbn. constructor; [|apply IH; [exact Hl | intro W; apply D2; right; exact W]].
           rewrite in_app_iff. intros [W|[W|[]]]; [contradiction|]. apply D2. left. congruence.
        -- intros g j. rewrite announced_app, in_app_iff. cbn [announced flat_map app In]. intros [W|[W|[]]]; [apply G, W|]. injection W as <- <-. exact D1.
        -- intros g j Hg. rewrite announced_app, in_app_iff. cbn [announced flat_map app In]. destruct (H g j Hg) as [W|[x W]]; [left; left; exact W|].
           destruct (N.eqb_spec x r) as [->|Hx].
           ++ rewrite Er in W. cbn [pending] in W. destruct W as [W|W]; [left; right; left; exact W|]. right. exists r. rewrite upd_same. exact W.
           ++ right. exists x. rewrite upd_other by exact Hx. exact W.
        -- intros x fs. rewrite Go_asked. intros Ha g Hg. destruct (N.eqb_spec x r) as [->|Hx]; [rewrite upd_same; exact (Ir fs Ha g Hg) | rewrite upd_other by exact Hx; exact (I x fs Ha g Hg)].
        -- intro x. rewrite Go_asked. destruct (N.eqb_spec x r) as [->|Hx]; [rewrite upd_same, Jr; split; discriminate | rewrite upd_other by exact Hx; apply J].
        -- intro x. unfold answered. cbn [out]. rewrite in_app_iff. cbn [In]. destruct (N.eqb_spec x r) as [->|Hx].
           ++ rewrite upd_same, Kr. split; [intros [W|[W|[]]]; discriminate | discriminate].
           ++ rewrite upd_other by exact Hx. rewrite <- K. unfold answered. split; [intros [W|[W|[]]]; [exact W | discriminate] | auto].
    + constructor; auto; [intros x fs; rewrite Go_asked; apply I | intro x; rewrite Go_asked; apply J].
    + constructor; auto; [intros x fs; rewrite Go_asked; apply I | intro x; rewrite Go_asked; apply J].
Qed.

(** ** Theorems *)

(** In every interleaving of stack traces, a file is announced at most once and different files have different ids. *)
Theorem modules_once : forall h, NoDup (map fst (announced (out (run h)))) /\ NoDup (map snd (announced (out (run h)))).
Proof.
  intro h. destruct (inv_run h) as [A B C D E F G H I J K]. split; [exact F|].
  revert F G. generalize (announced (out (run h))). induction l as [|[f i] l IH]; cbn [map fst snd]; intros F G; constructor.
  - intro Hin. apply in_map_iff in Hin. destruct Hin as ([g j] & Ej & Hin). cbn in Ej. subst j. inversion F as [|? ? Hf Hl]; subst. apply Hf.
    assert (g = f) as -> by (apply (C g f i); apply G; [right; exact Hin | left; reflexivity]). apply (in_map fst) in Hin. exact Hin.
  - inversion F; subst. apply IH; [assumption|]. intros g j Hin. apply G. right. exact Hin.
Qed.
(** Once all requests are answered, every file of their frames was announced. *)
Theorem modules_all : forall h, (forall r, asked h r <> None -> answered (run h) r) ->
  forall r files f, asked h r = Some files -> In f files -> exists i, In (f, i) (announced (out (run h))).
Proof.
  intros h Hall r files f Ha Hf. destruct (inv_run h) as [A B C D E F G H I J K].
  assert (Dn : forall x, reqs (run h) x = Done \/ reqs (run h) x = Idle).
  { intro x. destruct (asked h x) eqn:Ex; [left; apply K, Hall; congruence | right; apply J, Ex]. }
  assert (W := I r files Ha f Hf). destruct (Dn r) as [Q|Q]; rewrite Q in W; [|contradiction]. apply mem_get in W. destruct W as [i W].
  exists i. destruct (H f i W) as [X|[x X]]; [exact X|]. destruct (Dn x) as [Y|Y]; rewrite Y in X; destruct X.
Qed.

(** One request after the other *)
Inductive one_at_a_time : list op -> option N -> Prop :=
| one_nil : one_at_a_time [] None
| one_ask : forall h r files, one_at_a_time h None -> asked h r = None -> one_at_a_time (h ++ [Ask r files]) (Some r)
| one_go : forall h r, one_at_a_time h (Some r) -> one_at_a_time (h ++ [Go r]) (match reqs (run (h ++ [Go r])) r with Done => None | _ => Some r end).
(** Then no request fails, and the files of a stack trace are announced before it is sent. *)
Theorem modules_sequential : forall h cur, one_at_a_time h cur ->
  (forall r evs, reqs (run h) r <> Failed evs)
  /\ (cur = None -> forall r files f, asked h r = Some files -> In f files -> exists i, In (f, i) (announced (out (run h)))).
Proof.
  assert (G : forall h cur, one_at_a_time h cur ->
    (forall x, Some x <> cur -> reqs (run h) x = Idle \/ reqs (run h) x = Done)
    /\ match cur with
       | Some r => match reqs (run h) r with Tracking (f :: _) true _ => get N.eqb f (mods (run h)) = None | Tracking _ _ _ | Sending _ => True | _ => False end
       | None => True
       end).
  { induction 1 as [|h r files H [IH _] Ha|h r H [IH Hr]].
    - split; [left; reflexivity | exact I].
    - rewrite run_app. cbn [exec]. assert (Q := proj1 (i_idle _ _ (inv_run h) r) Ha). rewrite Q. cbn [reqs mods]. rewrite upd_same. split; [|destruct files; exact I].
      intros x Hx. rewrite upd_other by congruence. apply IH. discriminate.
    - assert (Ot : forall x, Some x <> Some r -> reqs (run (h ++ [Go r])) x = Idle \/ reqs (run (h ++ [Go r])) x = Done).
      { intros x Hx. rewrite run_app. cbn [exec]. unfold step.
        destruct (reqs (run h) r) as [|[|f t] [|] evs|[|[f i] evs]| |evs]; cbn [reqs]; try destruct (mem N.eqb f (mods (run h))); cbn [reqs];
          rewrite ?upd_other by congruence; apply IH; exact Hx. }
      split.
      + intros x Hx. destruct (N.eqb_spec x r) as [->|Hn]; [|apply Ot; congruence].
        destruct (reqs (run (h ++ [Go r])) r) eqn:E; auto; exfalso; apply Hx; reflexivity.
      + destruct (reqs (run (h ++ [Go r])) r) as [|[|f t] [|] evs|evs| |evs] eqn:E; rewrite ?E; try exact I; rewrite run_app in *; cbn [exec] in *; unfold step in *;
          destruct (reqs (run h) r) as [|[|f' t'] [|] evs'|[|[f' i'] evs']| |evs']; cbn [reqs mods] in *; try contradiction;
          rewrite ?upd_same in *; try discriminate;
          try (destruct (mem N.eqb f' (mods (run h))) eqn:Em; cbn [reqs mods] in *; rewrite ?upd_same in *; try discriminate);
          try (injection E as <- <- <-; unfold mem in Em; destruct (get N.eqb f' (mods (run h))); [discriminate | reflexivity]).
        unfold mem in Em. rewrite Hr in Em. discriminate. }
  intros h cur H. destruct (G h cur H) as [G1 G2]. split.
  - intros r evs E. assert (D : Some r = cur \/ Some r <> cur) by (destruct cur as [c|]; [destruct (N.eq_dec r c); [left | right]; congruence | right; discriminate]).
    destruct D as [D|D].
    + subst cur. rewrite E in G2. exact G2.
    + destruct (G1 r D); congruence.
  - intros -> r files f Ha Hf. apply (modules_all h) with (r := r) (files := files); auto.
    intros x Hx. apply (i_resp _ _ (inv_run h)). destruct (G1 x ltac:(discriminate)) as [Q|Q]; [|exact Q].
    exfalso. apply Hx. apply (i_idle _ _ (inv_run h)), Q.
Qed.
(** Two requests at the same time: one may fail, its stack trace is never sent and a module it registered is never announced. *)
Theorem modules_race_refuted : exists h r f, asked h r <> None /\ reqs (run h) r = Failed [(f, 0%N)]
  /\ forall h', ~ answered (run (h ++ h')) r /\ ~ In f (map fst (announced (out (run (h ++ h'))))).
Proof.
  set (h := [Ask 1 [10; 11]; Ask 2 [11]; Go 1; Go 1; Go 1; Go 2; Go 2; Go 1]%N).
  exists h, 1%N, 10%N. split; [discriminate|]. split; [reflexivity|].
  assert (Q : forall h', reqs (run (h ++ h')) 1 = Failed [(10%N, 0%N)]).
  { induction h' as [|o h' IH] using rev_ind; [reflexivity|]. rewrite app_assoc, run_app. destruct o as [r files|r]; cbn [exec].
    - destruct (reqs (run (h ++ h')) r) eqn:E; auto. cbn [reqs]. unfold upd. destruct (N.eqb_spec 1 r) as [<-|]; [congruence | exact IH].
    - unfold step. destruct (N.eqb_spec 1 r) as [<-|Hr]; [rewrite IH; exact IH|].
      destruct (reqs (run (h ++ h')) r) as [|[|f t] [|] evs|[|[f i] evs]| |evs]; cbn [reqs]; try destruct (mem N.eqb f (mods (run (h ++ h')))); cbn [reqs];
        rewrite ?upd_other by congruence; exact IH. }
  intro h'. split.
  - intro W. apply (i_resp _ _ (inv_run (h ++ h'))) in W. rewrite Q in W. discriminate.
  - apply (i_pend _ _ (inv_run (h ++ h')) 1%N 10%N 0%N). rewrite Q. left. reflexivity.
Qed.

(** ** Concrete cases *)
Example ex_modules : let h := [Ask 1 [10; 11; 10]; Ask 2 [10; 12]; Go 1; Go 1; Go 2; Go 2; Go 2; Go 1; Go 1; Go 1; Go 1; Go 2; Go 2; Go 2; Go 1; Go 1; Go 1; Go 1]%N in
  out (run h) = [Module 12 1; Response 2; Module 10 0; Module 11 2; Response 1]%N /\ (forall r, asked h r <> None -> answered (run h) r).
Proof.
  split; [reflexivity|]. intro r. cbn [asked]. destruct (N.eqb_spec r 1) as [->|]; [intros _; vm_compute; tauto|].
  destruct (N.eqb_spec r 2) as [->|]; [intros _; vm_compute; tauto | intro X; contradiction].
Qed.
Example ex_sequential : one_at_a_time [Ask 1 [10]; Go 1; Go 1; Go 1; Go 1; Go 1; Ask 2 [10]]%N (Some 2%N).
Proof.
  assert (H0 := one_ask _ 1%N [10%N] one_nil eq_refl). assert (H1 := one_go _ _ H0). assert (H2 := one_go _ _ H1).
  assert (H3 := one_go _ _ H2). assert (H4 := one_go _ _ H3). assert (H5 := one_go _ _ H4).
  exact (one_ask _ 2%N [10%N] H5 eq_refl).
Qed.

Print Assumptions modules_once.
Print Assumptions modules_all.
Print Assumptions modules_sequential.
Print Assumptions modules_race_refuted.
