(** C26: the settings written as command-line arguments for a child process are read back unchanged, the
    program and its arguments are left alone, and reading a command line comes to an end. *)
From Coq Require Import String List NArith ZArith Bool Lia.
From Verif Require Import Base Dict ReaderProofs CmdLine.
Import ListNotations.
Local Open Scope list_scope.

(** ** Specification *)

(** The options of a child process, with the type of their values and the value meant when one is not given.
    [Parent] is a number of a process other than the reading one. *)
Inductive otype := Number | Parent | Text | Flag.
Record option_spec := Opt { oname : str; otyp : otype; odflt : value }.
Definition options : list option_spec :=
  [ Opt (lit "port") Number (VInt 0); Opt (lit "ppid") Parent (VInt 0); Opt (lit "log-level") Number VNone ]
  ++ map (fun n => Opt n Text VNone)
       [ lit "vm_type"; lit "client"; lit "access-token"; lit "client-access-token"; lit "debug-mode"; lit "preimport";
         lit "log-file" ]
  ++ map (fun n => Opt n Flag (VBool false))
       [ lit "server"; lit "multiproc"; lit "multiprocess"; lit "save-signatures"; lit "save-threading"; lit "save-asyncio";
         lit "print-in-debugger-startup"; lit "cmd-line"; lit "module"; lit "skip-notify-stdin"; lit "json-dap";
         lit "json-dap-http"; lit "protocol-quoted-line"; lit "protocol-http" ].

(** Values of these types; anything but a flag may be None. *)
Definition fits (pid : Z) (t : otype) (v : value) : Prop :=
  match t, v with
  | Flag, VBool _ => True
  | Flag, _ => False
  | _, VNone => True
  | Number, VInt _ => True
  | Parent, VInt z => z <> 0%Z -> z <> pid
  | Text, VText _ => True
  | _, _ => False
  end.
Definition well_typed (pid : Z) (s : setup) : Prop :=
  forall o v, In o options -> get str_eqb (oname o) s = Some v -> fits pid (otyp o) v.

(** What the child should find for an option: the value, or the default when there is none or it is left out *)
Definition expected (s : setup) (skip : list str) (n : str) (d v : value) : Prop :=
  (v = d /\ (In n skip \/ get str_eqb n s = None \/ get str_eqb n s = Some VNone))
  \/ (~ In n skip /\ get str_eqb n s = Some v /\ v <> VNone).

(** Reading [l] ends with [s] and the arguments [left] not consumed *)
Definition reads (pid : Z) (l : list str) (left : list str) (s : setup) : Prop :=
  exists n, process pid n l = Some (Done (St left s)).

(** ** Auxiliary facts *)
Definition kind_of (t : otype) : kind := match t with Number => KInt | Parent => KPpid | Text => KText | Flag => KBool end.
Definition typed (pid : Z) (k : kind) (v : value) : Prop :=
  match k, v with
  | KBool, VBool _ => True
  | KBool, _ => False
  | _, VNone => True
  | KInt, VInt _ => True
  | KPpid, VInt z => z <> 0%Z -> z <> pid
  | KText, VText _ => True
  | _, _ => False
  end.
Definition well_typed' (pid : Z) (s : setup) : Prop :=
  forall h v, In h handlers -> get str_eqb (name h) s = Some v -> typed pid (knd h) v.
Ltac find_in := first [left; reflexivity | right; find_in].
Lemma option_handler o : In o options -> In (Handler (oname o) (kind_of (otyp o)) (odflt o)) handlers.
Proof.
  unfold options. cbn [map app]. intro H.
  repeat (destruct H as [<- | H]; [cbn [oname otyp odflt kind_of]; unfold handlers; find_in|]). destruct H.
Qed.
Lemma handler_option h : In h handlers -> exists o, In o options /\ oname o = name h /\ kind_of (otyp o) = knd h /\ odflt o = dflt h.
Proof.
  intro H. repeat (destruct H as [<- | H];
    [ match goal with |- context [name (Handler ?n ?k ?d)] =>
        let t := match k with KInt => Number | KPpid => Parent | KText => Text | KBool => Flag end in
        exists (Opt n t d) end; split; [unfold options; cbn [map app]; find_in | repeat split] |]).
  destruct H.
Qed.
Lemma well_typed_handlers pid s : well_typed pid s -> well_typed' pid s.
Proof.
  intros W h v Hh Hg. destruct (handler_option h Hh) as (o & Ho & En & Ek & _). rewrite <- En in Hg.
  pose proof (W o v Ho Hg) as F. rewrite <- Ek. destruct (otyp o), v; exact F.
Qed.
Lemma well_typed_options pid s : well_typed' pid s -> well_typed pid s.
Proof.
  intros W o v Ho Hg. pose proof (W _ v (option_handler o Ho) Hg) as F. cbn [knd] in F. destruct (otyp o), v; exact F.
Qed.
Lemma find_rep h : In h handlers -> find (fun h' => str_eqb (rep h) (rep h')) handlers = Some h.
Proof.
  intro H. repeat (destruct H as [<- | H]; [vm_compute; reflexivity|]). destruct H.
Qed.
Lemma names_nodup : NoDup (map name handlers).
Proof.
  assert (H : forall l : list str, (fix nd l := match l with [] => true | a :: r => negb (existsb (str_eqb a) r) && nd r end) l = true
              -> NoDup l).
  { induction l as [|a r IH]; intro H; constructor.
    - apply andb_prop in H. destruct H as [H _]. intro Hin. apply negb_true_iff in H.
      assert (existsb (str_eqb a) r = true) by (apply existsb_exists; exists a; split; [exact Hin | apply str_eqb_refl]).
      congruence.
    - apply andb_prop in H. apply IH, H. }
  apply H. vm_compute. reflexivity.
Qed.

Definition reach (pid : Z) (a b : st) : Prop := exists n, forall m, loop pid (n + m) a = loop pid m b.
Lemma reach_refl pid a : reach pid a a.
Proof. exists O. reflexivity. Qed.
Lemma reach_trans pid a b c : reach pid a b -> reach pid b c -> reach pid a c.
Proof.
  intros [n H] [k K]. exists (n + k)%nat. intro m. rewrite <- Nat.add_assoc, H. apply K.
Qed.
Lemma reach_step pid a b : step pid a = Next b -> reach pid a b.
Proof. intro H. exists 1%nat. intro m. cbn [loop Nat.add]. rewrite H. reflexivity. Qed.

Lemma step_handler pid h r c (Hh : In h handlers) :
  step pid (St (rep h :: r) c) =
  match knd h with
  | KBool => Next (St r (set str_eqb (name h) (VBool true) c))
  | k => match r with
         | [] => Fail
         | v :: r => match convert pid k v with
                     | Some x => Next (St r (set str_eqb (name h) x c))
                     | None => Fail
                     end
         end
  end.
Proof. unfold step. cbn [argv conf]. rewrite (find_rep h Hh). reflexivity. Qed.

Lemma value_eqb_eq a b : value_eqb a b = true -> a = b.
Proof.
  destruct a, b; cbn; intro H; try discriminate; try reflexivity.
  - apply Bool.eqb_prop in H. congruence.
  - apply Z.eqb_eq in H. congruence.
  - apply str_eqb_eq in H. congruence.
Qed.

Lemma convert_show pid k v : k <> KBool -> typed pid k v -> v <> VNone -> convert pid k (show v) = Some v.
Proof.
  destruct k, v; cbn [typed show convert]; intros Hk H Hn; try contradiction; try congruence; try reflexivity.
  - rewrite py_int_zdec. reflexivity.
  - rewrite py_int_zdec. destruct (Z.eqb_spec z 0) as [-> | E]; [reflexivity|].
    cbn [negb andb]. destruct (Z.eqb_spec z pid) as [F|F]; [|reflexivity]. exfalso. exact (H E F).
Qed.

Definition piece (s : setup) (skip : list str) (h : handler) : list str :=
  if mem str_eqb (name h) s && negb (existsb (str_eqb (name h)) skip) then to_argv h s else [].

Lemma existsb_In (x : str) l : existsb (str_eqb x) l = true <-> In x l.
Proof.
  rewrite existsb_exists. split.
  - intros (y & Hy & E). apply str_eqb_eq in E. subst. exact Hy.
  - intro H. exists x. split; [exact H | apply str_eqb_refl].
Qed.

(** One option is read back *)
Lemma piece_read pid s skip h tl c :
  well_typed' pid s -> In h handlers -> (knd h = KBool -> dflt h = VBool false) ->
  get str_eqb (name h) c = Some (dflt h) ->
  exists c', reach pid (St (piece s skip h ++ tl) c) (St tl c')
    /\ (forall k, k <> name h -> get str_eqb k c' = get str_eqb k c)
    /\ exists v, get str_eqb (name h) c' = Some v /\ expected s skip (name h) (dflt h) v.
Proof.
  intros W Hh Hb Hd. unfold piece.
  assert (Same : forall X, (In (name h) skip \/ get str_eqb (name h) s = None \/ get str_eqb (name h) s = Some VNone
                            \/ (~ In (name h) skip /\ get str_eqb (name h) s = Some (dflt h) /\ dflt h <> VNone)) ->
            X = [] ->
            exists c', reach pid (St (X ++ tl) c) (St tl c')
    /\ (forall k, k <> name h -> get str_eqb k c' = get str_eqb k c)
    /\ exists v, get str_eqb (name h) c' = Some v /\ expected s skip (name h) (dflt h) v).
  { intros X E ->. exists c. split; [apply reach_refl|]. split; [reflexivity|].
    exists (dflt h). split; [exact Hd|]. unfold expected.
    destruct E as [E|[E|[E|E]]]; [left|left|left|right]; tauto. }
  destruct (existsb (str_eqb (name h)) skip) eqn:Es.
  { rewrite andb_false_r. apply Same; [|reflexivity]. left. apply existsb_In. exact Es. }
  assert (Ns : ~ In (name h) skip) by (intro X; apply existsb_In in X; congruence).
  unfold mem, to_argv. destruct (get str_eqb (name h) s) as [v|] eqn:Eg.
  2:{ apply Same; [|reflexivity]. tauto. }
  cbn [negb andb]. pose proof (W h v Hh Eg) as T.
  assert (Cons : forall X x, x = v -> v <> VNone ->
            step pid (St (X ++ tl) c) = Next (St tl (set str_eqb (name h) x c)) ->
            exists c', reach pid (St (X ++ tl) c) (St tl c')
    /\ (forall k, k <> name h -> get str_eqb k c' = get str_eqb k c)
    /\ exists v, get str_eqb (name h) c' = Some v /\ expected s skip (name h) (dflt h) v).
  { intros X x -> Hv E. exists (set str_eqb (name h) v c). split; [apply reach_step, E|]. split.
    - intros k Hk. rewrite (get_set _ str_eqb_spec). destruct (str_eqb_spec k (name h)); [contradiction|reflexivity].
    - exists v. split.
      + rewrite (get_set _ str_eqb_spec). rewrite str_eqb_refl. reflexivity.
      + right. split; [exact Ns|]. split; [exact Eg | exact Hv]. }
  destruct (knd h) eqn:Ek.
  4:{ destruct v; try contradiction. cbn [truth]. destruct b.
      - apply Cons with (x := VBool true); [reflexivity | discriminate |]. cbn [app].
        rewrite step_handler by exact Hh. rewrite Ek. reflexivity.
      - apply Same; [|reflexivity]. right. right. right. rewrite (Hb eq_refl). repeat split; [exact Ns | discriminate]. }
  all: assert (Hv : v = VNone \/ v <> VNone) by (destruct v; [left; reflexivity | right; discriminate ..]);
    destruct Hv as [-> | Hv]; [apply Same; [tauto | reflexivity] |];
    pose proof (fun H => convert_show pid _ v H T Hv) as Hc;
    destruct (value_eqb v (dflt h)) eqn:Ev;
    [ apply value_eqb_eq in Ev; apply Same; [right; right; right; rewrite <- Ev; auto | destruct v; [congruence | reflexivity ..]]
    | match goal with |- context [St (?M ++ _) _] => replace M with [rep h; show v] by (destruct v; [congruence | reflexivity ..]) end;
      apply Cons with (x := v); [reflexivity | exact Hv |]; cbn [app];
      rewrite step_handler by exact Hh; rewrite Ek; rewrite Hc by discriminate; reflexivity ].
Qed.

Lemma pieces_read pid s skip : well_typed' pid s -> forall hs tl c,
  incl hs handlers -> NoDup (map name hs) ->
  (forall h, In h hs -> get str_eqb (name h) c = Some (dflt h)) ->
  exists c', reach pid (St (flat_map (piece s skip) hs ++ tl) c) (St tl c')
    /\ (forall k, ~ In k (map name hs) -> get str_eqb k c' = get str_eqb k c)
    /\ forall h, In h hs -> exists v, get str_eqb (name h) c' = Some v /\ expected s skip (name h) (dflt h) v.
Proof.
  intros W. induction hs as [|h hs IH]; intros tl c Hi Hn Hd.
  - exists c. cbn [flat_map app]. split; [apply reach_refl|]. split; [reflexivity|]. intros h [].
  - cbn [map] in Hn. inversion Hn as [|? ? Hni Hn']; subst. cbn [flat_map]. rewrite <- app_assoc.
    assert (Hh : In h handlers) by (apply Hi; left; reflexivity).
    assert (Hb : knd h = KBool -> dflt h = VBool false).
    { clear - Hh. repeat (destruct Hh as [<- | Hh]; [cbn [knd dflt]; intro; congruence|]). destruct Hh. }
    destruct (piece_read pid s skip h (flat_map (piece s skip) hs ++ tl) c W Hh Hb (Hd h (or_introl eq_refl)))
      as (c1 & R1 & O1 & v & G1 & X1).
    destruct (IH tl c1) as (c2 & R2 & O2 & G2).
    + intros x Hx. apply Hi. right. exact Hx.
    + exact Hn'.
    + intros x Hx. rewrite O1; [apply Hd; right; exact Hx|]. intro E. apply Hni. rewrite <- E. apply in_map. exact Hx.
    + exists c2. split; [eapply reach_trans; eassumption|]. split.
      * intros k Hk. rewrite O2, O1; [reflexivity | |]; intro E; apply Hk; [left; congruence | right; exact E].
      * intros x [<- | Hx]; [|apply G2; exact Hx]. exists v. rewrite (O2 _ Hni). split; assumption.
Qed.

Lemma get_defaults h : In h handlers -> get str_eqb (name h) defaults = Some (dflt h).
Proof. intro H. repeat (destruct H as [<- | H]; [vm_compute; reflexivity|]). destruct H. Qed.
Lemma file_not_handler : ~ In (lit "file") (map name handlers).
Proof. intro H. apply existsb_In in H. vm_compute in H. discriminate. Qed.
Lemma step_file pid f r c :
  step pid (St (lit "--file" :: f :: r) c) = Done (St (f :: r) (set str_eqb (lit "file") (VText f) c)).
Proof. unfold step. cbn [argv conf].
  change (find (fun h => str_eqb (lit "--file") (rep h)) handlers) with (@None handler).
  change (starts_with (lit "--qt-support") (lit "--file")) with false. rewrite str_eqb_refl. reflexivity. Qed.

(** ** Theorems *)

(** The options made from any settings, followed by the program and its arguments, are read back: every option
    has the value it had (or its default, when it had none or was left out), the file is the program, and what
    is left is the program and its arguments. *)
Theorem cmdline_round_trip : forall pid s skip exe f rest,
  well_typed pid s ->
  exists s', reads pid (exe :: setup_to_argv s skip ++ lit "--file" :: f :: rest) (f :: rest) s'
    /\ get str_eqb (lit "file") s' = Some (VText f)
    /\ get str_eqb (lit "qt-support") s' = Some (VText [])
    /\ forall o, In o options -> exists v, get str_eqb (oname o) s' = Some v /\ expected s skip (oname o) (odflt o) v.
Proof.
  intros pid s skip exe f rest W.
  destruct (pieces_read pid s skip (well_typed_handlers _ _ W) handlers (lit "--file" :: f :: rest) defaults (incl_refl _) names_nodup get_defaults)
    as (c & [n R] & O & G).
  exists (set str_eqb (lit "file") (VText f) c).
  split; [|split; [|split]].
  - exists (n + 1)%nat. unfold process. change (setup_to_argv s skip) with (flat_map (piece s skip) handlers).
    rewrite R. cbn [loop]. rewrite step_file. reflexivity.
  - rewrite (get_set _ str_eqb_spec), str_eqb_refl. reflexivity.
  - rewrite (get_set _ str_eqb_spec). change (str_eqb (lit "qt-support") (lit "file")) with false.
    cbv iota. rewrite O; [vm_compute; reflexivity|]. intro H. apply existsb_In in H. vm_compute in H. discriminate.
  - intros o Ho. pose proof (option_handler o Ho) as Hh. destruct (G _ Hh) as (v & Gv & X). exists v. split; [|exact X].
    rewrite (get_set _ str_eqb_spec). destruct (str_eqb_spec (oname o) (lit "file")) as [E|_]; [|exact Gv].
    exfalso. apply file_not_handler. rewrite <- E. exact (in_map name _ _ Hh).
Qed.

(** The same for options alone *)
Theorem cmdline_round_trip_options : forall pid s skip exe,
  well_typed pid s ->
  exists s', reads pid (exe :: setup_to_argv s skip) [] s'
    /\ get str_eqb (lit "file") s' = Some (VText [])
    /\ forall o, In o options -> exists v, get str_eqb (oname o) s' = Some v /\ expected s skip (oname o) (odflt o) v.
Proof.
  intros pid s skip exe W.
  destruct (pieces_read pid s skip (well_typed_handlers _ _ W) handlers [] defaults (incl_refl _) names_nodup get_defaults)
    as (c & [n R] & O & G).
  exists c. split; [|split].
  - exists (n + 1)%nat. unfold process. change (setup_to_argv s skip) with (flat_map (piece s skip) handlers).
    rewrite app_nil_r in R. rewrite R. reflexivity.
  - rewrite O by exact file_not_handler. vm_compute. reflexivity.
  - intros o Ho. exact (G _ (option_handler o Ho)).
Qed.

(** What one iteration does to the arguments *)
Lemma step_shrinks pid s :
  match step pid s with
  | Next s' => (argv s' = argv s /\ In (lit "--DEBUG") (argv s)) \/ (exists p, p <> [] /\ argv s = p ++ argv s')
  | Done s' => (argv s = [] /\ argv s' = []) \/ (exists f r, argv s = lit "--file" :: f :: r /\ argv s' = f :: r
                /\ get str_eqb (lit "file") (conf s') = Some (VText f))
  | Fail => True
  end.
Proof.
  unfold step. destruct (argv s) as [|a r] eqn:Ea; [left; auto|].
  destruct (find _ handlers) as [h|] eqn:Ef.
  - destruct (knd h); try (destruct r as [|v r]; [exact I|]; destruct (convert _ _ v); [|exact I];
      right; exists [a; v]; split; [discriminate | reflexivity]).
    right. exists [a]. split; [discriminate | reflexivity].
  - destruct (starts_with _ a).
    { destruct (str_eqb a _); [right; exists [a]; split; [discriminate | reflexivity]|].
      destruct (starts_with _ a); [|exact I]. cbv zeta.
      destruct (existsb _ qt_modes); [|exact I]. right. exists [a]. split; [discriminate | reflexivity]. }
    destruct (str_eqb_spec a (lit "--file")) as [-> | _].
    { destruct r as [|f r]; [exact I|]. right. exists f, r. repeat split.
      cbn [conf]. rewrite (get_set _ str_eqb_spec), str_eqb_refl. reflexivity. }
    destruct (str_eqb_spec a (lit "--DEBUG")) as [-> | _]; [|exact I].
    left. split; [exact Ea | left; reflexivity].
Qed.

(** Reading any command line without --DEBUG ends, whatever the texts are. *)
Theorem cmdline_terminates : forall pid l, ~ In (lit "--DEBUG") l -> exists n o, process pid n l = Some o.
Proof.
  intros pid [|exe l] H; [exists O, Fail; reflexivity|]. unfold process.
  assert (H' : ~ In (lit "--DEBUG") l) by (intro X; apply H; right; exact X). clear H.
  assert (G : forall k s, (List.length (argv s) <= k)%nat -> ~ In (lit "--DEBUG") (argv s) ->
              exists o, loop pid (S k) s = Some o).
  { induction k as [|k IH]; intros s Hk Hd; cbn [loop]; pose proof (step_shrinks pid s) as X;
      destruct (step pid s) as [s'|s'|] eqn:Es; eauto.
    - destruct X as [[_ X]|(p & Hp & X)]; [contradiction|]. destruct p; [congruence|]. rewrite X in Hk. cbn in Hk. lia.
    - destruct X as [[_ X]|(p & Hp & X)]; [contradiction|]. destruct p as [|x p]; [congruence|].
      apply IH.
      + rewrite X in Hk. cbn [app List.length] in Hk. rewrite app_length in Hk. lia.
      + intro Y. apply Hd. rewrite X. apply in_or_app. right. exact Y. }
  destruct (G (List.length l) (St l defaults)) as [o Ho]; [reflexivity | exact H' |]. eauto.
Qed.

(** What is left is an end of the command line: nothing, or what follows --file, whose first text is the file. *)
Theorem cmdline_leftover : forall pid l left s, reads pid l left s ->
  left = [] \/ exists p f r, l = p ++ lit "--file" :: f :: r /\ left = f :: r /\ get str_eqb (lit "file") s = Some (VText f).
Proof.
  intros pid [|exe l] left s [n H]; [discriminate|]. unfold process in H.
  assert (G : forall n a, loop pid n a = Some (Done (St left s)) ->
    left = [] \/ exists p f r, argv a = p ++ lit "--file" :: f :: r /\ left = f :: r /\ get str_eqb (lit "file") s = Some (VText f)).
  { clear. induction n as [|n IH]; intros a H; [discriminate|]. cbn [loop] in H. pose proof (step_shrinks pid a) as X.
    destruct (step pid a) as [b|b|]; try discriminate.
    - destruct (IH b H) as [E|(p & f & r & E & F)]; [left; exact E|]. right.
      destruct X as [[X _]|(q & _ & X)].
      + exists p, f, r. rewrite <- X. auto.
      + exists (q ++ p), f, r. rewrite X, E, app_assoc. auto.
    - injection H as ->. destruct X as [[_ X]|(f & r & X & Y & Z)].
      + left. exact X.
      + right. exists [], f, r. auto. }
  destruct (G n _ H) as [E|(p & f & r & E & F)]; [left; exact E|]. right. exists (exe :: p), f, r.
  cbn [argv] in E. rewrite E. auto.
Qed.

(** With --DEBUG reading never ends: there is a command line on which no number of iterations is enough. *)
Theorem cmdline_debug_refuted : exists l, forall pid n, process pid n l = None.
Proof.
  exists [lit "pydevd.py"; lit "--DEBUG"; lit "--file"; lit "a.py"]. intros pid n. unfold process.
  induction n as [|n IH]; [reflexivity|]. cbn [loop].
  change (step pid (St [lit "--DEBUG"; lit "--file"; lit "a.py"] defaults))
    with (Next (St [lit "--DEBUG"; lit "--file"; lit "a.py"] defaults)). exact IH.
Qed.

(** The mode of Qt support is not passed on to the child: read, written and read again, it is another one. *)
Theorem cmdline_qt_refuted : exists l s s' left, reads 1 l left s /\ reads 1 (lit "pydevd.py" :: setup_to_argv s []) [] s'
  /\ get str_eqb (lit "qt-support") s <> get str_eqb (lit "qt-support") s'.
Proof.
  exists [lit "pydevd.py"; lit "--qt-support=pyqt5"]. do 3 eexists.
  split; [exists 2%nat; vm_compute; reflexivity|]. split; [exists 2%nat; vm_compute; reflexivity|].
  vm_compute. discriminate.
Qed.

(** *** The protocol of the child *)
Lemma on_set s k v n : on (set str_eqb k v s) n = if str_eqb n k then truth v else on s n.
Proof. unfold on. rewrite (get_set _ str_eqb_spec). destruct (str_eqb n k); reflexivity. Qed.
Lemma on_del s k n (ND : NoDup (keys s)) : on (del str_eqb k s) n = if str_eqb n k then false else on s n.
Proof.
  unfold on. destruct (str_eqb_spec n k) as [-> | E].
  - rewrite (get_del_same _ str_eqb_spec) by exact ND. reflexivity.
  - rewrite (get_del_other _ str_eqb_spec) by congruence. reflexivity.
Qed.

(** A child started from a parent that was not told to use the http protocol with XML on its own command line
    uses the parent's current protocol and, unless the process is replaced, has it as parent. *)
Theorem child_uses_protocol : forall s p pid is_exec, NoDup (keys s) -> on s (flag PHttp) = false ->
  child_protocol (update s p pid is_exec) = Some p
  /\ (is_exec = false -> get str_eqb (lit "ppid") (update s p pid is_exec) = Some (VInt pid)).
Proof.
  intros s p pid e ND H. unfold update. cbv zeta.
  pose proof (NoDup_keys_del str_eqb (lit "json-dap-http") s ND) as N1.
  pose proof (NoDup_keys_del str_eqb (lit "json-dap") _ N1) as N2.
  pose proof (NoDup_keys_del str_eqb (lit "protocol-quoted-line") _ N2) as N3.
  set (s3 := del str_eqb (lit "protocol-quoted-line") _) in *.
  split.
  - assert (A : forall q, on s3 (flag q) = false).
    { intro q. unfold s3. rewrite on_del by exact N2. rewrite on_del by exact N1. rewrite on_del by exact ND.
      destruct q; [reflexivity | exact H | reflexivity | reflexivity]. }
    set (s4 := if e then s3 else _).
    assert (B : forall q, on s4 (flag q) = false).
    { intro q. unfold s4. destruct e; [apply A|]. rewrite on_set. rewrite A. destruct q; reflexivity. }
    unfold child_protocol. rewrite !on_set, !B. destruct p; reflexivity.
  - intros ->. rewrite (get_set _ str_eqb_spec).
    assert (E : str_eqb (lit "ppid") (flag p) = false) by (destruct p; reflexivity). rewrite E.
    rewrite (get_set _ str_eqb_spec), str_eqb_refl. reflexivity.
Qed.

(** Otherwise the child can use another protocol than its parent: started with --protocol-http, then switched to
    lines by the client, the parent starts children that use http. *)
Theorem child_protocol_refuted : exists s p pid, NoDup (keys s) /\ on s (flag PHttp) = true
  /\ child_protocol (update s p pid false) <> Some p.
Proof.
  exists [(lit "protocol-http", VBool true)], PQuoted, 5%Z. split; [|split].
  - repeat constructor. intros [].
  - reflexivity.
  - vm_compute. discriminate.
Qed.

(** The whole way: written with the protocol and the parent, read by the child, the protocol is the parent's. *)
Theorem child_protocol_round_trip : forall s p pid child exe f rest is_exec,
  NoDup (keys s) -> on s (flag PHttp) = false -> well_typed child s -> pid <> child ->
  exists s', reads child (exe :: setup_to_argv (update s p pid is_exec) [] ++ lit "--file" :: f :: rest) (f :: rest) s'
    /\ child_protocol s' = Some p
    /\ (is_exec = false -> get str_eqb (lit "ppid") s' = Some (VInt pid)).
Proof.
  intros s p pid child exe f rest e ND H W Hp.
  set (u := update s p pid e).
  assert (Wu : well_typed child u).
  { apply well_typed_options. apply well_typed_handlers in W. intros h v Hh Hg. unfold u, update in Hg. cbv zeta in Hg.
    rewrite (get_set _ str_eqb_spec) in Hg. destruct (str_eqb_spec (name h) (flag p)) as [E|_].
    { injection Hg as <-. clear - Hh E.
      repeat (destruct Hh as [<- | Hh]; [cbn [knd typed]; (exact I || (exfalso; destruct p; vm_compute in E; discriminate))|]).
      destruct Hh. }
    assert (D : forall k (t : setup) x, get str_eqb (name h) (del str_eqb k t) = Some x -> NoDup (keys t) -> get str_eqb (name h) t = Some x).
    { intros k t x G N. destruct (str_eqb_spec (name h) k) as [<- | E].
      - rewrite (get_del_same _ str_eqb_spec) in G by exact N. discriminate.
      - rewrite (get_del_other _ str_eqb_spec) in G by congruence. exact G. }
    assert (G3 : get str_eqb (name h) (del str_eqb (lit "protocol-quoted-line")
                   (del str_eqb (lit "json-dap") (del str_eqb (lit "json-dap-http") s))) = Some v -> typed child (knd h) v).
    { intro G. apply D in G; [|apply NoDup_keys_del, NoDup_keys_del, ND].
      apply D in G; [|apply NoDup_keys_del, ND]. apply D in G; [|exact ND]. exact (W h v Hh G). }
    destruct e; [exact (G3 Hg)|]. rewrite (get_set _ str_eqb_spec) in Hg.
    destruct (str_eqb_spec (name h) (lit "ppid")) as [E|_]; [|exact (G3 Hg)].
    injection Hg as <-. clear - Hh E Hp.
    repeat (destruct Hh as [<- | Hh]; [cbn [knd typed]; ((intros _; exact Hp) || (exfalso; vm_compute in E; discriminate))|]).
    destruct Hh. }
  destruct (cmdline_round_trip child u [] exe f rest Wu) as (s' & R & _ & _ & G).
  destruct (child_uses_protocol s p pid e ND H) as [P Q]. fold u in P, Q.
  exists s'. split; [exact R|].
  assert (On : forall q, on s' (flag q) = on u (flag q)).
  { intro q. destruct (G (Opt (flag q) Flag (VBool false))) as (v & Gv & X).
    - destruct q; cbn [flag]; unfold options; cbn [map app]; find_in.
    - cbn [oname odflt] in *. unfold on. rewrite Gv.
      destruct X as [[-> [X|[X|X]]]|[_ [X _]]]; cbn [oname] in X; try (exfalso; exact X); try rewrite X; reflexivity. }
  split.
  - unfold child_protocol in *. rewrite !On. exact P.
  - intro He. specialize (Q He). destruct (G (Opt (lit "ppid") Parent (VInt 0))) as (v & Gv & X).
    + right. left. reflexivity.
    + cbn [oname odflt] in *. rewrite Gv. destruct X as [[-> [X|[X|X]]]|[_ [X _]]]; cbn [oname] in X; try (exfalso; exact X); congruence.
Qed.

(** ** Concrete cases *)
Definition ex_setup : setup :=
  [(lit "port", VInt 5678); (lit "ppid", VInt 77); (lit "client", VText (lit "127.0.0.1"));
   (lit "access-token", VText (lit "--port")); (lit "multiprocess", VBool true); (lit "server", VBool false);
   (lit "vm_type", VNone); (lit "json-dap", VBool true)].
Example ex_well_typed : well_typed 78 ex_setup.
Proof.
  apply well_typed_options. intros h v Hh. repeat (destruct Hh as [<- | Hh];
    [cbn [name knd]; vm_compute get; intro E; try discriminate E; injection E as <-; cbn [typed]; (exact I || (intros; discriminate))|]).
  destruct Hh.
Qed.
Example ex_argv : setup_to_argv ex_setup [] =
  [lit "--port"; lit "5678"; lit "--ppid"; lit "77"; lit "--client"; lit "127.0.0.1"; lit "--access-token"; lit "--port";
   lit "--multiprocess"; lit "--json-dap"].
Proof. vm_compute. reflexivity. Qed.
Example ex_child : NoDup (keys ex_setup) /\ on ex_setup (flag PHttp) = false /\ child_protocol (update ex_setup PHttpJson 78 false) = Some PHttpJson.
Proof. split; [|split; vm_compute; reflexivity]. unfold keys, ex_setup. cbn [map fst].
  repeat (constructor; [intro H; apply existsb_In in H; vm_compute in H; discriminate|]). constructor. Qed.
Example ex_reads : exists s, reads 1 [lit "pydevd.py"; lit "--module"; lit "--file"; lit "m"; lit "--port"] [lit "m"; lit "--port"] s.
Proof. eexists. exists 2%nat. vm_compute. reflexivity. Qed.
Example ex_fails : process 77 9 [lit "pydevd.py"; lit "--ppid"; lit "77"] = Some Fail.
Proof. vm_compute. reflexivity. Qed.

Print Assumptions cmdline_round_trip.
Print Assumptions cmdline_round_trip_options.
Print Assumptions cmdline_terminates.
Print Assumptions cmdline_leftover.
Print Assumptions cmdline_debug_refuted.
Print Assumptions cmdline_qt_refuted.
Print Assumptions child_uses_protocol.
Print Assumptions child_protocol_refuted.
Print Assumptions child_protocol_round_trip.
