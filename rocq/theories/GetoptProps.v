(** Property C84: the command line of the test runner is read as it was written. *)
From Coq Require Import String.
From Coq Require Import List NArith ZArith Bool Lia.
From Verif Require Import Base Getopt.
From Verif Require RunFileProps.
Import ListNotations.
Open Scope list_scope.

(** Specification: tables of options.  A long option is a name, with an equals sign if it has a value; a short one a letter,
    with a colon if it has a value. *)
Definition good_longs (table : list str) : Prop :=
  NoDup table /\ forall e, In e table -> exists n, ~ In 61%N n /\ (e = n \/ e = n ++ [61%N]).

Definition entry (n : str) (valued : bool) : str := if valued then n ++ [61%N] else n.

(** A name, in full or shortened so that it is the beginning of one option only. *)
Definition means (table : list str) (s n : str) (valued : bool) : Prop :=
  ~ In 61%N n /\ In (entry n valued) table /\
  ((s = n /\ (valued = true -> ~ In n table)) \/
   (s <> n /\ (exists r, n = s ++ r) /\ forall e r, In e table -> e = s ++ r -> e = entry n valued)).

Definition short_text (table : list (N * bool)) : str := flat_map (fun p : N * bool => fst p :: if snd p then [58%N] else []) table.
Definition good_shorts (table : list (N * bool)) : Prop :=
  NoDup (map fst table) /\ ~ In 58%N (map fst table) /\ ~ In 45%N (map fst table) /\ ~ In 43%N (map fst table).

(** What can be written on a command line. *)
Inductive item :=
| Joined (s n v : str)                 (* --name=value *)
| Apart (s n v : str)                  (* --name value *)
| Flag (s n : str) (equals : bool)     (* --name, or --name= *)
| Letters (l : list N)                 (* -abc *)
| LettersJoined (l : list N) (c : N) (v : str)   (* -abcvalue *)
| LettersApart (l : list N) (c : N) (v : str)    (* -abc value *)
| Other (a : str).

Definition good (longs : list str) (shorts : list (N * bool)) (i : item) : Prop :=
  match i with
  | Joined s n v => means longs s n true /\ ~ In 61%N s
  | Apart s n v => means longs s n true /\ ~ In 61%N s /\ s <> []
  | Flag s n e => means longs s n false /\ ~ In 61%N s /\ (e = true \/ s <> [])
  | Letters l => forall c, In c l -> In (c, false) shorts
  | LettersJoined l c v => (forall c, In c l -> In (c, false) shorts) /\ In (c, true) shorts /\ v <> []
  | LettersApart l c v => (forall c, In c l -> In (c, false) shorts) /\ In (c, true) shorts
  | Other a => forall r, a <> 45%N :: r
  end.

Definition text_of (i : item) : list str :=
  match i with
  | Joined s _ v => [[45; 45]%N ++ s ++ 61%N :: v]
  | Apart s _ v => [[45; 45]%N ++ s; v]
  | Flag s _ e => [[45; 45]%N ++ s ++ if e then [61%N] else []]
  | Letters l => [45%N :: l]
  | LettersJoined l c v => [45%N :: l ++ c :: v]
  | LettersApart l c v => [45%N :: l ++ [c]; v]
  | Other a => [a]
  end.

Definition options_of (i : item) : list (str * str) :=
  match i with
  | Joined _ n v | Apart _ n v => [([45; 45]%N ++ n, v)]
  | Flag _ n _ => [([45; 45]%N ++ n, [])]
  | Letters l => map (fun c => ([45%N; c], [])) l
  | LettersJoined l c v | LettersApart l c v => map (fun c => ([45%N; c], [])) l ++ [([45%N; c], v)]
  | Other _ => []
  end.

Definition others_of (i : item) : list str := match i with Other a => [a] | _ => [] end.

(** After two dashes all is taken as it is. *)
Definition rest_text (rest : option (list str)) : list str := match rest with None => [] | Some l => [45; 45]%N :: l end.
Definition rest_others (rest : option (list str)) : list str := match rest with None => [] | Some l => l end.

(** Long names. *)
Lemma no_eq_split s : ~ In 61%N s -> split1 61 s = None.
Proof.
  induction s as [|x s IH]; intros h; [reflexivity|]. cbn [split1]. destruct (N.eqb_spec x 61) as [->|n]; [exfalso; apply h; now left|].
  rewrite IH; [reflexivity|]. intros i. apply h. now right.
Qed.

Lemma eq_split s v : ~ In 61%N s -> split1 61 (s ++ 61%N :: v) = Some (s, v).
Proof.
  induction s as [|x s IH]; intros h; cbn [app split1]; [reflexivity|]. destruct (N.eqb_spec x 61) as [->|n]; [exfalso; apply h; now left|].
  rewrite IH; [reflexivity|]. intros i. apply h. now right.
Qed.

Lemma split_inv s a b : split1 61 s = Some (a, b) -> ~ In 61%N a /\ s = a ++ 61%N :: b.
Proof.
  revert a. induction s as [|x s IH]; intros a h; cbn [split1] in h; [discriminate|]. destruct (N.eqb_spec x 61) as [->|n].
  - injection h as <- <-. split; [intros []|reflexivity].
  - destruct (split1 61 s) as [[a' b']|]; [|discriminate]. injection h as <- ->. destruct (IH a' eq_refl) as (h1 & ->).
    split; [intros [e|i]; [now apply n|now apply h1]|reflexivity].
Qed.

Lemma split_none s : split1 61 s = None -> ~ In 61%N s.
Proof.
  induction s as [|x s IH]; intros h; cbn [split1] in h; [intros []|]. destruct (N.eqb_spec x 61) as [->|n]; [discriminate|].
  destruct (split1 61 s) as [[a b]|]; [discriminate|]. intros [e|i]; [now apply n|now apply IH].
Qed.

Lemma entry_inj n m a b : ~ In 61%N n -> ~ In 61%N m -> entry n a = entry m b -> n = m /\ a = b.
Proof.
  intros hn hm e. destruct a, b; cbn [entry] in e.
  - apply app_inj_tail in e as [-> _]. now split.
  - exfalso. apply hm. rewrite <- e. apply in_or_app. right. now left.
  - exfalso. apply hn. rewrite e. apply in_or_app. right. now left.
  - now split.
Qed.

Lemma ends_eq n : ends_with [61%N] (n ++ [61%N]) = true.
Proof. unfold ends_with. rewrite rev_app_distr. reflexivity. Qed.

Lemma not_ends n : ~ In 61%N n -> ends_with [61%N] n = false.
Proof.
  intros h. unfold ends_with. cbn [rev app]. destruct (rev n) as [|x r] eqn:E; [reflexivity|]. cbn [starts_with]. rewrite andb_true_r.
  apply N.eqb_neq. intros e. apply h. rewrite in_rev, E, e. now left.
Qed.

Lemma filter_single {A} (p : A -> bool) l e : NoDup l -> In e l -> p e = true -> (forall x, In x l -> p x = true -> x = e) -> filter p l = [e].
Proof.
  induction l as [|x l IH]; intros nd i hp h; [destruct i|]. inversion nd as [|? ? n1 n2]; subst. cbn [filter]. destruct (p x) eqn:E.
  - assert (x = e) as -> by (apply h; [now left|exact E]). f_equal.
    destruct (filter p l) as [|y r] eqn:F; [reflexivity|]. exfalso. assert (iy : In y (filter p l)) by (rewrite F; now left).
    apply filter_In in iy as [iy py]. assert (y = e) as -> by (apply h; [now right|exact py]). now apply n1.
  - destruct i as [->|i]; [congruence|]. apply IH; auto. intros y iy. apply h. now right.
Qed.

Lemma long_means table s n valued : good_longs table -> ~ In 61%N s ->
  long_has_args s table = inl (valued, n) <-> means table s n valued.
Proof.
  intros [nd hg] hs. unfold long_has_args.
  assert (hmem : forall x, RunFile.mem x (filter (starts_with s) table) = true <-> In x table /\ exists r, x = s ++ r).
  { intros x. rewrite RunFileProps.mem_iff, filter_In, starts_with_spec. reflexivity. }
  assert (hms : RunFile.mem s (filter (starts_with s) table) = true <-> In s table).
  { rewrite hmem. split; [tauto|]. intros i. split; [exact i|]. exists []. now rewrite app_nil_r. }
  assert (hme : RunFile.mem (s ++ [61%N]) (filter (starts_with s) table) = true <-> In (s ++ [61%N]) table).
  { rewrite hmem. split; [tauto|]. intros i. split; [exact i|]. now exists [61%N]. }
  split.
  - intros h. destruct (filter (starts_with s) table) as [|p0 ps] eqn:F; [discriminate|].
    destruct (RunFile.mem s (p0 :: ps)) eqn:M1.
    + injection h as <- <-. split; [exact hs|]. split; [now apply hms|]. left. split; [reflexivity|discriminate].
    + destruct (RunFile.mem (s ++ [61%N]) (p0 :: ps)) eqn:M2.
      * injection h as <- <-. split; [exact hs|]. split; [now apply hme|]. left. split; [reflexivity|]. intros _ i. apply hms in i. congruence.
      * destruct ps as [|p1 ps]; [|discriminate].
        assert (hp0 : In p0 table /\ exists r, p0 = s ++ r) by (rewrite <- starts_with_spec, <- filter_In, F; now left). destruct hp0 as (i0 & r & e0).
        assert (huniq : forall e r, In e table -> e = s ++ r -> e = p0).
        { intros e r' i e'. assert (g : In e (filter (starts_with s) table)) by (apply filter_In; split; [exact i|]; apply starts_with_spec; now exists r').
          rewrite F in g. destruct g as [<-|[]]. reflexivity. }
        destruct (hg p0 i0) as (m & hm & [e|e]).
        -- subst p0. rewrite e in *. rewrite not_ends in h by exact hm. injection h as <- <-. split; [exact hm|]. split; [exact i0|]. right.
           split; [|split; [exists r; now symmetry|exact huniq]]. intros e2. rewrite <- e2 in i0. apply hms in i0. congruence.
        -- rewrite e in h. rewrite ends_eq, removelast_last in h. injection h as <- <-. split; [exact hm|]. split; [cbn [entry]; now rewrite <- e|]. right.
           assert (hne : s <> m). { intros e2. rewrite e, <- e2 in i0. apply hme in i0. congruence. }
           split; [exact hne|]. split.
           ++ rewrite e in e0. destruct r as [|x r] using rev_ind.
              ** exfalso. apply hs. rewrite app_nil_r in e0. rewrite <- e0. apply in_or_app. right. now left.
              ** rewrite app_assoc in e0. apply app_inj_tail in e0 as [-> _]. now exists r.
           ++ intros e' r' i' e''. cbn [entry]. rewrite <- e. now apply (huniq e' r').
  - intros (hn & hi & hor). destruct (filter (starts_with s) table) as [|p0 ps] eqn:F.
    + exfalso. assert (g : In (entry n valued) (filter (starts_with s) table)).
      { apply filter_In. split; [exact hi|]. apply starts_with_spec. destruct hor as [[-> _]|(_ & (r & ->) & _)]; destruct valued; cbn [entry].
        - now exists [61%N].
        - exists []. now rewrite app_nil_r.
        - exists (r ++ [61%N]). now rewrite app_assoc.
        - now exists r. }
      rewrite F in g. destruct g.
    + destruct hor as [[-> hv]|(hne & (r & er) & hu)].
      * destruct valued; cbn [entry] in hi.
        -- destruct (RunFile.mem n (p0 :: ps)) eqn:M1; [exfalso; apply (hv eq_refl); now apply hms|]. now rewrite (proj2 hme hi).
        -- now rewrite (proj2 hms hi).
      * destruct (RunFile.mem s (p0 :: ps)) eqn:M1.
        { exfalso. clear M1. pose proof (proj1 hms eq_refl) as M1. assert (e : s = entry n valued) by (apply (hu s []); [exact M1|now rewrite app_nil_r]).
          destruct valued; cbn [entry] in e; [|now apply hne]. apply hs. rewrite e. apply in_or_app. right. now left. }
        destruct (RunFile.mem (s ++ [61%N]) (p0 :: ps)) eqn:M2.
        { exfalso. clear M2. pose proof (proj1 hme eq_refl) as M2. assert (e : s ++ [61%N] = entry n valued) by (now apply (hu (s ++ [61%N]) [61%N])).
          change (s ++ [61%N]) with (entry s true) in e. apply entry_inj in e as [e _]; auto. }
        assert (hf : filter (starts_with s) table = [entry n valued]).
        { apply filter_single; auto.
          - apply starts_with_spec. destruct valued; cbn [entry]; rewrite er; [exists (r ++ [61%N]); now rewrite app_assoc|now exists r].
          - intros x ix px. apply starts_with_spec in px as (r' & e'). now apply (hu x r'). }
        rewrite F in hf. injection hf as -> ->. destruct valued; cbn [entry].
        -- now rewrite ends_eq, removelast_last.
        -- now rewrite not_ends.
Qed.

(** Short options. *)
Lemma short_lookup table c b : good_shorts table -> short_has_arg c (short_text table) = Some b <-> In (c, b) table.
Proof.
  intros (nd & h58 & _ & _). induction table as [|[x bx] table IH].
  - split; [discriminate|intros []].
  - cbn [map fst] in *. inversion nd as [|? ? n1 n2]; subst. assert (hx : x <> 58%N) by (intros ->; apply h58; now left).
    assert (h58' : ~ In 58%N (map fst table)) by (intros i; apply h58; now right). specialize (IH n2 h58').
    assert (hf : short_has_arg c (short_text ((x, bx) :: table)) = if N.eqb c x then Some bx else short_has_arg c (short_text table)).
    { unfold short_text. cbn [flat_map fst snd app]. fold (short_text table). destruct bx; cbn [app short_has_arg].
      - destruct (N.eqb_spec x 58) as [e|_]; [contradiction|]. cbn [negb]. rewrite andb_true_r. destruct (N.eqb_spec c x) as [->|n]; [reflexivity|].
        change (N.eqb 58 58) with true. cbn [negb]. rewrite andb_false_r. reflexivity.
      - destruct (N.eqb_spec x 58) as [e|_]; [contradiction|]. cbn [negb]. rewrite andb_true_r. destruct (N.eqb_spec c x) as [->|n]; [|reflexivity].
        destruct (short_text table) as [|y r] eqn:E; [reflexivity|]. f_equal. apply N.eqb_neq. intros ->. apply h58'.
        destruct table as [|[z bz] t]; [discriminate E|]. cbn [short_text flat_map fst snd app] in E. injection E as -> _. now left. }
    rewrite hf. destruct (N.eqb_spec c x) as [->|n].
    + split; [intros e; injection e as ->; now left|]. intros [e|i]; [injection e as ->; reflexivity|]. exfalso. apply n1. apply in_map_iff. now exists (x, b).
    + rewrite IH. split; [intros i; now right|]. intros [e|i]; [injection e as -> _; contradiction|exact i].
Qed.

Lemma shorts_flags table l s args : good_shorts table -> (forall c, In c l -> In (c, false) table) ->
  do_shorts (l ++ s) (short_text table) args =
  match do_shorts s (short_text table) args with
  | inr e => inr e
  | inl (os, r) => inl (map (fun c => ([45%N; c], [])) l ++ os, r)
  end.
Proof.
  intros hg h. induction l as [|c l IH].
  - cbn [app map]. destruct (do_shorts s (short_text table) args) as [[os r]|e]; reflexivity.
  - cbn [app do_shorts map]. assert (hc : short_has_arg c (short_text table) = Some false) by (apply short_lookup; [exact hg|]; apply h; now left).
    rewrite hc, IH by (intros d i; apply h; now right). destruct (do_shorts s (short_text table) args) as [[os r]|e]; reflexivity.
Qed.

(** One item. *)
Definition consume (fuel : nat) all_first shorts longs (os : list (str * str)) (pos : list str) (rest : list str) :=
  match loop fuel all_first shorts longs rest with
  | inr e => inr e
  | inl (opts, p) => inl (os ++ opts, pos ++ p)
  end.

Lemma dash_dash s : str_eqb ([45; 45]%N ++ s) dashes = match s with [] => true | _ => false end.
Proof. destruct s; reflexivity. Qed.

Lemma loop_item fuel b longs shorts i rest : good_longs longs -> good_shorts shorts -> good longs shorts i -> (b = true -> others_of i = []) ->
  loop (S fuel) b (short_text shorts) longs (text_of i ++ rest) =
  consume fuel b (short_text shorts) longs (options_of i) (others_of i) rest.
Proof.
  intros hl hs h hb. unfold consume. destruct i as [s n v|s n v|s n e|l|l c v|l c v|a]; cbn [good] in h; cbn [text_of app options_of others_of] in *.
  - destruct h as [hm hq]. cbn [loop]. change (45%N :: 45%N :: s ++ 61%N :: v) with ([45; 45]%N ++ (s ++ 61%N :: v)). rewrite dash_dash.
    replace (match s ++ 61%N :: v with [] => true | _ => false end) with false by (destruct s; reflexivity).
    change (starts_with dashes ([45; 45]%N ++ s ++ 61%N :: v)) with true. cbv iota. change (skipn 2 ([45; 45]%N ++ s ++ 61%N :: v)) with (s ++ 61%N :: v).
    unfold do_longs. rewrite eq_split by exact hq. rewrite (proj2 (long_means longs s n true hl hq) hm). unfold dashes. cbn [app].
    destruct (loop fuel b (short_text shorts) longs rest) as [[o p]|e]; reflexivity.
  - destruct h as (hm & hq & hne). cbn [loop]. change (45%N :: 45%N :: s) with ([45; 45]%N ++ s). rewrite dash_dash.
    replace (match s with [] => true | _ => false end) with false by (destruct s; [contradiction|reflexivity]).
    change (starts_with dashes ([45; 45]%N ++ s)) with true. cbv iota. change (skipn 2 ([45; 45]%N ++ s)) with s.
    unfold do_longs. rewrite no_eq_split by exact hq. rewrite (proj2 (long_means longs s n true hl hq) hm). unfold dashes. cbn [app].
    destruct (loop fuel b (short_text shorts) longs rest) as [[o p]|e]; reflexivity.
  - destruct h as (hm & hq & hne). cbn [loop]. set (t := s ++ if e then [61%N] else []). change (45%N :: 45%N :: t) with ([45; 45]%N ++ t). rewrite dash_dash.
    assert (ht : t <> []). { unfold t. destruct e; [destruct s; discriminate|]. rewrite app_nil_r. destruct hne as [d|hne]; [discriminate|exact hne]. }
    replace (match t with [] => true | _ => false end) with false by (destruct t; [contradiction|reflexivity]).
    change (starts_with dashes ([45; 45]%N ++ t)) with true. cbv iota. change (skipn 2 ([45; 45]%N ++ t)) with t.
    unfold do_longs. destruct e; unfold t.
    + rewrite eq_split by exact hq. rewrite (proj2 (long_means longs s n false hl hq) hm). unfold dashes. cbn [app].
      destruct (loop fuel b (short_text shorts) longs rest) as [[o p]|e]; reflexivity.
    + rewrite app_nil_r, no_eq_split by exact hq. rewrite (proj2 (long_means longs s n false hl hq) hm). unfold dashes. cbn [app].
      destruct (loop fuel b (short_text shorts) longs rest) as [[o p]|e]; reflexivity.
  - assert (hd : str_eqb (45%N :: l) dashes = false /\ starts_with dashes (45%N :: l) = false).
    { destruct hs as (_ & _ & h45 & _). destruct l as [|c l]; [split; reflexivity|]. assert (hc : c <> 45%N).
      { intros ->. apply h45. apply in_map_iff. exists (45%N, false). split; [reflexivity|]. apply h. now left. }
      unfold dashes. cbn [str_eqb starts_with]. destruct (N.eqb_spec c 45) as [e|_]; [contradiction|]. destruct (N.eqb_spec 45 c) as [e|_]; [congruence|].
      split; reflexivity. }
    cbn [loop]. rewrite (proj1 hd), (proj2 hd). change (starts_with [45%N] (45%N :: l)) with true. cbv iota. change (skipn 1 (45%N :: l)) with l.
    rewrite <- (app_nil_r l) at 1. rewrite shorts_flags by assumption. cbn [do_shorts]. rewrite app_nil_r.
    destruct (loop fuel b (short_text shorts) longs rest) as [[o p]|e]; reflexivity.
  - destruct h as (h & hc & hv).
    assert (hd : str_eqb (45%N :: l ++ c :: v) dashes = false /\ starts_with dashes (45%N :: l ++ c :: v) = false).
    { destruct hs as (_ & _ & h45 & _). destruct l as [|d l]; cbn [app].
      - assert (hd : c <> 45%N). { intros ->. apply h45. apply in_map_iff. now exists (45%N, true). }
        unfold dashes. cbn [str_eqb starts_with]. destruct (N.eqb_spec c 45) as [e|_]; [contradiction|]. destruct (N.eqb_spec 45 c) as [e|_]; [congruence|]. split; reflexivity.
      - assert (hd : d <> 45%N). { intros ->. apply h45. apply in_map_iff. exists (45%N, false). split; [reflexivity|]. apply h. now left. }
        unfold dashes. cbn [str_eqb starts_with]. destruct (N.eqb_spec d 45) as [e|_]; [contradiction|]. destruct (N.eqb_spec 45 d) as [e|_]; [congruence|]. split; reflexivity. }
    cbn [loop]. rewrite (proj1 hd), (proj2 hd). change (starts_with [45%N] (45%N :: l ++ c :: v)) with true. cbv iota. change (skipn 1 (45%N :: l ++ c :: v)) with (l ++ c :: v).
    rewrite shorts_flags by assumption. cbn [do_shorts]. rewrite (proj2 (short_lookup shorts c true hs) hc). destruct v as [|x v]; [contradiction|].
    destruct (loop fuel b (short_text shorts) longs rest) as [[o p]|e]; reflexivity.
  - destruct h as (h & hc).
    assert (hd : str_eqb (45%N :: l ++ [c]) dashes = false /\ starts_with dashes (45%N :: l ++ [c]) = false).
    { destruct hs as (_ & _ & h45 & _). destruct l as [|d l]; cbn [app].
      - assert (hd : c <> 45%N). { intros ->. apply h45. apply in_map_iff. now exists (45%N, true). }
        unfold dashes. cbn [str_eqb starts_with]. destruct (N.eqb_spec c 45) as [e|_]; [contradiction|]. destruct (N.eqb_spec 45 c) as [e|_]; [congruence|]. split; reflexivity.
      - assert (hd : d <> 45%N). { intros ->. apply h45. apply in_map_iff. exists (45%N, false). split; [reflexivity|]. apply h. now left. }
        unfold dashes. cbn [str_eqb starts_with]. destruct (N.eqb_spec d 45) as [e|_]; [contradiction|]. destruct (N.eqb_spec 45 d) as [e|_]; [congruence|]. split; reflexivity. }
    cbn [loop]. rewrite (proj1 hd), (proj2 hd). change (starts_with [45%N] (45%N :: l ++ [c])) with true. cbv iota. change (skipn 1 (45%N :: l ++ [c])) with (l ++ [c]).
    rewrite shorts_flags by assumption. cbn [do_shorts]. rewrite (proj2 (short_lookup shorts c true hs) hc).
    destruct (loop fuel b (short_text shorts) longs rest) as [[o p]|e]; reflexivity.
  - assert (hd : str_eqb a dashes = false /\ starts_with dashes a = false /\ starts_with [45%N] a = false).
    { destruct a as [|x a]; [repeat split|]. assert (hx : x <> 45%N) by (intros ->; now apply (h a)).
      unfold dashes. cbn [str_eqb starts_with]. destruct (N.eqb_spec x 45) as [e|_]; [contradiction|]. destruct (N.eqb_spec 45 x) as [e|_]; [congruence|]. repeat split. }
    destruct hd as (h1 & h2 & h3). cbn [loop]. rewrite h1, h2, h3. destruct b; [discriminate (hb eq_refl)|].
    destruct (loop fuel false (short_text shorts) longs rest) as [[o p]|e]; reflexivity.
Qed.

Lemma not_plus shorts args longs : good_shorts shorts ->
  gnu_getopt args (short_text shorts) longs = loop (S (length args)) false (short_text shorts) longs args.
Proof.
  intros (_ & _ & _ & h43). unfold gnu_getopt. destruct shorts as [|[c b] t]; [reflexivity|].
  change (short_text ((c, b) :: t)) with (c :: (if b then [58%N] else []) ++ short_text t).
  assert (hc : c <> 43%N) by (intros ->; apply h43; now left).
  destruct c as [|p]; [reflexivity|]. do 6 (destruct p as [p|p|]; try reflexivity). contradiction.
Qed.

Lemma text_length i : 1 <= length (text_of i).
Proof. destruct i; cbn [text_of length]; lia. Qed.

(** A command line made of options and other arguments in any order is read as these. *)
Theorem options_read longs shorts items rest :
  good_longs longs -> good_shorts shorts -> Forall (good longs shorts) items ->
  gnu_getopt (flat_map text_of items ++ rest_text rest) (short_text shorts) longs =
  inl (flat_map options_of items, flat_map others_of items ++ rest_others rest).
Proof.
  intros hl hs h. rewrite not_plus by exact hs.
  assert (g : forall fuel, length (flat_map text_of items ++ rest_text rest) < fuel ->
    loop fuel false (short_text shorts) longs (flat_map text_of items ++ rest_text rest) = inl (flat_map options_of items, flat_map others_of items ++ rest_others rest)).
  { induction items as [|i items IH]; intros fuel hf.
    - destruct fuel as [|fuel]; [lia|]. destruct rest as [l|]; reflexivity.
    - inversion h as [|? ? h1 h2]; subst. cbn [flat_map] in hf |- *. rewrite <- !app_assoc in hf |- *. destruct fuel as [|fuel]; [lia|].
      rewrite loop_item by (assumption || discriminate). unfold consume. rewrite IH; [now rewrite app_assoc|exact h2|].
      rewrite app_length in hf. pose proof (text_length i). lia. }
  apply g. lia.
Qed.

(** When the short options begin with a plus sign, the first other argument ends the options. *)
Theorem options_first longs shorts items rest :
  good_longs longs -> good_shorts shorts -> Forall (good longs shorts) items -> flat_map others_of items = [] ->
  (forall a l r, rest = a :: l -> a <> 45%N :: r) ->
  gnu_getopt (flat_map text_of items ++ rest) (43%N :: short_text shorts) longs = inl (flat_map options_of items, rest).
Proof.
  intros hl hs h ho hr. unfold gnu_getopt.
  assert (g : forall fuel, length (flat_map text_of items ++ rest) < fuel ->
    loop fuel true (short_text shorts) longs (flat_map text_of items ++ rest) = inl (flat_map options_of items, rest)).
  { induction items as [|i items IH]; intros fuel hf.
    - destruct fuel as [|fuel]; [lia|]. cbn [flat_map app loop]. destruct rest as [|a l]; [reflexivity|].
      assert (hd : str_eqb a dashes = false /\ starts_with dashes a = false /\ starts_with [45%N] a = false).
      { destruct a as [|x a]; [repeat split|]. assert (hx : x <> 45%N) by (intros ->; now apply (hr (45%N :: a) l a)).
        unfold dashes. cbn [str_eqb starts_with]. destruct (N.eqb_spec x 45) as [e|_]; [contradiction|]. destruct (N.eqb_spec 45 x) as [e|_]; [congruence|]. repeat split. }
      destruct hd as (h1 & h2 & h3). now rewrite h1, h2, h3.
    - inversion h as [|? ? h1 h2]; subst. cbn [flat_map] in hf, ho |- *. apply app_eq_nil in ho as [ho1 ho2]. rewrite <- app_assoc in hf |- *. destruct fuel as [|fuel]; [lia|].
      rewrite loop_item by auto. unfold consume. rewrite ho1. rewrite IH; [reflexivity|exact h2|exact ho2|].
      rewrite app_length in hf. pose proof (text_length i). lia. }
  apply g. lia.
Qed.

(** Nothing else is accepted. *)
Lemma shorts_inv table text args os r : good_shorts table -> do_shorts text (short_text table) args = inl (os, r) ->
  exists i, good [] table i /\ others_of i = [] /\ options_of i = os /\ (45%N :: text) :: args = text_of i ++ r.
Proof.
  intros hg. revert os. induction text as [|c t IH]; intros os h; cbn [do_shorts] in h.
  - injection h as <- <-. exists (Letters []). cbn. repeat split. intros c [].
  - destruct (short_has_arg c (short_text table)) as [[|]|] eqn:E; [| |discriminate]; apply short_lookup in E; try exact hg.
    + destruct t as [|x t].
      * destruct args as [|v args]; [discriminate|]. injection h as <- <-. exists (LettersApart [] c v). cbn. repeat split; auto. intros d [].
      * injection h as <- <-. exists (LettersJoined [] c (x :: t)). cbn. repeat split; auto; [intros d []|discriminate].
    + destruct (do_shorts t (short_text table) args) as [[os' r']|e]; [|discriminate]. injection h as <- ->. destruct (IH os' eq_refl) as (i & g & ho & <- & e).
      destruct i as [s n v|s n v|s n q|l|l d v|l d v|a]; try discriminate ho.
      * destruct g as [(_ & i & _) _]. destruct i.
      * destruct g as [(_ & i & _) _]. destruct i.
      * destruct g as [(_ & i & _) _]. destruct i.
      * cbn [text_of app] in e. injection e as -> ->. exists (Letters (c :: l)). cbn in *. repeat split. intros d [<-|i]; auto.
      * cbn [text_of app] in e. injection e as -> ->. exists (LettersJoined (c :: l) d v). cbn in *. destruct g as (g1 & g2 & g3). repeat split; auto. intros f [<-|i]; auto.
      * cbn [text_of app] in e. injection e as -> ->. exists (LettersApart (c :: l) d v). cbn in *. destruct g as (g1 & g2). repeat split; auto. intros f [<-|i]; auto.
Qed.

Lemma good_more longs table i : good [] table i -> good longs table i.
Proof.
  destruct i as [s n v|s n v|s n q|l|l d v|l d v|a]; cbn [good]; auto.
  - intros [(_ & h & _) _]. destruct h.
  - intros [(_ & h & _) _]. destruct h.
  - intros [(_ & h & _) _]. destruct h.
Qed.

Lemma longs_inv longs table text args o v r : good_longs longs -> text <> [] -> do_longs text longs args = inl (o, v, r) ->
  exists i, good longs table i /\ others_of i = [] /\ options_of i = [(o, v)] /\ ([45; 45]%N ++ text) :: args = text_of i ++ r.
Proof.
  intros hg ht h. unfold do_longs in h. destruct (split1 61 text) as [[s b]|] eqn:E.
  - apply split_inv in E as (hs & ->). destruct (long_has_args s longs) as [[[|] n]|e] eqn:L; [| |discriminate]; apply long_means in L; auto.
    + injection h as <- <- <-. exists (Joined s n b). cbn. repeat split; auto; apply L.
    + destruct b as [|x b]; [|discriminate]. injection h as <- <- <-. exists (Flag s n true). cbn. repeat split; auto; apply L.
  - apply split_none in E. destruct (long_has_args text longs) as [[[|] n]|e] eqn:L; [| |discriminate]; apply long_means in L; auto.
    + destruct args as [|w args]; [discriminate|]. injection h as <- <- <-. exists (Apart text n w). cbn. repeat split; auto; apply L.
    + injection h as <- <- <-. exists (Flag text n false). cbn. rewrite app_nil_r. repeat split; auto; apply L.
Qed.

Theorem options_only longs shorts args opts pos :
  good_longs longs -> good_shorts shorts -> gnu_getopt args (short_text shorts) longs = inl (opts, pos) ->
  exists items rest, Forall (good longs shorts) items /\ args = flat_map text_of items ++ rest_text rest /\
    opts = flat_map options_of items /\ pos = flat_map others_of items ++ rest_others rest.
Proof.
  intros hl hs. rewrite not_plus by exact hs. generalize (S (length args)) as fuel. intros fuel. revert args opts pos.
  induction fuel as [|fuel IH]; intros args opts pos h; cbn [loop] in h; [discriminate|]. destruct args as [|a args].
  - injection h as <- <-. exists [], None. repeat split. constructor.
  - destruct (str_eqb_spec a dashes) as [->|ne].
    { injection h as <- <-. exists [], (Some args). repeat split. constructor. }
    assert (step : forall i r os, good longs shorts i -> a :: args = text_of i ++ r -> options_of i = os ->
       (exists opts' pos', loop fuel false (short_text shorts) longs r = inl (opts', pos') /\ opts = os ++ opts' /\ pos = others_of i ++ pos') ->
       exists items rest, Forall (good longs shorts) items /\ a :: args = flat_map text_of items ++ rest_text rest /\
         opts = flat_map options_of items /\ pos = flat_map others_of items ++ rest_others rest).
    { intros i r os g e <- (opts' & pos' & e1 & -> & ->). destruct (IH r opts' pos' e1) as (items & rest & f & -> & -> & ->).
      exists (i :: items), rest. split; [now constructor|]. cbn [flat_map]. rewrite <- !app_assoc. auto. }
    destruct (starts_with dashes a) eqn:D.
    + apply starts_with_spec in D as (t & ->). change (skipn 2 (dashes ++ t)) with t in h.
      destruct (do_longs t longs args) as [[[o v] r]|e] eqn:L; [|discriminate].
      destruct (longs_inv longs shorts t args o v r) as (i & g & ho & e1 & e2); auto.
      { intros ->. apply ne. reflexivity. }
      destruct (loop fuel false (short_text shorts) longs r) as [[opts' pos']|e] eqn:R; [|discriminate]. injection h as <- <-.
      apply (step i r [(o, v)]); auto. exists opts', pos'. rewrite ho. auto.
    + destruct (starts_with [45%N] a) eqn:D1.
      * apply starts_with_spec in D1 as (t & ->). change (skipn 1 ([45%N] ++ t)) with t in h.
        destruct (do_shorts t (short_text shorts) args) as [[os r]|e] eqn:L; [|discriminate].
        destruct (shorts_inv shorts t args os r hs L) as (i & g & ho & e1 & e2).
        destruct (loop fuel false (short_text shorts) longs r) as [[opts' pos']|e] eqn:R; [|discriminate]. injection h as <- <-.
        apply (step i r os); auto; [now apply good_more|]. exists opts', pos'. rewrite ho. auto.
      * destruct (loop fuel false (short_text shorts) longs args) as [[opts' pos']|e] eqn:R; [|discriminate]. injection h as <- <-.
        apply (step (Other a) args []); auto.
        -- cbn [good]. intros r ->. discriminate D1.
        -- exists opts', pos'. auto.
Qed.

(** The test runner.  The last value given for an option counts. *)
Definition key_dec (a b : key) : {a = b} + {a <> b}.
Proof. decide equality. Defined.

Fixpoint last_of (k : key) (opts : list (str * str)) : option str :=
  match opts with
  | [] => None
  | (o, v) :: r =>
      match last_of k r, key_of o with
      | Some w, _ => Some w
      | None, Some k' => if key_dec k k' then Some v else None
      | None, None => None
      end
  end.

Definition accepted (int : str -> option Z) (o : str * str) : Prop :=
  match key_of (fst o) with
  | Some Port | Some Jobs => int (snd o) <> None
  | Some SplitJobs => snd o = lit "module" \/ snd o = lit "tests"
  | _ => True
  end.

(** The files and tests named in the lines of all files given. *)
Definition named_pairs (lines : str -> list str) (opts : list (str * str)) : list (str * str) :=
  flat_map (fun o => match key_of (fst o) with Some Config => flat_map pair_of (lines (strip (snd o))) | _ => [] end) opts.

Definition number (int : str -> option Z) (o : option str) (d : Z) : Z :=
  match o with Some v => match int v with Some z => z | None => d end | None => d end.

Definition wanted int lines opts : config (option str) :=
  Config_ [] (last_of Verbosity opts) (match last_of Port opts with Some v => int v | None => None end) (number int (last_of Jobs opts) 1)
    (match last_of SplitJobs opts with Some v => v | None => lit "tests" end) (option_map strip (last_of CovDir opts)) (option_map strip (last_of CovInc opts))
    (option_map (RunFile.pieces 44) (last_of IncTests opts)) (option_map (RunFile.pieces 44) (last_of ExcFiles opts))
    (option_map (RunFile.pieces 44) (last_of IncFiles opts)) (option_map (RunFile.pieces 44) (last_of ExcTests opts))
    (option_map (RunFile.pieces 44) (last_of Tests opts)) (match last_of Django opts with Some v => yes v | None => false end)
    (add_all (named_pairs lines opts) []).

Lemma last_app k l o v : last_of k (l ++ [(o, v)]) = match key_of o with Some k' => if key_dec k k' then Some v else last_of k l | None => last_of k l end.
Proof.
  induction l as [|[p w] l IH]; cbn [app last_of].
  - destruct (key_of o) as [k'|]; [destruct (key_dec k k')|]; reflexivity.
  - rewrite IH. destruct (key_of o) as [k'|]; [destruct (key_dec k k')|]; reflexivity.
Qed.

Lemma mem2 v : RunFile.mem v [lit "module"; lit "tests"] = true <-> v = lit "module" \/ v = lit "tests".
Proof. rewrite RunFileProps.mem_iff. split; [intros [<-|[<-|[]]]; auto|intros [->| ->]; [now left|right; now left]]. Qed.

Lemma apply_step int lines l o : apply int lines (wanted int lines l) o = Some (wanted int lines (l ++ [o])) /\ accepted int o \/
  apply int lines (wanted int lines l) o = None /\ ~ accepted int o.
Proof.
  destruct o as [o v]. unfold accepted, wanted, apply. cbn [fst snd]. rewrite !last_app.
  assert (hp : named_pairs lines (l ++ [(o, v)]) = named_pairs lines l ++ match key_of o with Some Config => flat_map pair_of (lines (strip v)) | _ => [] end).
  { unfold named_pairs. rewrite flat_map_app. cbn [flat_map fst snd]. now rewrite app_nil_r. }
  rewrite hp. destruct (key_of o) as [k|]; [|left; rewrite app_nil_r; auto].
  destruct k; cbn [key_dec key_rect key_rec]; rewrite ?app_nil_r; try (left; split; [reflexivity|exact I]).
  - destruct (int v) as [z|] eqn:E; [left; split; [|discriminate]|right; split; [reflexivity|]].
    + destruct (key_dec Port Port) as [_|n]; [|contradiction]. rewrite ?E. reflexivity.
    + intros n. now apply n.
  - destruct (int v) as [z|] eqn:E; [left; split; [|discriminate]|right; split; [reflexivity|]].
    + unfold number. destruct (key_dec Jobs Jobs) as [_|n]; [|contradiction]. rewrite ?E. reflexivity.
    + intros n. now apply n.
  - destruct (RunFile.mem v [lit "module"; lit "tests"]) eqn:E; [left|right]; (split; [reflexivity|]).
    + now apply mem2.
    + intros h. apply mem2 in h. congruence.
  - left. split; [|exact I]. unfold add_all. rewrite fold_left_app. reflexivity.
Qed.

Lemma apply_all_app int lines l o :
  apply_all int lines (l ++ [o]) = match apply_all int lines l with None => None | Some c => apply int lines c o end.
Proof. unfold apply_all. now rewrite fold_left_app. Qed.

Lemma apply_all_eq int lines opts :
  (Forall (accepted int) opts /\ apply_all int lines opts = Some (wanted int lines opts)) \/
  (~ Forall (accepted int) opts /\ apply_all int lines opts = None).
Proof.
  induction opts as [|o opts IH] using rev_ind; [left; split; [constructor|reflexivity]|]. rewrite apply_all_app, Forall_app. destruct IH as [[h ->]|[h ->]].
  - destruct (apply_step int lines opts o) as [[-> g]|[-> g]]; [left|right]; split; auto. intros [_ f]. inversion f; subst. contradiction.
  - right. split; [|reflexivity]. intros [f _]. contradiction.
Qed.

Lemma longs_good : good_longs longs.
Proof.
  split.
  - assert (h : forall l : list str, (fix nd (l : list str) := match l with [] => true | x :: r => negb (RunFile.mem x r) && nd r end) l = true -> NoDup l).
    { induction l as [|x l IH]; intros h; [constructor|]. apply andb_true_iff in h as [h1 h2]. constructor; [|now apply IH]. intros i.
      apply RunFileProps.mem_iff in i. rewrite i in h1. discriminate h1. }
    apply h. vm_compute. reflexivity.
  - intros e i. exists (removelast e). assert (k : forallb (fun e => negb (existsb (N.eqb 61) (removelast e)) && str_eqb e (removelast e ++ [61%N])) longs = true) by (vm_compute; reflexivity).
    rewrite forallb_forall in k. specialize (k e i). apply andb_true_iff in k as [k1 k2]. split.
    + intros j. assert (existsb (N.eqb 61) (removelast e) = true) by (apply existsb_exists; exists 61%N; split; [exact j|reflexivity]). rewrite H in k1. discriminate k1.
    + right. destruct (str_eqb_spec e (removelast e ++ [61%N])) as [q|q]; [exact q|discriminate k2].
Qed.

Lemma no_shorts_good : good_shorts [].
Proof. repeat split; [constructor|intros []..]. Qed.

(** The configuration is the one written: the last value of each option, the directories and files separated by bars, and the
    filters unless tests are given. *)
Theorem config_read int lines chosen prog items rest n :
  Forall (good longs []) items ->
  let opts := flat_map options_of items in
  Forall (accepted int) opts ->
  match last_of Verbosity opts with None => n = 2%Z | Some v => int v = Some n end ->
  exists c, parse_cmdline int lines chosen (prog :: flat_map text_of items ++ rest_text rest) = Some c /\
    dirs c = flat_map (RunFile.pieces 124) (flat_map others_of items ++ rest_others rest) /\
    verbosity c = n /\
    port c = match last_of Port opts with Some v => int v | None => None end /\
    jobs c = number int (last_of Jobs opts) 1 /\
    split_jobs c = match last_of SplitJobs opts with Some v => v | None => lit "tests" end /\
    cov_dir c = option_map strip (last_of CovDir opts) /\ cov_inc c = option_map strip (last_of CovInc opts) /\
    inc_tests c = option_map (RunFile.pieces 44) (last_of IncTests opts) /\
    tests c = option_map (RunFile.pieces 44) (last_of Tests opts) /\
    (last_of Tests opts = None -> exc_files c = option_map (RunFile.pieces 44) (last_of ExcFiles opts) /\
       inc_files c = option_map (RunFile.pieces 44) (last_of IncFiles opts) /\ exc_tests c = option_map (RunFile.pieces 44) (last_of ExcTests opts)) /\
    (last_of Tests opts <> None -> exc_files c = None /\ inc_files c = None /\ exc_tests c = None) /\
    django c = match last_of Django opts with Some v => yes v | None => false end /\
    files c = add_all (named_pairs lines opts ++ chosen) [].
Proof.
  intros h opts hv hn. unfold parse_cmdline. cbn [tl].
  pose proof (options_read longs [] items rest longs_good no_shorts_good h) as e. change (short_text []) with (@nil N) in e. rewrite e. fold opts.
  destruct (apply_all_eq int lines opts) as [[_ ->]|[g _]]; [|contradiction]. unfold wanted.
  assert (hi : match last_of Verbosity opts with None => Some 2%Z | Some v => int v end = Some n) by (destruct (last_of Verbosity opts); [exact hn|now rewrite hn]).
  rewrite hi. eexists. split; [reflexivity|].
  cbn [dirs verbosity port jobs split_jobs cov_dir cov_inc inc_tests tests exc_files inc_files exc_tests django files].
  repeat match goal with |- _ /\ _ => split end; auto.
  - intros ->. cbn [option_map]. auto.
  - intros g. destruct (last_of Tests opts); [cbn [option_map]; auto|contradiction].
  - unfold add_all. now rewrite fold_left_app.
Qed.

(** Any other command line is refused. *)
Theorem config_only int lines chosen prog args c : parse_cmdline int lines chosen (prog :: args) = Some c ->
  exists items rest, args = flat_map text_of items ++ rest_text rest /\ Forall (good longs []) items /\
    Forall (accepted int) (flat_map options_of items) /\
    match last_of Verbosity (flat_map options_of items) with None => True | Some v => int v <> None end.
Proof.
  intros h. unfold parse_cmdline in h. cbn [tl] in h. destruct (gnu_getopt args [] longs) as [[opts ds]|e] eqn:E; [|discriminate].
  destruct (options_only longs [] args opts ds longs_good no_shorts_good E) as (items & rest & f & ea & -> & ->).
  exists items, rest. split; [exact ea|]. split; [exact f|].
  destruct (apply_all_eq int lines (flat_map options_of items)) as [[g e]|[g e]]; rewrite e in h; [|discriminate]. split; [exact g|].
  unfold wanted in h. destruct (last_of Verbosity (flat_map options_of items)) as [v|]; [|exact I]. destruct (int v); [discriminate|]. discriminate h.
Qed.

(** The tests of a file are those given for it, in their order. *)
Definition tests_for (f : str) (l : list (str * list str)) : list str :=
  match find (fun p => str_eqb (fst p) f) l with Some p => snd p | None => [] end.

Lemma tests_add g f t l : tests_for g (add f t l) = tests_for g l ++ if str_eqb f g then [t] else [].
Proof.
  unfold tests_for. induction l as [|[h ts] l IH]; cbn [add find fst snd].
  - destruct (str_eqb f g); reflexivity.
  - destruct (str_eqb_spec h f) as [->|n]; cbn [find fst snd].
    + destruct (str_eqb f g); [reflexivity|]. now rewrite app_nil_r.
    + destruct (str_eqb_spec h g) as [->|n2]; [|exact IH]. destruct (str_eqb_spec f g) as [e|_]; [congruence|]. now rewrite app_nil_r.
Qed.

Theorem tests_given f ps : tests_for f (add_all ps []) = map snd (filter (fun p => str_eqb (fst p) f) ps).
Proof.
  unfold add_all. induction ps as [|[g t] ps IH] using rev_ind; [reflexivity|]. rewrite fold_left_app, filter_app, map_app. cbn [fold_left fst snd filter].
  rewrite tests_add, IH. destruct (str_eqb g f); reflexivity.
Qed.

(** A line of a configuration file: a file and a test, separated by the only bar. *)
Theorem line_pair line : 
  (forall f t, pair_of line = [(f, t)] <-> line = f ++ 124%N :: t /\ ~ In 124%N f /\ ~ In 124%N t) /\
  (pair_of line = [] \/ exists f t, pair_of line = [(f, t)]).
Proof.
  assert (hp : forall s, ~ In 124%N s -> RunFile.pieces 124 s = [s]).
  { intros s h. rewrite <- (app_nil_r s) at 1. rewrite RunFileProps.pieces_app by auto. reflexivity. }
  assert (hinv : forall s w ws, RunFile.pieces 124 s = w :: ws -> ~ In 124%N w /\ match ws with [] => s = w | _ => exists r, s = w ++ 124%N :: r /\ RunFile.pieces 124 r = ws end).
  { induction s as [|x s IH]; intros w ws e; cbn [RunFile.pieces] in e.
    - injection e as <- <-. split; [intros []|reflexivity].
    - destruct (N.eqb_spec x 124) as [->|n].
      + injection e as <- e. split; [intros []|]. destruct ws as [|w2 ws]; [exfalso; now apply (RunFileProps.pieces_nonempty 124 s)|]. exists s. auto.
      + destruct (RunFile.pieces 124 s) as [|w2 ws2] eqn:E; [exfalso; now apply (RunFileProps.pieces_nonempty 124 s)|]. injection e as <- <-.
        destruct (IH w2 ws2 eq_refl) as (h1 & h2). split; [intros [e2|i]; [now apply n|now apply h1]|].
        destruct ws2 as [|w3 ws3]; [now rewrite h2|]. destruct h2 as (r & -> & er). exists r. auto. }
  split.
  - intros f t. unfold pair_of. split.
    + intros h. destruct (RunFile.pieces 124 line) as [|a [|b [|c l]]] eqn:E; try discriminate. injection h as -> ->.
      destruct (hinv _ _ _ E) as (h1 & r & -> & er). destruct (hinv _ _ _ er) as (h2 & ->). auto.
    + intros (-> & hf & ht). rewrite RunFileProps.pieces_app by (auto; right; now exists t). now rewrite hp.
  - unfold pair_of. destruct (RunFile.pieces 124 line) as [|a [|b [|c l]]]; auto. right. now exists a, b.
Qed.

(** The values which switch Django on. *)
Theorem django_yes v : yes v = true <-> strip v = lit "true" \/ strip v = lit "True" \/ strip v = lit "1".
Proof.
  unfold yes. rewrite RunFileProps.mem_iff. split.
  - intros [<-|[<-|[<-|[]]]]; auto.
  - intros [->|[->| ->]]; [now left|right; now left|right; right; now left].
Qed.

(** The setting of each name. *)
Theorem names_keys :
  map (fun n => key_of ([45; 45]%N ++ lit n))
    ["verbosity"; "tests"; "port"; "config_file"; "jobs"; "split_jobs"; "include_tests"; "include_files"; "exclude_files"; "exclude_tests";
     "coverage_output_dir"; "coverage_include"; "django"]%string =
  map Some [Verbosity; Tests; Port; Config; Jobs; SplitJobs; IncTests; IncFiles; ExcFiles; ExcTests; CovDir; CovInc; Django] /\
  forall n valued, In (entry n valued) longs -> ~ In 61%N n -> valued = true /\ key_of ([45; 45]%N ++ n) <> None.
Proof.
  split; [vm_compute; reflexivity|]. intros n valued i h.
  assert (k : forallb (fun e => ends_with [61%N] e && match key_of ([45; 45]%N ++ removelast e) with Some _ => true | None => false end) longs = true) by (vm_compute; reflexivity).
  rewrite forallb_forall in k. specialize (k _ i). apply andb_true_iff in k as [k1 k2]. destruct valued; cbn [entry] in *.
  - rewrite removelast_last in k2. split; [reflexivity|]. intros e. rewrite e in k2. discriminate k2.
  - rewrite not_ends in k1 by exact h. discriminate k1.
Qed.

(** Findings. *)
(** The short options of the help text are refused. *)
Theorem short_options_refuted int lines chosen prog c t rest : c <> 45%N -> parse_cmdline int lines chosen (prog :: (45%N :: c :: t) :: rest) = None.
Proof.
  intros hc. unfold parse_cmdline. cbn [tl]. unfold gnu_getopt. cbn [loop length]. unfold dashes. cbn [str_eqb starts_with skipn].
  destruct (N.eqb_spec c 45) as [e|_]; [contradiction|]. destruct (N.eqb_spec 45 c) as [e|_]; [congruence|].
  change (N.eqb 45 45) with true. cbn [andb]. reflexivity.
Qed.

(** A single dash is lost. *)
Theorem dash_refuted : exists args shorts longs, gnu_getopt args shorts longs = inl ([], [lit "a"; lit "b"]) /\ args = [lit "a"; [45%N]; lit "b"].
Proof. exists [lit "a"; [45%N]; lit "b"], [], []. split; reflexivity. Qed.

(** Concrete cases. *)
Definition int0 (s : str) : option Z := if str_eqb s (lit "3") then Some 3%Z else None.
Definition line0 : list item := [Other (lit "a.py|b.py"); Apart (lit "verb") (lit "verbosity") (lit "3"); Joined (lit "tests") (lit "tests") (lit "A.x,B")].
Example config_case : Forall (good longs []) line0 /\ Forall (accepted int0) (flat_map options_of line0) /\
  flat_map text_of line0 = [lit "a.py|b.py"; lit "--verb"; lit "3"; lit "--tests=A.x,B"] /\
  parse_cmdline int0 (fun _ => []) [] (lit "p" :: flat_map text_of line0 ++ [lit "--"; lit "-c.py"]) =
  Some (Config_ [lit "a.py"; lit "b.py"; lit "-c.py"] 3%Z None 1%Z (lit "tests") None None None None None None (Some [lit "A.x"; lit "B"]) false []).
Proof.
  split; [|split; [|split]]; [| |reflexivity|vm_compute; reflexivity].
  - constructor; [intros r e; discriminate e|]. constructor.
    + split; [apply long_means; [exact longs_good| |vm_compute; reflexivity]|split; [|discriminate]]; cbn; intuition discriminate.
    + constructor; [|constructor]. split; [apply long_means; [exact longs_good| |vm_compute; reflexivity]|]; cbn; intuition discriminate.
  - constructor; [exact I|]. constructor; [exact I|constructor].
Qed.
Example letters_case :
  let shorts := [(97%N, false); (98%N, true)] in
  good_shorts shorts /\ good [lit "all"] shorts (LettersJoined [97%N] 98%N (lit "x")) /\
  gnu_getopt [lit "-abx"; lit "f"; lit "--all"; lit "-b"; lit "y"] (short_text shorts) [lit "all"] =
  inl ([(lit "-a", []); (lit "-b", lit "x"); (lit "--all", []); (lit "-b", lit "y")], [lit "f"]).
Proof.
  split; [|split]; [| |reflexivity].
  - repeat split; cbn; try (intuition discriminate). repeat constructor; cbn; intuition discriminate.
  - cbn. split; [intros c [<-|[]]; now left|]. split; [now right; left|discriminate].
Qed.
Example line_case : pair_of (lit "/p/t.py|T.test_a") = [(lit "/p/t.py", lit "T.test_a")] /\ pair_of (lit "a|b|c") = [] /\ yes (lit " True") = true.
Proof. repeat split. Qed.
Example first_case : gnu_getopt [lit "--all"; lit "f"; lit "--all"] (43%N :: short_text []) [lit "all"] = inl ([(lit "--all", [])], [lit "f"; lit "--all"]).
Proof. reflexivity. Qed.

(** Every option of the help text is taken, its value joined or apart. *)
Theorem names_taken : forall n v, In n ["verbosity"; "tests"; "port"; "config_file"; "jobs"; "split_jobs"; "include_tests"; "include_files"; "exclude_files";
    "exclude_tests"; "coverage_output_dir"; "coverage_include"; "django"]%string ->
  gnu_getopt [[45; 45]%N ++ lit n ++ 61%N :: v] [] longs = inl ([([45; 45]%N ++ lit n, v)], []) /\
  gnu_getopt [[45; 45]%N ++ lit n; v] [] longs = inl ([([45; 45]%N ++ lit n, v)], []).
Proof.
  intros n v h. cbn [In] in h. repeat (destruct h as [<-|h]; [split; vm_compute; reflexivity|]). destruct h.
Qed.

Print Assumptions options_read.
Print Assumptions options_first.
Print Assumptions options_only.
Print Assumptions config_read.
Print Assumptions config_only.
Print Assumptions tests_given.
Print Assumptions names_keys.
Print Assumptions line_pair.
Print Assumptions django_yes.
Print Assumptions short_options_refuted.
Print Assumptions dash_refuted.
Print Assumptions names_taken.
