(** The code of python -c means the same after the attaching code was put into it (C68). *)
From Coq Require Import String.
From Coq Require Import List Bool Arith Lia NArith.
From Verif Require Import Base PatchArgs FutureImports.
Import ListNotations.
Open Scope nat_scope.
Open Scope list_scope.

(** ** Specification: how Python reads what follows a statement

    After a simple statement: nothing more, a new line, or after a semicolon another statement on the
    same line. Two semicolons without a statement between them, or other text without a semicolon, are
    errors. (Not covered, an error here: form feeds and lines joined by a backslash before the
    semicolon.) *)
Definition blank (c : N) : bool := (c =? 32)%N || (c =? 9)%N.

Inductive rest :=
| End               (* nothing more *)
| Line (s : str)    (* this text, starting on a new line *)
| Same (s : str).   (* this text, on the same line *)

Fixpoint comment (s : str) : rest :=
  match s with
  | [] => End
  | c :: r => if (c =? 10)%N then Line r
              else if (c =? 13)%N then match r with d :: r' => if (d =? 10)%N then Line r' else Line r | [] => Line r end
              else comment r
  end.

(** after a semicolon *)
Fixpoint semi (s : str) : option rest :=
  match s with
  | [] => Some End
  | c :: r => if blank c then semi r
              else if (c =? 35)%N || (c =? 10)%N || (c =? 13)%N then Some (comment s)
              else if (c =? 59)%N then None
              else Some (Same s)
  end.

(** after a statement *)
Fixpoint after (s : str) : option rest :=
  match s with
  | [] => Some End
  | c :: r => if blank c then after r
              else if (c =? 59)%N then semi r
              else if (c =? 35)%N || (c =? 10)%N || (c =? 13)%N then Some (comment s)
              else None
  end.

(** The place where a text ends, as ast gives it: lines end at \n, \r and \r\n only, columns are bytes of
    UTF-8. *)
Definition bytes (c : N) : nat :=
  if (c <? 128)%N then 1 else if (c <? 2048)%N then 2 else if (c <? 65536)%N then 3 else 4.

Fixpoint place (s : str) (line col : nat) : nat * nat :=
  match s with
  | [] => (line, col)
  | c :: r => if (c =? 10)%N then place r (S line) 0
              else if (c =? 13)%N
              then match r with d :: _ => if (d =? 10)%N then place r line col else place r (S line) 0
                              | [] => place r (S line) 0 end
              else place r line (col + bytes c)
  end.

Definition newline (c : N) : bool := (c =? 10)%N || (c =? 13)%N.

(** other characters which end a line for str.splitlines *)
Definition odd (c : N) : bool := existsb (N.eqb c) [11; 12; 28; 29; 30; 133; 8232; 8233]%N.

(** Between the import and the code after it: blanks, at most one semicolon, newlines, and then no blank. *)
Definition tidy (t : str) : Prop :=
  exists b s k u, t = b ++ s ++ repeat 10%N k ++ u /\ forallb blank b = true /\ (s = [] \/ s = [59%N]) /\
    match u with [] => True | c :: _ => blank c = false /\ c <> 59%N /\ c <> 41%N /\ c <> 10%N end.

(** ** Offsets *)

Lemma is_break_spec c : is_break c = newline c || odd c.
Proof.
  unfold is_break, newline, odd. cbn [existsb].
  destruct (c =? 10)%N, (c =? 11)%N, (c =? 12)%N, (c =? 13)%N; cbn [orb]; try reflexivity.
Qed.

Definition has_newline (p : str) : bool := existsb newline p.

(** the characters after the last newline are ASCII *)
Fixpoint ascii_last (p : str) : Prop :=
  match p with
  | [] => True
  | c :: r => (newline c = true \/ has_newline r = true \/ (c < 128)%N) /\ ascii_last r
  end.

Lemma lines_nonempty t cur : cur <> [] \/ t <> [] -> exists l r, lines_from t cur = l :: r.
Proof.
  revert cur. induction t as [|c t IH]; intros cur H; cbn [lines_from].
  - destruct cur; [destruct H; congruence|eauto].
  - destruct (is_break c).
    + destruct t as [|d t']; [eauto|]. destruct (_ && _); eauto.
    + apply IH. left. discriminate.
Qed.

Lemma place_line p : forall line col, 
  place p line col = (line + fst (place p 0 col), snd (place p 0 col)).
Proof.
  induction p as [|c p IH]; intros line col; cbn [place].
  - cbn. f_equal. lia.
  - destruct (c =? 10)%N.
    { rewrite IH. rewrite (IH 1). cbn [fst snd]. f_equal. lia. }
    destruct (c =? 13)%N; [|apply IH].
    destruct p as [|d p']; [cbn; f_equal; lia|].
    destruct (d =? 10)%N; [apply IH|]. rewrite IH. rewrite (IH 1). cbn [fst snd]. f_equal. lia.
Qed.

Lemma lines_lf s cur : lines_from (10%N :: s) cur = rev (10%N :: cur) :: lines_from s [].
Proof. destruct s; reflexivity. Qed.
Lemma lines_crlf s cur : lines_from (13%N :: 10%N :: s) cur = rev (10%N :: 13%N :: cur) :: lines_from s [].
Proof. reflexivity. Qed.
Lemma lines_cr d s cur : d <> 10%N -> lines_from (13%N :: d :: s) cur = rev (13%N :: cur) :: lines_from (d :: s) [].
Proof. intros N. apply N.eqb_neq in N. cbn [lines_from]. rewrite N. reflexivity. Qed.
Lemma lines_other c s cur : newline c = false -> odd c = false -> lines_from (c :: s) cur = lines_from s (c :: cur).
Proof. intros A B. cbn [lines_from]. rewrite is_break_spec, A, B. reflexivity. Qed.

Lemma place_lf s col : place (10%N :: s) 0 col = (S (fst (place s 0 0)), snd (place s 0 0)).
Proof. cbn [place N.eqb Pos.eqb]. rewrite place_line. reflexivity. Qed.
Lemma place_crlf s col : place (13%N :: 10%N :: s) 0 col = (S (fst (place s 0 0)), snd (place s 0 0)).
Proof. cbn [place N.eqb Pos.eqb]. rewrite place_line. reflexivity. Qed.
Lemma place_cr d s col : d <> 10%N -> place (13%N :: d :: s) 0 col = (S (fst (place (d :: s) 0 0)), snd (place (d :: s) 0 0)).
Proof.
  intros N. apply N.eqb_neq in N.
  change (place (13%N :: d :: s) 0 col) with (if (d =? 10)%N then place (d :: s) 0 col else place (d :: s) 1 0).
  rewrite N, place_line. reflexivity.
Qed.
Lemma place_other c s col : newline c = false -> place (c :: s) 0 col = place s 0 (col + bytes c).
Proof. unfold newline. intros A. apply orb_false_iff in A as [A B]. cbn [place]. rewrite A, B. reflexivity. Qed.

Lemma offset_end l c k : offset_in (l :: c) 0 k = Some k.
Proof. reflexivity. Qed.
Lemma offset_next l r n k j : offset_in r n k = Some j -> offset_in (l :: r) (S n) k = Some (length l + j).
Proof. intros E. cbn [offset_in]. rewrite E. reflexivity. Qed.

Lemma offset_go t n : forall p cur col,
  length p <= n ->
  forallb (fun c => negb (odd c)) p = true -> ascii_last p ->
  has_newline p = true \/ col = length cur ->
  (p = [] -> cur <> []) -> (p <> [] -> newline (last p 0%N) = false) ->
  offset_in (lines_from (p ++ t) cur) (fst (place p 0 col)) (snd (place p 0 col)) = Some (length cur + length p).
Proof.
  induction n as [|n IH]; intros p cur col Ln O A H C L.
  - destruct p; [|cbn in Ln; lia]. cbn [app place fst snd length].
    destruct (lines_nonempty t cur (or_introl (C eq_refl))) as (l & r & ->). cbn [offset_in].
    destruct H as [H|H]; [discriminate|]. f_equal. lia.
  - destruct p as [|c p].
    { cbn [app place fst snd length].
      destruct (lines_nonempty t cur (or_introl (C eq_refl))) as (l & r & ->). cbn [offset_in].
      destruct H as [H|H]; [discriminate|]. f_equal. lia. }
    cbn [length] in Ln. cbn [forallb] in O. apply andb_true_iff in O as [Oc O]. apply negb_true_iff in Oc.
    cbn [ascii_last] in A. destruct A as [Ac A].
    assert (Lp : p <> [] -> newline (last p 0%N) = false).
    { intros N. rewrite <- (L ltac:(discriminate)). destruct p; [congruence|reflexivity]. }
    destruct (newline c) eqn:Nc.
    + (* the line ends *)
      assert (P : p <> []). { intros ->. specialize (L ltac:(discriminate)). cbn [last] in L. congruence. }
      destruct (N.eqb_spec c 10) as [->|N10].
      * cbn [app]. rewrite lines_lf, place_lf. cbn [fst snd].
        rewrite (offset_next _ _ _ _ (0 + length p)).
        -- rewrite rev_length. cbn [length]. f_equal. lia.
        -- apply (IH p []); auto; solve [lia|congruence].
      * assert (c = 13%N) as ->.
        { unfold newline in Nc. apply N.eqb_neq in N10. rewrite N10 in Nc. apply N.eqb_eq, Nc. }
        destruct p as [|d p]; [congruence|]. destruct (N.eq_dec d 10) as [->|Nd].
        -- cbn [app]. rewrite lines_crlf, place_crlf. cbn [fst snd].
           cbn [forallb] in O. apply andb_true_iff in O as [_ O]. destruct A as [_ A]. cbn [length] in Ln.
           assert (P2 : p <> []). { intros ->. specialize (L ltac:(discriminate)). cbn in L. discriminate. }
           rewrite (offset_next _ _ _ _ (0 + length p)).
           ++ rewrite rev_length. cbn [length]. f_equal. lia.
           ++ apply (IH p []); auto; try solve [lia|congruence].
              intros _. rewrite <- (Lp ltac:(discriminate)). destruct p; [congruence|reflexivity].
        -- cbn [app]. rewrite lines_cr, place_cr by exact Nd. cbn [fst snd].
           rewrite (offset_next _ _ _ _ (0 + length (d :: p))).
           ++ rewrite rev_length. cbn [length]. f_equal. lia.
           ++ apply (IH (d :: p) []); auto; solve [cbn [length] in *; lia|congruence].
    + cbn [app]. rewrite lines_other, place_other by assumption.
      assert (H' : has_newline p = true \/ col + bytes c = length (c :: cur)).
      { destruct H as [H|H].
        -- left. unfold has_newline in *. cbn [existsb] in H. rewrite Nc in H. exact H.
        -- destruct Ac as [Ac|[Ac|Ac]]; [congruence|left; exact Ac|].
           right. cbn [length]. unfold bytes. apply N.ltb_lt in Ac. rewrite Ac. lia. }
      rewrite (IH p (c :: cur) (col + bytes c)); auto; [|lia|discriminate].
      cbn [length]. f_equal. lia.
Qed.

(** The end of the import is found, if no other characters which str.splitlines takes for the end of a
    line come before, and the line up to there is ASCII. *)
Theorem offset_found p t :
  p <> [] -> newline (last p 0%N) = false -> forallb (fun c => negb (odd c)) p = true -> ascii_last p ->
  offset_of (p ++ t) (fst (place p 0 0)) (snd (place p 0 0)) = Some (length p).
Proof.
  intros N L O A. unfold offset_of, splitlines.
  apply (offset_go t (length p) p [] 0); auto; congruence.
Qed.

(** ** The separation *)

Lemma skipped_spec c : skipped c = true <-> blank c = true \/ c = 59%N \/ c = 41%N \/ c = 10%N.
Proof.
  unfold skipped, blank. cbn [existsb]. rewrite !orb_true_iff, !N.eqb_eq. intuition discriminate.
Qed.

Lemma run_spec s : exists v u, s = v ++ u /\ run s = length v /\ forallb skipped v = true /\
  match u with [] => True | c :: _ => skipped c = false end.
Proof.
  induction s as [|c s (v & u & E & R & F & U)]; cbn [run].
  - exists [], []. auto.
  - destruct (skipped c) eqn:S.
    + exists (c :: v), u. cbn [app length forallb]. rewrite S, R. split; [congruence|auto].
    + exists [], (c :: s). cbn. auto.
Qed.

Lemma give_back_spec f : forall c, exists k g, f = repeat 10%N k ++ g /\
  give_back f c = (g, repeat 10%N k ++ c) /\ match g with [] => True | x :: _ => x <> 10%N end.
Proof.
  induction f as [|x f IH]; intros c; cbn [give_back].
  - exists 0, []. auto.
  - destruct (N.eqb_spec x 10) as [->|N].
    + destruct (IH (10%N :: c)) as (k & g & E & G & H). exists (S k), g. split; [|split].
      * cbn. rewrite E at 1. reflexivity.
      * rewrite G. f_equal. clear. induction k; cbn; [reflexivity|]. f_equal. exact IHk.
      * exact H.
    + exists 0, (x :: f). auto.
Qed.

Lemma rev_repeat {A} (x : A) k : rev (repeat x k) = repeat x k.
Proof.
  induction k as [|k IH]; [reflexivity|]. cbn [repeat rev]. rewrite IH.
  clear. induction k; cbn; [reflexivity|]. f_equal. exact IHk.
Qed.

(** what the separation gives for a text whose import ends after [p] *)
Lemma separate_spec p t line col :
  p <> [] -> newline (last p 0%N) = false ->
  offset_of (p ++ t) line col = Some (length p) ->
  exists v k u, t = v ++ repeat 10%N k ++ u /\ forallb skipped v = true /\ (v <> [] -> last v 0%N <> 10%N) /\
    match u with [] => True | c :: _ => skipped c = false end /\
    separate (p ++ t) (Some (line, col)) =
    (p ++ v ++ (if (last (p ++ v) 0 =? 59)%N then [] else [59%N]), repeat 10%N k ++ u).
Proof.
  intros Np Lp O. unfold separate. rewrite O. rewrite skipn_app, Nat.sub_diag, skipn_all. cbn [skipn app].
  destruct (run_spec t) as (w & u & -> & -> & Fw & U).
  replace (firstn (length p + length w) (p ++ w ++ u)) with (p ++ w).
  2:{ rewrite app_assoc, <- app_length, firstn_app, Nat.sub_diag, firstn_all. cbn. now rewrite app_nil_r. }
  replace (skipn (length p + length w) (p ++ w ++ u)) with u.
  2:{ rewrite app_assoc, <- app_length, skipn_app, Nat.sub_diag, skipn_all. reflexivity. }
  destruct (give_back_spec (rev w) u) as (k & g & E & _ & H).
  assert (Ew : w = rev g ++ repeat 10%N k).
  { rewrite <- (rev_involutive w), E, rev_app_distr, rev_repeat. reflexivity. }
  exists (rev g), k, u.
  assert (GB : give_back (rev (p ++ w)) u = (rev (p ++ rev g), repeat 10%N k ++ u)).
  { rewrite Ew, !rev_app_distr, rev_repeat, rev_involutive. rewrite <- app_assoc.
    assert (HG : match g ++ rev p with [] => True | x :: _ => x <> 10%N end).
    { destruct g as [|x g]; [|exact H]. cbn [app]. destruct (rev p) as [|x r] eqn:Er; [exact I|].
      assert (last p 0%N = x). { rewrite <- (rev_involutive p), Er. cbn. apply last_last. }
      intros ->. rewrite H0 in Lp. discriminate. }
    revert HG. generalize (g ++ rev p) as h. intros h HG. clear - HG. revert u. induction k as [|k IH]; intros u.
    - cbn. destruct h as [|x h]; [reflexivity|]. cbn. apply N.eqb_neq in HG. rewrite HG. reflexivity.
    - cbn [repeat app give_back N.eqb Pos.eqb]. rewrite IH. f_equal. clear. induction k; cbn; [reflexivity|]. f_equal. exact IHk. }
  split; [rewrite Ew, <- app_assoc; reflexivity|]. split; [|split; [|split; [exact U|]]].
  - rewrite Ew, forallb_app in Fw. apply andb_true_iff in Fw. apply Fw.
  - intros Ng. destruct g as [|x g]; [cbn in Ng; congruence|]. cbn [rev]. rewrite last_last. exact H.
  - rewrite GB.
    destruct (rev (p ++ rev g)) as [|x r] eqn:Er.
    { exfalso. apply (f_equal (@length N)) in Er. rewrite rev_length, app_length in Er. destruct p; [congruence|cbn in Er; lia]. }
    assert (Pg : p ++ rev g = rev r ++ [x]). { rewrite <- (rev_involutive (p ++ rev g)), Er. reflexivity. }
    assert (Lx : last (p ++ rev g) 0%N = x) by (rewrite Pg; apply last_last).
    rewrite Lx. destruct (x =? 59)%N.
    + cbn [rev]. rewrite <- Pg, app_nil_r. reflexivity.
    + cbn [rev]. rewrite <- Pg, <- app_assoc. reflexivity.
Qed.

(** ** Reading *)

Definition plain (z : str) : Prop :=
  match z with [] => False | c :: _ => skipped c = false /\ c <> 35%N /\ c <> 13%N end.

Lemma plain_semi z : plain z -> semi z = Some (Same z).
Proof.
  destruct z as [|c z]; [intros []|]. intros (S & A & B). cbn [semi].
  assert (S' : ~ (blank c = true \/ c = 59%N \/ c = 41%N \/ c = 10%N)) by (rewrite <- skipped_spec, S; discriminate).
  destruct (blank c); [tauto|].
  apply N.eqb_neq in A, B. rewrite A, B. destruct (N.eqb_spec c 10); [tauto|]. destruct (N.eqb_spec c 59); [tauto|]. reflexivity.
Qed.

Lemma semi_set z : plain z -> forall w, forallb skipped w = true ->
  semi (w ++ z) = Some (Same z) <-> forallb blank w = true.
Proof.
  intros P. induction w as [|c w IH]; intros F.
  - cbn [app forallb]. split; [reflexivity|]. intros _. apply plain_semi, P.
  - cbn [forallb] in F. apply andb_true_iff in F as [S F]. cbn [app semi forallb].
    destruct (blank c) eqn:B; [cbn [andb]; apply IH, F|]. cbn [andb]. split; [|discriminate].
    apply skipped_spec in S. destruct S as [S|[S|[S|S]]]; [congruence| | |]; subst c; cbn.
    + discriminate.
    + intros [= E]. exfalso. apply (f_equal (@length N)) in E. cbn in E. rewrite app_length in E. lia.
    + discriminate.
Qed.

Lemma after_set z : plain z -> forall w, forallb skipped w = true ->
  after (w ++ z) = Some (Same z) <-> exists b b', w = b ++ 59%N :: b' /\ forallb blank b = true /\ forallb blank b' = true.
Proof.
  intros P. induction w as [|c w IH]; intros F.
  - cbn [app]. split.
    + destruct z as [|c z]; [destruct P|]. destruct P as (S & A & B). cbn [after].
      assert (S' : ~ (blank c = true \/ c = 59%N \/ c = 41%N \/ c = 10%N)) by (rewrite <- skipped_spec, S; discriminate).
      destruct (blank c); [tauto|]. apply N.eqb_neq in A, B. rewrite A, B.
      destruct (N.eqb_spec c 10); [tauto|]. destruct (N.eqb_spec c 59); [tauto|]. discriminate.
    + intros (b & b' & E & _). destruct b; discriminate.
  - cbn [forallb] in F. apply andb_true_iff in F as [S F]. cbn [app after].
    destruct (blank c) eqn:B.
    + rewrite (IH F). split; intros (b & b' & E & X & Y).
      * exists (c :: b), b'. cbn. rewrite B, X. split; [congruence|auto].
      * destruct b as [|d b]; cbn in E; injection E as E1 E2; subst; [discriminate B|].
        cbn in X. apply andb_true_iff in X as [_ X]. exists b, b'. auto.
    + destruct (N.eqb_spec c 59) as [->|N].
      * rewrite (semi_set z P w F). split.
        -- intros X. exists [], w. auto.
        -- intros (b & b' & E & X & Y). destruct b as [|d b]; cbn in E; [injection E as E2; congruence|].
           injection E as E1 E2. subst d. discriminate X.
      * apply skipped_spec in S. destruct S as [S|[S|[S|S]]]; [congruence|congruence| |]; subst c; cbn.
        -- split; [discriminate|]. intros (b & b' & E & X & Y). destruct b as [|d b]; cbn in E; [discriminate E|].
           injection E as E1 E2. subst d. discriminate X.
        -- split; [discriminate|]. intros (b & b' & E & X & Y). destruct b as [|d b]; cbn in E; [discriminate E|].
           injection E as E1 E2. subst d. discriminate X.
Qed.

(** a text has one decomposition into skipped characters and the rest *)
Lemma run_unique (P : N -> bool) v : forall v' u u',
  v ++ u = v' ++ u' -> forallb P v = true -> forallb P v' = true ->
  match u with [] => True | c :: _ => P c = false end ->
  match u' with [] => True | c :: _ => P c = false end -> v = v' /\ u = u'.
Proof.
  induction v as [|c v IH]; intros v' u u' E F F' U U'.
  - destruct v' as [|d v']; [auto|]. cbn in E. subst u. cbn in F'. apply andb_true_iff in F' as [F' _]. congruence.
  - destruct v' as [|d v'].
    + cbn in E. subst u'. cbn in F. apply andb_true_iff in F as [F _]. congruence.
    + cbn in E. injection E as -> E. cbn in F, F'. apply andb_true_iff in F as [_ F]. apply andb_true_iff in F' as [_ F'].
      destruct (IH _ _ _ E F F' U U') as [-> ->]. auto.
Qed.

Lemma forallb_repeat P k : P 10%N = true -> forallb P (repeat 10%N k) = true.
Proof. intros H. induction k; cbn; [reflexivity|]. rewrite H. exact IHk. Qed.

Lemma forallb_rev {A} (P : A -> bool) l : forallb P l = true -> forallb P (rev l) = true.
Proof. rewrite !forallb_forall. intros H x I. apply H, in_rev, I. Qed.

Lemma tail_unique v v' k k' :
  v ++ repeat 10%N k = v' ++ repeat 10%N k' ->
  (v <> [] -> last v 0%N <> 10%N) -> (v' <> [] -> last v' 0%N <> 10%N) -> v = v' /\ k = k'.
Proof.
  intros E L L'. apply (f_equal (@rev N)) in E. rewrite !rev_app_distr, !rev_repeat in E.
  assert (H : forall w, (w <> [] -> last w 0%N <> 10%N) -> match rev w with [] => True | c :: _ => (c =? 10)%N = false end).
  { intros w Hw. destruct (rev w) as [|c r] eqn:Er; [exact I|]. apply N.eqb_neq.
    assert (W : w = rev r ++ [c]) by (rewrite <- (rev_involutive w), Er; reflexivity).
    subst w. rewrite last_last in Hw. apply Hw. destruct (rev r); discriminate. }
  destruct (run_unique (fun c => (c =? 10)%N) _ _ _ _ E (forallb_repeat _ k eq_refl) (forallb_repeat _ k' eq_refl) (H _ L) (H _ L')) as [A B].
  split; [rewrite <- (rev_involutive v), B, rev_involutive; reflexivity|].
  apply (f_equal (@length N)) in A. rewrite !repeat_length in A. exact A.
Qed.

Lemma blank_skipped b : forallb blank b = true -> forallb skipped b = true.
Proof.
  rewrite !forallb_forall. intros H x I. apply skipped_spec. left. auto.
Qed.

Lemma blank_last b : forallb blank b = true -> b <> [] -> last b 0%N <> 10%N /\ last b 0%N <> 59%N.
Proof.
  intros F N. destruct (exists_last N) as (r & x & ->). rewrite last_last. rewrite forallb_app in F.
  apply andb_true_iff in F as [_ F]. cbn in F. rewrite andb_true_r in F.
  split; intros ->; discriminate F.
Qed.

(** [v] is what stands between the import and the newlines *)
Lemma tidy_run v k u :
  forallb skipped v = true -> (v <> [] -> last v 0%N <> 10%N) ->
  match u with [] => True | c :: _ => skipped c = false end ->
  tidy (v ++ repeat 10%N k ++ u) <-> exists b s, v = b ++ s /\ forallb blank b = true /\ (s = [] \/ s = [59%N]).
Proof.
  intros F L U. split.
  - intros (b & s & k' & u' & E & B & S & U').
    assert (U2 : match u' with [] => True | c :: _ => skipped c = false end).
    { destruct u' as [|c u']; [exact I|]. destruct (skipped c) eqn:X; [|reflexivity].
      apply skipped_spec in X. destruct U' as (A1 & A2 & A3 & A4). destruct X as [X|[X|[X|X]]]; congruence. }
    assert (Fb : forallb skipped (b ++ s) = true).
    { rewrite forallb_app, (blank_skipped _ B). destruct S as [->| ->]; reflexivity. }
    rewrite !app_assoc in E. rewrite <- (app_assoc b s) in E.
    destruct (run_unique skipped (v ++ repeat 10%N k) ((b ++ s) ++ repeat 10%N k') u u') as [A ->].
    + rewrite E, !app_assoc. reflexivity.
    + rewrite forallb_app, F, forallb_repeat; reflexivity.
    + rewrite forallb_app, Fb, forallb_repeat; reflexivity.
    + exact U.
    + exact U2.
    + destruct (tail_unique _ _ _ _ A L) as [-> ->].
      * intros N. destruct S as [->| ->].
        -- rewrite app_nil_r in *. apply blank_last; assumption.
        -- rewrite last_last. discriminate.
      * exists b, s. auto.
  - intros (b & s & -> & B & S). exists b, s, k, u. rewrite <- app_assoc. split; [reflexivity|]. split; [exact B|]. split; [exact S|].
    destruct u as [|c u]; [exact I|].
    assert (X : ~ (blank c = true \/ c = 59%N \/ c = 41%N \/ c = 10%N)) by (rewrite <- skipped_spec, U; discriminate).
    destruct (blank c); [tauto|]. split; [reflexivity|]. tauto.
Qed.

Lemma after_blanks b s : forallb blank b = true -> after (b ++ s) = after s.
Proof.
  induction b as [|c b IH]; intros F; [reflexivity|]. cbn [forallb] in F. apply andb_true_iff in F as [B F].
  cbn [app after]. rewrite B. apply IH, F.
Qed.

Lemma after_semi s : after (lit "; " ++ s) = semi s.
Proof. reflexivity. Qed.

(** If the code with the __future__ import is one which Python reads, then the new code has the import,
    then the attaching code on the same line, and after it Python reads what it read after the import --
    exactly if the text after the import is tidy. *)
Theorem future_split attach p t line col R :
  p <> [] -> newline (last p 0%N) = false -> last p 0%N <> 59%N ->
  contains (lit "__future__") p = true ->
  offset_of (p ++ t) line col = Some (length p) ->
  after t = Some R -> plain attach ->
  exists x c, c_code attach (p ++ t) (Some (line, col)) = p ++ x ++ attach ++ lit "; " ++ c /\
    (tidy t <->
     after (x ++ attach ++ lit "; " ++ c) = Some (Same (attach ++ lit "; " ++ c)) /\
     after (lit "; " ++ c) = Some R).
Proof.
  intros Np Lp L59 Ct O A Pl.
  destruct (separate_spec p t line col Np Lp O) as (v & k & u & E & Fv & Lv & U & Sep).
  assert (C2 : contains (lit "__future__") (p ++ t) = true).
  { clear - Ct. induction p as [|c p IH]; cbn [app].
    - cbn in Ct. discriminate.
    - cbn [contains] in Ct |- *. apply orb_true_iff in Ct. apply orb_true_iff. destruct Ct as [Ct|Ct]; [left|right; auto].
      revert Ct. generalize (lit "__future__") as z. intros z. revert z. 
      change (c :: p ++ t) with ((c :: p) ++ t). generalize (c :: p) as q. clear.
      induction q as [|d q IHq]; intros [|y z] H; cbn in *; auto; try discriminate.
      apply andb_true_iff in H as [H1 H2]. rewrite H1. apply IHq, H2. }
  set (x := v ++ (if (last (p ++ v) 0 =? 59)%N then [] else [59%N])).
  exists x, (repeat 10%N k ++ u). split.
  { unfold c_code. rewrite C2, Sep. unfold x. rewrite !app_assoc. reflexivity. }
  rewrite E, (tidy_run v k u Fv Lv U), after_semi.
  assert (Lpv : last (p ++ v) 0%N = match v with [] => last p 0%N | _ => last v 0%N end).
  { destruct v as [|c v]; [rewrite app_nil_r; reflexivity|].
    destruct (exists_last (l := c :: v) ltac:(discriminate)) as (r & y & ->).
    rewrite app_assoc, !last_last. destruct (r ++ [y]) eqn:X; [destruct r; discriminate|reflexivity]. }
  assert (Fx : forallb skipped x = true).
  { unfold x. rewrite forallb_app, Fv. destruct (last (p ++ v) 0 =? 59)%N; reflexivity. }
  assert (Pz : plain (attach ++ lit "; " ++ repeat 10%N k ++ u)) by (destruct attach; [destruct Pl|exact Pl]).
  rewrite (after_set _ Pz x Fx). split.
  - intros (b & s & Ev & B & S). split.
    + exists b, []. split; [|auto]. unfold x. rewrite Lpv, Ev.
      destruct S as [->| ->].
      * rewrite app_nil_r. destruct b as [|c b].
        -- destruct (N.eqb_spec (last p 0%N) 59%N); [congruence|reflexivity].
        -- destruct (blank_last _ B ltac:(discriminate)) as [_ X]. apply N.eqb_neq in X. rewrite X. reflexivity.
      * assert (X : match b ++ [59%N] with [] => last p 0%N | _ => last (b ++ [59%N]) 0%N end = 59%N).
        { destruct (b ++ [59%N]) eqn:Eb; [destruct b; discriminate|]. rewrite <- Eb. apply last_last. }
        rewrite X. cbn [N.eqb Pos.eqb]. rewrite app_nil_r. reflexivity.
    + rewrite E, Ev, <- app_assoc, (after_blanks _ _ B) in A. destruct S as [->| ->]; [|exact A].
      cbn [app] in A. destruct k as [|k]; [|exact A].
      cbn [repeat app] in *. destruct u as [|c u]; [exact A|].
      assert (X : ~ (blank c = true \/ c = 59%N \/ c = 41%N \/ c = 10%N)) by (rewrite <- skipped_spec, U; discriminate).
      cbn [after semi] in *. destruct (blank c); [tauto|]. destruct (N.eqb_spec c 59); [tauto|].
      destruct ((c =? 35)%N || (c =? 10)%N || (c =? 13)%N); [exact A|discriminate].
  - intros [(b & b' & Ex & B & B') _].
    assert (V : v = b \/ v = b ++ [59%N]).
    { unfold x in Ex. destruct (last (p ++ v) 0 =? 59)%N eqn:X.
      - rewrite app_nil_r in Ex. apply N.eqb_eq in X. rewrite Lpv in X.
        destruct v as [|c v]; [congruence|]. rewrite Ex in X.
        destruct b' as [|d b2].
        + right. exact Ex.
        + exfalso. destruct (exists_last (l := d :: b2) ltac:(discriminate)) as (r & y & Ey).
          rewrite Ey in X, B'. replace (b ++ 59%N :: r ++ [y]) with ((b ++ 59%N :: r) ++ [y]) in X by (rewrite <- app_assoc; reflexivity).
          rewrite last_last in X. subst y. rewrite forallb_app in B'. apply andb_true_iff in B' as [_ B']. discriminate B'.
      - destruct b' as [|d b2].
        + apply app_inj_tail in Ex as [Ex _]. left. exact Ex.
        + exfalso. destruct (exists_last (l := d :: b2) ltac:(discriminate)) as (r & y & Ey).
          rewrite Ey in Ex, B'. replace (b ++ 59%N :: r ++ [y]) with ((b ++ 59%N :: r) ++ [y]) in Ex by (rewrite <- app_assoc; reflexivity).
          apply app_inj_tail in Ex as [_ <-]. rewrite forallb_app in B'. apply andb_true_iff in B' as [_ B']. discriminate B'. }
    destruct V as [V|V]; [exists b, []|exists b, [59%N]]; rewrite ?app_nil_r; auto.
Qed.

(** With the place which ast gives for the end of the import. *)
Theorem future_kept attach p t R :
  p <> [] -> newline (last p 0%N) = false -> last p 0%N <> 59%N ->
  forallb (fun c => negb (odd c)) p = true -> ascii_last p ->
  contains (lit "__future__") p = true ->
  after t = Some R -> plain attach ->
  exists x c, c_code attach (p ++ t) (Some (place p 0 0)) = p ++ x ++ attach ++ lit "; " ++ c /\
    (tidy t <->
     after (x ++ attach ++ lit "; " ++ c) = Some (Same (attach ++ lit "; " ++ c)) /\
     after (lit "; " ++ c) = Some R).
Proof.
  intros Np Lp L59 Od As Ct A Pl.
  destruct (place p 0 0) as [line col] eqn:Pe.
  apply future_split; auto.
  pose proof (offset_found p t Np Lp Od As) as O. rewrite Pe in O. exact O.
Qed.

(** ** Nothing of the code is lost, and its lines keep their numbers *)

Lemma give_back_app f : forall c, let '(f', c') := give_back f c in rev f' ++ c' = rev f ++ c.
Proof.
  induction f as [|x f IH]; intros c; cbn [give_back]; [reflexivity|].
  destruct (x =? 10)%N eqn:X; [|reflexivity]. apply N.eqb_eq in X. subst x. specialize (IH (10%N :: c)).
  destruct (give_back f (10%N :: c)) as [f' c']. rewrite IH. cbn [rev]. rewrite <- app_assoc. reflexivity.
Qed.

Theorem only_inserts attach code found :
  exists a b y, code = a ++ b /\ c_code attach code found = a ++ y ++ b /\
    (y = attach ++ lit "; " \/ y = 59%N :: attach ++ lit "; ").
Proof.
  assert (Z : exists a b y, code = a ++ b /\ attach ++ lit "; " ++ code = a ++ y ++ b /\
    (y = attach ++ lit "; " \/ y = 59%N :: attach ++ lit "; ")).
  { exists [], code, (attach ++ lit "; "). split; [reflexivity|]. split; [|auto]. cbn [app]. rewrite <- app_assoc. reflexivity. }
  unfold c_code. destruct (contains (lit "__future__") code); [|exact Z].
  unfold separate. destruct found as [[line col]|]; [|exact Z].
  destruct (offset_of code line col) as [o|]; [|exact Z].
  pose proof (give_back_app (rev (firstn (o + run (skipn o code)) code)) (skipn (o + run (skipn o code)) code)) as G.
  rewrite rev_involutive, firstn_skipn in G.
  destruct (give_back _ _) as [f c]. destruct f as [|x f].
  - exists [], c, (59%N :: attach ++ lit "; "). split; [symmetry; exact G|]. split; [|auto]. cbn [app]. rewrite <- app_assoc. reflexivity.
  - destruct (x =? 59)%N.
    + exists (rev (x :: f)), c, (attach ++ lit "; "). split; [symmetry; exact G|]. split; [|auto]. rewrite <- app_assoc. reflexivity.
    + exists (rev (x :: f)), c, (59%N :: attach ++ lit "; "). split; [symmetry; exact G|]. split; [|auto].
      cbn [rev]. rewrite <- !app_assoc. cbn [app]. rewrite <- !app_assoc. reflexivity.
Qed.

(** the number of the line on which the last character stands, as ast counts it *)
Definition line_of (s : str) : nat := fst (place s 0 0).

Definition no_newline (s : str) : Prop := forallb (fun c => negb (newline c)) s = true.

Lemma line_col p : forall line col col', fst (place p line col) = fst (place p line col').
Proof.
  induction p as [|c p IH]; intros line col col'; cbn [place]; [reflexivity|].
  destruct (c =? 10)%N; [reflexivity|]. destruct (c =? 13)%N; [|apply IH].
  destruct p as [|d p']; [reflexivity|]. destruct (d =? 10)%N; [apply IH|reflexivity].
Qed.

Lemma line_flat y : no_newline y -> forall s line col, fst (place (y ++ s) line col) = fst (place s line col).
Proof.
  unfold no_newline. induction y as [|c y IH]; intros F s line col; [reflexivity|]. cbn [forallb] in F. apply andb_true_iff in F as [X F].
  apply negb_true_iff in X. unfold newline in X. apply orb_false_iff in X as [X1 X2].
  cbn [app place]. rewrite X1, X2, (IH F). apply line_col.
Qed.

Lemma place_app_line p : forall q r line col,
  last p 0%N <> 13%N \/ (forall z, q <> 10%N :: z) ->
  last p 0%N <> 13%N \/ (forall z, r <> 10%N :: z) ->
  (forall line col, fst (place q line col) = fst (place r line col)) ->
  fst (place (p ++ q) line col) = fst (place (p ++ r) line col).
Proof.
  induction p as [|c p IH]; intros q r line col Hq Hr H; [apply H|].
  destruct p as [|d p'].
  - cbn [app place]. cbn [last] in Hq, Hr. destruct (c =? 10)%N; [apply H|].
    destruct (c =? 13)%N eqn:C; [|apply H]. apply N.eqb_eq in C.
    destruct q as [|x q], r as [|y r].
    + reflexivity.
    + destruct (N.eqb_spec y 10) as [->|]; [destruct Hr as [Hr|Hr]; [congruence|exfalso; eapply Hr; reflexivity]|]. apply H.
    + destruct (N.eqb_spec x 10) as [->|]; [destruct Hq as [Hq|Hq]; [congruence|exfalso; eapply Hq; reflexivity]|]. apply H.
    + destruct (N.eqb_spec y 10) as [->|]; [destruct Hr as [Hr|Hr]; [congruence|exfalso; eapply Hr; reflexivity]|].
      destruct (N.eqb_spec x 10) as [->|]; [destruct Hq as [Hq|Hq]; [congruence|exfalso; eapply Hq; reflexivity]|]. apply H.
  - specialize (IH q r). cbn [last] in Hq, Hr.
    assert (H2 : forall l c0, fst (place ((d :: p') ++ q) l c0) = fst (place ((d :: p') ++ r) l c0)) by (intros; apply IH; auto).
    change ((c :: d :: p') ++ q) with (c :: ((d :: p') ++ q)). change ((c :: d :: p') ++ r) with (c :: ((d :: p') ++ r)).
    cbn [place]. destruct (c =? 10)%N; [apply H2|]. destruct (c =? 13)%N; [|apply H2].
    cbn [app]. destruct (d =? 10)%N; apply H2.
Qed.

(** Every line after the inserted text has the number it had (code without \r, for which the text could
    come between the two characters of a \r\n). *)
Theorem lines_kept attach code found :
  no_newline attach -> forallb (fun c => negb (c =? 13)%N) code = true ->
  exists a b y, code = a ++ b /\ c_code attach code found = a ++ y ++ b /\
    forall b1 b2, b = b1 ++ b2 -> line_of (a ++ y ++ b1) = line_of (a ++ b1).
Proof.
  intros NA NC. destruct (only_inserts attach code found) as (a & b & y & E & C & Y).
  exists a, b, y. split; [exact E|]. split; [exact C|]. intros b1 b2 _.
  assert (NY : no_newline y).
  { unfold no_newline in *. destruct Y as [->| ->]; cbn [forallb]; rewrite forallb_app, NA; reflexivity. }
  assert (L : last a 0%N <> 13%N).
  { intros X. destruct a as [|z a]; [discriminate X|]. destruct (exists_last (l := z :: a) ltac:(discriminate)) as (r & w & Er).
    rewrite Er in *. rewrite last_last in X. subst w. rewrite E, !forallb_app in NC. cbn in NC.
    rewrite andb_false_r in NC. discriminate NC. }
  unfold line_of. apply place_app_line; auto. intros line col. apply line_flat, NY.
Qed.

(** ** Code without __future__ import *)

Theorem no_future attach code found :
  contains (lit "__future__") code = false \/ found = None ->
  c_code attach code found = attach ++ lit "; " ++ code.
Proof.
  intros H. unfold c_code. destruct (contains (lit "__future__") code); [|reflexivity].
  destruct H as [H|H]; [discriminate H|]. subst found. reflexivity.
Qed.

(** statements which Python does not accept after a semicolon *)
Definition word (w s : str) : bool :=
  starts_with w s &&
  match skipn (length w) s with
  | [] => true
  | c :: _ => negb ((97 <=? c)%N && (c <=? 122)%N || (65 <=? c)%N && (c <=? 90)%N || is_digit c || (c =? 95)%N || (128 <=? c)%N)
  end.

Definition compound (s : str) : bool :=
  starts_with (lit "@") s ||
  existsb (fun w => word w s) (map lit ["if"; "for"; "while"; "try"; "with"; "def"; "class"; "async"]%string).

Definition legal (r : rest) : Prop := match r with Same s => compound s = false | _ => True end.

(** Python accepts the statement after the attaching code exactly if it is not a compound statement;
    code which starts with a comment or a newline is read from its next line. *)
Theorem no_future_first attach code found :
  contains (lit "__future__") code = false \/ found = None -> 
  plain code \/ (exists c r, code = c :: r /\ (c = 35%N \/ c = 10%N \/ c = 13%N)) ->
  exists R, c_code attach code found = attach ++ lit "; " ++ code /\ after (lit "; " ++ code) = Some R /\
    (legal R <-> (plain code -> compound code = false)) /\
    (plain code -> R = Same code) /\ (~ plain code -> R = comment code).
Proof.
  intros H P. rewrite (no_future _ _ _ H), after_semi. destruct P as [P|(c & r & -> & P)].
  - exists (Same code). split; [reflexivity|]. split; [apply plain_semi, P|]. cbn. tauto.
  - exists (comment (c :: r)).
    assert (NP : ~ plain (c :: r)). { intros (S & A & B). destruct P as [->|[->| ->]]; congruence || discriminate. }
    split; [reflexivity|]. split; [destruct P as [->|[->| ->]]; reflexivity|].
    split; [|tauto]. split; [tauto|]. intros _.
    assert (L : forall s, legal (comment s)).
    { induction s as [|d s IH]; cbn [comment]; [exact I|]. destruct (d =? 10)%N; [exact I|]. destruct (d =? 13)%N; [|exact IH].
      destruct s as [|e s]; [exact I|]. destruct (e =? 10)%N; exact I. }
    apply L.
Qed.

(** ** Where the claim fails *)

Definition attach0 : str := lit "import sys".

(** a blank after the semicolon: the new code has two semicolons without a statement between them *)
Theorem blank_after_refuted : exists p t,
  after t = Some (Same (lit "print(1)")) /\
  c_code attach0 (p ++ t) (Some (place p 0 0)) =
    p ++ lit "; ;" ++ attach0 ++ lit "; print(1)" /\
  after (lit "; ;" ++ attach0 ++ lit "; print(1)") = None.
Proof. exists (lit "from __future__ import a"), (lit "; print(1)"). repeat split; vm_compute; reflexivity. Qed.

(** an indented comment on the next line: the attaching code starts on a line with blanks before it *)
Theorem indented_comment_refuted : exists p t c,
  after t = Some (Line (lit "  # c" ++ [10%N] ++ lit "print(1)")) /\
  c_code attach0 (p ++ t) (Some (place p 0 0)) = p ++ [10%N] ++ lit "  ;" ++ attach0 ++ lit "; " ++ c /\
  after ([10%N] ++ lit "  ;" ++ attach0 ++ lit "; " ++ c) = Some (Line (lit "  ;" ++ attach0 ++ lit "; " ++ c)).
Proof.
  exists (lit "from __future__ import a"), ([10%N] ++ lit "  # c" ++ [10%N] ++ lit "print(1)"), (lit "# c" ++ [10%N] ++ lit "print(1)").
  repeat split; vm_compute; reflexivity.
Qed.

(** a character beyond ASCII before the import on its line: the import is cut behind its end, here within
    the call which follows *)
Theorem bytes_refuted : exists p t a b,
  after t = Some (Same (lit "f()")) /\ tidy t /\
  c_code attach0 (p ++ t) (Some (place p 0 0)) = p ++ lit ";" ++ a ++ lit ";" ++ attach0 ++ lit "; " ++ b /\
  a ++ b = lit "f()" /\ a = lit "f".
Proof.
  exists ([34; 8364; 34; 59]%N ++ lit "from __future__ import a"), (lit ";f()"), (lit "f"), (lit "()").
  split; [vm_compute; reflexivity|]. split; [|repeat split; vm_compute; reflexivity].
  exists [], [59%N], 0, (lit "f()"). repeat split; auto; discriminate.
Qed.

(** a form feed before the import: splitlines counts one line more than ast does *)
Theorem form_feed_refuted : exists p t,
  after t = Some (Same (lit "f()")) /\ tidy t /\
  p = [35; 12; 10]%N ++ lit "from __future__ import a" /\
  c_code attach0 (p ++ t) (Some (place p 0 0)) =
    [35; 12; 10]%N ++ lit "from __future__ import ;" ++ attach0 ++ lit "; a;f()".
Proof.
  exists ([35; 12; 10]%N ++ lit "from __future__ import a"), (lit ";f()").
  split; [vm_compute; reflexivity|]. split.
  { exists [], [59%N], 0, (lit "f()"). repeat split; auto; discriminate. }
  split; vm_compute; reflexivity.
Qed.

(** a compound statement as the first one *)
Theorem compound_refuted : exists code R,
  plain code /\ after (lit "; " ++ code) = Some R /\ ~ legal R.
Proof.
  exists (lit "for i in range(3): print(i)"), (Same (lit "for i in range(3): print(i)")).
  split; [vm_compute; repeat split; discriminate|]. split; [reflexivity|]. vm_compute. discriminate.
Qed.

(** ** Examples *)

Definition import0 : str := lit "from __future__ import a".

Example future_split_case :
  let p := lit "'doc'" ++ [10%N] ++ lit "from __future__ import (a, b)" in
  let t := lit " ;" ++ [10; 10]%N ++ lit "if x: f()" in
  (p <> [] /\ newline (last p 0%N) = false /\ last p 0%N <> 59%N /\ contains (lit "__future__") p = true /\
   offset_of (p ++ t) (fst (place p 0 0)) (snd (place p 0 0)) = Some (length p) /\
   after t = Some (Line ([10%N] ++ lit "if x: f()")) /\ plain attach0 /\ tidy t) /\
  c_code attach0 (p ++ t) (Some (place p 0 0)) = p ++ lit " ;" ++ attach0 ++ lit "; " ++ [10; 10]%N ++ lit "if x: f()".
Proof.
  cbv zeta. split; [|vm_compute; reflexivity].
  repeat split; try (vm_compute; reflexivity); try (vm_compute; discriminate).
  exists (lit " "), [59%N], 2, (lit "if x: f()"). repeat split; auto; discriminate.
Qed.

Example future_kept_case :
  forallb (fun c => negb (odd c)) (lit "x" ++ [8364; 10]%N ++ import0) = true /\
  ascii_last (lit "x" ++ [8364; 10]%N ++ import0) /\
  place (lit "x" ++ [8364; 10]%N ++ import0) 0 0 = (1, 24) /\
  c_code attach0 (import0 ++ [13; 10]%N ++ lit "f()") (Some (place import0 0 0)) =
    import0 ++ lit ";" ++ attach0 ++ lit "; " ++ [13; 10]%N ++ lit "f()".
Proof.
  split; [reflexivity|]. split; [|split; vm_compute; reflexivity].
  repeat split; vm_compute; tauto.
Qed.

Example only_inserts_case :
  c_code attach0 (lit "f('__future__')") None = attach0 ++ lit "; f('__future__')" /\
  c_code attach0 (import0 ++ lit ";f()") (Some (0, 24)) = import0 ++ lit ";" ++ attach0 ++ lit "; f()".
Proof. split; vm_compute; reflexivity. Qed.

Example lines_kept_case :
  no_newline attach0 /\
  line_of (import0 ++ lit ";" ++ attach0 ++ lit "; " ++ [10; 10]%N ++ lit "f") = 2 /\
  line_of (import0 ++ [10; 10]%N ++ lit "f") = 2.
Proof. repeat split; vm_compute; reflexivity. Qed.

Example no_future_case :
  c_code attach0 (lit "print(1)") None = lit "import sys; print(1)" /\
  plain (lit "print(1)") /\ compound (lit "print(1)") = false /\ compound (lit "format(1)") = false /\
  after (lit "; " ++ lit "# c" ++ [10%N] ++ lit "for i in x: f(i)") = Some (Line (lit "for i in x: f(i)")).
Proof. repeat split; try discriminate; vm_compute; reflexivity. Qed.

Print Assumptions offset_found.
Print Assumptions future_split.
Print Assumptions future_kept.
Print Assumptions only_inserts.
Print Assumptions lines_kept.
Print Assumptions no_future.
Print Assumptions no_future_first.
Print Assumptions blank_after_refuted.
Print Assumptions indented_comment_refuted.
Print Assumptions bytes_refuted.
Print Assumptions form_feed_refuted.
Print Assumptions compound_refuted.
