(** Proofs about the reader model. *)
From Coq Require Import List NArith ZArith Bool String Lia.
From Verif Require Import Base Reader ReaderSpec.
Import ListNotations.

Lemma recv_spec n chunks r chunks' :
  (0 < n)%Z -> nonempty_chunks chunks -> recv n chunks = (r, chunks') ->
  r ++ List.concat chunks' = List.concat chunks /\ nonempty_chunks chunks' /\
  (r = [] -> List.concat chunks = []).
Proof.
  intros Hn Hc. unfold recv. destruct Hc as [|c cs Hc Hcs].
  - intros [= <- <-]. repeat split; simpl; auto; constructor.
  - destruct (Z.leb_spec (Z.of_nat (List.length c)) n) as [Hl|Hl]; intros [= <- <-].
    + repeat split; auto. intros ->; congruence.
    + assert (Hpos : (0 < Z.to_nat n)%nat) by lia.
      repeat split.
      * simpl. rewrite app_assoc, firstn_skipn. reflexivity.
      * constructor; auto. intros Hs. apply (f_equal (@List.length N)) in Hs.
        rewrite skipn_length in Hs. simpl in Hs. lia.
      * intros Hf. apply (f_equal (@List.length N)) in Hf. rewrite firstn_length in Hf. simpl in Hf.
        destruct c; [congruence|]. simpl in Hf. lia.
Qed.

Lemma cut_line_app_some b l r x : cut_line b = Some (l, r) -> cut_line (b ++ x) = Some (l, r ++ x).
Proof.
  revert l r; induction b as [|c b IH]; intros l r H; simpl in *; [discriminate|].
  destruct (N.eqb c 10).
  - injection H as <- <-. reflexivity.
  - destruct (cut_line b) as [[l' r']|]; [|discriminate].
    injection H as <- <-. now rewrite (IH _ _ eq_refl).
Qed.

Lemma cut_line_spec b l r : cut_line b = Some (l, r) ->
  exists p, l = p ++ [10%N] /\ ~ In 10%N p /\ b = l ++ r.
Proof.
  revert l r; induction b as [|c b IH]; intros l r H; simpl in *; [discriminate|].
  destruct (N.eqb_spec c 10) as [->|Hn].
  - injection H as <- <-. exists []. simpl. auto.
  - destruct (cut_line b) as [[l' r']|]; [|discriminate].
    injection H as <- <-. destruct (IH _ _ eq_refl) as (p & -> & Hp & ->).
    exists (c :: p). simpl. repeat split; auto. intros [E|E]; auto.
Qed.

Lemma cut_line_none b : cut_line b = None <-> ~ In 10%N b.
Proof.
  induction b as [|c b IH]; simpl; [tauto|].
  destruct (N.eqb_spec c 10) as [->|Hn].
  - split; [discriminate|tauto].
  - destruct (cut_line b) as [[l r]|]; [split; [discriminate|]|].
    + intros H. exfalso. apply H. right. destruct IH as [_ IH].
      destruct (in_dec N.eq_dec 10%N b) as [Hi|Hi]; auto. specialize (IH Hi). discriminate.
    + split; auto. intros _ [E|E]; auto. now apply IH.
Qed.

Lemma cut_line_make p r : ~ In 10%N p -> cut_line (p ++ 10%N :: r) = Some (p ++ [10%N], r).
Proof.
  induction p as [|c p IH]; simpl; intros H; auto.
  destruct (N.eqb_spec c 10) as [->|Hn]; [exfalso; auto|].
  rewrite IH; auto.
Qed.

(** What [read_line] computes, in terms of all remaining bytes. *)
Lemma read_line_spec : forall fuel buf chunks,
  nonempty_chunks chunks -> (List.length (List.concat chunks) < fuel)%nat ->
  match cut_line (buf ++ List.concat chunks) with
  | Some (l, rest) => exists buf' chunks',
      read_line fuel buf chunks = Some (l, buf', chunks') /\
      buf' ++ List.concat chunks' = rest /\ nonempty_chunks chunks'
  | None => exists buf' chunks', read_line fuel buf chunks = Some ([], buf', chunks')
  end.
Proof.
  induction fuel as [|fuel IH]; intros buf chunks Hc Hf; [lia|].
  simpl. destruct (cut_line buf) as [[l rest]|] eqn:E.
  - rewrite (cut_line_app_some _ _ _ _ E). eauto 6.
  - destruct (recv 1024 chunks) as [r chunks'] eqn:Er.
    assert (H1024 : (0 < 1024)%Z) by reflexivity.
    destruct (recv_spec _ _ _ _ H1024 Hc Er) as (H1 & H2 & H3).
    destruct r as [|x r].
    + rewrite (H3 eq_refl), app_nil_r, E. eauto.
    + specialize (IH (buf ++ x :: r) chunks' H2).
      rewrite <- app_assoc in IH. rewrite H1 in IH. apply IH.
      rewrite <- H1 in Hf. simpl in Hf. rewrite app_length in Hf. lia.
Qed.

Lemma read_spec : forall fuel size buf chunks,
  (0 <= size)%Z -> nonempty_chunks chunks -> (List.length (List.concat chunks) < fuel)%nat ->
  let all := buf ++ List.concat chunks in
  if (size <=? Z.of_nat (List.length all))%Z then
    exists buf' chunks',
      read fuel size buf chunks = Some (firstn (Z.to_nat size) all, buf', chunks') /\
      buf' ++ List.concat chunks' = skipn (Z.to_nat size) all /\ nonempty_chunks chunks'
  else exists buf' chunks', read fuel size buf chunks = Some ([], buf', chunks').
Proof.
  induction fuel as [|fuel IH]; intros size buf chunks Hs Hc Hf all; [lia|].
  cbn [read]. subst all.
  destruct (Z.eqb_spec (Z.of_nat (List.length buf)) size) as [He|Hne].
  - replace (Z.to_nat size) with (List.length buf) by lia.
    rewrite app_length.
    destruct (Z.leb_spec size (Z.of_nat (List.length buf + List.length (List.concat chunks)))); [|lia].
    exists [], chunks. rewrite firstn_app, Nat.sub_diag, firstn_all, firstn_O, app_nil_r.
    rewrite skipn_app, Nat.sub_diag, skipn_all. auto.
  - destruct (Z.gtb_spec (Z.of_nat (List.length buf)) size) as [Hg|Hg].
    + rewrite app_length.
      destruct (Z.leb_spec size (Z.of_nat (List.length buf + List.length (List.concat chunks)))); [|lia].
      unfold slice_to, slice_from. destruct (Z.ltb_spec size 0); [lia|].
      exists (skipn (Z.to_nat size) buf), chunks.
      rewrite firstn_app, skipn_app.
      replace (Z.to_nat size - List.length buf)%nat with 0%nat by lia.
      rewrite firstn_O, app_nil_r. auto.
    + destruct (recv (Z.max (size - Z.of_nat (List.length buf)) 1024) chunks) as [r chunks'] eqn:Er.
      assert (Hmax : (0 < Z.max (size - Z.of_nat (List.length buf)) 1024)%Z) by lia.
      destruct (recv_spec _ _ _ _ Hmax Hc Er) as (H1 & H2 & H3).
      destruct r as [|x r].
      * rewrite (H3 eq_refl), app_nil_r.
        destruct (Z.leb_spec size (Z.of_nat (List.length buf))); [lia|]. eauto.
      * specialize (IH size (buf ++ x :: r) chunks' Hs H2).
        rewrite <- app_assoc in IH. rewrite H1 in IH. apply IH.
        rewrite <- H1 in Hf. simpl in Hf. rewrite app_length in Hf. lia.
Qed.

Lemma no_negative_suffix a b : no_negative_length (a ++ b) -> no_negative_length b.
Proof.
  intros H pre line post n E. apply (H (a ++ pre) line post). now rewrite E, <- app_assoc.
Qed.

Lemma no_neg_app_r pre rest : no_negative_length (pre ++ rest) -> no_negative_length rest.
Proof. apply no_negative_suffix. Qed.

Lemma starts_with_snoc p l x : starts_with p (l ++ [x]) = true -> ~ In x p -> starts_with p l = true.
Proof.
  revert l; induction p as [|a p IH]; intros l H Hx; simpl in *; auto.
  destruct l as [|b l]; simpl in *.
  - apply andb_true_iff in H. destruct H as [H _]. apply N.eqb_eq in H. subst. exfalso; auto.
  - apply andb_true_iff in H. destruct H as [H1 H2]. rewrite H1. simpl. apply IH; auto.
Qed.

Lemma header_name_no_nl : ~ In 10%N header_name.
Proof. unfold header_name. simpl. intros H. repeat (destruct H as [H|H]; [discriminate|]). exact H. Qed.

Section R.
Variable decodes : str -> bool.
Variable handler : event -> hres.
Notation on_run := (on_run decodes handler).

(** The reader on the remaining bytes as one string: used only inside the proofs. *)
Fixpoint prun (fuel : nat) (clen : Z) (killed : bool) (bs : str) : list event * outcome :=
  match fuel with
  | O => ([], OutOfFuel)
  | S fuel' =>
      match cut_line bs with
      | None => ([], Closed)
      | Some (line, rest) =>
          if killed then prun fuel' clen killed rest
          else if starts_with header_name line then
            match header_value line with
            | None => ([], BadContentLength)
            | Some n => prun fuel' n killed rest
            end
          else if negb (clen =? -1)%Z then
            if str_eqb line crlf then
              if (clen <=? Z.of_nat (List.length rest))%Z && (0 <? clen)%Z then
                let body := firstn (Z.to_nat clen) rest in
                match handler (EvJson body) with
                | HRaise => ([EvJson body], HandlerRaised)
                | h => let '(evs, o) := prun fuel' (-1)%Z
                                          (match h with HKill => true | _ => killed end)
                                          (skipn (Z.to_nat clen) rest) in
                       (EvJson body :: evs, o)
                end
              else ([], Closed)
            else prun fuel' clen killed rest
          else
            let line' := chop_line line in
            if negb (decodes line') then ([], NotUtf8)
            else
              let ev := match parse_cmd line' with
                        | Some (i, q, t) => EvCmd i q t
                        | None => EvBadLine line'
                        end in
              let '(evs, o) := prun fuel' clen
                                 (match ev, handler ev with
                                  | EvCmd _ _ _, HKill => true
                                  | _, _ => killed
                                  end) rest in
              (ev :: evs, o)
      end
  end.

(** The lines which the reader itself takes for headers carry no length below -1. *)
Fixpoint good_run (fuel : nat) (clen : Z) (killed : bool) (bs : str) : Prop :=
  match fuel with
  | O => True
  | S fuel' =>
      match cut_line bs with
      | None => True
      | Some (line, rest) =>
          if killed then good_run fuel' clen killed rest
          else if starts_with header_name line then
            match header_value line with
            | None => True
            | Some n => (-1 <= n)%Z /\ good_run fuel' n killed rest
            end
          else if negb (clen =? -1)%Z then
            if str_eqb line crlf then
              if (clen <=? Z.of_nat (List.length rest))%Z && (0 <? clen)%Z then
                match handler (EvJson (firstn (Z.to_nat clen) rest)) with
                | HRaise => True
                | h => good_run fuel' (-1)%Z (match h with HKill => true | _ => killed end)
                         (skipn (Z.to_nat clen) rest)
                end
              else True
            else good_run fuel' clen killed rest
          else
            let line' := chop_line line in
            let ev := match parse_cmd line' with
                      | Some (i, q, t) => EvCmd i q t
                      | None => EvBadLine line'
                      end in
            good_run fuel' clen (match ev, handler ev with
                                  | EvCmd _ _ _, HKill => true
                                  | _, _ => killed
                                  end) rest
      end
  end.
Lemma on_run_prun : forall fuel clen killed buf chunks,
  nonempty_chunks chunks -> good_run fuel clen killed (buf ++ List.concat chunks) -> (-1 <= clen)%Z ->
  on_run fuel clen killed buf chunks = prun fuel clen killed (buf ++ List.concat chunks).
Proof.
  induction fuel as [|fuel IH]; intros clen killed buf chunks Hc Hn Hl; [reflexivity|].
  cbn [Reader.on_run prun good_run] in *.
  assert (Hfl : (List.length (List.concat chunks) < S (total buf chunks))%nat)
    by (unfold total; rewrite app_length; lia).
  pose proof (read_line_spec _ buf chunks Hc Hfl) as Hrl.
  destruct (cut_line (buf ++ List.concat chunks)) as [[line rest]|] eqn:Ecut.
  2:{ destruct Hrl as (buf' & chunks' & ->). reflexivity. }
  destruct Hrl as (buf1 & chunks1 & -> & Hrest & Hc1).
  destruct (cut_line_spec _ _ _ Ecut) as (p & Hp & Hpn & Eall).
  assert (is_nil line = false) as -> by (rewrite Hp; destruct p; reflexivity).
  rewrite <- Hrest in Hn |- *.
  destruct killed; [now rewrite IH by auto|].
  destruct (starts_with header_name line) eqn:Esw.
  { destruct (header_value line) as [n|] eqn:Ehv; auto.
    destruct Hn. rewrite IH; auto. }
  destruct (negb (clen =? -1)%Z) eqn:Ecl.
  { destruct (str_eqb line crlf).
    2:{ now rewrite IH by auto. }
    assert (Hpos : (0 <= clen)%Z) by (destruct (Z.eqb_spec clen (-1)); simpl in Ecl; [discriminate|lia]).
    assert (Hfl1 : (List.length (List.concat chunks1) < S (total buf1 chunks1))%nat)
      by (unfold total; rewrite app_length; lia).
    pose proof (read_spec _ clen buf1 chunks1 Hpos Hc1 Hfl1) as Hr. cbv zeta in Hr.
    set (all := buf1 ++ List.concat chunks1) in *.
    destruct (Z.leb_spec clen (Z.of_nat (List.length all))) as [Hle|Hle].
    2:{ destruct Hr as (b & c & ->). simpl. reflexivity. }
    destruct Hr as (buf2 & chunks2 & -> & Hrest2 & Hc2). cbn [andb] in *.
    destruct (Z.ltb_spec 0 clen) as [Hlt|Hlt].
    2:{ assert (clen = 0%Z) by lia. subst clen. simpl. reflexivity. }
    assert (is_nil (firstn (Z.to_nat clen) all) = false) as ->.
    { destruct all; simpl in Hle; [lia|]. destruct (Z.to_nat clen) eqn:E; [lia|]. reflexivity. }
    rewrite <- Hrest2 in *.
    destruct (handler (EvJson (firstn (Z.to_nat clen) all))); auto;
      now rewrite IH by (auto; lia). }
  destruct (negb (decodes (chop_line line))); auto.
  now rewrite IH by auto.
Qed.

Lemma no_neg_good : forall fuel clen killed bs, no_negative_length bs -> good_run fuel clen killed bs.
Proof.
  induction fuel as [|fuel IH]; intros clen killed bs Hn; [exact I|].
  cbn [good_run]. destruct (cut_line bs) as [[line rest]|] eqn:Ecut; auto.
  destruct (cut_line_spec _ _ _ Ecut) as (p & Hp & Hpn & Eall).
  assert (Hn1 : no_negative_length rest) by (rewrite Eall in Hn; now apply no_neg_app_r in Hn).
  destruct killed; auto.
  destruct (starts_with header_name line) eqn:Esw.
  { destruct (header_value line) as [n|] eqn:Ehv; auto. split; auto.
    apply (Hn [] p rest); auto.
    - simpl. rewrite Eall, Hp, <- app_assoc. reflexivity.
    - rewrite Hp in Esw. eapply starts_with_snoc; eauto. apply header_name_no_nl.
    - now rewrite <- Hp. }
  destruct (negb (clen =? -1)%Z); [|now apply IH].
  destruct (str_eqb line crlf); auto.
  destruct ((clen <=? Z.of_nat (List.length rest))%Z && (0 <? clen)%Z); auto.
  assert (Hn2 : no_negative_length (skipn (Z.to_nat clen) rest)).
  { rewrite <- (firstn_skipn (Z.to_nat clen) rest) in Hn1. now apply no_neg_app_r in Hn1. }
  destruct (handler (EvJson (firstn (Z.to_nat clen) rest))); auto.
Qed.

Theorem run_chunks chunks1 chunks2 :
  nonempty_chunks chunks1 -> nonempty_chunks chunks2 ->
  List.concat chunks1 = List.concat chunks2 ->
  no_negative_length (List.concat chunks1) ->
  run decodes handler chunks1 = run decodes handler chunks2.
Proof.
  intros H1 H2 E Hn. unfold run, total.
  rewrite !on_run_prun; try lia; try assumption.
  - change (@nil N ++ List.concat chunks1) with (List.concat chunks1). now rewrite E.
  - apply no_neg_good. change (@nil N ++ List.concat chunks2) with (List.concat chunks2). now rewrite <- E.
  - now apply no_neg_good.
Qed.

(** ** The reader always finishes on a finite stream *)
Lemma prun_total : forall fuel clen killed bs,
  (List.length bs < fuel)%nat -> snd (prun fuel clen killed bs) <> OutOfFuel.
Proof.
  induction fuel as [|fuel IH]; intros clen killed bs Hf; [lia|].
  cbn [prun]. destruct (cut_line bs) as [[line rest]|] eqn:Ecut; [|discriminate].
  destruct (cut_line_spec _ _ _ Ecut) as (p & Hp & _ & Eall).
  assert (Hr : (List.length rest < fuel)%nat).
  { rewrite Eall, Hp in Hf. rewrite !app_length in Hf. simpl in Hf. lia. }
  destruct killed; [now apply IH|].
  destruct (starts_with header_name line).
  { destruct (header_value line); [now apply IH|discriminate]. }
  destruct (negb (clen =? -1)%Z).
  { destruct (str_eqb line crlf); [|now apply IH].
    destruct ((clen <=? Z.of_nat (List.length rest))%Z && (0 <? clen)%Z); [|discriminate].
    assert (Hs : (List.length (skipn (Z.to_nat clen) rest) < fuel)%nat)
      by (rewrite skipn_length; lia).
    destruct (handler (EvJson (firstn (Z.to_nat clen) rest))); try discriminate;
    match goal with |- context [prun fuel ?a ?b ?c] =>
      specialize (IH a b c Hs); destruct (prun fuel a b c) end; simpl in *; auto. }
  destruct (negb (decodes (chop_line line))); [discriminate|].
  match goal with |- context [prun fuel ?a ?b ?c] =>
      specialize (IH a b c Hr); destruct (prun fuel a b c) end; simpl in *; auto.
Qed.

Theorem run_total chunks :
  nonempty_chunks chunks -> no_negative_length (List.concat chunks) ->
  snd (run decodes handler chunks) <> OutOfFuel.
Proof.
  intros H Hn. unfold run. rewrite on_run_prun by (auto using no_neg_good; lia). apply prun_total.
  unfold total. simpl. lia.
Qed.

(** More fuel does not change a finished run. *)
Lemma prun_fuel : forall fuel1 fuel2 clen killed bs,
  (List.length bs < fuel1)%nat -> (List.length bs < fuel2)%nat ->
  prun fuel1 clen killed bs = prun fuel2 clen killed bs.
Proof.
  induction fuel1 as [|fuel1 IH]; intros fuel2 clen killed bs H1 H2; [lia|].
  destruct fuel2 as [|fuel2]; [lia|].
  cbn [prun]. destruct (cut_line bs) as [[line rest]|] eqn:Ecut; auto.
  destruct (cut_line_spec _ _ _ Ecut) as (p & Hp & _ & Eall).
  assert (Hr : (List.length rest < fuel1)%nat /\ (List.length rest < fuel2)%nat).
  { rewrite Eall, Hp in H1, H2. rewrite !app_length in H1, H2. simpl in H1, H2. lia. }
  destruct Hr as [Hr1 Hr2].
  destruct killed; [now apply IH|].
  destruct (starts_with header_name line).
  { destruct (header_value line); auto. }
  destruct (negb (clen =? -1)%Z).
  { destruct (str_eqb line crlf); auto.
    destruct ((clen <=? Z.of_nat (List.length rest))%Z && (0 <? clen)%Z); auto.
    assert (Hs : (List.length (skipn (Z.to_nat clen) rest) <= List.length rest)%nat)
      by (rewrite skipn_length; lia).
    destruct (handler (EvJson (firstn (Z.to_nat clen) rest))); auto;
    rewrite (IH fuel2) by lia; auto. }
  destruct (negb (decodes (chop_line line))); auto.
  rewrite (IH fuel2) by lia; auto.
Qed.
End R.

(** ** Quoting *)
Lemma unhex_hex d : (d < 16)%N -> unhex (hex_digit d) = Some d.
Proof.
  intros H. unfold hex_digit, unhex, is_digit.
  destruct (N.ltb_spec d 10).
  - destruct (N.leb_spec 48 (48 + d)), (N.leb_spec (48 + d) 57); cbn [andb]; try lia. f_equal; lia.
  - destruct (N.leb_spec 48 (55 + d)), (N.leb_spec (55 + d) 57); cbn [andb]; try lia.
    destruct (N.leb_spec 65 (55 + d)), (N.leb_spec (55 + d) 70); cbn [andb]; try lia. f_equal; lia.
Qed.

Lemma quote_unquote safe s :
  ~ In 37%N safe -> Forall is_byte s -> unquote (quote safe s) = s.
Proof.
  intros Hsafe H. induction H as [|c s Hc Hs IH]; [reflexivity|].
  unfold quote. cbn [flat_map]. fold (quote safe s).
  destruct (always_safe c || existsb (N.eqb c) safe) eqn:E.
  - cbn [app unquote]. destruct (N.eqb_spec c 37) as [->|Hn]; [|now rewrite IH].
    exfalso. apply orb_true_iff in E. destruct E as [E|E]; [discriminate E|].
    apply existsb_exists in E. destruct E as (x & Hx & E). apply N.eqb_eq in E. now subst.
  - cbn [app unquote]. rewrite N.eqb_refl.
    assert (H1 : (c / 16 < 16)%N) by (apply N.div_lt_upper_bound; [discriminate|exact Hc]).
    assert (H2 : (c mod 16 < 16)%N) by (apply N.mod_lt; lia).
    rewrite (unhex_hex _ H1), (unhex_hex _ H2), IH. f_equal.
    rewrite (N.div_mod c 16) at 3 by lia. lia.
Qed.

Lemma hex_digit_range d : (d < 16)%N -> (48 <= hex_digit d <= 70)%N.
Proof. unfold hex_digit. destruct (N.ltb_spec d 10); lia. Qed.

Lemma quote_no_nl s : Forall is_byte s -> ~ In 10%N (quote net_safe s).
Proof.
  intros H. induction H as [|c s Hc Hs IH]; [auto|].
  unfold quote. cbn [flat_map]. fold (quote net_safe s).
  destruct (always_safe c || existsb (N.eqb c) net_safe) eqn:E.
  - intros [Hi|Hi]; [|auto]. subst c. vm_compute in E. discriminate.
  - intros Hi. simpl in Hi.
    assert (H1 : (c / 16 < 16)%N) by (apply N.div_lt_upper_bound; [discriminate|exact Hc]).
    assert (H2 : (c mod 16 < 16)%N) by (apply N.mod_lt; lia).
    apply hex_digit_range in H1. apply hex_digit_range in H2.
    destruct Hi as [Hi|[Hi|[Hi|Hi]]]; [lia|lia|lia|auto].
Qed.

(** ** Framing round trip *)

Lemma dec_no c n : ~ digit_ok c -> ~ In c (dec n).
Proof.
  intros Hc Hi. pose proof (dec_digits n) as H. rewrite Forall_forall in H. auto.
Qed.

Lemma zdec_no c z : c <> 45%N -> ~ digit_ok c -> ~ In c (zdec z).
Proof.
  intros H45 Hc. destruct z as [|p|p]; unfold zdec; try (now apply dec_no).
  intros [E|E]; [now apply H45|]. revert E. now apply dec_no.
Qed.

Lemma py_int_zdec z : py_int (zdec z) = Some z.
Proof.
  destruct z as [|p|p].
  - reflexivity.
  - unfold zdec. change (Z.to_N (Z.pos p)) with (N.pos p). now rewrite py_int_dec0.
  - unfold zdec, py_int.
    assert (strip (45%N :: dec (N.pos p)) = 45%N :: dec (N.pos p)) as ->.
    { generalize (strip_digits [] [] (45%N :: dec (N.pos p)) (Forall_nil _) (Forall_nil _)).
      simpl app. rewrite app_nil_r. intros H. apply H; [discriminate|].
      constructor; [reflexivity|].
      eapply Forall_impl; [|apply dec_digits]. intros; now apply digit_not_ws. }
    rewrite N.eqb_refl, py_digits_dec. reflexivity.
Qed.

Lemma split1_make sep a b : ~ In sep a -> split1 sep (a ++ sep :: b) = Some (a, b).
Proof.
  induction a as [|c a IH]; simpl; intros H.
  - now rewrite N.eqb_refl.
  - destruct (N.eqb_spec c sep) as [->|]; [exfalso; auto|]. rewrite IH; auto.
Qed.

Lemma firstn_drop1 {A} (l : list A) x : firstn (List.length (l ++ [x]) - 1) (l ++ [x]) = l.
Proof.
  rewrite app_length. simpl. replace (List.length l + 1 - 1)%nat with (List.length l) by lia.
  rewrite firstn_app, Nat.sub_diag, firstn_all. simpl. apply app_nil_r.
Qed.

Lemma chop_line_make p : ~ In 10%N p -> chop_line (p ++ [10%N]) = p.
Proof.
  intros Hp. unfold chop_line.
  destruct (ends_with [10%N; 10%N] (p ++ [10%N])) eqn:E.
  - exfalso. apply ends_with_spec in E. destruct E as [r E].
    change [10%N; 10%N] with ([10%N] ++ [10%N]) in E. rewrite app_assoc in E.
    apply app_inj_tail in E. destruct E as [-> _]. apply Hp. apply in_or_app. right. now left.
  - assert (ends_with [10%N] (p ++ [10%N]) = true) as -> by (apply ends_with_spec; eauto).
    apply firstn_drop1.
Qed.

Lemma header_value_frame n :
  header_value (lit "Content-Length: " ++ dec n ++ [13; 10]%N) = Some (Z.of_N n).
Proof.
  unfold header_value.
  assert (strip (lit "Content-Length: " ++ dec n ++ [13; 10]%N) = lit "Content-Length: " ++ dec n) as ->.
  { unfold strip. rewrite (lstrip_nows (lit "Content-Length: " ++ dec n ++ [13; 10]%N)).
    2:{ simpl. intros c r [= <- _]. reflexivity. }
    unfold rstrip. rewrite app_assoc, rev_app_distr.
    rewrite lstrip_app_ws by (simpl; repeat constructor).
    rewrite lstrip_nows; [apply rev_involutive|].
    intros c r. rewrite rev_app_distr.
    destruct (rev (dec n)) as [|x l] eqn:Er.
    - apply (f_equal (@rev N)) in Er. rewrite rev_involutive in Er. simpl in Er.
      now apply dec_nonempty in Er.
    - simpl. intros [= <- _]. apply digit_not_ws.
      pose proof (Forall_rev (dec_digits n)) as H. rewrite Er in H. now inversion H. }
  change (lit "Content-Length: " ++ dec n) with (lit "Content-Length" ++ 58%N :: 32%N :: dec n).
  rewrite split1_make by (simpl; intros H; repeat (destruct H as [H|H]; [discriminate|]); exact H).
  generalize (py_int_dec [32%N] [] n ltac:(repeat constructor) (Forall_nil _)).
  rewrite app_nil_r. exact (fun x => x).
Qed.

Section Frames.
Variable decodes : str -> bool.
Variable handler : event -> hres.
Hypothesis Hdec : forall s, decodes s = true.
Hypothesis Hok : forall e, handler e = HOk.
Notation prun := (prun decodes handler).

Lemma prun_wire m rest fuel :
  msg_ok m -> (List.length (wire m ++ rest) < fuel)%nat ->
  prun fuel (-1) false (wire m ++ rest) =
  let '(evs, o) := prun fuel (-1) false rest in (event_of m :: evs, o).
Proof.
  intros Hm Hf. destruct m as [body|i q t]; simpl wire in *; simpl event_of.
  - (* header, blank line, body *)
    unfold http_frame in *.
    set (n := N.of_nat (List.length body)) in *.
    assert (Hlen : (List.length rest + 2 < fuel)%nat).
    { rewrite !app_length in Hf. simpl in Hf. lia. }
    destruct fuel as [|[|fuel]]; [lia|lia|].
    rewrite (prun_fuel decodes handler (S (S fuel)) fuel _ _ rest) by lia.
    cbn [ReaderProofs.prun].
    assert (Hcut : cut_line ((lit "Content-Length: " ++ dec n ++ [13; 10; 13; 10]%N ++ body) ++ rest)
                   = Some (lit "Content-Length: " ++ dec n ++ [13; 10]%N, 13%N :: 10%N :: body ++ rest)).
    { replace ((lit "Content-Length: " ++ dec n ++ [13; 10; 13; 10]%N ++ body) ++ rest)
        with ((lit "Content-Length: " ++ dec n ++ [13]%N) ++ 10%N :: (13%N :: 10%N :: body ++ rest))
        by (rewrite <- !app_assoc; reflexivity).
      rewrite cut_line_make.
      - rewrite <- !app_assoc. reflexivity.
      - rewrite !in_app_iff. intros [H|[H|H]].
        + simpl in H. repeat (destruct H as [H|H]; [discriminate|]). exact H.
        + revert H. apply dec_no. discriminate.
        + destruct H as [H|[]]. discriminate. }
    rewrite Hcut.
    assert (starts_with header_name (lit "Content-Length: " ++ dec n ++ [13; 10]%N) = true) as ->
      by reflexivity.
    rewrite header_value_frame.
    change (cut_line (13%N :: 10%N :: body ++ rest)) with (Some (crlf, body ++ rest)).
    cbv beta iota.
    change (starts_with header_name crlf) with false. cbv beta iota.
    assert ((Z.of_N n =? -1)%Z = false) as -> by (apply Z.eqb_neq; lia).
    change (str_eqb crlf crlf) with true. cbn [negb].
    assert (Hb : (0 < List.length body)%nat) by (destruct body; [now simpl in Hm|simpl; lia]).
    assert (((Z.of_N n <=? Z.of_nat (List.length (body ++ rest)))%Z && (0 <? Z.of_N n)%Z)%bool = true) as ->.
    { subst n. rewrite app_length. apply andb_true_iff; split; [apply Z.leb_le|apply Z.ltb_lt]; lia. }
    replace (Z.to_nat (Z.of_N n)) with (List.length body) by (subst n; lia).
    rewrite firstn_app, Nat.sub_diag, firstn_all, firstn_O, app_nil_r.
    rewrite skipn_app, Nat.sub_diag, skipn_all. cbn [app skipn].
    rewrite Hok. reflexivity.
  - unfold line_frame in *.
    assert (Hlen : (List.length rest + 1 < fuel)%nat).
    { rewrite !app_length in Hf. simpl in Hf. lia. }
    destruct fuel as [|fuel]; [lia|].
    rewrite (prun_fuel decodes handler (S fuel) fuel _ _ rest) by lia.
    cbn [ReaderProofs.prun].
    set (p := zdec i ++ [9]%N ++ zdec q ++ [9]%N ++ quote net_safe t).
    assert (Hp : ~ In 10%N p).
    { subst p. rewrite !in_app_iff.
      intros [H|[H|[H|[H|H]]]].
      - revert H. apply zdec_no; discriminate.
      - destruct H as [H|[]]; discriminate.
      - revert H. apply zdec_no; discriminate.
      - destruct H as [H|[]]; discriminate.
      - revert H. now apply quote_no_nl. }
    assert (Hcut : cut_line ((zdec i ++ [9]%N ++ zdec q ++ [9]%N ++ quote net_safe t ++ [10]%N) ++ rest)
                   = Some (p ++ [10%N], rest)).
    { replace ((zdec i ++ [9]%N ++ zdec q ++ [9]%N ++ quote net_safe t ++ [10]%N) ++ rest)
        with (p ++ 10%N :: rest) by (subst p; rewrite <- !app_assoc; reflexivity).
      now apply cut_line_make. }
    rewrite Hcut.
    assert (starts_with header_name (p ++ [10%N]) = false) as ->.
    { destruct (starts_with header_name (p ++ [10%N])) eqn:E; auto. exfalso.
      apply starts_with_spec in E. destruct E as [r E].
      assert (Hin : exists c l, zdec i = c :: l /\ (c = 45%N \/ digit_ok c)).
      { destruct i as [|z|z]; unfold zdec.
        - exists 48%N, []. split; [reflexivity|]. right; reflexivity.
        - destruct (dec_head (Z.to_N (Z.pos z))) as (c & l & -> & Hc). eauto.
        - eauto. }
      destruct Hin as (c & l & Ez & Hc). subst p. rewrite Ez in E. simpl in E.
      injection E as -> _. destruct Hc as [Hc|Hc]; discriminate Hc. }
    change (negb (-1 =? -1)%Z) with false. cbv beta iota.
    rewrite chop_line_make by auto. rewrite Hdec. cbn [negb].
    assert (parse_cmd p = Some (i, q, quote net_safe t)) as ->.
    { unfold parse_cmd. subst p. simpl.
      rewrite split1_make by (apply zdec_no; discriminate).
      rewrite split1_make by (apply zdec_no; discriminate).
      now rewrite !py_int_zdec. }
    rewrite Hok. reflexivity.
Qed.

Lemma prun_wires : forall ms fuel,
  Forall msg_ok ms -> (List.length (flat_map wire ms) < fuel)%nat ->
  prun fuel (-1) false (flat_map wire ms) = (map event_of ms, Closed).
Proof.
  induction ms as [|m ms IH]; intros fuel Hm Hf; simpl.
  - destruct fuel; [simpl in Hf; lia|]. reflexivity.
  - inversion_clear Hm. simpl in Hf. rewrite prun_wire; auto.
    rewrite IH; auto. rewrite app_length in Hf. lia.
Qed.
End Frames.


Lemma cut_http body rest :
  cut_line (http_frame body ++ rest)
  = Some (lit "Content-Length: " ++ dec (N.of_nat (List.length body)) ++ [13; 10]%N,
          crlf ++ body ++ rest).
Proof.
  unfold http_frame. set (n := N.of_nat (List.length body)).
  replace ((lit "Content-Length: " ++ dec n ++ [13; 10; 13; 10]%N ++ body) ++ rest)
    with ((lit "Content-Length: " ++ dec n ++ [13]%N) ++ 10%N :: (crlf ++ body ++ rest))
    by (rewrite <- !app_assoc; reflexivity).
  rewrite cut_line_make.
  - rewrite <- !app_assoc. reflexivity.
  - rewrite !in_app_iff. intros [H|[H|H]].
    + simpl in H. repeat (destruct H as [H|H]; [discriminate|]). exact H.
    + revert H. apply dec_no. discriminate.
    + destruct H as [H|[]]. discriminate.
Qed.

Lemma zdec_head i : exists c l, zdec i = c :: l /\ (c = 45%N \/ digit_ok c).
Proof.
  destruct i as [|z|z]; unfold zdec.
  - exists 48%N, []. split; [reflexivity|]. right; reflexivity.
  - destruct (dec_head (Z.to_N (Z.pos z))) as (c & l & -> & Hc). eauto.
  - eauto.
Qed.

Lemma cmd_not_header i s : starts_with header_name (zdec i ++ s) = false.
Proof.
  destruct (starts_with header_name (zdec i ++ s)) eqn:E; auto. exfalso.
  apply starts_with_spec in E. destruct E as [r E].
  destruct (zdec_head i) as (c & l & Ez & Hc). rewrite Ez in E. simpl in E.
  injection E as -> _. destruct Hc as [Hc|Hc]; discriminate Hc.
Qed.

Lemma cut_cmd i q t rest : Forall is_byte t ->
  cut_line (line_frame i q t ++ rest) = Some (line_frame i q t, rest).
Proof.
  intros Ht. unfold line_frame.
  set (p := zdec i ++ [9]%N ++ zdec q ++ [9]%N ++ quote net_safe t).
  replace (zdec i ++ [9]%N ++ zdec q ++ [9]%N ++ quote net_safe t ++ [10]%N) with (p ++ [10%N])
    by (subst p; rewrite <- !app_assoc; reflexivity).
  rewrite <- app_assoc. apply cut_line_make.
  subst p. rewrite !in_app_iff. intros [H|[H|[H|[H|H]]]].
  - revert H. apply zdec_no; discriminate.
  - destruct H as [H|[]]; discriminate.
  - revert H. apply zdec_no; discriminate.
  - destruct H as [H|[]]; discriminate.
  - revert H. now apply quote_no_nl.
Qed.

Section AnyChunks.
Variable decodes : str -> bool.
Variable handler : event -> hres.
Hypothesis Hdec : forall s, decodes s = true.
Hypothesis Hok : forall e, handler e = HOk.
Notation good_run := (good_run handler).

Lemma good_wire m rest : msg_ok m ->
  (forall f, good_run f (-1) false rest) -> forall f, good_run f (-1) false (wire m ++ rest).
Proof.
  intros Hm Hr [|f]; [exact I|]. destruct m as [body|i q t]; unfold wire.
  - cbn [ReaderProofs.good_run]. rewrite cut_http.
    set (n := N.of_nat (List.length body)).
    assert (starts_with header_name (lit "Content-Length: " ++ dec n ++ [13; 10]%N) = true) as ->
      by reflexivity.
    rewrite header_value_frame. split; [lia|].
    destruct f as [|f]; [exact I|]. cbn [ReaderProofs.good_run].
    change (cut_line (crlf ++ body ++ rest)) with (Some (crlf, body ++ rest)).
    cbv beta iota.
    change (starts_with header_name crlf) with false. cbv beta iota.
    assert ((Z.of_N n =? -1)%Z = false) as -> by (apply Z.eqb_neq; lia).
    change (str_eqb crlf crlf) with true. cbn [negb].
    destruct ((Z.of_N n <=? Z.of_nat (List.length (body ++ rest)))%Z && (0 <? Z.of_N n)%Z)%bool; auto.
    replace (Z.to_nat (Z.of_N n)) with (List.length body) by (subst n; lia).
    rewrite skipn_app, Nat.sub_diag, skipn_all. cbn [app skipn]. rewrite Hok. apply Hr.
  - cbn [ReaderProofs.good_run]. rewrite cut_cmd by exact Hm.
    unfold line_frame at 1. rewrite cmd_not_header.
    change (negb (-1 =? -1)%Z) with false. cbv beta iota zeta.
    destruct (parse_cmd (chop_line (line_frame i q t))) as [[[? ?] ?]|]; try rewrite Hok; apply Hr.
Qed.

Lemma good_wires ms : Forall msg_ok ms -> forall f, good_run f (-1) false (flat_map wire ms).
Proof.
  induction 1 as [|m ms Hm Hms IH]; intros f.
  - destruct f; exact I.
  - simpl. now apply good_wire.
Qed.

Theorem run_wires ms chunks :
  Forall msg_ok ms -> nonempty_chunks chunks -> List.concat chunks = flat_map wire ms ->
  run decodes handler chunks = (map event_of ms, Closed).
Proof.
  intros Hm Hc E. unfold run, total.
  rewrite on_run_prun; auto; try lia.
  - change (@nil N ++ List.concat chunks) with (List.concat chunks). rewrite E.
    apply prun_wires; auto.
  - change (@nil N ++ List.concat chunks) with (List.concat chunks). rewrite E.
    now apply good_wires.
Qed.
End AnyChunks.

(** ** Nothing is dispatched after a kill *)
Section Kill.
Variable decodes : str -> bool.
Variable handler : event -> hres.

Lemma killed_silent : forall fuel clen buf chunks,
  fst (on_run decodes handler fuel clen true buf chunks) = [].
Proof.
  induction fuel as [|fuel IH]; intros; [reflexivity|].
  cbn [on_run]. destruct (read_line _ buf chunks) as [[[line b] c]|]; [|reflexivity].
  destruct (is_nil line); auto.
Qed.

Lemma kill_last : forall fuel clen killed buf chunks pre e post,
  fst (on_run decodes handler fuel clen killed buf chunks) = pre ++ e :: post ->
  dispatched e -> handler e = HKill -> post = [].
Proof.
  induction fuel as [|fuel IH]; intros clen killed buf chunks pre e post H Hd Hk.
  { destruct pre; discriminate. }
  cbn [on_run] in H. destruct (read_line _ buf chunks) as [[[line b] c]|]; [|destruct pre; discriminate].
  destruct (is_nil line); [destruct pre; discriminate|].
  destruct killed; [eauto|].
  destruct (starts_with header_name line).
  { destruct (header_value line); [eauto|destruct pre; discriminate]. }
  destruct (negb (clen =? -1)%Z).
  { destruct (str_eqb line crlf); [|eauto].
    destruct (read _ clen b c) as [[[body b2] c2]|]; [|destruct pre; discriminate].
    destruct (is_nil body); [destruct pre; discriminate|].
    destruct (handler (EvJson body)) eqn:Eh.
    - destruct (on_run decodes handler fuel (-1) false b2 c2) as [evs o] eqn:Er. simpl in H.
      destruct pre as [|x pre]; simpl in H; injection H as He H.
      + subst e; congruence.
      + eapply (IH (-1)%Z false b2 c2 pre e post); auto; now rewrite Er.
    - simpl in H. destruct pre as [|x pre]; simpl in H; injection H as He H; auto.
      destruct pre; discriminate.
    - pose proof (killed_silent fuel (-1)%Z b2 c2) as Hs.
      destruct (on_run decodes handler fuel (-1) true b2 c2) as [evs o]. simpl in *. subst evs.
      destruct pre as [|x pre]; simpl in H; injection H as He H; auto. destruct pre; discriminate. }
  destruct (negb (decodes (chop_line line))); [destruct pre; discriminate|].
  set (ev := match parse_cmd (chop_line line) with Some (i, q, t) => EvCmd i q t
             | None => EvBadLine (chop_line line) end) in *.
  set (k := match ev with EvCmd i q t => match handler (EvCmd i q t) with HKill => true | _ => false end
            | _ => false end) in *.
  destruct (on_run decodes handler fuel clen k b c) as [evs o] eqn:Er. simpl in H.
  destruct pre as [|x pre]; simpl in H; injection H as He H.
  - subst post.
    assert (Ek : k = true).
    { subst k. rewrite He. destruct e; [| now rewrite Hk |].
      - subst ev. destruct (parse_cmd (chop_line line)) as [[[? ?] ?]|]; discriminate He.
      - destruct Hd. }
    pose proof (killed_silent fuel clen b c) as Hs. rewrite <- Ek, Er in Hs. exact Hs.
  - eapply (IH clen k b c pre e post); auto; now rewrite Er.
Qed.
End Kill.
