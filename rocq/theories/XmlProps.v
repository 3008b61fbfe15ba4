(** Property C57: text which is sent as XML is read by the client as it was. *)
From Coq Require Import String.
From Coq Require Import List NArith ZArith Bool Arith Lia.
From Verif Require Import Base Xml.
Import ListNotations.
Open Scope list_scope.

(** * Specification: the client *)

(** Decoding of UTF-8 (RFC 3629). *)
Definition continuation (b : N) : bool := ((128 <=? b) && (b <? 192))%N.
Fixpoint decode (l : list N) : option str :=
  match l with
  | [] => Some []
  | b :: r =>
      if (b <? 128)%N then option_map (cons b) (decode r)
      else if ((192 <=? b) && (b <? 224))%N then
        match r with
        | b1 :: r => let c := ((b - 192) * 64 + (b1 - 128))%N in
            if continuation b1 && (128 <=? c)%N then option_map (cons c) (decode r) else None
        | _ => None
        end
      else if ((224 <=? b) && (b <? 240))%N then
        match r with
        | b1 :: b2 :: r => let c := ((b - 224) * 4096 + (b1 - 128) * 64 + (b2 - 128))%N in
            if continuation b1 && continuation b2 && (2048 <=? c)%N && negb ((55296 <=? c) && (c <? 57344))%N then option_map (cons c) (decode r) else None
        | _ => None
        end
      else if ((240 <=? b) && (b <? 248))%N then
        match r with
        | b1 :: b2 :: b3 :: r => let c := ((b - 240) * 262144 + (b1 - 128) * 4096 + (b2 - 128) * 64 + (b3 - 128))%N in
            if continuation b1 && continuation b2 && continuation b3 && (65536 <=? c)%N && (c <? 1114112)%N then option_map (cons c) (decode r) else None
        | _ => None
        end
      else None
  end.
(** Percent decoding (RFC 3986): a percent sign and two hexadecimal digits are a byte. *)
Definition hex_value (c : N) : option N :=
  if ((48 <=? c) && (c <=? 57))%N then Some (c - 48)%N
  else if ((65 <=? c) && (c <=? 70))%N then Some (c - 55)%N
  else if ((97 <=? c) && (c <=? 102))%N then Some (c - 87)%N else None.
Fixpoint percent (l : list N) : list N :=
  match l with
  | [] => []
  | c :: r =>
      match r with
      | x :: y :: r' =>
          match (c =? 37)%N, hex_value x, hex_value y with
          | true, Some h, Some k => (h * 16 + k)%N :: percent r'
          | _, _, _ => c :: percent r
          end
      | _ => c :: percent r
      end
  end.
(** The text which was quoted; the bytes of other characters are those of UTF-8. *)
Definition unquote (s : str) : option str := bind (encode s) (fun b => decode (percent b)).

(** A message: the command, its sequence number and its text. *)
Definition read_line (b : list N) : option (str * str * str) :=
  bind (split1 9 b) (fun p => bind (split1 9 (snd p)) (fun p' =>
  match rev (snd p') with 10%N :: e => option_map (fun t => (fst p, fst p', t)) (unquote (rev e)) | _ => None end)).
Definition read_http (b : list N) : option (str * str * str) :=
  bind (decode b) (fun s => bind (split1 9 s) (fun p => option_map (fun p' => (fst p, fst p', snd p')) (split1 9 (snd p)))).
Definition read (http : bool) := if http then read_http else read_line.

(** XML (W3C recommendation 1.0), for elements with attributes and no text. *)
Definition blank (c : N) : bool := existsb (N.eqb c) [32; 9; 10; 13]%N.
Definition legal (c : N) : bool :=
  (((32 <=? c) && (c <? 55296)) || ((57344 <=? c) && (c <? 65534)) || ((65536 <=? c) && (c <? 1114112)))%N || existsb (N.eqb c) [9; 10; 13]%N.
Definition letter (c : N) : bool := (((65 <=? c) && (c <=? 90)) || ((97 <=? c) && (c <=? 122)) || ((48 <=? c) && (c <=? 57)) || (c =? 95))%N.
Definition entity (n : str) : option N :=
  if str_eqb n (lit "amp") then Some 38%N else if str_eqb n (lit "lt") then Some 60%N else if str_eqb n (lit "gt") then Some 62%N
  else if str_eqb n (lit "quot") then Some 34%N else if str_eqb n (lit "apos") then Some 39%N else None.
Inductive event := Open (tag : str) (attrs : list (str * str)) | Close (tag : str).
Inductive mode :=
| Out                                   (* between tags *)
| Name (t : str)                        (* in the name of a tag *)
| Inside (t : str) (l : list (str * str))       (* before an attribute *)
| After (t : str) (l : list (str * str))        (* after one *)
| Attr (t : str) (l : list (str * str)) (a : str)
| Equals (t : str) (l : list (str * str)) (a : str)
| Value (t : str) (l : list (str * str)) (a v : str)
| Entity (t : str) (l : list (str * str)) (a v e : str)
| Slash (t : str) (l : list (str * str))
| End (t : str).
(** Where the reader is, the elements which are open, and what was read. *)
Record reader := Reader { at_mode : mode; opened : list str; events : list event }.
Definition fresh (a : str) (l : list (str * str)) : bool := negb (existsb (fun x => str_eqb (fst x) a) l).
Definition open_tag (t : str) (l : list (str * str)) (r : reader) : reader := Reader Out (t :: opened r) (events r ++ [Open t l]).
Definition close_tag (t : str) (r : reader) : option reader :=
  match opened r with x :: o => if str_eqb x t then Some (Reader Out o (events r ++ [Close t])) else None | [] => None end.
Definition goto (m : mode) (r : reader) : option reader := Some (Reader m (opened r) (events r)).
Definition read_char (r : reader) (c : N) : option reader :=
  match at_mode r with
  | Out => if blank c then Some r else if (c =? 60)%N then goto (Name []) r else None
  | Name t =>
      if letter c then goto (Name (t ++ [c])) r
      else match t with
           | [] => if (c =? 47)%N then goto (End []) r else None
           | _ => if blank c then goto (Inside t []) r else if (c =? 62)%N then Some (open_tag t [] r) else if (c =? 47)%N then goto (Slash t []) r else None
           end
  | Inside t l =>
      if blank c then Some r else if letter c then goto (Attr t l [c]) r
      else if (c =? 62)%N then Some (open_tag t l r) else if (c =? 47)%N then goto (Slash t l) r else None
  | After t l =>
      if blank c then goto (Inside t l) r else if (c =? 62)%N then Some (open_tag t l r) else if (c =? 47)%N then goto (Slash t l) r else None
  | Attr t l a => if letter c then goto (Attr t l (a ++ [c])) r else if (c =? 61)%N then goto (Equals t l a) r else None
  | Equals t l a => if (c =? 34)%N then goto (Value t l a []) r else None
  | Value t l a v =>
      if (c =? 34)%N then if fresh a l then goto (After t (l ++ [(a, v)])) r else None
      else if (c =? 38)%N then goto (Entity t l a v []) r
      else if (c =? 60)%N then None else if negb (legal c) then None
      else goto (Value t l a (v ++ [if blank c then 32%N else c])) r
  | Entity t l a v e => if (c =? 59)%N then match entity e with Some x => goto (Value t l a (v ++ [x])) r | None => None end else goto (Entity t l a v (e ++ [c])) r
  | Slash t l => if (c =? 62)%N then close_tag t (open_tag t l r) else None
  | End t => if letter c then goto (End (t ++ [c])) r else if (c =? 62)%N then close_tag t r else None
  end.
Fixpoint reads (s : str) (r : reader) : option reader := match s with [] => Some r | c :: s => bind (read_char r c) (reads s) end.
Definition parse (s : str) : option (list event) :=
  match reads s (Reader Out [] []) with Some (Reader Out [] e) => Some e | _ => None end.

(** ** What is read from a message *)
Fixpoint find_attr (a : str) (l : list (str * str)) : option str :=
  match l with [] => None | (b, v) :: r => if str_eqb a b then Some v else find_attr a r end.
Definition attr_or (a : str) (l : list (str * str)) : str := match find_attr a l with Some v => v | None => [] end.
(** The attributes of the elements of that name, in their order. *)
Definition elements (tag : str) (e : list event) : list (list (str * str)) :=
  flat_map (fun x => match x with Open t l => if str_eqb t tag then [l] else [] | Close _ => [] end) e.
(** The command, the sequence number and the elements of a message. *)
Definition received (http : bool) (m : option (list N)) : option (str * str * list event) :=
  bind m (fun b => bind (read http b) (fun p => option_map (fun e => (fst p, e)) (parse (snd p)))).

(** Unicode text: no surrogates. *)
Definition text (s : str) : Prop := Forall (fun c => c < 55296 \/ 57344 <= c < 1114112)%N s.
(** Text which can be written in XML, without tabs and ends of lines. *)
Definition printable (s : str) : Prop := Forall (fun c => legal c = true /\ (blank c = true -> c = 32%N)) s.

(** * Text *)
Lemma split64 c : exists x y, (c / 64 = x /\ c mod 64 = y /\ c = 64 * x + y /\ y < 64)%N.
Proof. exists (c / 64)%N, (c mod 64)%N. repeat split; auto using N.div_mod'. apply N.mod_lt. discriminate. Qed.
Lemma split16 c : (c < 256)%N -> exists x y, (c / 16 = x /\ c mod 16 = y /\ c = 16 * x + y /\ y < 16 /\ x < 16)%N.
Proof. intros H. exists (c / 16)%N, (c mod 16)%N. repeat split; auto using N.div_mod'. - apply N.mod_lt. discriminate. - apply N.div_lt_upper_bound; [discriminate|exact H]. Qed.
Lemma div4096 c : (c / 4096 = c / 64 / 64)%N.
Proof. rewrite N.div_div by discriminate. reflexivity. Qed.
Lemma div262144 c : (c / 262144 = c / 64 / 64 / 64)%N.
Proof. rewrite !N.div_div by discriminate. reflexivity. Qed.
Ltac parts c := rewrite ?div262144, ?div4096;
  let x := fresh "x" in let y := fresh "y" in let H1 := fresh in let H2 := fresh in
  destruct (split64 c) as (x & y & H1 & H2 & ? & ?); rewrite ?H1, ?H2;
  let x' := fresh "x" in let y' := fresh "y" in let H1 := fresh in let H2 := fresh in
  destruct (split64 x) as (x' & y' & H1 & H2 & ? & ?); rewrite ?H1, ?H2;
  let x'' := fresh "x" in let y'' := fresh "y" in let H1 := fresh in let H2 := fresh in
  destruct (split64 x') as (x'' & y'' & H1 & H2 & ? & ?); rewrite ?H1, ?H2.
Ltac bools := repeat match goal with
  | |- context [(?a <? ?b)%N] => destruct (N.ltb_spec a b); try lia
  | |- context [(?a <=? ?b)%N] => destruct (N.leb_spec a b); try lia
  | |- context [(?a =? ?b)%N] => destruct (N.eqb_spec a b); try lia
  | H : context [(?a <? ?b)%N] |- _ => destruct (N.ltb_spec a b); try lia
  | H : context [(?a <=? ?b)%N] |- _ => destruct (N.leb_spec a b); try lia
  end; cbn [andb orb negb] in *; try discriminate.
Ltac tt e := replace e with true by (symmetry; rewrite ?andb_true_iff, ?negb_true_iff, ?andb_false_iff, ?N.leb_le, ?N.ltb_lt, ?N.leb_gt, ?N.ltb_ge; lia).
Ltac ff e := replace e with false by (symmetry; rewrite ?andb_false_iff, ?N.leb_gt, ?N.ltb_ge; lia).
Lemma decode2 x y r : (2 <= x < 32 -> y < 64 -> decode ((192 + x) :: (128 + y) :: r) = option_map (cons (64 * x + y)) (decode r))%N.
Proof.
  intros Hx Hy. cbn [decode]. cbv zeta. unfold continuation. replace ((192 + x - 192) * 64 + (128 + y - 128))%N with (64 * x + y)%N by lia.
  ff (192 + x <? 128)%N. tt ((192 <=? 192 + x) && (192 + x <? 224))%N. tt ((128 <=? 128 + y) && (128 + y <? 192) && (128 <=? 64 * x + y))%N. auto.
Qed.
Lemma decode3 x y z r : (x < 16 -> y < 64 -> z < 64 -> 2048 <= 4096 * x + 64 * y + z -> (4096 * x + 64 * y + z < 55296 \/ 57344 <= 4096 * x + 64 * y + z) ->
  decode ((224 + x) :: (128 + y) :: (128 + z) :: r) = option_map (cons (4096 * x + 64 * y + z)) (decode r))%N.
Proof.
  intros Hx Hy Hz H1 H2. cbn [decode]. cbv zeta. unfold continuation. replace ((224 + x - 224) * 4096 + (128 + y - 128) * 64 + (128 + z - 128))%N with (4096 * x + 64 * y + z)%N by lia.
  set (c := (4096 * x + 64 * y + z)%N) in *. ff (224 + x <? 128)%N. ff ((192 <=? 224 + x) && (224 + x <? 224))%N. tt ((224 <=? 224 + x) && (224 + x <? 240))%N.
  tt ((128 <=? 128 + y) && (128 + y <? 192))%N. tt ((128 <=? 128 + z) && (128 + z <? 192))%N. tt (2048 <=? c)%N. ff ((55296 <=? c) && (c <? 57344))%N. auto.
Qed.
Lemma decode4 w x y z r : (w < 8 -> x < 64 -> y < 64 -> z < 64 -> 65536 <= 262144 * w + 4096 * x + 64 * y + z < 1114112 ->
  decode ((240 + w) :: (128 + x) :: (128 + y) :: (128 + z) :: r) = option_map (cons (262144 * w + 4096 * x + 64 * y + z)) (decode r))%N.
Proof.
  intros Hw Hx Hy Hz H1. cbn [decode]. cbv zeta. unfold continuation.
  replace ((240 + w - 240) * 262144 + (128 + x - 128) * 4096 + (128 + y - 128) * 64 + (128 + z - 128))%N with (262144 * w + 4096 * x + 64 * y + z)%N by lia.
  set (c := (262144 * w + 4096 * x + 64 * y + z)%N) in *. ff (240 + w <? 128)%N. ff ((192 <=? 240 + w) && (240 + w <? 224))%N. ff ((224 <=? 240 + w) && (240 + w <? 240))%N.
  tt ((240 <=? 240 + w) && (240 + w <? 248))%N.
  tt ((128 <=? 128 + x) && (128 + x <? 192))%N. tt ((128 <=? 128 + y) && (128 + y <? 192))%N. tt ((128 <=? 128 + z) && (128 + z <? 192))%N. tt (65536 <=? c)%N. tt (c <? 1114112)%N. auto.
Qed.
Lemma Some_inj {A} (x y : A) : Some x = Some y -> x = y.
Proof. congruence. Qed.
Lemma decode_char c a r : (c < 1114112)%N -> encode_char c = Some a -> decode (a ++ r) = option_map (cons c) (decode r).
Proof.
  intros Hc. unfold encode_char. destruct (N.ltb_spec c 128); [intros H1; injection H1 as <-; cbn [app decode]; destruct (N.ltb_spec c 128); [auto|lia]|].
  parts c. destruct (N.ltb_spec c 2048).
  { intros X; apply Some_inj in X; subst a. cbn [app]. rewrite decode2 by lia. do 2 f_equal. lia. }
  assert (E3 : (c < 65536 -> c < 55296 \/ 57344 <= c -> decode ((224 + x0) :: (128 + y0) :: (128 + y) :: r) = option_map (cons c) (decode r))%N).
  { intros. rewrite decode3 by lia. do 2 f_equal. lia. }
  assert (E4 : (65536 <= c -> decode ((240 + x1) :: (128 + y1) :: (128 + y0) :: (128 + y) :: r) = option_map (cons c) (decode r))%N).
  { intros. rewrite decode4 by lia. do 2 f_equal. lia. }
  destruct (N.leb_spec 55296 c), (N.ltb_spec c 57344); cbn [andb]; try discriminate; destruct (N.ltb_spec c 65536); intros X; apply Some_inj in X; subst a; cbn [app]; [apply E3|apply E4|apply E3|apply E4|apply E3|apply E4]; lia.
Qed.
Lemma text_encode s : text s -> exists b, encode s = Some b.
Proof.
  intros H. induction H as [|c s Hc H IH]; [eexists; reflexivity|]. destruct IH as (b & Hb). cbn [encode]. rewrite Hb.
  unfold encode_char. destruct (N.ltb_spec c 128); [eauto|]. destruct (N.ltb_spec c 2048); [eauto|].
  destruct (N.leb_spec 55296 c), (N.ltb_spec c 57344); cbn [andb]; try lia; destruct (N.ltb_spec c 65536); eauto.
Qed.
Lemma decode_encode s : forall b, text s -> encode s = Some b -> decode b = Some s.
Proof.
  induction s as [|c s IH]; intros b H; cbn [encode]; [intros X; injection X as <-; reflexivity|]. inversion H; subst.
  destruct (encode_char c) as [a|] eqn:E; [|discriminate]. destruct (encode s) as [b'|] eqn:E'; [|discriminate]. intros X; injection X as <-.
  rewrite (decode_char c) by (auto; lia). rewrite (IH b'); auto.
Qed.
Definition bytes (l : list N) : Prop := Forall (fun b => b < 256)%N l.
Lemma encode_bytes s : forall b, text s -> encode s = Some b -> bytes b.
Proof.
  induction s as [|c s IH]; intros b H; cbn [encode]; [intros X; injection X as <-; constructor|]. inversion H; subst.
  destruct (encode_char c) as [a|] eqn:E; [|discriminate]. destruct (encode s) as [b'|] eqn:E'; [|discriminate]. intros X; injection X as <-.
  apply Forall_app. split; [|apply IH; auto]. revert E. unfold encode_char. parts c.
  destruct (N.ltb_spec c 128); [intros E; apply Some_inj in E; subst a; repeat constructor; lia|]. destruct (N.ltb_spec c 2048); [intros E; apply Some_inj in E; subst a; repeat constructor; lia|].
  destruct (N.leb_spec 55296 c), (N.ltb_spec c 57344); cbn [andb]; try discriminate; destruct (N.ltb_spec c 65536); intros E; apply Some_inj in E; subst a; repeat constructor; lia.
Qed.
Definition ascii (s : str) : Prop := Forall (fun c => c < 128)%N s.
Lemma encode_ascii s : ascii s -> encode s = Some s.
Proof.
  intros H. induction H as [|c s Hc H IH]; auto. cbn [encode]. rewrite IH. unfold encode_char. destruct (N.ltb_spec c 128); [auto|lia].
Qed.
Lemma ascii_text s : ascii s -> text s.
Proof. intros H. eapply Forall_impl; [|exact H]. cbn beta. intros; lia. Qed.

Lemma hex_back n : (n < 16)%N -> hex_value (hex_digit n) = Some n.
Proof. intros H. unfold hex_digit. destruct (N.ltb_spec n 10); unfold hex_value; bools; f_equal; lia. Qed.
Lemma percent_other c r : c <> 37%N -> percent (c :: r) = c :: percent r.
Proof. intros H. cbn [percent]. apply N.eqb_neq in H. rewrite H. destruct r as [|x [|y r]]; auto. Qed.
Lemma percent_hex b r : (b < 256)%N -> percent (37%N :: hex_digit (b / 16) :: hex_digit (b mod 16) :: r) = b :: percent r.
Proof.
  intros H. destruct (split16 b H) as (x & y & -> & -> & E & H1 & H2). cbn [percent]. rewrite !hex_back by lia. change (37 =? 37)%N with true. cbv iota. f_equal. lia.
Qed.
Lemma percent_quote safe l : ~ In 37%N safe -> bytes l -> percent (flat_map (quote_byte safe) l) = l.
Proof.
  intros Hs H. induction H as [|b l Hb H IH]; auto. cbn [flat_map]. unfold quote_byte at 1. destruct (always_safe b || existsb (N.eqb b) safe) eqn:E.
  - cbn [app]. rewrite percent_other, IH; auto. intros ->. apply orb_true_iff in E. destruct E as [E|E]; [vm_compute in E; discriminate|].
    apply existsb_exists in E. destruct E as (x & Hx & E). apply N.eqb_eq in E. subst. auto.
  - cbn [app]. rewrite percent_hex, IH; auto.
Qed.
(** The characters of quoted text *)
Definition quoted_char (safe : str) (c : N) : Prop := always_safe c = true \/ In c safe \/ c = 37%N.
Lemma hex_safe n : (n < 16)%N -> always_safe (hex_digit n) = true.
Proof. intros H. unfold hex_digit. destruct (N.ltb_spec n 10); unfold always_safe; bools; auto. Qed.
Lemma quote_chars safe s t : text s -> quote safe s = Some t -> Forall (quoted_char safe) t.
Proof.
  unfold quote. destruct (encode s) as [b|] eqn:E; [|discriminate]. intros Ht H. cbn [option_map] in H. injection H as <-. pose proof (encode_bytes s b Ht E) as Hb. clear E.
  induction Hb as [|c b Hc Hb IH]; [constructor|]. cbn [flat_map]. apply Forall_app. split; auto. unfold quote_byte. destruct (always_safe c || _) eqn:E.
  - constructor; [|constructor]. apply orb_true_iff in E. destruct E as [E|E]; [left; auto|]. apply existsb_exists in E. destruct E as (x & Hx & E). apply N.eqb_eq in E. subst. right. auto.
  - destruct (split16 c Hc) as (x & y & -> & -> & _ & H1 & H2). constructor; [right; right; auto|]. constructor; [left; apply hex_safe; auto|]. constructor; [left; apply hex_safe; auto|constructor].
Qed.
Lemma safe_ascii c : always_safe c = true -> (c < 128)%N.
Proof. unfold always_safe. intros H. apply orb_true_iff in H. destruct H as [H|H]; [bools|]. apply existsb_exists in H. destruct H as (x & Hx & E). apply N.eqb_eq in E. subst. cbv in Hx. lia. Qed.
Lemma quote_ascii safe s t : text s -> ascii safe -> quote safe s = Some t -> ascii t.
Proof.
  intros Ht Hs H. pose proof (quote_chars safe s t Ht H) as Hc. eapply Forall_impl; [|exact Hc]. intros c [X|[X| ->]]; [apply safe_ascii; auto| |lia].
  unfold ascii in Hs. rewrite Forall_forall in Hs. auto.
Qed.
Lemma unquote_quote safe s t : text s -> ascii safe -> ~ In 37%N safe -> quote safe s = Some t -> unquote t = Some s.
Proof.
  intros Ht Hs Hp H. unfold unquote. rewrite encode_ascii by (eapply quote_ascii; eauto). unfold quote in H. destruct (encode s) as [b|] eqn:E; [|discriminate].
  cbn [option_map] in H. injection H as <-. cbn [bind]. rewrite percent_quote by (auto; eapply encode_bytes; eauto). apply decode_encode; auto.
Qed.
Lemma quote_text safe s : text s -> exists t, quote safe s = Some t.
Proof. intros H. unfold quote. destruct (text_encode s H) as (b & ->). eexists. reflexivity. Qed.

(** * XML *)
Definition esc (c : N) : str := if (c =? 38)%N then lit "&amp;" else if (c =? 60)%N then lit "&lt;" else if (c =? 62)%N then lit "&gt;" else if (c =? 34)%N then lit "&quot;" else [c].
Lemma replace_app c w a b : replace c w (a ++ b) = replace c w a ++ replace c w b.
Proof. apply flat_map_app. Qed.
Lemma escape_app a b : escape (a ++ b) = escape a ++ escape b.
Proof. unfold escape. rewrite !replace_app. auto. Qed.
Lemma escape_char c : escape [c] = esc c.
Proof.
  unfold esc. destruct (N.eqb_spec c 38); [subst; reflexivity|]. destruct (N.eqb_spec c 60); [subst; reflexivity|]. destruct (N.eqb_spec c 62); [subst; reflexivity|].
  destruct (N.eqb_spec c 34); [subst; reflexivity|]. unfold escape, replace. cbn [flat_map].
  repeat (match goal with |- context [(c =? ?x)%N] => destruct (N.eqb_spec c x); try congruence; cbn [flat_map app] end). auto.
Qed.
Lemma escape_cons c s : escape (c :: s) = esc c ++ escape s.
Proof. rewrite <- escape_char, <- escape_app. auto. Qed.
Lemma reads_app a : forall b r, reads (a ++ b) r = bind (reads a r) (reads b).
Proof. induction a as [|c a IH]; intros b r; auto. cbn [app reads]. destruct (read_char r c); cbn [bind]; auto. Qed.
Definition norm (c : N) : N := if blank c then 32%N else c.
Lemma reads_value t l a o e v : Forall (fun c => legal c = true) v -> forall w,
  reads (escape v) (Reader (Value t l a w) o e) = Some (Reader (Value t l a (w ++ map norm v)) o e).
Proof.
  intros H. induction H as [|c v Hc H IH]; intros w; [cbn; rewrite app_nil_r; auto|]. rewrite escape_cons, reads_app.
  assert (E : reads (esc c) (Reader (Value t l a w) o e) = Some (Reader (Value t l a (w ++ [norm c])) o e)).
  { unfold esc. destruct (N.eqb_spec c 38); [subst; reflexivity|]. destruct (N.eqb_spec c 60); [subst; reflexivity|]. destruct (N.eqb_spec c 62); [subst; reflexivity|].
    destruct (N.eqb_spec c 34); [subst; reflexivity|]. cbn [reads]. unfold read_char. cbn [at_mode].
    repeat match goal with |- context [(c =? ?x)%N] => destruct (N.eqb_spec c x); try congruence end. rewrite Hc. reflexivity. }
  rewrite E. cbn [bind]. rewrite IH, <- app_assoc. reflexivity.
Qed.
Definition word (s : str) : Prop := s <> [] /\ forallb letter s = true.
Lemma letter_not_blank c : letter c = true -> blank c = false.
Proof. unfold letter, blank. cbn [existsb]. intros H. destruct (N.eqb_spec c 32), (N.eqb_spec c 9), (N.eqb_spec c 10), (N.eqb_spec c 13); subst; auto; vm_compute in H; discriminate. Qed.
Lemma reads_attr_name t l o e n : forall a, forallb letter n = true -> reads n (Reader (Attr t l a) o e) = Some (Reader (Attr t l (a ++ n)) o e).
Proof.
  induction n as [|c n IH]; intros a H; [rewrite app_nil_r; auto|]. cbn [forallb] in H. apply andb_true_iff in H. destruct H as [H1 H2].
  cbn [reads read_char at_mode]. rewrite H1. cbn [bind goto]. unfold goto. cbn [opened events bind]. rewrite IH by auto. rewrite <- app_assoc. auto.
Qed.
Lemma fresh_in a l : ~ In a (map fst l) -> fresh a l = true.
Proof.
  intros H. unfold fresh. apply negb_true_iff. apply not_true_is_false. intros X. apply existsb_exists in X. destruct X as (x & Hx & E). apply H.
  destruct (str_eqb_spec (fst x) a); [|discriminate]. subst. apply in_map. auto.
Qed.
Lemma reads_attr t l o e n v : word n -> ~ In n (map fst l) -> Forall (fun c => legal c = true) v ->
  reads (at_ n (escape v)) (Reader (Inside t l) o e) = Some (Reader (After t (l ++ [(n, map norm v)])) o e).
Proof.
  intros [Hn Hw] Hf Hv. unfold at_. destruct n as [|c n]; [congruence|]. cbn [forallb] in Hw. apply andb_true_iff in Hw. destruct Hw as [H1 H2].
  rewrite reads_app. change (reads (c :: n) ?r) with (bind (read_char r c) (reads n)). cbn [read_char at_mode]. rewrite letter_not_blank, H1 by auto. unfold goto at 1. cbn [bind opened events].
  rewrite reads_attr_name by auto. cbn [bind app]. rewrite reads_app.
  replace (reads (lit "=") (Reader (Attr t l (c :: n)) o e)) with (Some (Reader (Equals t l (c :: n)) o e)) by reflexivity. cbn [bind]. rewrite reads_app.
  replace (reads q (Reader (Equals t l (c :: n)) o e)) with (Some (Reader (Value t l (c :: n) []) o e)) by reflexivity. cbn [bind]. rewrite reads_app, reads_value by auto. cbn [bind app].
  cbn [q reads read_char at_mode]. change (34 =? 34)%N with true. cbv iota. rewrite fresh_in by auto. reflexivity.
Qed.
(** After a blank both are the same. *)
Definition between (r : reader) t l o e : Prop := r = Reader (Inside t l) o e \/ r = Reader (After t l) o e.
Lemma reads_next t l o e n v r : between r t l o e -> word n -> ~ In n (map fst l) -> Forall (fun c => legal c = true) v ->
  reads (lit " " ++ at_ n (escape v)) r = Some (Reader (After t (l ++ [(n, map norm v)])) o e).
Proof. intros [-> | ->] H1 H2 H3; rewrite reads_app, <- (reads_attr t l o e n v) by auto; reflexivity. Qed.

Lemma printable_legal s : printable s -> Forall (fun c => legal c = true) s.
Proof. intros H. eapply Forall_impl; [|exact H]. cbn beta. tauto. Qed.
Lemma printable_norm s : printable s -> map norm s = s.
Proof. intros H. induction H as [|c s [_ Hc] H IH]; auto. cbn [map]. rewrite IH. unfold norm. destruct (blank c) eqn:E; auto. rewrite Hc; auto. Qed.
Lemma safe_printable c : always_safe c = true -> legal c = true /\ (blank c = true -> c = 32%N).
Proof.
  intros H. pose proof (safe_ascii c H). unfold always_safe in H. apply orb_true_iff in H. destruct H as [H|H].
  - assert (48 <= c < 123)%N by bools. split; [unfold legal; bools; auto|]. unfold blank. cbn [existsb]. bools.
  - apply existsb_exists in H. destruct H as (x & Hx & E). apply N.eqb_eq in E. subst. cbv in Hx. repeat (destruct Hx as [<- | Hx]; [split; [reflexivity|discriminate]|]). destruct Hx.
Qed.
Lemma quote_printable safe s t : text s -> printable safe -> quote safe s = Some t -> printable t.
Proof.
  intros Ht Hs H. eapply Forall_impl; [|eapply quote_chars; eauto]. intros c [X|[X| ->]]; [apply safe_printable; auto| |split; [reflexivity|discriminate]].
  unfold printable in Hs. rewrite Forall_forall in Hs. auto.
Qed.
Ltac chars := repeat constructor; try reflexivity; try discriminate; try lia.
Lemma safe_value_printable : printable safe_value. Proof. chars. Qed.
Lemma safe_value_ascii : ascii safe_value. Proof. chars. Qed.
Lemma safe_value_percent : ~ In 37%N safe_value. Proof. cbv. intuition discriminate. Qed.

(** * Messages *)
Definition number (n : N) : str := dec n.
Lemma dec_chars n : Forall (fun c => 48 <= c <= 57)%N (dec n).
Proof. eapply Forall_impl; [|apply dec_digits]. intros c H. unfold digit_ok, is_digit in H. apply andb_true_iff in H. destruct H as [H1 H2]. apply N.leb_le in H1, H2. lia. Qed.
Lemma split_tab a b : Forall (fun c => 48 <= c <= 57)%N a -> split1 9 (a ++ 9%N :: b) = Some (a, b).
Proof. intros H. induction H as [|c a Hc H IH]; [reflexivity|]. cbn [app split1]. destruct (N.eqb_spec c 9); [lia|]. rewrite IH. auto. Qed.
Lemma text_app a b : text (a ++ b) <-> text a /\ text b.
Proof. apply Forall_app. Qed.
Lemma dec_text n : text (dec n).
Proof. apply ascii_text. eapply Forall_impl; [|apply dec_chars]. cbn beta. intros; lia. Qed.
(** Any text arrives, in both protocols. *)
Lemma read_wire http id seq t : text t -> exists b, wire http id seq t = Some b /\ read http b = Some (dec id, dec seq, t).
Proof.
  intros Ht. destruct http; unfold wire, read.
  - assert (Hx : text (dec id ++ [9%N] ++ dec seq ++ [9%N] ++ t)) by (rewrite !text_app; repeat split; auto using dec_text; chars).
    destruct (text_encode _ Hx) as (b & E). exists b. split; auto. unfold read_http. rewrite (decode_encode _ _ Hx E). cbn [bind app]. rewrite split_tab by apply dec_chars. cbn [bind snd].
    rewrite split_tab by apply dec_chars. reflexivity.
  - destruct (quote_text safe_net t Ht) as (e & E). rewrite E. cbn [option_map]. eexists. split; [reflexivity|]. unfold read_line. cbn [app]. rewrite split_tab by apply dec_chars. cbn [bind snd].
    rewrite split_tab by apply dec_chars. cbn [bind snd fst]. rewrite rev_app_distr. cbn [rev app]. rewrite rev_involutive.
    rewrite (unquote_quote safe_net t e); auto; [chars|cbv; intuition discriminate].
Qed.

(** ** Variables *)
Record seen := Seen { s_name : str; s_type : str; s_qualifier : str; s_value : str; s_scope : str; s_error : bool; s_container : bool; s_returned : bool; s_hidden : bool }.
Definition flag (a : str) (l : list (str * str)) : bool := match find_attr a l with Some v => str_eqb v (lit "True") | None => false end.
Definition read_var (l : list (str * str)) : option seen :=
  bind (unquote (attr_or (lit "name") l)) (fun n => bind (unquote (attr_or (lit "value") l)) (fun v =>
  Some (Seen n (attr_or (lit "type") l) (attr_or (lit "qualifier") l) v (attr_or (lit "scope") l)
             (flag (lit "isErrorOnEval") l) (flag (lit "isContainer") l) (flag (lit "isRetVal") l) (flag (lit "isIPythonHidden") l)))).
(** The types are names and the scope is one of the fixed texts: they need no escapes but those of XML. *)
Definition plain (s : str) : Prop := printable s /\ forall c, In c s -> c <> 34%N /\ c <> 38%N /\ c <> 60%N /\ c <> 62%N.
(** Python characters; those which are not surrogates can be sent. *)
Definition chars_ok (s : str) : Prop := Forall (fun c => c < 1114112)%N s.
Definition unicode (c : N) : bool := ((c <? 55296) || (57344 <=? c))%N.
Definition sendable (limit : nat) (v : str * details) : bool := forallb unicode (firstn limit (value (snd v))).
Definition var_ok (v : str * details) : Prop :=
  text (fst v) /\ chars_ok (value (snd v)) /\ printable (ty (snd v)) /\ printable (qualifier (snd v)) /\ plain (scope (snd v)).
Definition shown (limit : nat) (returned hid : bool) (v : str * details) : seen :=
  let d := snd v in
  Seen (fst v) (ty d) (qualifier d) (if (length (value d) <=? limit)%nat then value d else firstn limit (value d) ++ lit "...") (scope d) (error d) (negb (error d) && container d) returned hid.

Lemma plain_escape s : plain s -> escape s = s.
Proof.
  intros [_ H]. induction s as [|c s IH]; auto. rewrite escape_cons, IH by (intros; apply H; right; auto). destruct (H c) as (H1 & H2 & H3 & H4); [left; auto|].
  unfold esc. repeat match goal with |- context [(c =? ?x)%N] => destruct (N.eqb_spec c x); try congruence end. auto.
Qed.
Lemma legal_text s : Forall (fun c => legal c = true) s -> text s.
Proof.
  intros H. eapply Forall_impl; [|exact H]. cbn beta. intros c Hc. unfold legal in Hc. apply orb_true_iff in Hc. destruct Hc as [Hc|Hc].
  - rewrite !orb_true_iff, !andb_true_iff, !N.leb_le, !N.ltb_lt in Hc. lia.
  - apply existsb_exists in Hc. destruct Hc as (x & Hx & E). apply N.eqb_eq in E. subst. cbv in Hx. lia.
Qed.
Lemma printable_text s : printable s -> text s.
Proof. intros H. apply legal_text, printable_legal. auto. Qed.
Lemma text_escape s : text s -> text (escape s).
Proof.
  intros H. induction H as [|c s Hc H IH]; [constructor|]. rewrite escape_cons. apply text_app. split; auto. unfold esc.
  repeat match goal with |- context [(c =? ?x)%N] => destruct (c =? x)%N; [chars|] end. constructor; [exact Hc|constructor].
Qed.
Lemma text_at n v : text n -> text v -> text (at_ n v).
Proof. intros H1 H2. unfold at_. rewrite !text_app. repeat split; auto; chars. Qed.
Lemma text_firstn n s : text s -> text (firstn n s).
Proof. revert n. induction s as [|c s IH]; intros [|n] H; try constructor; inversion H; subst; auto. apply IH. auto. Qed.
Lemma text_trimmed limit s : text s -> text (trimmed limit s).
Proof. intros H. unfold trimmed. destruct (_ <? _); auto. apply text_app. split; [apply text_firstn; auto|chars]. Qed.
Lemma trimmed_eq limit s : trimmed limit s = if (length s <=? limit)%nat then s else firstn limit s ++ lit "...".
Proof. unfold trimmed. destruct (Nat.ltb_spec limit (length s)), (Nat.leb_spec (length s) limit); auto; lia. Qed.

Lemma unicode_text s : chars_ok s -> forallb unicode s = true -> text s.
Proof.
  intros H. induction H as [|c s Hc H IH]; [constructor|]. cbn [forallb]. intros X. apply andb_true_iff in X. destruct X as [X1 X2]. constructor; [|apply IH; auto].
  unfold unicode in X1. rewrite orb_true_iff, N.ltb_lt, N.leb_le in X1. lia.
Qed.
Lemma not_unicode_encode s : forallb unicode s = false -> encode s = None.
Proof.
  induction s as [|c s IH]; [discriminate|]. cbn [forallb encode]. intros H. apply andb_false_iff in H. destruct H as [H|H]; [|rewrite IH by auto; destruct (encode_char c); auto].
  unfold unicode in H. rewrite orb_false_iff, N.ltb_ge, N.leb_gt in H. unfold encode_char. ff (c <? 128)%N. ff (c <? 2048)%N. tt ((55296 <=? c) && (c <? 57344))%N. auto.
Qed.
Lemma chars_firstn n s : chars_ok s -> chars_ok (firstn n s).
Proof. revert n. induction s as [|c s IH]; intros [|n] H; try constructor; inversion H; subst; auto. apply IH. auto. Qed.
Lemma trimmed_firstn limit s : trimmed limit s = firstn limit s ++ (if limit <? length s then lit "..." else []).
Proof. unfold trimmed. destruct (Nat.ltb_spec limit (length s)); auto. rewrite firstn_all2 by lia. rewrite app_nil_r. auto. Qed.
Lemma sendable_trimmed limit v : var_ok v -> sendable limit v = true -> text (trimmed limit (value (snd v))).
Proof.
  intros (_ & H & _) S. rewrite trimmed_firstn. apply text_app. split; [apply unicode_text; auto using chars_firstn|]. destruct (_ <? _); chars.
Qed.
Lemma not_sendable limit v : sendable limit v = false -> encode (trimmed limit (value (snd v))) = None.
Proof.
  intros S. apply not_unicode_encode. rewrite trimmed_firstn, forallb_app. unfold sendable in S. rewrite S. auto.
Qed.
Definition opt (n v : str) : list (str * str) := match v with [] => [] | _ => [(n, v)] end.
Lemma opt_names n v x : In x (map fst (opt n v)) -> x = n.
Proof. destruct v; cbn; intuition. Qed.
Lemma find_app a l l' : find_attr a (l ++ l') = match find_attr a l with Some v => Some v | None => find_attr a l' end.
Proof. induction l as [|[b v] l IH]; auto. cbn [app find_attr]. destruct (str_eqb a b); auto. Qed.
Lemma find_opt_same n v : find_attr n (opt n v) = match v with [] => None | _ => Some v end.
Proof. destruct v; auto. cbn [opt find_attr]. destruct (str_eqb_spec n n); congruence. Qed.
Lemma find_opt_other a n v : a <> n -> find_attr a (opt n v) = None.
Proof. intros H. destruct v; auto. cbn [opt find_attr]. destruct (str_eqb_spec a n); congruence. Qed.
Ltac notin := rewrite ?map_app, ?in_app_iff; let H := fresh in intros H;
  repeat match goal with H : _ \/ _ |- _ => destruct H as [H|H] end;
  first [apply opt_names in H; discriminate H | cbv in H; repeat match goal with H : _ \/ _ |- _ => destruct H as [H|H] end; try discriminate H; try destruct H ].

Definition extra (returned hid : bool) : str := if returned then ret_val else if hid then hidden else [].
Definition mark (returned hid : bool) : list (str * str) :=
  if returned then [(lit "isRetVal", lit "True")] else if hid then [(lit "isIPythonHidden", lit "True")] else [].
Definition kind (d : details) : list (str * str) :=
  if error d then [(lit "isErrorOnEval", lit "True")] else if container d then [(lit "isContainer", lit "True")] else [].
Lemma reads_true t l o e r n : between r t l o e -> word n -> ~ In n (map fst l) ->
  reads (lit " " ++ at_ n (lit "True")) r = Some (Reader (After t (l ++ [(n, lit "True")])) o e).
Proof. intros H1 H2 H3. apply (reads_next t l o e n (lit "True") r H1 H2 H3). chars. Qed.
Ltac word_ := split; [discriminate|reflexivity].

Ltac use_ E := match goal with |- bind ?x ?f = _ => match type of E with _ = ?r => transitivity (bind r f); [exact (f_equal (fun z => bind z f) E)|cbn [bind]] end end.
Lemma var_reads limit returned hid v : var_ok v -> sendable limit v = true -> hid && returned = false -> exists s l, var_to_xml limit (extra returned hid) (fst v) (snd v) = Some s /\ text s /\
  (forall o e, reads s (Reader Out o e) = Some (Reader Out o (e ++ [Open (lit "var") l; Close (lit "var")]))) /\
  read_var l = Some (shown limit returned hid v).
Proof.
  intros Hok Hsend Hx. pose proof (sendable_trimmed limit v Hok Hsend) as Hv. destruct Hok as (Hn & _ & Ht & Hq & Hs). destruct v as [name d]. cbn [fst snd] in *.
  destruct (quote_text safe_value name Hn) as (qn & En).
  destruct (quote_text safe_value (trimmed limit (value d))) as (qv & Ev); [auto|].
  assert (Pn : printable qn) by exact (quote_printable safe_value name qn Hn safe_value_printable En). assert (Pv : printable qv) by (eapply quote_printable; [|apply safe_value_printable|exact Ev]; auto).
  set (vv := match value d with [] => [] | _ => qv end).
  assert (Hvv : value d <> [] -> vv <> []).
  { intros H. unfold vv. destruct (value d) as [|c w] eqn:Evd; [congruence|]. intros ->. apply unquote_quote in Ev; auto using safe_value_ascii, safe_value_percent.
    change (unquote []) with (Some (@nil N)) in Ev. apply Some_inj in Ev. unfold trimmed in Ev. destruct (limit <? length (c :: w)); [|discriminate]. destruct limit; discriminate. }
  exists (lit "<var " ++ at_ (lit "name") (escape qn) ++ lit " " ++ at_ (lit "type") (escape (ty d)) ++ lit " " ++
          match qualifier d with [] => [] | x => at_ (lit "qualifier") (escape x) end ++
          match value d with [] => [] | _ => lit " " ++ at_ (lit "value") (escape qv) end ++
          (if error d then lit " " ++ at_ (lit "isErrorOnEval") (lit "True") else if container d then lit " " ++ at_ (lit "isContainer") (lit "True") else []) ++
          extra returned hid ++ match scope d with [] => [] | x => lit " " ++ at_ (lit "scope") x end ++ lit " />" ++ [10%N]).
  exists ([(lit "name", qn); (lit "type", ty d)] ++ opt (lit "qualifier") (qualifier d) ++ opt (lit "value") vv ++ kind d ++ mark returned hid ++ opt (lit "scope") (scope d)).
  split; [|split; [|split]].
  - unfold var_to_xml, escaped_quote. rewrite En. destruct (value d) eqn:Evd; cbn [bind]; [reflexivity|]. rewrite Ev. reflexivity.
  - rewrite !text_app. split; [chars|]. split; [apply text_at; [chars|apply text_escape, printable_text; auto]|]. split; [chars|]. split; [apply text_at; [chars|apply text_escape, printable_text; auto]|].
    split; [chars|]. split; [destruct (qualifier d) eqn:E; [constructor|apply text_at; [chars|apply text_escape, printable_text; auto]]|].
    split; [destruct (value d); [constructor|apply text_app; split; [chars|apply text_at; [chars|apply text_escape, printable_text; auto]]]|].
    split; [destruct (error d); [chars|destruct (container d); chars]|]. split; [unfold extra; destruct returned; [chars|destruct hid; chars]|].
    split; [destruct (scope d) eqn:E; [constructor|apply text_app; split; [chars|apply text_at; [chars|apply printable_text, Hs]]]|]. split; chars.
  - intros o e. rewrite reads_app. replace (reads (lit "<var ") (Reader Out o e)) with (Some (Reader (Inside (lit "var") []) o e)) by reflexivity. cbn [bind].
    rewrite reads_app, reads_attr by (try word_; try notin; auto using printable_legal). cbn [bind]. rewrite printable_norm by auto.
    rewrite app_assoc, reads_app. rewrite (reads_next (lit "var") ([] ++ [(lit "name", qn)]) o e) by (try (right; reflexivity); try word_; try notin; auto using printable_legal). cbn [bind app].
    rewrite (printable_norm (ty d)) by auto. rewrite reads_app.
    match goal with |- context [reads (lit " ") ?r] => replace (reads (lit " ") r) with (Some (Reader (Inside (lit "var") [(lit "name", qn); (lit "type", ty d)]) o e)) by reflexivity end. cbn [bind].
    (* the qualifier *)
    set (l0 := [(lit "name", qn); (lit "type", ty d)]).
    assert (A1 : exists r1, reads (match qualifier d with [] => [] | _ => at_ (lit "qualifier") (escape (qualifier d)) end) (Reader (Inside (lit "var") l0) o e) = Some r1 /\
      between r1 (lit "var") (l0 ++ opt (lit "qualifier") (qualifier d)) o e).
    { destruct (qualifier d) as [|c x] eqn:Eq; [eexists; split; [reflexivity|left; rewrite app_nil_r; auto]|]. eexists. split; [apply reads_attr; [word_|notin|apply printable_legal; auto]|].
      right. rewrite printable_norm by auto. reflexivity. }
    destruct A1 as (r1 & E1 & B1). replace (match qualifier d with [] => [] | x => at_ (lit "qualifier") (escape x) end) with (match qualifier d with [] => [] | _ => at_ (lit "qualifier") (escape (qualifier d)) end) by (destruct (qualifier d); auto).
    rewrite reads_app. use_ E1. clear E1. set (l1 := l0 ++ opt (lit "qualifier") (qualifier d)) in *.
    (* the value *)
    assert (A2 : exists r2, reads (match value d with [] => [] | _ => lit " " ++ at_ (lit "value") (escape qv) end) r1 = Some r2 /\ between r2 (lit "var") (l1 ++ opt (lit "value") vv) o e).
    { unfold vv. destruct (value d) as [|c x] eqn:Eq; [eexists; split; [reflexivity|cbn [opt]; rewrite app_nil_r; auto]|].
      eexists. split; [apply (reads_next (lit "var") l1); [exact B1|word_|unfold l1, l0; notin|apply printable_legal; auto]|]. right. rewrite printable_norm by auto. destruct qv; [|reflexivity]. exfalso. apply Hvv; auto. discriminate. }
    destruct A2 as (r2 & E2 & B2). rewrite reads_app. use_ E2. clear E2 r1 B1. set (l2 := l1 ++ opt (lit "value") vv) in *.
    (* the kind *)
    assert (A3 : exists r3, reads (if error d then lit " " ++ at_ (lit "isErrorOnEval") (lit "True") else if container d then lit " " ++ at_ (lit "isContainer") (lit "True") else []) r2 = Some r3 /\
      between r3 (lit "var") (l2 ++ kind d) o e).
    { unfold kind. destruct (error d); [|destruct (container d)]; [| |eexists; split; [reflexivity|rewrite app_nil_r; auto]];
        (eexists; split; [apply (reads_true (lit "var") l2); [exact B2|word_|unfold l2, l1, l0; notin]|right; reflexivity]). }
    destruct A3 as (r3 & E3 & B3). rewrite reads_app. use_ E3. clear E3 r2 B2. set (l3 := l2 ++ kind d) in *.
    assert (N3 : forall x, x <> lit "name" -> x <> lit "type" -> x <> lit "qualifier" -> x <> lit "value" -> x <> lit "isErrorOnEval" -> x <> lit "isContainer" -> ~ In x (map fst l3)).
    { intros x X1 X2 X3 X4 X5 X6. unfold l3, l2, l1, l0, kind. rewrite !map_app, !in_app_iff. intros H. repeat match goal with H : _ \/ _ |- _ => destruct H as [H|H] end;
        try (apply opt_names in H; congruence).
      - cbn [map fst In] in H. intuition congruence.
      - destruct (error d); [|destruct (container d)]; cbn [map fst In] in H; intuition congruence. }
    assert (A4 : exists r4, reads (extra returned hid) r3 = Some r4 /\ between r4 (lit "var") (l3 ++ mark returned hid) o e).
    { unfold extra, mark. destruct returned; [|destruct hid]; [| |eexists; split; [reflexivity|rewrite app_nil_r; auto]];
        (eexists; split; [apply (reads_true (lit "var") l3); [exact B3|word_|apply N3; discriminate]|right; reflexivity]). }
    destruct A4 as (r4 & E4 & B4). rewrite reads_app. use_ E4. clear E4 r3 B3. set (l4 := l3 ++ mark returned hid) in *.
    assert (A5 : exists r5, reads (match scope d with [] => [] | _ => lit " " ++ at_ (lit "scope") (escape (scope d)) end) r4 = Some r5 /\ between r5 (lit "var") (l4 ++ opt (lit "scope") (scope d)) o e).
    { destruct (scope d) as [|c x] eqn:Eq; [eexists; split; [reflexivity|cbn [opt]; rewrite app_nil_r; auto]|].
      eexists. split; [apply (reads_next (lit "var") l4); [exact B4|word_| |apply printable_legal, Hs]|right; rewrite printable_norm by apply Hs; reflexivity].
      unfold l4. rewrite map_app, in_app_iff. intros [H|H]; [revert H; apply N3; discriminate|]. unfold mark in H. destruct returned; [|destruct hid]; cbn in H; intuition discriminate. }
    destruct A5 as (r5 & E5 & B5). rewrite plain_escape in E5 by auto.
    replace (match scope d with [] => [] | x => lit " " ++ at_ (lit "scope") x end) with (match scope d with [] => [] | _ => lit " " ++ at_ (lit "scope") (scope d) end) by (destruct (scope d); auto).
    rewrite reads_app. use_ E5.
    assert (A6 : reads (lit " />" ++ [10%N]) r5 = Some (Reader Out o (e ++ [Open (lit "var") (l4 ++ opt (lit "scope") (scope d)); Close (lit "var")]))).
    { destruct B5 as [-> | ->]; cbn; rewrite <- app_assoc; reflexivity. }
    rewrite A6. do 4 f_equal. unfold l4, l3, l2, l1. rewrite <- !app_assoc. reflexivity.
  - unfold read_var, attr_or, flag. set (l := _ ++ _).
    assert (F1 : find_attr (lit "name") l = Some qn) by reflexivity. assert (F2 : find_attr (lit "type") l = Some (ty d)) by reflexivity.
    assert (K : forall x, x <> lit "isErrorOnEval" -> x <> lit "isContainer" -> find_attr x (kind d) = None).
    { intros x X1 X2. unfold kind. destruct (error d); [|destruct (container d)]; auto; cbn [find_attr]; destruct (str_eqb_spec x (lit "isErrorOnEval")), (str_eqb_spec x (lit "isContainer")); congruence. }
    assert (M : forall x, x <> lit "isRetVal" -> x <> lit "isIPythonHidden" -> find_attr x (mark returned hid) = None).
    { intros x X1 X2. unfold mark. destruct returned; [|destruct hid]; auto; cbn [find_attr]; destruct (str_eqb_spec x (lit "isRetVal")), (str_eqb_spec x (lit "isIPythonHidden")); congruence. }
    assert (L : forall x, x <> lit "name" -> x <> lit "type" -> find_attr x l = find_attr x (opt (lit "qualifier") (qualifier d) ++ opt (lit "value") vv ++ kind d ++ mark returned hid ++ opt (lit "scope") (scope d))).
    { intros x X1 X2. unfold l. cbn [app find_attr]. destruct (str_eqb_spec x (lit "name")), (str_eqb_spec x (lit "type")); congruence. }
    rewrite F1, F2, !L by discriminate. rewrite !find_app, ?find_opt_same. rewrite !(find_opt_other _ (lit "qualifier")), !(find_opt_other _ (lit "value")), !(find_opt_other _ (lit "scope")) by discriminate.
    rewrite !(K (lit "value")), !(K (lit "scope")), !(K (lit "qualifier")), !(M (lit "value")), !(M (lit "scope")), !(M (lit "qualifier")), !(M (lit "isErrorOnEval")), !(M (lit "isContainer")), !(K (lit "isRetVal")), !(K (lit "isIPythonHidden")) by discriminate.
    rewrite (unquote_quote safe_value name qn) by auto using safe_value_ascii, safe_value_percent. cbn [bind].
    assert (U : unquote (match (match vv with [] => None | _ => Some vv end) with Some v => v | None => [] end) = Some (trimmed limit (value d))).
    { unfold vv in *. destruct (value d) as [|c w] eqn:Evd; [unfold trimmed; destruct limit; reflexivity|]. destruct qv as [|c' w'] eqn:Eqv; [exfalso; apply Hvv; congruence|]. rewrite <- Eqv.
      eapply unquote_quote; eauto using safe_value_ascii, safe_value_percent. subst; auto. }
    match goal with |- bind ?x _ = _ => replace x with (Some (trimmed limit (value d))) by (rewrite <- U; destruct vv; reflexivity) end. cbn [bind]. unfold shown. cbn [fst snd]. rewrite trimmed_eq.
    do 2 f_equal.
    all: try (destruct (qualifier d); reflexivity). all: try (destruct (scope d); reflexivity).
    all: unfold kind, mark; destruct (error d), (container d), returned, hid; try discriminate; reflexivity.
Qed.

(** ** Elements *)
Definition piece (s : str) (ev : list event) : Prop := text s /\ forall o e, reads s (Reader Out o e) = Some (Reader Out o (e ++ ev)).
Lemma piece_nil : piece [] [].
Proof. split; [constructor|]. intros o e. cbn [reads]. rewrite app_nil_r. auto. Qed.
Lemma piece_app a b x y : piece a x -> piece b y -> piece (a ++ b) (x ++ y).
Proof. intros [T1 H1] [T2 H2]. split; [apply text_app; auto|]. intros o e. rewrite reads_app, H1. cbn [bind]. rewrite H2, app_assoc. auto. Qed.
Definition attrs (l : list (str * str)) : str := flat_map (fun x => lit " " ++ at_ (fst x) (escape (snd x))) l.
Definition attr_ok (x : str * str) : Prop := word (fst x) /\ Forall (fun c => legal c = true) (snd x).
Definition normed (l : list (str * str)) : list (str * str) := map (fun x => (fst x, map norm (snd x))) l.
Definition ready (r : reader) t l o e : Prop := between r t l o e \/ (l = [] /\ t <> [] /\ r = Reader (Name t) o e).
Lemma ready_blank r t l o e : ready r t l o e -> read_char r 32 = Some (Reader (Inside t l) o e).
Proof. intros [[-> | ->]|(-> & Ht & ->)]; try reflexivity. destruct t; [congruence|reflexivity]. Qed.
Lemma ready_gt r t l o e : ready r t l o e -> read_char r 62 = Some (Reader Out (t :: o) (e ++ [Open t l])).
Proof. intros [[-> | ->]|(-> & Ht & ->)]; try reflexivity. destruct t; [congruence|reflexivity]. Qed.
Lemma ready_slash r t l o e : ready r t l o e -> read_char r 47 = Some (Reader (Slash t l) o e).
Proof. intros [[-> | ->]|(-> & Ht & ->)]; try reflexivity. destruct t; [congruence|reflexivity]. Qed.
Lemma reads_name n : forall t o e, forallb letter n = true -> reads n (Reader (Name t) o e) = Some (Reader (Name (t ++ n)) o e).
Proof.
  induction n as [|c n IH]; intros t o e H; [rewrite app_nil_r; auto|]. cbn [forallb] in H. apply andb_true_iff in H. destruct H as [H1 H2].
  cbn [reads read_char at_mode]. rewrite H1. unfold goto. cbn [opened events bind]. rewrite IH by auto. rewrite <- app_assoc. auto.
Qed.
Lemma reads_endname n : forall t o e, forallb letter n = true -> reads n (Reader (End t) o e) = Some (Reader (End (t ++ n)) o e).
Proof.
  induction n as [|c n IH]; intros t o e H; [rewrite app_nil_r; auto|]. cbn [forallb] in H. apply andb_true_iff in H. destruct H as [H1 H2].
  cbn [reads read_char at_mode]. rewrite H1. unfold goto. cbn [opened events bind]. rewrite IH by auto. rewrite <- app_assoc. auto.
Qed.
Lemma reads_attrs t o e l : forall l0 r, ready r t l0 o e -> Forall attr_ok l -> NoDup (map fst (l0 ++ l)) ->
  exists r', reads (attrs l) r = Some r' /\ ready r' t (l0 ++ normed l) o e.
Proof.
  induction l as [|[n v] l IH]; intros l0 r Hr Hl Hd; [exists r; split; auto; cbn [normed map]; rewrite app_nil_r; auto|].
  inversion Hl as [|? ? [Hw Hv] Hl']; subst. cbn [fst snd] in *.
  assert (Hn : ~ In n (map fst l0)). { rewrite map_app in Hd. cbn [map fst] in Hd. apply NoDup_remove_2 in Hd. intros X. apply Hd. apply in_or_app. auto. }
  destruct (IH (l0 ++ [(n, map norm v)]) (Reader (After t (l0 ++ [(n, map norm v)])) o e)) as (r' & E & H'); [left; right; auto|auto| |].
  { rewrite <- app_assoc, map_app. rewrite map_app in Hd. exact Hd. }
  exists r'. split.
  - unfold attrs. cbn [flat_map fst snd]. fold (attrs l). rewrite reads_app. rewrite <- E. rewrite reads_app.
    replace (reads (lit " ") r) with (Some (Reader (Inside t l0) o e)) by (change (lit " ") with [32%N]; cbn [reads]; rewrite (ready_blank r t l0 o e Hr); reflexivity).
    cbn [bind]. rewrite reads_attr by auto. reflexivity.
  - cbn [normed map fst snd]. rewrite <- app_assoc in H'. exact H'.
Qed.
Lemma text_attrs l : Forall attr_ok l -> text (attrs l).
Proof.
  intros H. induction H as [|[n v] l [Hw Hv] H IH]; [constructor|]. unfold attrs. cbn [flat_map fst snd] in *. apply text_app. split; auto. apply text_app. split; [chars|].
  apply text_at; [|apply text_escape, legal_text; auto]. destruct Hw as [_ Hw]. apply ascii_text. unfold ascii. rewrite Forall_forall. rewrite forallb_forall in Hw. intros c Hc. specialize (Hw c Hc). unfold letter in Hw.
  rewrite !orb_true_iff, !andb_true_iff, !N.leb_le, N.eqb_eq in Hw. lia.
Qed.
Lemma word_text n : word n -> text n.
Proof.
  intros [_ Hw]. apply ascii_text. unfold ascii. rewrite Forall_forall. rewrite forallb_forall in Hw. intros c Hc. specialize (Hw c Hc). unfold letter in Hw.
  rewrite !orb_true_iff, !andb_true_iff, !N.leb_le, N.eqb_eq in Hw. lia.
Qed.
Lemma reads_start t l o e : word t -> Forall attr_ok l -> NoDup (map fst l) -> exists r, reads (lit "<" ++ t ++ attrs l) (Reader Out o e) = Some r /\ ready r t (normed l) o e.
Proof.
  intros [Hn Hw] Hl Hd. rewrite !reads_app. replace (reads (lit "<") (Reader Out o e)) with (Some (Reader (Name []) o e)) by reflexivity. cbn [bind]. rewrite reads_app, reads_name by auto. cbn [bind app].
  destruct (reads_attrs t o e l [] (Reader (Name t) o e)) as (r & E & H); auto; [right; auto|]. eauto.
Qed.
(** An element without content; [gap]: a blank or none before its end *)
Lemma piece_single t l gap : word t -> Forall attr_ok l -> NoDup (map fst l) -> gap = [] \/ gap = lit " " ->
  piece (lit "<" ++ t ++ attrs l ++ gap ++ lit "/>") [Open t (normed l); Close t].
Proof.
  intros Ht Hl Hd Hg. split.
  { rewrite !text_app. split; [chars|]. split; [apply word_text; auto|]. split; [apply text_attrs; auto|]. split; [destruct Hg; subst; chars|chars]. }
  intros o e. rewrite (app_assoc t), (app_assoc (lit "<")), reads_app. destruct (reads_start t l o e Ht Hl Hd) as (r & -> & Hr). cbn [bind]. rewrite reads_app.
  assert (A : exists r', reads gap r = Some r' /\ ready r' t (normed l) o e).
  { destruct Hg as [-> | ->]; [eexists; split; [reflexivity|auto]|]. eexists. split; [change (lit " ") with [32%N]; cbn [reads]; rewrite (ready_blank _ _ _ _ _ Hr); reflexivity|left; left; auto]. }
  destruct A as (r' & -> & Hr'). cbn [bind]. change (lit "/>") with [47; 62]%N. cbn [reads]. rewrite (ready_slash _ _ _ _ _ Hr'). cbn [bind read_char at_mode]. change (62 =? 62)%N with true. cbv iota.
  unfold close_tag, open_tag. cbn [opened events]. destruct (str_eqb_spec t t); [|congruence]. cbn [bind]. rewrite <- app_assoc. reflexivity.
Qed.
(** An element with content *)
Lemma piece_wrap t l gap s ev : word t -> Forall attr_ok l -> NoDup (map fst l) -> gap = [] \/ gap = lit " " -> piece s ev ->
  piece (lit "<" ++ t ++ attrs l ++ gap ++ lit ">" ++ s ++ lit "</" ++ t ++ lit ">") (Open t (normed l) :: ev ++ [Close t]).
Proof.
  intros Ht Hl Hd Hg [Ts Hs]. split.
  { rewrite !text_app. split; [chars|]. split; [apply word_text; auto|]. split; [apply text_attrs; auto|]. split; [destruct Hg; subst; chars|]. split; [chars|]. split; [auto|]. split; [chars|]. split; [apply word_text; auto|chars]. }
  intros o e. rewrite (app_assoc t), (app_assoc (lit "<")), reads_app. destruct (reads_start t l o e Ht Hl Hd) as (r & -> & Hr). cbn [bind]. rewrite reads_app.
  assert (A : exists r', reads gap r = Some r' /\ ready r' t (normed l) o e).
  { destruct Hg as [-> | ->]; [eexists; split; [reflexivity|auto]|]. eexists. split; [change (lit " ") with [32%N]; cbn [reads]; rewrite (ready_blank _ _ _ _ _ Hr); reflexivity|left; left; auto]. }
  destruct A as (r' & -> & Hr'). cbn [bind]. rewrite reads_app. change (lit ">") with [62]%N. cbn [reads]. rewrite (ready_gt _ _ _ _ _ Hr'). cbn [bind]. rewrite reads_app, Hs. cbn [bind]. rewrite reads_app.
  match goal with |- context [reads (lit "</") (Reader Out ?o ?e)] => replace (reads (lit "</") (Reader Out o e)) with (Some (Reader (End []) o e)) by reflexivity end. cbn [bind]. rewrite reads_app.
  rewrite reads_endname by apply Ht. cbn [bind app reads read_char at_mode]. change (letter 62) with false. change (62 =? 62)%N with true. cbv iota. unfold close_tag. cbn [opened events]. destruct (str_eqb_spec t t); [|congruence].
  cbn [bind]. rewrite <- !app_assoc. reflexivity.
Qed.
Lemma piece_parse s ev : piece s ev -> parse s = Some ev.
Proof. intros [_ H]. unfold parse. rewrite H. reflexivity. Qed.
Lemma piece_received http id seq s ev : piece s ev -> received http (wire http id seq s) = Some (dec id, dec seq, ev).
Proof. intros H. destruct (read_wire http id seq s) as (b & -> & E); [apply H|]. unfold received. cbn [bind]. rewrite E. cbn [bind fst snd]. rewrite (piece_parse s ev H). reflexivity. Qed.
Lemma piece_xml s ev : piece s ev -> piece (xml s) (Open (lit "xml") [] :: ev ++ [Close (lit "xml")]).
Proof. intros H. apply (piece_wrap (lit "xml") [] [] s ev); auto; try word_; constructor. Qed.
Lemma elements_app t a b : elements t (a ++ b) = elements t a ++ elements t b.
Proof. apply flat_map_app. Qed.

(** ** Variables of a frame *)
Fixpoint while_ok {A : Type} (f : A -> bool) (l : list A) : list A := match l with [] => [] | x :: r => if f x then x :: while_ok f r else [] end.
Lemma var_raises limit a (v : str * details) : sendable limit v = false -> var_to_xml limit a (fst v) (snd v) = None.
Proof.
  intros H. pose proof (not_sendable limit v H) as E. unfold var_to_xml, escaped_quote, quote.
  destruct (value (snd v)) eqn:X; [unfold sendable in H; rewrite X in H; destruct limit; discriminate|]. rewrite E. reflexivity.
Qed.
Lemma var_piece limit returned hid v : var_ok v -> sendable limit v = true -> hid && returned = false ->
  exists s l, var_to_xml limit (extra returned hid) (fst v) (snd v) = Some s /\ piece s [Open (lit "var") l; Close (lit "var")] /\ read_var l = Some (shown limit returned hid v).
Proof. intros H1 H2 H3. destruct (var_reads limit returned hid v H1 H2 H3) as (s & l & E & T & R & V). exists s, l. repeat split; auto. Qed.
Lemma locals_piece limit (hide : str -> bool) (l : list (str * details)) : Forall var_ok l -> exists ev, piece (each_var (fun v => var_to_xml limit (if hide (fst v) then hidden else []) (fst v) (snd v)) l) ev /\
  map read_var (elements (lit "var") ev) = map (fun v => Some (shown limit false (hide (fst v)) v)) (filter (sendable limit) l).
Proof.
  intros H. induction H as [|v l Hv H (ev & P & E)]; [exists []; split; [apply piece_nil|reflexivity]|]. cbn [each_var filter]. destruct (sendable limit v) eqn:S.
  - destruct (var_piece limit false (hide (fst v)) v Hv S) as (s & a & E1 & P1 & R1); [destruct (hide _); auto|].
    change (extra false (hide (fst v))) with (if hide (fst v) then hidden else []) in E1. rewrite E1. exists ([Open (lit "var") a; Close (lit "var")] ++ ev). split; [apply piece_app; auto|].
    rewrite elements_app, map_app, E. cbn [map]. rewrite <- R1. reflexivity.
  - rewrite (var_raises limit _ v S). exists ev. auto.
Qed.
Lemma returned_piece limit (l : list (str * details)) : Forall var_ok l -> exists ev, piece (until_raise (fun v => var_to_xml limit ret_val (fst v) (snd v)) l) ev /\
  map read_var (elements (lit "var") ev) = map (fun v => Some (shown limit true false v)) (while_ok (sendable limit) l).
Proof.
  intros H. induction H as [|v l Hv H (ev & P & E)]; [exists []; split; [apply piece_nil|reflexivity]|]. cbn [until_raise while_ok]. destruct (sendable limit v) eqn:S.
  - destruct (var_piece limit true false v Hv S) as (s & a & E1 & P1 & R1); [auto|].
    change (extra true false) with ret_val in E1. rewrite E1. exists ([Open (lit "var") a; Close (lit "var")] ++ ev). split; [apply piece_app; auto|].
    rewrite elements_app, map_app, E. cbn [map]. rewrite <- R1. reflexivity.
  - rewrite (var_raises limit _ v S). exists []. split; [apply piece_nil|reflexivity].
Qed.
Lemma children_piece limit (l : list (str * details)) : Forall var_ok l -> forallb (sendable limit) l = true -> exists s ev, all_vars (fun v => var_to_xml limit [] (fst v) (snd v)) l = Some s /\ piece s ev /\
  map read_var (elements (lit "var") ev) = map (fun v => Some (shown limit false false v)) l.
Proof.
  intros H. induction H as [|v l Hv H IH]; [exists [], []; split; [reflexivity|split; [apply piece_nil|reflexivity]]|]. cbn [forallb]. intros X. apply andb_true_iff in X. destruct X as [S X].
  destruct (IH X) as (s' & ev & E & P & R). destruct (var_piece limit false false v Hv S) as (s & a & E1 & P1 & R1); [auto|]. change (extra false false) with (@nil N) in E1.
  exists (s ++ s'), ([Open (lit "var") a; Close (lit "var")] ++ ev). cbn [all_vars]. rewrite E1. cbn [bind]. rewrite E. split; [reflexivity|]. split; [apply piece_app; auto|].
  rewrite elements_app, map_app, R. cbn [map]. rewrite <- R1. reflexivity.
Qed.
Lemma elements_xml t ev : t <> lit "xml" -> elements t (Open (lit "xml") [] :: ev ++ [Close (lit "xml")]) = elements t ev.
Proof. intros H. change (Open (lit "xml") [] :: ev ++ [Close (lit "xml")]) with ([Open (lit "xml") []] ++ ev ++ [Close (lit "xml")]). rewrite !elements_app. cbn [elements flat_map]. destruct (str_eqb_spec (lit "xml") t); [congruence|]. cbn [app]. apply app_nil_r. Qed.

(** The client which asks for the variables of a frame receives, in both protocols and for whatever names and values, an answer with
    all of them in their order, each with its name, its value (of a value longer than the limit its start and three dots), its type and
    marks, but for those whose value cannot be sent. *)
Theorem xml_frame http limit seq hide returned locals : Forall var_ok returned -> Forall var_ok locals ->
  exists ev, received http (frame_message http limit seq hide returned locals) = Some (lit "114", dec seq, ev) /\
    map read_var (elements (lit "var") ev) =
      map (fun v => Some (shown limit true false v)) (while_ok (sendable limit) returned) ++
      map (fun v => Some (shown limit false (hide (fst v)) v))
        (filter (sendable limit) (filter (fun v => negb (str_eqb (fst v) (lit "_pydev_stop_at_break"))) locals)).
Proof.
  intros H1 H2. destruct (returned_piece limit returned H1) as (e1 & P1 & R1).
  destruct (locals_piece limit hide (filter (fun v => negb (str_eqb (fst v) (lit "_pydev_stop_at_break"))) locals)) as (e2 & P2 & R2).
  { rewrite Forall_forall in *. intros x Hx. apply filter_In in Hx. apply H2, Hx. }
  exists (Open (lit "xml") [] :: (e1 ++ e2) ++ [Close (lit "xml")]). split.
  - unfold frame_message, frame_vars. rewrite (piece_received http 114 seq _ _ (piece_xml _ _ (piece_app _ _ _ _ P1 P2))). reflexivity.
  - rewrite elements_xml by discriminate. rewrite elements_app, map_app, R1, R2. reflexivity.
Qed.
(** The same for the children of a variable; when one of them cannot be sent, there is no answer with the others. *)
Theorem xml_variable http limit seq children : Forall var_ok children ->
  if forallb (sendable limit) children
  then exists ev, received http (variable_message http limit seq children) = Some (lit "110", dec seq, ev) /\ map read_var (elements (lit "var") ev) = map (fun v => Some (shown limit false false v)) children
  else variable_message http limit seq children = None.
Proof.
  intros H. destruct (forallb _ _) eqn:S.
  - destruct (children_piece limit children H S) as (s & ev & E & P & R). exists (Open (lit "xml") [] :: ev ++ [Close (lit "xml")]). unfold variable_message. rewrite E. cbn [bind]. split.
    + rewrite (piece_received http 110 seq _ _ (piece_xml _ _ P)). reflexivity.
    + rewrite elements_xml by discriminate. auto.
  - unfold variable_message. assert (E : all_vars (fun v => var_to_xml limit [] (fst v) (snd v)) children = None); [|rewrite E; reflexivity].
    clear H. induction children as [|v l IH]; [discriminate|]. cbn [forallb] in S. cbn [all_vars]. destruct (sendable limit v) eqn:Sv; [|rewrite var_raises by auto; reflexivity].
    rewrite IH by auto. destruct (var_to_xml _ _ _ _); reflexivity.
Qed.

Ltac as_ P := match goal with |- piece ?x _ => match type of P with context [piece (lit "<" ++ ?y) _] => replace x with (lit "<" ++ y) end end.

(** ** Output *)
Lemma dec_plain n : plain (dec n).
Proof.
  split; [eapply Forall_impl; [|apply dec_chars]|].
  - cbn beta. intros c Hc. split; [unfold legal; bools; auto|]. unfold blank. cbn [existsb]. bools.
  - intros c Hc. pose proof (dec_chars n) as H. rewrite Forall_forall in H. specialize (H c Hc). cbn beta in H. lia.
Qed.
Theorem xml_output http limit seq s ctx : text s ->
  exists ev l, received http (io_message http limit seq s ctx) = Some (lit "116", dec seq, ev) /\ elements (lit "io") ev = [l] /\
    unquote (attr_or (lit "s") l) = Some (if (length s <=? limit)%nat then s else firstn limit s ++ lit "...") /\ attr_or (lit "ctx") l = dec ctx.
Proof.
  intros Ht. pose proof (text_trimmed limit s Ht) as Ht'. destruct (quote_text safe_value _ Ht') as (v & Ev). pose proof (quote_printable _ _ _ Ht' safe_value_printable Ev) as Pv.
  pose proof (piece_single (lit "io") [(lit "s", v); (lit "ctx", dec ctx)] []) as P.
  exists (Open (lit "xml") [] :: [Open (lit "io") [(lit "s", v); (lit "ctx", dec ctx)]; Close (lit "io")] ++ [Close (lit "xml")]), [(lit "s", v); (lit "ctx", dec ctx)].
  assert (N : normed [(lit "s", v); (lit "ctx", dec ctx)] = [(lit "s", v); (lit "ctx", dec ctx)]).
  { unfold normed. cbn [map fst snd]. rewrite (printable_norm v), (printable_norm (dec ctx)) by (auto; apply dec_plain). auto. }
  rewrite N in P. split; [|split; [reflexivity|split; [|reflexivity]]].
  - unfold io_message, escaped_quote. rewrite Ev. cbn [option_map bind].
    match goal with |- context [wire http 116 seq ?x] => rewrite (piece_received http 116 seq x (Open (lit "xml") [] :: [Open (lit "io") [(lit "s", v); (lit "ctx", dec ctx)]; Close (lit "io")] ++ [Close (lit "xml")])); [reflexivity|] end.
    apply piece_xml. as_ P.
    + apply P; [word_| |repeat constructor; cbn; intuition discriminate|auto].
      repeat constructor; cbn [fst snd]; try discriminate; try reflexivity; apply printable_legal; auto; apply dec_plain.
    + unfold attrs. cbn [flat_map fst snd]. rewrite (plain_escape (dec ctx)) by apply dec_plain. unfold at_. rewrite <- !app_assoc. reflexivity.
  - rewrite <- trimmed_eq. apply (unquote_quote safe_value); auto using safe_value_ascii, safe_value_percent.
Qed.

(** ** Texts in which tabs are kept *)
(** A tab in an attribute is read as a blank. *)
Definition blanks (s : str) : str := map (fun c => if (c =? 9)%N then 32%N else c) s.
Lemma blanks_text s : text s -> text (blanks s).
Proof. intros H. induction H as [|c s Hc H IH]; constructor; auto. destruct (c =? 9)%N; [left; reflexivity|auto]. Qed.
Lemma blanks_id s : ~ In 9%N s -> blanks s = s.
Proof. induction s as [|c s IH]; auto. intros H. cbn [blanks map]. fold (blanks s). rewrite IH by (intros X; apply H; right; auto). destruct (N.eqb_spec c 9); auto. subst. exfalso. apply H. left. auto. Qed.
Lemma encode_blanks s : forall b, text s -> encode s = Some b -> encode (blanks s) = Some (blanks b).
Proof.
  induction s as [|c s IH]; intros b H; cbn [encode]; [intros X; injection X as <-; reflexivity|]. inversion H; subst. cbn [blanks map]. fold (blanks s). cbn [encode].
  destruct (encode_char c) as [a|] eqn:E; [|discriminate]. destruct (encode s) as [b'|] eqn:E'; [|discriminate]. intros X; injection X as <-. rewrite (IH b') by auto.
  unfold blanks at 2. rewrite map_app. fold (blanks a). fold (blanks b').
  assert (A : encode_char (if (c =? 9)%N then 32%N else c) = Some (blanks a)); [|rewrite A; auto].
  revert E. destruct (N.eqb_spec c 9); [subst; intros E; vm_compute in E; injection E as <-; reflexivity|]. intros E. rewrite E. f_equal. symmetry. apply blanks_id.
  revert E. unfold encode_char. parts c. destruct (N.ltb_spec c 128); [intros E; apply Some_inj in E; subst a; cbn; intuition|].
  assert (K : forall x, (128 <= x)%N -> 9%N <> x) by (intros; lia).
  destruct (N.ltb_spec c 2048); [intros E; apply Some_inj in E; subst a; cbn [In]; intros [X|[X|[]]]; symmetry in X; revert X; apply K; lia|].
  destruct ((55296 <=? c) && (c <? 57344))%N; [discriminate|]. destruct (N.ltb_spec c 65536); intros E; apply Some_inj in E; subst a; cbn [In]; intros X;
    repeat (destruct X as [X|X]; [symmetry in X; revert X; apply K; lia|]); destruct X.
Qed.
Lemma norm_printable s : Forall (fun c => blank c = true -> c = 32%N) s -> map norm s = s.
Proof. intros H. induction H as [|c s Hc H IH]; auto. cbn [map]. rewrite IH. unfold norm. destruct (blank c) eqn:E; auto. rewrite Hc; auto. Qed.
Lemma quote_byte_norm b : (b < 256)%N -> map norm (quote_byte safe_tab b) = quote_byte safe_tab (if (b =? 9)%N then 32%N else b).
Proof.
  intros H. destruct (N.eqb_spec b 9); [subst; reflexivity|]. apply norm_printable. unfold quote_byte. destruct (always_safe b || _) eqn:E.
  - constructor; [|constructor]. apply orb_true_iff in E. destruct E as [E|E]; [apply safe_printable; auto|]. apply existsb_exists in E. destruct E as (x & Hx & E). apply N.eqb_eq in E. subst x. cbv in Hx.
    repeat (destruct Hx as [<- | Hx]; [try discriminate; try congruence; auto|]). destruct Hx.
  - destruct (split16 b H) as (x & y & -> & -> & _ & H1 & H2). constructor; [discriminate|]. constructor; [apply safe_printable, hex_safe; auto|]. constructor; [apply safe_printable, hex_safe; auto|constructor].
Qed.
Lemma quote_norm s t : text s -> quote safe_tab s = Some t -> quote safe_tab (blanks s) = Some (map norm t).
Proof.
  intros Ht. unfold quote. destruct (encode s) as [b|] eqn:E; [|discriminate]. cbn [option_map]. intros X. injection X as <-. rewrite (encode_blanks s b Ht E). cbn [option_map]. f_equal.
  pose proof (encode_bytes s b Ht E) as Hb. clear E. induction Hb as [|c b Hc Hb IH]; auto. cbn [blanks map flat_map]. fold (blanks b). rewrite map_app, <- IH, quote_byte_norm by auto. auto.
Qed.
Lemma safe_tab_ascii : ascii safe_tab. Proof. chars. Qed.
Lemma safe_tab_percent : ~ In 37%N safe_tab. Proof. cbv. intuition discriminate. Qed.
Lemma quote_tab_legal s t : text s -> quote safe_tab s = Some t -> Forall (fun c => legal c = true) t.
Proof.
  intros Ht H. eapply Forall_impl; [|eapply quote_chars; eauto]. intros c [X|[X| ->]]; [apply safe_printable; auto| |reflexivity]. cbv in X. repeat (destruct X as [<- | X]; [reflexivity|]). destruct X.
Qed.
Lemma unquote_norm s t : text s -> quote safe_tab s = Some t -> unquote (map norm t) = Some (blanks s).
Proof. intros Ht H. apply (unquote_quote safe_tab); auto using blanks_text, safe_tab_ascii, safe_tab_percent. apply quote_norm; auto. Qed.

(** ** Completions *)
Definition read_comp (l : list (str * str)) : option str * option str * option str * option str :=
  (unquote (attr_or (lit "p0") l), unquote (attr_or (lit "p1") l), unquote (attr_or (lit "p2") l), unquote (attr_or (lit "p3") l)).
Definition comp_ok (c : completion) : Prop := let '(a, b, c, d) := c in text a /\ text b /\ text c /\ text d.
Definition comp_shown (c : completion) := let '(a, b, c, d) := c in (Some (blanks a), Some (blanks b), Some (blanks c), Some (blanks d)).
Lemma comp_piece c : comp_ok c -> exists s l, comp_to_xml c = Some s /\ piece s [Open (lit "comp") l; Close (lit "comp")] /\ read_comp l = comp_shown c.
Proof.
  destruct c as [[[a b] c] d]. intros (Ha & Hb & Hc & Hd).
  destruct (quote_text safe_tab a Ha) as (a' & Ea), (quote_text safe_tab b Hb) as (b' & Eb), (quote_text safe_tab c Hc) as (c' & Ec), (quote_text safe_tab d Hd) as (d' & Ed).
  set (l := [(lit "p0", a'); (lit "p1", b'); (lit "p2", c'); (lit "p3", d')]). pose proof (piece_single (lit "comp") l []) as P.
  eexists. exists (normed l). split; [unfold comp_to_xml, escaped_quote; rewrite Ea, Eb, Ec, Ed; cbn [option_map bind]; reflexivity|]. split.
  - as_ P.
    + apply P; [word_|unfold l|unfold l; repeat constructor; cbn; intuition discriminate|auto].
      repeat constructor; cbn [fst snd]; try discriminate; try reflexivity;
        first [exact (quote_tab_legal _ _ Ha Ea)|exact (quote_tab_legal _ _ Hb Eb)|exact (quote_tab_legal _ _ Hc Ec)|exact (quote_tab_legal _ _ Hd Ed)].
    + unfold l, attrs. cbn [flat_map fst snd]. unfold at_. rewrite <- !app_assoc. reflexivity.
  - unfold read_comp, comp_shown. rewrite <- (unquote_norm a a'), <- (unquote_norm b b'), <- (unquote_norm c c'), <- (unquote_norm d d') by auto. reflexivity.
Qed.
(** All completions arrive, in their order, each with its four texts; in them a tab is read as a blank. *)
Theorem xml_completions http seq l : Forall comp_ok l ->
  exists ev, received http (completions_message http seq l) = Some (lit "120", dec seq, ev) /\ map read_comp (elements (lit "comp") ev) = map comp_shown l.
Proof.
  intros H. assert (A : exists s ev, comps_to_xml l = Some s /\ piece s ev /\ map read_comp (elements (lit "comp") ev) = map comp_shown l).
  { induction H as [|c l Hc H (s & ev & E & P & R)]; [exists [], []; split; [reflexivity|split; [apply piece_nil|reflexivity]]|]. destruct (comp_piece c Hc) as (s1 & l1 & E1 & P1 & R1).
    exists (s1 ++ s), ([Open (lit "comp") l1; Close (lit "comp")] ++ ev). cbn [comps_to_xml]. rewrite E1, E. split; [reflexivity|]. split; [apply piece_app; auto|]. rewrite elements_app, map_app, R. cbn [map]. rewrite <- R1. reflexivity. }
  destruct A as (s & ev & E & P & R). exists (Open (lit "xml") [] :: ev ++ [Close (lit "xml")]). split; [|rewrite elements_xml by discriminate; auto].
  unfold completions_message. rewrite E. cbn [bind]. rewrite (piece_received http 120 seq _ _ (piece_xml _ _ P)). reflexivity.
Qed.

(** ** Threads *)
(** Texts without the characters which XML needs to escape *)
Definition unescaped (s : str) : Prop := forall c, In c s -> c <> 34%N /\ c <> 38%N /\ c <> 60%N /\ c <> 62%N.
Lemma unescaped_escape s : unescaped s -> escape s = s.
Proof.
  intros H. induction s as [|c s IH]; auto. rewrite escape_cons, IH by (intros x Hx; apply H; right; auto). destruct (H c) as (H1 & H2 & H3 & H4); [left; auto|].
  unfold esc. repeat match goal with |- context [(c =? ?x)%N] => destruct (N.eqb_spec c x); try congruence end. auto.
Qed.
Definition thread_ok (t : str * str) : Prop := text (fst t) /\ unescaped (fst t) /\ plain (snd t).
Definition read_thread (l : list (str * str)) : option str * str := (unquote (attr_or (lit "name") l), attr_or (lit "id") l).
Lemma slash_printable : printable (lit "/"). Proof. chars. Qed.
Lemma thread_piece n id : text n -> plain id -> exists s l, thread_xml n id = Some s /\ piece s [Open (lit "thread") l; Close (lit "thread")] /\ read_thread l = (Some (escape n), id).
Proof.
  intros Hn Hid. pose proof (text_escape n Hn) as He. destruct (quote_text (lit "/") _ He) as (v & Ev). pose proof (quote_printable _ _ _ He slash_printable Ev) as Pv.
  set (l := [(lit "name", v); (lit "id", id)]). pose proof (piece_single (lit "thread") l (lit " ")) as P.
  assert (N : normed l = l). { unfold normed, l. cbn [map fst snd]. rewrite (printable_norm v), (printable_norm id) by (auto; apply Hid). auto. }
  assert (Uv : escape v = v). { apply unescaped_escape. intros c Hc. pose proof (quote_chars _ _ _ He Ev) as Q. rewrite Forall_forall in Q. destruct (Q c Hc) as [X|[X| ->]]; [|cbv in X; intuition (subst; discriminate)|repeat split; discriminate].
    repeat split; intros ->; vm_compute in X; discriminate. }
  rewrite N in P. eexists. exists l. split; [unfold thread_xml; rewrite Ev; reflexivity|]. split.
  - as_ P.
    + apply P; [word_|unfold l|unfold l; repeat constructor; cbn; intuition discriminate|auto]. repeat constructor; cbn [fst snd]; try discriminate; try reflexivity; apply printable_legal; auto; apply Hid.
    + unfold l, attrs. cbn [flat_map fst snd]. rewrite Uv, (plain_escape id) by auto. unfold at_. rewrite <- !app_assoc. reflexivity.
  - unfold read_thread, l. change (attr_or (lit "name") _) with v. change (attr_or (lit "id") _) with id. rewrite (unquote_quote (lit "/") (escape n) v) by first [exact He|exact Ev|solve [cbv; intuition discriminate]|solve [chars]]. auto.
Qed.
(** A new thread and the list of threads: the names, with the escapes of XML in them, and the ids. *)
Theorem xml_threads http seq l : Forall (fun t => text (fst t) /\ plain (snd t)) l ->
  exists ev, received http (threads_message http seq l) = Some (lit "502", dec seq, ev) /\ map read_thread (elements (lit "thread") ev) = map (fun t => (Some (escape (fst t)), snd t)) l /\
    (Forall (fun t => unescaped (fst t)) l -> map read_thread (elements (lit "thread") ev) = map (fun t => (Some (fst t), snd t)) l).
Proof.
  intros H. assert (A : exists s ev, threads_xml l = Some s /\ piece s ev /\ map read_thread (elements (lit "thread") ev) = map (fun t => (Some (escape (fst t)), snd t)) l).
  { induction H as [|t l [H1 H2] H (s & ev & E & P & R)]; [exists [], []; split; [reflexivity|split; [apply piece_nil|reflexivity]]|]. destruct (thread_piece (fst t) (snd t) H1 H2) as (s1 & l1 & E1 & P1 & R1).
    exists (s1 ++ s), ([Open (lit "thread") l1; Close (lit "thread")] ++ ev). cbn [threads_xml]. rewrite E1, E. split; [reflexivity|]. split; [apply piece_app; auto|]. rewrite elements_app, map_app, R. cbn [map]. rewrite <- R1. reflexivity. }
  destruct A as (s & ev & E & P & R). exists (Open (lit "xml") [] :: ev ++ [Close (lit "xml")]). rewrite elements_xml by discriminate. split; [|split; auto].
  - unfold threads_message. rewrite E. cbn [bind]. rewrite (piece_received http 502 seq _ _ (piece_xml _ _ P)). reflexivity.
  - intros U. rewrite R. apply map_ext_in. intros t Ht. rewrite Forall_forall in U. rewrite unescaped_escape by (apply U; auto). auto.
Qed.
Theorem xml_thread http seq n id : text n -> unescaped n -> plain id ->
  exists ev, received http (thread_created http seq n id) = Some (lit "103", dec seq, ev) /\ map read_thread (elements (lit "thread") ev) = [(Some n, id)].
Proof.
  intros H1 H2 H3. destruct (thread_piece n id H1 H3) as (s & l & E & P & R). exists (Open (lit "xml") [] :: [Open (lit "thread") l; Close (lit "thread")] ++ [Close (lit "xml")]). split.
  - unfold thread_created. rewrite E. cbn [bind]. rewrite (piece_received http 103 seq _ _ (piece_xml _ _ P)). reflexivity.
  - rewrite elements_xml by discriminate. rewrite unescaped_escape in R by auto. rewrite <- R. reflexivity.
Qed.
(** The name of a frame which is shown as a thread is not percent encoded. *)
Theorem xml_custom http seq n id : printable n -> plain id ->
  exists ev l, received http (custom_created http seq n id) = Some (lit "103", dec seq, ev) /\ elements (lit "thread") ev = [l] /\ attr_or (lit "name") l = n /\ attr_or (lit "id") l = id.
Proof.
  intros H1 H2. set (l := [(lit "name", n); (lit "id", id)]). pose proof (piece_single (lit "thread") l []) as P.
  assert (N : normed l = l). { unfold normed, l. cbn [map fst snd]. rewrite (printable_norm n), (printable_norm id) by (auto; apply H2). auto. }
  rewrite N in P. exists (Open (lit "xml") [] :: [Open (lit "thread") l; Close (lit "thread")] ++ [Close (lit "xml")]), l. split; [|repeat split].
  unfold custom_created. match goal with |- context [wire http 103 seq ?x] => rewrite (piece_received http 103 seq x (Open (lit "xml") [] :: [Open (lit "thread") l; Close (lit "thread")] ++ [Close (lit "xml")])); [reflexivity|] end.
  apply piece_xml. as_ P.
  - apply P; [word_|unfold l|unfold l; repeat constructor; cbn; intuition discriminate|auto]. repeat constructor; cbn [fst snd]; try discriminate; try reflexivity; apply printable_legal; auto; apply H2.
  - unfold l, attrs. cbn [flat_map fst snd]. rewrite (plain_escape id) by auto. unfold at_. rewrite <- !app_assoc. reflexivity.
Qed.

(** ** Stacks *)
Definition sframe_ok (f : sframe) : Prop := let '(_, name, file, _) := f in printable name /\ text file.
Definition read_frame (l : list (str * str)) : str * str * option str * str := (attr_or (lit "id") l, attr_or (lit "name") l, unquote (attr_or (lit "file") l), attr_or (lit "line") l).
Definition sframe_shown (f : sframe) := let '(id, name, file, line) := f in (dec id, name, Some (blanks (escape file)), dec line).
Definition sframe_exact (f : sframe) := let '(id, name, file, line) := f in (dec id, name, Some file, dec line).
Definition file_plain (f : sframe) : Prop := let '(_, _, file, _) := f in unescaped file /\ ~ In 9%N file.
Lemma exact_shown l : Forall file_plain l -> map sframe_shown l = map sframe_exact l.
Proof. intros H. apply map_ext_in. intros f Hf. rewrite Forall_forall in H. destruct f as [[[id name] file] line]. destruct (H _ Hf) as [H1 H2]. cbn [sframe_shown sframe_exact]. rewrite unescaped_escape, blanks_id by auto. auto. Qed.
Lemma encode_in x s : (x < 128)%N -> forall b, encode s = Some b -> In x b -> In x s.
Proof.
  intros Hx. induction s as [|c s IH]; intros b; cbn [encode]; [intros X; injection X as <-; auto|].
  destruct (encode_char c) as [a|] eqn:E; [|discriminate]. destruct (encode s) as [b'|] eqn:E'; [|discriminate]. intros X; injection X as <-. intros H. apply in_app_or in H. destruct H as [H|H]; [|right; eauto].
  left. revert E H. unfold encode_char. parts c. assert (K : forall y, y = x -> (128 <= y)%N -> False) by (intros; lia).
  destruct (N.ltb_spec c 128); [intros E; apply Some_inj in E; subst a; cbn [In]; intuition|].
  destruct (N.ltb_spec c 2048); [intros E; apply Some_inj in E; subst a; cbn [In]; intros [X|[X|[]]]; exfalso; apply (K _ X); lia|].
  destruct ((55296 <=? c) && (c <? 57344))%N; [discriminate|]. destruct (N.ltb_spec c 65536); intros E; apply Some_inj in E; subst a; cbn [In]; intros X;
    repeat (destruct X as [X|X]; [exfalso; apply (K _ X); lia|]); destruct X.
Qed.
Lemma escape_in s : ~ In 62%N (escape s).
Proof.
  induction s as [|c s IH]; auto. rewrite escape_cons. intros H. apply in_app_or in H. destruct H as [H|H]; auto. revert H. unfold esc.
  repeat match goal with |- context [(c =? ?x)%N] => destruct (N.eqb_spec c x); [cbv; intuition discriminate|] end. cbn. intuition.
Qed.
Lemma quote_escape s v : text s -> quote safe_tab (escape s) = Some v -> escape v = v.
Proof.
  intros Ht Ev. pose proof (text_escape s Ht) as He. apply unescaped_escape. intros c Hc. pose proof (quote_chars _ _ _ He Ev) as Q. rewrite Forall_forall in Q.
  assert (G : c <> 62%N).
  { intros ->. apply (escape_in s). revert Ev. unfold quote. destruct (encode (escape s)) as [b|] eqn:E; [|discriminate]. cbn [option_map]. intros X. injection X as <-. apply (encode_in 62 (escape s) eq_refl b E).
    apply in_flat_map in Hc. destruct Hc as (x & Hx & Hc). unfold quote_byte in Hc. destruct (always_safe x || _); [cbn in Hc; destruct Hc as [-> |[]]; auto|].
    assert (Hb : (x < 256)%N). { pose proof (encode_bytes _ _ He E) as Hb. unfold bytes in Hb. rewrite Forall_forall in Hb. auto. }
    destruct (split16 x Hb) as (h & k & Eh & Ek & _ & H1 & H2). rewrite Eh, Ek in Hc. destruct Hc as [Hc|[Hc|[Hc|[]]]]; [discriminate| |]; exfalso.
    - assert (X := hex_safe k H1). assert (Y := hex_safe h H2). rewrite Hc in Y. vm_compute in Y. discriminate.
    - assert (X := hex_safe k H1). rewrite Hc in X. vm_compute in X. discriminate. }
  destruct (Q c Hc) as [X|[X| ->]]; [|cbv in X; repeat (destruct X as [<- | X]; [repeat split; auto; discriminate|]); destruct X|repeat split; discriminate].
  repeat split; auto; intros ->; vm_compute in X; discriminate.
Qed.
Lemma frame_piece f : sframe_ok f -> exists s l, frame_xml f = Some s /\ piece s [Open (lit "frame") l; Close (lit "frame")] /\ read_frame l = sframe_shown f.
Proof.
  destruct f as [[[id name] file] line]. intros (Hn & Hf). pose proof (text_escape file Hf) as He. destruct (quote_text safe_tab _ He) as (v & Ev).
  set (l := [(lit "id", dec id); (lit "name", name); (lit "file", v); (lit "line", dec line)]). pose proof (piece_wrap (lit "frame") l [] [] []) as P.
  assert (N : normed l = [(lit "id", dec id); (lit "name", name); (lit "file", map norm v); (lit "line", dec line)]).
  { unfold normed, l. cbn [map fst snd]. rewrite (printable_norm (dec id)), (printable_norm (dec line)), (printable_norm name) by (auto; apply dec_plain). auto. }
  pose proof (quote_escape file v Hf Ev) as Uv. rewrite N in P.
  eexists. exists [(lit "id", dec id); (lit "name", name); (lit "file", map norm v); (lit "line", dec line)]. split; [unfold frame_xml; rewrite Ev; reflexivity|]. split.
  - as_ P.
    + apply P; [word_|unfold l|unfold l; repeat constructor; cbn; intuition discriminate|auto|apply piece_nil].
      repeat constructor; cbn [fst snd]; try discriminate; try reflexivity; first [exact (quote_tab_legal _ _ He Ev)|apply printable_legal, dec_plain|apply printable_legal; exact Hn].
    + unfold l, attrs. cbn [flat_map fst snd]. rewrite Uv, !(plain_escape (dec _)) by apply dec_plain. unfold at_. rewrite <- !app_assoc. reflexivity.
  - unfold read_frame, sframe_shown. rewrite <- (unquote_norm (escape file) v) by auto. reflexivity.
Qed.
Lemma stack_piece l : Forall sframe_ok l -> exists ev, piece (stack_xml l) ev /\ map read_frame (elements (lit "frame") ev) = map sframe_shown l /\ elements (lit "thread") ev = [].
Proof.
  intros H. induction H as [|f l Hf H (ev & P & R & T)]; [exists []; split; [apply piece_nil|split; reflexivity]|]. destruct (frame_piece f Hf) as (s & a & E1 & P1 & R1).
  exists ([Open (lit "frame") a; Close (lit "frame")] ++ ev). cbn [stack_xml]. destruct f as [[[id name] file] line]. rewrite E1. split; [apply piece_app; auto|]. rewrite !elements_app, map_app, R, T. cbn [map]. rewrite <- R1. split; reflexivity.
Qed.
(** The stack of a thread: all frames, in their order, with their ids, names, files and lines. *)
Theorem xml_stack http seq id l : plain id -> Forall sframe_ok l ->
  exists ev, received http (stack_message http seq id l) = Some (lit "152", dec seq, ev) /\ elements (lit "thread") ev = [[(lit "id", id)]] /\
    map read_frame (elements (lit "frame") ev) = map sframe_shown l /\
    (Forall file_plain l -> map read_frame (elements (lit "frame") ev) = map sframe_exact l).
Proof.
  intros Hid Hl. destruct (stack_piece l Hl) as (ev & P & R & T). pose proof (piece_wrap (lit "thread") [(lit "id", id)] [] (stack_xml l) ev) as W.
  assert (N : normed [(lit "id", id)] = [(lit "id", id)]) by (unfold normed; cbn [map fst snd]; rewrite printable_norm by apply Hid; auto). rewrite N in W.
  exists (Open (lit "xml") [] :: (Open (lit "thread") [(lit "id", id)] :: ev ++ [Close (lit "thread")]) ++ [Close (lit "xml")]). rewrite !elements_xml by discriminate.
  change (Open (lit "thread") [(lit "id", id)] :: ev ++ [Close (lit "thread")]) with ([Open (lit "thread") [(lit "id", id)]] ++ ev ++ [Close (lit "thread")]). rewrite !elements_app, T. split; [|split; [reflexivity|]].
  - unfold stack_message. match goal with |- context [wire http 152 seq ?x] => assert (A : piece x (Open (lit "xml") [] :: (Open (lit "thread") [(lit "id", id)] :: ev ++ [Close (lit "thread")]) ++ [Close (lit "xml")])) end; [|rewrite (piece_received _ _ _ _ _ A); reflexivity].
    apply piece_xml. as_ W; [apply W; [word_| | |auto|exact P]|].
    + repeat constructor; cbn [fst snd]; try discriminate; try reflexivity; apply printable_legal, Hid.
    + repeat constructor; cbn; intuition.
    + unfold attrs. cbn [flat_map fst snd]. rewrite (plain_escape id) by auto. unfold at_. rewrite <- !app_assoc. reflexivity.
  - assert (A : map read_frame (elements (lit "frame") [Open (lit "thread") [(lit "id", id)]] ++ elements (lit "frame") ev ++ elements (lit "frame") [Close (lit "thread")]) = map sframe_shown l).
    { rewrite <- R. change (elements (lit "frame") [Open (lit "thread") [(lit "id", id)]]) with (@nil (list (str * str))). change (elements (lit "frame") [Close (lit "thread")]) with (@nil (list (str * str))). cbn [app]. rewrite app_nil_r. auto. }
    split; auto. intros F. rewrite A. apply exact_shown. auto.
Qed.

(** ** A suspended thread *)
Definition told (message : option str) : list (str * str) := match message with None => [] | Some m => [(lit "message", m)] end.
Definition thread_attrs id reason message : list (str * str) := [(lit "id", id); (lit "stop_reason", dec reason)] ++ told message ++ [(lit "suspend_type", lit "trace")].
Lemma suspend_piece id reason message l : plain id -> match message with Some m => Forall (fun c => legal c = true) m | None => True end -> Forall sframe_ok l ->
  exists ev, piece (suspend_xml id reason message l) ev /\ elements (lit "thread") ev = [thread_attrs id reason (option_map (map norm) message)] /\ map read_frame (elements (lit "frame") ev) = map sframe_shown l.
Proof.
  intros Hid Hm Hl. destruct (stack_piece l Hl) as (ev & P & R & T). set (a := thread_attrs id reason message). set (b := thread_attrs id reason (option_map (map norm) message)).
  pose proof (piece_wrap (lit "thread") a [] (stack_xml l) ev) as W.
  assert (N : normed a = b). { unfold normed, a, b, thread_attrs, told. destruct message; cbn [map fst snd app option_map]; rewrite (printable_norm id), (printable_norm (dec reason)) by (first [apply Hid|apply dec_plain]); auto. }
  rewrite N in W. exists (Open (lit "xml") [] :: (Open (lit "thread") b :: ev ++ [Close (lit "thread")]) ++ [Close (lit "xml")]). rewrite !elements_xml by discriminate.
  change (Open (lit "thread") b :: ev ++ [Close (lit "thread")]) with ([Open (lit "thread") b] ++ ev ++ [Close (lit "thread")]). rewrite !elements_app, T. split; [|split; [reflexivity|]].
  - apply piece_xml. cbn [app]. as_ W; [apply W; [word_| | |auto|exact P]|].
    + unfold a, thread_attrs, told. destruct message as [m|]; repeat constructor; cbn [fst snd]; try discriminate; try reflexivity; first [exact Hm|apply printable_legal, Hid|apply printable_legal, dec_plain].
    + unfold a, thread_attrs, told. destruct message; repeat constructor; cbn; intuition discriminate.
    + unfold a, thread_attrs, told, attrs. destruct message; cbn [flat_map fst snd app]; rewrite (plain_escape id), (plain_escape (dec reason)) by (auto; apply dec_plain); unfold at_; rewrite <- !app_assoc; reflexivity.
  - rewrite <- R. change (elements (lit "frame") [Open (lit "thread") b]) with (@nil (list (str * str))). change (elements (lit "frame") [Close (lit "thread")]) with (@nil (list (str * str))). cbn [app]. rewrite app_nil_r. auto.
Qed.
(** A thread which stopped: why, the message (in which the end of a line is read as a blank) and the stack. *)
Theorem xml_suspend http seq id reason message l : plain id -> match message with Some m => Forall (fun c => legal c = true) m | None => True end -> Forall sframe_ok l ->
  exists ev a, received http (suspend_message http seq id reason message l) = Some (lit "105", dec seq, ev) /\ elements (lit "thread") ev = [a] /\
    attr_or (lit "id") a = id /\ attr_or (lit "stop_reason") a = dec reason /\ find_attr (lit "message") a = option_map (map norm) message /\
    map read_frame (elements (lit "frame") ev) = map sframe_shown l /\ (Forall file_plain l -> map read_frame (elements (lit "frame") ev) = map sframe_exact l).
Proof.
  intros Hid Hm Hl. destruct (suspend_piece id reason message l Hid Hm Hl) as (ev & P & T & R). exists ev. eexists. split; [|split; [exact T|]].
  - unfold suspend_message. rewrite (piece_received _ _ _ _ _ P). reflexivity.
  - split; [reflexivity|]. split; [reflexivity|]. split; [destruct message; reflexivity|]. split; auto. intros F. rewrite R. apply exact_shown. auto.
Qed.

(** ** Exceptions *)
(** Text with the entities of XML *)
Fixpoint unescape (s : str) : str :=
  match s with
  | 38 :: 97 :: 109 :: 112 :: 59 :: r => 38 :: unescape r
  | 38 :: 108 :: 116 :: 59 :: r => 60 :: unescape r
  | 38 :: 103 :: 116 :: 59 :: r => 62 :: unescape r
  | 38 :: 113 :: 117 :: 111 :: 116 :: 59 :: r => 34 :: unescape r
  | c :: r => c :: unescape r
  | [] => []
  end%N.
Definition tabs (s : str) : str := flat_map (fun c => if (c =? 9)%N then [32; 32]%N else [c]) s.
Definition or_else (default s : str) : str := match s with [] => default | _ => s end.
Lemma unescape_other c r : c <> 38%N -> unescape (c :: r) = c :: unescape r.
Proof.
  intros H. destruct c as [|p]; [reflexivity|]. cbn [unescape]. repeat (destruct p as [p|p|]; try reflexivity). exfalso. apply H. reflexivity.
Qed.
Lemma unescape_esc c r : unescape (esc c ++ r) = c :: unescape r.
Proof.
  unfold esc. destruct (N.eqb_spec c 38); [subst; reflexivity|]. destruct (N.eqb_spec c 60); [subst; reflexivity|]. destruct (N.eqb_spec c 62); [subst; reflexivity|]. destruct (N.eqb_spec c 34); [subst; reflexivity|].
  cbn [app]. apply unescape_other. auto.
Qed.
Lemma replace_tabs s : replace 9 (lit "  ") s = tabs s.
Proof. unfold replace, tabs. apply flat_map_ext. reflexivity. Qed.
Lemma tabs_app a b : tabs (a ++ b) = tabs a ++ tabs b.
Proof. apply flat_map_app. Qed.
Lemma tabs_esc s : tabs (escape s) = escape (tabs s).
Proof.
  induction s as [|c s IH]; auto. rewrite escape_cons, tabs_app, IH. change (tabs (c :: s)) with ((if (c =? 9)%N then [32; 32]%N else [c]) ++ tabs s). rewrite escape_app. f_equal.
  destruct (N.eqb_spec c 9); [subst; reflexivity|]. rewrite escape_char. unfold esc. repeat match goal with |- context [if (c =? ?x)%N then _ else _] => destruct (c =? x)%N eqn:?; [reflexivity|] end.
  unfold tabs. cbn [flat_map]. apply N.eqb_neq in n. rewrite n. auto.
Qed.
Lemma unescape_escape s : unescape (escape s) = s.
Proof. induction s as [|c s IH]; auto. rewrite escape_cons, unescape_esc, IH. auto. Qed.
Lemma escape_nil s : escape s = [] -> s = [].
Proof. destruct s as [|c s]; auto. rewrite escape_cons. unfold esc. repeat match goal with |- context [if (c =? ?x)%N then _ else _] => destruct (c =? x)%N; [discriminate|] end. discriminate. Qed.
Lemma described_eq d s : described d s = or_else d (escape (tabs s)).
Proof. unfold described. rewrite replace_tabs, tabs_esc. destruct (escape (tabs s)); reflexivity. Qed.
Lemma described_read d s : escape d = d -> unescape (described d s) = or_else d (tabs s).
Proof.
  intros H. rewrite described_eq. destruct (escape (tabs s)) as [|c r] eqn:E; cbn [or_else].
  - apply escape_nil in E. rewrite E. cbn [or_else]. rewrite <- H at 1. apply unescape_escape.
  - rewrite <- E, unescape_escape. destruct (tabs s); [discriminate|reflexivity].
Qed.
Lemma text_tabs s : text s -> text (tabs s).
Proof. intros H. induction H as [|c s Hc H IH]; [constructor|]. change (tabs (c :: s)) with ((if (c =? 9)%N then [32; 32]%N else [c]) ++ tabs s). apply text_app. split; auto. destruct (c =? 9)%N; [chars|constructor; [exact Hc|constructor]]. Qed.
Lemma described_text d s : text d -> text s -> text (described d s).
Proof. intros H1 H2. rewrite described_eq. unfold or_else. destruct (escape (tabs s)) eqn:E; auto. rewrite <- E. apply text_escape, text_tabs. auto. Qed.
Lemma tabs_in s : ~ In 9%N (tabs s).
Proof. unfold tabs. rewrite in_flat_map. intros (x & _ & H). destruct (N.eqb_spec x 9); cbn in H; intuition congruence. Qed.
Lemma described_in d s : ~ In 9%N d -> ~ In 9%N (described d s).
Proof. intros H. unfold described. rewrite replace_tabs. pose proof (tabs_in (escape s)). destruct (tabs (escape s)); auto. Qed.
Lemma split_tab_in a b : ~ In 9%N a -> split1 9 (a ++ 9%N :: b) = Some (a, b).
Proof. induction a as [|c a IH]; [reflexivity|]. intros H. cbn [app split1]. destruct (N.eqb_spec c 9); [subst; exfalso; apply H; left; auto|]. rewrite IH by (intros X; apply H; right; auto). auto. Qed.
(** The four fields of the message *)
Definition read_exception (t : str) : option (str * str * str * list event) :=
  bind (split1 9 t) (fun p => bind (split1 9 (snd p)) (fun p' => bind (split1 9 (snd p')) (fun p'' =>
  option_map (fun e => (fst p, unescape (fst p'), unescape (fst p''), e)) (parse (snd p''))))).
(** The message on an exception: the frame, the type and the description (in which a tab is two blanks) and the stack. *)
Theorem xml_exception http seq frame id etype desc l : plain id -> text etype -> text desc -> Forall sframe_ok l ->
  exists b t ev a, exception_message http seq frame id etype desc l = Some b /\ read http b = Some (lit "138", dec seq, t) /\
    read_exception t = Some (dec frame, or_else (lit "exception: type unknown") (tabs etype), or_else (lit "exception: no description") (tabs desc), ev) /\
    elements (lit "thread") ev = [a] /\ attr_or (lit "id") a = id /\ map read_frame (elements (lit "frame") ev) = map sframe_shown l.
Proof.
  intros Hid He Hd Hl. destruct (suspend_piece id 138 (Some []) l Hid (Forall_nil _) Hl) as (ev & P & T & R). unfold exception_message.
  match goal with |- context [wire http 138 seq ?x] => set (t := x) end.
  destruct (read_wire http 138 seq t) as (b & E1 & E2). { unfold t. rewrite !text_app. repeat split; try apply dec_text; try (apply described_text; auto); try apply P; chars. }
  exists b, t, ev. eexists. split; [exact E1|]. split; [exact E2|]. split; [|split; [exact T|split; [reflexivity|exact R]]].
  unfold read_exception, t. cbn [app]. rewrite split_tab by apply dec_chars. cbn [bind fst snd]. rewrite split_tab_in by (apply described_in; cbv; intuition discriminate). cbn [bind fst snd].
  rewrite split_tab_in by (apply described_in; cbv; intuition discriminate). cbn [bind fst snd]. rewrite (piece_parse _ _ P). cbn [option_map]. rewrite !described_read by reflexivity. reflexivity.
Qed.
(** The answer with the exception a thread is stopped at. *)
Theorem xml_details http seq id etype desc l : plain id -> Forall (fun c => legal c = true) etype -> Forall (fun c => legal c = true) desc -> Forall sframe_ok l ->
  exists ev a, received http (details_message http seq id true (Some (etype, desc, l))) = Some (lit "155", dec seq, ev) /\ elements (lit "thread") ev = [a] /\
    attr_or (lit "id") a = id /\ attr_or (lit "exc_type") a = map norm (or_else (lit "exception: type unknown") (tabs etype)) /\
    attr_or (lit "exc_desc") a = map norm (or_else (lit "exception: no description") (tabs desc)) /\ map read_frame (elements (lit "frame") ev) = map sframe_shown l.
Proof.
  intros Hid He Hd Hl. destruct (stack_piece l Hl) as (ev & P & R & T). set (t := or_else (lit "exception: type unknown") (tabs etype)). set (d := or_else (lit "exception: no description") (tabs desc)).
  assert (Et : described (lit "exception: type unknown") etype = escape t). { rewrite described_eq. unfold t, or_else. destruct (tabs etype) eqn:E; [reflexivity|]. destruct (escape (n :: s)) eqn:X; auto. apply escape_nil in X. discriminate. }
  assert (Ed : described (lit "exception: no description") desc = escape d). { rewrite described_eq. unfold d, or_else. destruct (tabs desc) eqn:E; [reflexivity|]. destruct (escape (n :: s)) eqn:X; auto. apply escape_nil in X. discriminate. }
  assert (K : forall s, Forall (fun c => legal c = true) s -> Forall (fun c => legal c = true) (tabs s)).
  { intros s H. induction H as [|c s Hc H IH]; [constructor|]. change (tabs (c :: s)) with ((if (c =? 9)%N then [32; 32]%N else [c]) ++ tabs s). apply Forall_app. split; auto. destruct (c =? 9)%N; repeat constructor; auto. }
  assert (Lt : Forall (fun c => legal c = true) t). { unfold t, or_else. pose proof (K _ He). destruct (tabs etype); auto. chars. }
  assert (Ld : Forall (fun c => legal c = true) d). { unfold d, or_else. pose proof (K _ Hd). destruct (tabs desc); auto. chars. }
  set (a := [(lit "id", id); (lit "exc_type", t); (lit "exc_desc", d)]). pose proof (piece_wrap (lit "thread") a (lit " ") (stack_xml l) ev) as W.
  assert (N : normed a = [(lit "id", id); (lit "exc_type", map norm t); (lit "exc_desc", map norm d)]) by (unfold normed, a; cbn [map fst snd]; rewrite (printable_norm id) by apply Hid; auto). rewrite N in W.
  set (b := [(lit "id", id); (lit "exc_type", map norm t); (lit "exc_desc", map norm d)]) in *.
  exists (Open (lit "xml") [] :: (Open (lit "thread") b :: ev ++ [Close (lit "thread")]) ++ [Close (lit "xml")]), b. rewrite !elements_xml by discriminate.
  change (Open (lit "thread") b :: ev ++ [Close (lit "thread")]) with ([Open (lit "thread") b] ++ ev ++ [Close (lit "thread")]). rewrite !elements_app, T. split; [|split; [reflexivity|split; [reflexivity|split; [reflexivity|split; [reflexivity|]]]]].
  - unfold details_message. rewrite Et, Ed.
    match goal with |- context [wire http 155 seq ?x] => assert (A : piece x (Open (lit "xml") [] :: (Open (lit "thread") b :: ev ++ [Close (lit "thread")]) ++ [Close (lit "xml")])) end; [|rewrite (piece_received _ _ _ _ _ A); reflexivity].
    match goal with |- piece ?x _ => replace x with (xml (lit "<" ++ lit "thread" ++ attrs a ++ lit " " ++ lit ">" ++ stack_xml l ++ lit "</" ++ lit "thread" ++ lit ">")) end.
    + apply piece_xml. apply W; [word_| | |auto|exact P]; unfold a.
      * repeat constructor; cbn [fst snd]; try discriminate; try reflexivity; first [exact Lt|exact Ld|apply printable_legal, Hid].
      * repeat constructor; cbn; intuition discriminate.
    + unfold xml, a, attrs. cbn [flat_map fst snd]. rewrite (plain_escape id) by auto. unfold at_. rewrite <- !app_assoc. reflexivity.
  - rewrite <- R. change (elements (lit "frame") [Open (lit "thread") b]) with (@nil (list (str * str))). change (elements (lit "frame") [Close (lit "thread")]) with (@nil (list (str * str))). cbn [app]. rewrite app_nil_r. auto.
Qed.

(** ** What is not received as it was *)
(** When the thread is not suspended the answer is not well-formed, whatever its id. *)
Theorem xml_details_refuted http seq id exc : plain id ->
  exists b t, details_message http seq id false exc = Some b /\ read http b = Some (lit "155", dec seq, t) /\ parse t = None.
Proof.
  intros Hid. unfold details_message. match goal with |- context [wire http 155 seq ?x] => set (t := x) end.
  destruct (read_wire http 155 seq t) as (b & E1 & E2). { unfold t. rewrite !text_app. split; [chars|]. split; [apply text_at; [chars|apply printable_text, Hid]|]. split; [chars|]. split; [constructor|chars]. }
  exists b, t. split; [exact E1|]. split; [exact E2|]. unfold parse, t.
  destruct (reads_start (lit "thread") [(lit "id", id)] [lit "xml"] [Open (lit "xml") []]) as (r & E & Hr); [word_|repeat constructor; cbn [fst snd]; try discriminate; try reflexivity; apply printable_legal, Hid|repeat constructor; cbn; intuition|].
  replace (lit "<xml><thread " ++ at_ (lit "id") id ++ lit " " ++ [] ++ lit "</thread></xml>") with (lit "<xml>" ++ (lit "<" ++ lit "thread" ++ attrs [(lit "id", id)]) ++ lit " </thread></xml>").
  - rewrite reads_app. replace (reads (lit "<xml>") (Reader Out [] [])) with (Some (Reader Out [lit "xml"] [Open (lit "xml") []])) by reflexivity. cbn [bind]. rewrite reads_app, E. cbn [bind].
    change (lit " </thread></xml>") with (32%N :: lit "</thread></xml>"). cbn [reads]. rewrite (ready_blank _ _ _ _ _ Hr). cbn [bind]. reflexivity.
  - unfold attrs. cbn [flat_map fst snd]. rewrite (plain_escape id) by auto. unfold at_. rewrite <- !app_assoc. reflexivity.
Qed.
Definition odd : str * details := (lit "x", Details (lit "str") (lit "builtins") (lit "a" ++ [56576%N]) false false []).
Definition even : str * details := (lit "y", Details (lit "int") (lit "builtins") (lit "int: 3") false false []).
(** A variable with a surrogate in its value is missing in the frame, and the other children of its container are not received. *)
Theorem xml_surrogate_refuted : exists v w, var_ok v /\ var_ok w /\
  (exists ev, received false (frame_message false 1000 1 (fun _ => false) [] [v; w]) = Some (lit "114", lit "1", ev) /\ length (elements (lit "var") ev) = 1) /\
  variable_message false 1000 1 [v; w] = None.
Proof.
  exists odd, even. split; [|split; [|split; [eexists; split; vm_compute; reflexivity|vm_compute; reflexivity]]]; (split; [chars|]; split; [chars|]; split; [chars|]; split; [chars|]; split; [chars|intros c []]).
Qed.
(** The name of a thread with an ampersand, and the name of a frame which is shown as a thread with a percent sign. *)
Theorem xml_thread_refuted : exists n ev, printable n /\ received true (thread_created true 1 n (lit "t")) = Some (lit "103", lit "1", ev) /\ map (fun l => unquote (attr_or (lit "name") l)) (elements (lit "thread") ev) <> [Some n].
Proof. exists (lit "R&D"). eexists. split; [chars|]. split; [vm_compute; reflexivity|vm_compute; discriminate]. Qed.
Theorem xml_thread_ambiguous_refuted : exists n n' x, n <> n' /\ printable n /\ printable n' /\ received true (thread_created true 1 n (lit "t")) = Some x /\ received true (custom_created true 1 n' (lit "t")) = Some x.
Proof. exists (lit "a b"), (lit "a%20b"). eexists. split; [discriminate|]. split; [chars|]. split; [chars|]. split; vm_compute; reflexivity. Qed.
(** The file of a frame in a directory with an ampersand. *)
Theorem xml_file_refuted : exists f ev, sframe_ok f /\ received true (stack_message true 1 (lit "t") [f]) = Some (lit "152", lit "1", ev) /\ map read_frame (elements (lit "frame") ev) <> [sframe_exact f].
Proof. exists (1%N, lit "f", lit "/R&D/a.py", 3%N). eexists. split; [split; chars|]. split; [vm_compute; reflexivity|vm_compute; discriminate]. Qed.
(** A file whose name was not decoded, an exception caused by one whose text has a control character: the message cannot be read. *)
Theorem xml_undecoded_refuted : exists f b t, chars_ok (snd (fst f)) /\ stack_message true 1 (lit "t") [f] = Some b /\ read true b = Some (lit "152", lit "1", t) /\ parse t = None.
Proof. exists (1%N, lit "f", lit "/a" ++ [56575%N] ++ lit ".py", 3%N). do 2 eexists. split; [chars|]. split; [vm_compute; reflexivity|]. split; vm_compute; reflexivity. Qed.
Theorem xml_chained_refuted : exists desc b t, text desc /\
  stack_message true 1 (lit "t") [(1%N, chained_name desc (lit "f"), lit "a.py", 3%N)] = Some b /\ read true b = Some (lit "152", lit "1", t) /\ parse t = None.
Proof. exists [27; 91; 109]%N. do 2 eexists. split; [chars|]. split; [vm_compute; reflexivity|]. split; vm_compute; reflexivity. Qed.
(** A tab in the description of a completion, the end of a line in the message with which a thread stopped. *)
Theorem xml_tab_refuted : exists d ev, text d /\ received true (completions_message true 1 [(lit "f", d, lit "(a)", lit "2")]) = Some (lit "120", lit "1", ev) /\
  map (fun l => unquote (attr_or (lit "p1") l)) (elements (lit "comp") ev) <> [Some d].
Proof. exists (lit "a" ++ [9%N] ++ lit "b"). eexists. split; [chars|]. split; [vm_compute; reflexivity|vm_compute; discriminate]. Qed.
Theorem xml_message_refuted : exists m ev, text m /\ received true (suspend_message true 1 (lit "t") 111 (Some m) []) = Some (lit "105", lit "1", ev) /\
  map (find_attr (lit "message")) (elements (lit "thread") ev) <> [Some m].
Proof. exists (lit "a" ++ [10%N] ++ lit "b"). eexists. split; [chars|]. split; [vm_compute; reflexivity|vm_compute; discriminate]. Qed.

(** * Examples *)
(** A name with a percent sign, a value with all that XML escapes, an accented letter and an emoji. *)
Definition ex_value : str := lit "<a href=" ++ q ++ lit "x&y" ++ q ++ lit "> 100%" ++ [233; 128512; 10; 9]%N.
Definition ex_var : str * details := (lit "d['%41']", Details (lit "str") (lit "builtins") ex_value false true (lit "special")).
Example ex_var_ok : var_ok ex_var /\ sendable 1000 ex_var = true /\ var_ok odd /\ sendable 1000 odd = false /\ sendable 1 odd = true.
Proof.
  split; [|split; [reflexivity|split; [|split; reflexivity]]]; (split; [chars|]; split; [chars|]; split; [chars|]; split; [chars|]; split; [chars|intros c Hc; cbv in Hc; repeat (destruct Hc as [<- | Hc]; [repeat split; discriminate|]); destruct Hc]).
Qed.
Example ex_frame : option_map (fun x => map read_var (elements (lit "var") (snd x))) (received false (frame_message false 1000 5 (fun n => str_eqb n (lit "y")) [even] [ex_var; odd; even])) =
  Some [Some (Seen (lit "y") (lit "int") (lit "builtins") (lit "int: 3") [] false false true false);
        Some (Seen (lit "d['%41']") (lit "str") (lit "builtins") ex_value (lit "special") false true false false);
        Some (Seen (lit "y") (lit "int") (lit "builtins") (lit "int: 3") [] false false false true)].
Proof. vm_compute. reflexivity. Qed.
Example ex_frame_bytes : frame_message false 4 5 (fun _ => false) [] [(lit "x", Details (lit "str") [] ([233%N] ++ lit "<bcd") false false [])] =
  Some (lit "114" ++ [9%N] ++ lit "5" ++ [9%N] ++ lit "<xml><var name=" ++ q ++ lit "x" ++ q ++ lit " type=" ++ q ++ lit "str" ++ q ++ lit "  value=" ++ q ++ lit "%25C3%25A9%253Cbc..." ++ q ++ lit " />%0A</xml>" ++ [10%N]).
Proof. vm_compute. reflexivity. Qed.
Example ex_output : io_message true 3 2 (lit "ab" ++ [10%N] ++ lit "cd") 2 = Some (lit "116" ++ [9%N] ++ lit "2" ++ [9%N] ++ lit "<xml><io s=" ++ q ++ lit "ab%0A..." ++ q ++ lit " ctx=" ++ q ++ lit "2" ++ q ++ lit "/></xml>").
Proof. vm_compute. reflexivity. Qed.
Example ex_stack : option_map (fun x => map read_frame (elements (lit "frame") (snd x))) (received false (suspend_message false 3 (lit "pid_1_id_2") 111 (Some (lit "a<b")) [(7%N, lit "<module>", lit "/tmp/a b.py", 12%N); (8%N, lit "f", lit "b.py", 0%N)])) =
  Some [(lit "7", lit "<module>", Some (lit "/tmp/a b.py"), lit "12"); (lit "8", lit "f", Some (lit "b.py"), lit "0")].
Proof. vm_compute. reflexivity. Qed.
Example ex_stack_ok : plain (lit "pid_1_id_2") /\ Forall sframe_ok [(7%N, lit "<module>", lit "/tmp/a b.py", 12%N)] /\ Forall file_plain [(7%N, lit "<module>", lit "/tmp/a b.py", 12%N)].
Proof.
  split; [split; [chars|intros c Hc; cbv in Hc; repeat (destruct Hc as [<- | Hc]; [repeat split; discriminate|]); destruct Hc]|]. split; (constructor; [|constructor]); [split; chars|split];
    [intros c Hc; cbv in Hc; repeat (destruct Hc as [<- | Hc]; [repeat split; discriminate|]); destruct Hc|cbv; intuition discriminate].
Qed.
Example ex_exception : bind (exception_message true 4 9 (lit "t") (lit "<class 'E'>") [] []) (fun b => bind (read true b) (fun p => option_map fst (read_exception (snd p)))) =
  Some (lit "9", lit "<class 'E'>", lit "exception: no description").
Proof. vm_compute. reflexivity. Qed.
Example ex_details : option_map (fun x => elements (lit "thread") (snd x)) (received true (details_message true 4 (lit "t") true (Some (lit "E", lit "a" ++ [9%N] ++ lit "<b>", [])))) =
  Some [[(lit "id", lit "t"); (lit "exc_type", lit "E"); (lit "exc_desc", lit "a  <b>")]].
Proof. vm_compute. reflexivity. Qed.
Example ex_threads : option_map (fun x => map read_thread (elements (lit "thread") (snd x))) (received false (threads_message false 4 [(lit "Main/1 +%", lit "a_1"); (lit "x", lit "b")])) =
  Some [(Some (lit "Main/1 +%"), lit "a_1"); (Some (lit "x"), lit "b")].
Proof. vm_compute. reflexivity. Qed.

Print Assumptions xml_frame.
Print Assumptions xml_variable.
Print Assumptions xml_output.
Print Assumptions xml_completions.
Print Assumptions xml_threads.
Print Assumptions xml_thread.
Print Assumptions xml_custom.
Print Assumptions xml_stack.
Print Assumptions xml_suspend.
Print Assumptions xml_exception.
Print Assumptions xml_details.
Print Assumptions xml_details_refuted.
Print Assumptions xml_surrogate_refuted.
Print Assumptions xml_thread_refuted.
Print Assumptions xml_thread_ambiguous_refuted.
Print Assumptions xml_file_refuted.
Print Assumptions xml_undecoded_refuted.
Print Assumptions xml_chained_refuted.
Print Assumptions xml_tab_refuted.
Print Assumptions xml_message_refuted.
