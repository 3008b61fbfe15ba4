(** Specification vocabulary for the reader (properties C01, C02, C37). *)
From Coq Require Import List NArith ZArith Bool String.
From Verif Require Import Base Reader.
Import ListNotations.

Definition nonempty_chunks (chunks : list str) := Forall (fun c => c <> []) chunks.

(** The hypothesis of chunk independence: no header line with a length below -1. *)
Definition no_negative_length (stream : str) : Prop :=
  forall pre line post n,
    stream = pre ++ line ++ 10%N :: post -> ~ In 10%N line ->
    starts_with header_name line = true -> header_value (line ++ [10%N]) = Some n -> (-1 <= n)%Z.

Definition unhex (c : N) : option N :=
  if is_digit c then Some (c - 48)%N
  else if ((65 <=? c) && (c <=? 70))%N then Some (c - 55)%N
  else None.

(** Specification of percent-decoding: what the client does with the text. *)
Fixpoint unquote (s : str) : str :=
  match s with
  | [] => []
  | c :: r =>
      if N.eqb c 37 then
        match r with
        | h :: l :: r' =>
            match unhex h, unhex l with
            | Some a, Some b => (16 * a + b)%N :: unquote r'
            | _, _ => c :: unquote r
            end
        | _ => c :: unquote r
        end
      else c :: unquote r
  end.

Definition is_byte (c : N) := (c < 256)%N.

(** Specification of the wire: what a sender may transmit. *)
Inductive msg :=
| MJson (body : str)
| MCmd (id seq : Z) (text : str).

Definition msg_ok (m : msg) : Prop :=
  match m with
  | MJson body => body <> []
  | MCmd _ _ text => Forall is_byte text
  end.

Definition wire (m : msg) : str :=
  match m with
  | MJson body => http_frame body
  | MCmd i q t => line_frame i q t
  end.

Definition event_of (m : msg) : event :=
  match m with
  | MJson body => EvJson body
  | MCmd i q t => EvCmd i q (quote net_safe t)
  end.

Definition dispatched (e : event) : Prop := match e with EvBadLine _ => False | _ => True end.
