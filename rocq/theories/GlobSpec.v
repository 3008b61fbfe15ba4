(** Specification of path patterns. *)
From Coq Require Import List NArith ZArith Bool String.
From Verif Require Import Base Glob.
Import ListNotations.

(** One component without bracket expressions: * is any run of characters, ? any character, everything else
    itself. *)
Inductive Wild : str -> str -> Prop :=
| w_nil : Wild [] []
| w_star x p s : Wild p s -> Wild (star_c :: p) (x ++ s)
| w_quest c p s : Wild p s -> Wild (quest_c :: p) (c :: s)
| w_char c p s : c <> star_c -> c <> quest_c -> Wild p s -> Wild (c :: p) (c :: s).

Definition Comp (P : plat) (p x : str) : Prop :=
  (~ In brack_c (nc P p) /\ Wild (nc P p) (nc P x)) \/
  (In brack_c (nc P p) /\ bracket P (nc P x) (nc P p) = true).

(** A pattern is a list of components; ** is any number of components, at least one when it comes last. *)
Inductive Matches (P : plat) : list str -> list str -> Prop :=
| m_nil : Matches P [] []
| m_last p x xs : nc P p = dstar -> Matches P [p] (x :: xs)
| m_deep p q ps xs ys : nc P p = dstar -> Matches P (q :: ps) ys -> Matches P (p :: q :: ps) (xs ++ ys)
| m_one p ps x xs : nc P p <> dstar -> Comp P p x -> Matches P ps xs -> Matches P (p :: ps) (x :: xs).

(** Texts of paths and patterns: optional drive, optional leading separator, components. *)
Fixpoint join (c : N) (l : list str) : str :=
  match l with [] => [] | [x] => x | x :: r => x ++ c :: join c r end.

Definition text (P : plat) (drive : option N) (lead : bool) (comps : list str) : str :=
  (match drive with Some d => [d; 58%N] | None => [] end) ++ (if lead then [sep P] else []) ++ join (sep P) comps.

(** The components of a text: no separator or colon inside, at least one, the first one not empty. *)
Definition comps_ok (P : plat) (l : list str) : Prop :=
  Forall (fun x => ~ In (sep P) x /\ (forall a, altsep P = Some a -> ~ In a x) /\ ~ In 58%N x) l /\
  (exists x r, l = x :: r /\ x <> []).

Definition plat_ok (P : plat) : Prop :=
  sep P <> 58%N /\ (forall a, altsep P = Some a -> a <> sep P /\ a <> 58%N).

Definition drives_agree (P : plat) (path pattern : option N) : Prop :=
  match path, pattern with
  | Some a, Some b => lower P a = lower P b
  | _, None => True
  | None, Some _ => False
  end.

Definition drive_ok (P : plat) (d : option N) : Prop :=
  forall x, d = Some x -> x <> sep P /\ forall a, altsep P = Some a -> x <> a.
