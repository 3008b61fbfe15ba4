(** Python dictionaries as association lists in insertion order (trusted modelling convention, see
    DESIGN.md): assignment to an existing key keeps its position, a new key goes to the end. *)
From Coq Require Import List Bool Lia.
Import ListNotations.

Section Dict.
Context {K V : Type} (eqb : K -> K -> bool).

Definition dict := list (K * V).

(** d.get(k) *)
Fixpoint get (k : K) (d : dict) : option V :=
  match d with
  | [] => None
  | (k', v) :: r => if eqb k k' then Some v else get k r
  end.

(** d[k] = v *)
Fixpoint set (k : K) (v : V) (d : dict) : dict :=
  match d with
  | [] => [(k, v)]
  | (k', v') :: r => if eqb k k' then (k', v) :: r else (k', v') :: set k v r
  end.

(** d.pop(k, None) *)
Fixpoint del (k : K) (d : dict) : dict :=
  match d with
  | [] => []
  | (k', v) :: r => if eqb k k' then r else (k', v) :: del k r
  end.

(** k in d *)
Definition mem (k : K) (d : dict) : bool := match get k d with Some _ => true | None => false end.

Definition keys (d : dict) : list K := map fst d.
Definition values (d : dict) : list V := map snd d.

Hypothesis eqb_spec : forall a b, reflect (a = b) (eqb a b).

Lemma eqb_refl k : eqb k k = true.
Proof. destruct (eqb_spec k k); congruence. Qed.

Lemma get_set_same k v d : get k (set k v d) = Some v.
Proof.
  induction d as [|[k' v'] d IH]; simpl; [now rewrite eqb_refl|].
  destruct (eqb k k') eqn:E; simpl; rewrite E; auto.
Qed.

Lemma get_set_other k k' v d : k <> k' -> get k' (set k v d) = get k' d.
Proof.
  intros H. induction d as [|[k0 v0] d IH]; simpl.
  - destruct (eqb_spec k' k); congruence.
  - destruct (eqb_spec k k0); simpl.
    + subst k0. destruct (eqb_spec k' k); congruence.
    + destruct (eqb k' k0); auto.
Qed.

Lemma get_set k k' v d : get k' (set k v d) = if eqb k' k then Some v else get k' d.
Proof.
  destruct (eqb_spec k' k) as [->|n]; [apply get_set_same|apply get_set_other; congruence].
Qed.

Lemma get_In k v d : get k d = Some v -> In (k, v) d.
Proof.
  induction d as [|[k' v'] d IH]; simpl; [discriminate|].
  destruct (eqb_spec k k'); intros H; [inversion H; subst; auto|auto].
Qed.

Lemma get_None k d : get k d = None <-> ~ In k (keys d).
Proof.
  induction d as [|[k' v'] d IH]; simpl; [tauto|].
  destruct (eqb_spec k k'); split; intros H.
  - discriminate.
  - exfalso. apply H. auto.
  - intros [E|E]; [congruence|]. now apply IH in E.
  - apply IH. tauto.
Qed.

Lemma In_get k v d : NoDup (keys d) -> In (k, v) d -> get k d = Some v.
Proof.
  induction d as [|[k' v'] d IH]; simpl; [tauto|].
  intros Hn [E|E]; inversion Hn; subst.
  - inversion E; subst. now rewrite eqb_refl.
  - destruct (eqb_spec k k').
    + subst. exfalso. apply H1. apply in_map_iff. exists (k', v). auto.
    + auto.
Qed.

Lemma keys_set k v d : keys (set k v d) = if mem k d then keys d else keys d ++ [k].
Proof.
  unfold mem. induction d as [|[k' v'] d IH]; simpl; auto.
  destruct (eqb_spec k k'); simpl; auto.
  rewrite IH. destruct (get k d); auto.
Qed.

Lemma NoDup_keys_set k v d : NoDup (keys d) -> NoDup (keys (set k v d)).
Proof.
  intros H. rewrite keys_set. unfold mem. destruct (get k d) eqn:E; auto.
  apply get_None in E. clear v. induction (keys d) as [|x l IH]; simpl.
  - constructor; auto.
  - inversion H; subst. constructor.
    + rewrite in_app_iff. simpl in *. intros [Hi|[->|[]]]; tauto.
    + apply IH; auto. simpl in E. tauto.
Qed.

Lemma del_incl k d x : In x (del k d) -> In x d.
Proof.
  induction d as [|[k' v'] d IH]; simpl; auto.
  destruct (eqb k k'); simpl; intuition.
Qed.

Lemma keys_del_incl k d x : In x (keys (del k d)) -> In x (keys d).
Proof.
  unfold keys. rewrite !in_map_iff. intros ([a b] & E & H). exists (a, b). split; auto.
  eapply del_incl; eauto.
Qed.

Lemma NoDup_keys_del k d : NoDup (keys d) -> NoDup (keys (del k d)).
Proof.
  induction d as [|[k' v'] d IH]; simpl; auto.
  intros H. inversion H; subst. destruct (eqb k k'); auto.
  simpl. constructor; auto. intros Hi. apply keys_del_incl in Hi. auto.
Qed.

Lemma get_del_other k k' d : k <> k' -> get k' (del k d) = get k' d.
Proof.
  intros H. induction d as [|[k0 v0] d IH]; simpl; auto.
  destruct (eqb_spec k k0); simpl.
  - subst. destruct (eqb_spec k' k0); congruence.
  - destruct (eqb k' k0); auto.
Qed.

Lemma get_del_same k d : NoDup (keys d) -> get k (del k d) = None.
Proof.
  induction d as [|[k' v'] d IH]; simpl; auto.
  intros H. inversion H; subst. destruct (eqb_spec k k').
  - subst. now apply get_None.
  - simpl. destruct (eqb_spec k k'); [congruence|]. auto.
Qed.

Lemma get_del k k' d : NoDup (keys d) -> get k' (del k d) = if eqb k' k then None else get k' d.
Proof.
  intros H. destruct (eqb_spec k' k) as [->|n]; [now apply get_del_same|apply get_del_other; congruence].
Qed.

Lemma mem_In k d : mem k d = true <-> In k (keys d).
Proof.
  unfold mem. destruct (get k d) eqn:E.
  - split; auto. intros _. apply get_In in E. apply in_map_iff. exists (k, v). auto.
  - apply get_None in E. split; [discriminate|tauto].
Qed.

Lemma set_absent k v d : get k d = None -> set k v d = d ++ [(k, v)].
Proof.
  induction d as [|[k' v'] d IH]; simpl; auto.
  destruct (eqb k k'); [discriminate|]. intros H. now rewrite IH.
Qed.

End Dict.

Arguments dict : clear implicits.
