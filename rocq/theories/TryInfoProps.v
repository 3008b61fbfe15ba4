(** Whether an exception left the first function of a thread is told correctly from the lines of the source. *)
From Coq Require Import List ZArith Bool Arith Lia.
From Verif Require Import ExcFlow TryInfo.
Import ListNotations.
Open Scope list_scope.

(** ** Specification: how Python runs the statements *)

Inductive out := Done | Left | Exc.

(** [exec a cur b r o l]: the block [b], entered at the line [cur], is run; at the lines [r], in order,
    exceptions are raised which the tracer is told about; it ends with [o], at the line [l].  [a]: an
    exception is being handled, which raise without argument raises again, of which the tracer is not
    told.  What a statement does, what matches an except clause and which branches are taken is left open, so
    the rules give all runs.  The lines are those of CPython 3.11: when no clause matches, the exception goes on
    at the line of the last one; when a finally block is done with it, it goes on at its last line; with does
    not change the line. *)
Inductive exec_s : bool -> stmt -> list Z -> out -> Z -> Prop :=
| x_simple a n m l : (n <= l <= m)%Z -> exec_s a (Simple n m) [] Done l
| x_simple_exc a n m l : (n <= l <= m)%Z -> exec_s a (Simple n m) [l] Exc l
| x_leave a n m l : (n <= l <= m)%Z -> exec_s a (Leave n m) [] Left l
| x_leave_exc a n m l : (n <= l <= m)%Z -> exec_s a (Leave n m) [l] Exc l
| x_bare_again n : exec_s true (Bare n) [] Exc n
| x_bare_none n : exec_s false (Bare n) [n] Exc n
| x_def a n b : exec_s a (Def n b) [] Done n
| x_def_exc a n b : exec_s a (Def n b) [n] Exc n
(* if, for, while: the header, then nothing, or one of the branches and perhaps all again; a loop takes break and
   continue *)
| x_head_exc a n b c : exec_s a (Block n b c) [n] Exc n
| x_head a n b c : exec_s a (Block n b c) [] Done n
| x_branch a n b c b' r o l : b' = b \/ b' = c -> exec_b a n b' r o l -> exec_s a (Block n b c) r o l
| x_loop_end a n b c b' r l : b' = b \/ b' = c -> exec_b a n b' r Left l -> exec_s a (Block n b c) r Done l
| x_loop_again a n b c b' r o l r' o' l' : b' = b \/ b' = c -> exec_b a n b' r o l -> o <> Exc ->
    exec_s a (Block n b c) r' o' l' -> exec_s a (Block n b c) (r ++ r') o' l'
| x_with_head_exc a s n b : exec_s a (With s n b) [n] Exc n
| x_with a s n b r o l : exec_b a n b r o l -> exec_s a (With s n b) r o l
| x_with_exit a s n b r o l : exec_b a n b r o l -> o <> Exc -> exec_s a (With s n b) r o n
| x_with_exit_exc a s n b r o l : exec_b a n b r o l -> exec_s a (With s n b) (r ++ [n]) Exc n
| x_with_swallow a n b r l : exec_b a n b r Exc l -> exec_s a (With true n b) r Done n
| x_try a star n b h o r u l : exec_t a n b h o r u l -> exec_s a (Try star n b h o BNil) r u l
| x_finally a star n b h o f r u l r' l' : exec_t a n b h o r u l -> f <> BNil ->
    exec_b (match u with Exc => true | _ => a end) l f r' Done l' -> exec_s a (Try star n b h o f) (r ++ r') u l'
| x_finally_left a star n b h o f r l r' l' : exec_t a n b h o r Left l -> f <> BNil ->
    exec_b a l f r' Done l' -> exec_s a (Try star n b h o f) (r ++ r') Left l
| x_finally_out a star n b h o f r u l r' u' l' : exec_t a n b h o r u l -> f <> BNil ->
    exec_b (match u with Exc => true | _ => a end) l f r' u' l' -> u' <> Done ->
    exec_s a (Try star n b h o f) (r ++ r') u' l'
with exec_b : bool -> Z -> block -> list Z -> out -> Z -> Prop :=
| x_nil a cur : exec_b a cur BNil [] Done cur
| x_cons a cur s b r l r' o l' : exec_s a s r Done l -> exec_b a l b r' o l' -> exec_b a cur (BCons s b) (r ++ r') o l'
| x_cons_out a cur s b r o l : exec_s a s r o l -> o <> Done -> exec_b a cur (BCons s b) r o l
(* a try statement without its finally block *)
with exec_t : bool -> Z -> block -> hands -> block -> list Z -> out -> Z -> Prop :=
| x_body_left a n b h o r l : exec_b a n b r Left l -> exec_t a n b h o r Left l
| x_else a n b h o r l r' u l' : exec_b a n b r Done l -> exec_b a l o r' u l' -> exec_t a n b h o (r ++ r') u l'
| x_no_except a n b o r l : exec_b a n b r Exc l -> exec_t a n b HNil o r Exc l
| x_except a n b h o r l r' u l' : exec_b a n b r Exc l -> h <> HNil -> exec_h l h r' u l' -> exec_t a n b h o (r ++ r') u l'
(* an exception comes to the except clauses *)
with exec_h : Z -> hands -> list Z -> out -> Z -> Prop :=
| x_none_left cur : exec_h cur HNil [] Exc cur
| x_expr_exc cur n b h : exec_h cur (HCons n false b h) [n] Exc n
| x_no_match cur n b h r o l : exec_h n h r o l -> exec_h cur (HCons n false b h) r o l
| x_match cur n all b h r o l : exec_b true n b r o l -> exec_h cur (HCons n all b h) r o l.

Scheme exec_s_ind2 := Induction for exec_s Sort Prop
with exec_b_ind2 := Induction for exec_b Sort Prop
with exec_t_ind2 := Induction for exec_t Sort Prop
with exec_h_ind2 := Induction for exec_h Sort Prop.
Combined Scheme exec_ind from exec_s_ind2, exec_b_ind2, exec_t_ind2, exec_h_ind2.

Scheme stmt_ind2 := Induction for stmt Sort Prop
with block_ind2 := Induction for block Sort Prop
with hands_ind2 := Induction for hands Sort Prop.
Combined Scheme syntax_ind from stmt_ind2, block_ind2, hands_ind2.

(** *** Layout: statements and clauses are on lines of their own, in order, after the line [lo]. *)
Fixpoint lay_s (lo : Z) (s : stmt) : Prop :=
  match s with
  | Simple n m | Leave n m => (lo < n <= m)%Z
  | Bare n => (lo < n)%Z
  | Def n b | With _ n b => (lo < n)%Z /\ lay_b n b
  | Block n b c => (lo < n)%Z /\ lay_b n b /\ lay_b (last_b n b) c
  | Try _ n b h o f =>
      (lo < n)%Z /\ lay_b n b /\ lay_h (last_b n b) h /\ lay_b (last_h (last_b n b) h) o /\
      lay_b (last_b (last_h (last_b n b) h) o) f
  end
with lay_b (lo : Z) (b : block) : Prop :=
  match b with BNil => True | BCons s b' => lay_s lo s /\ lay_b (last_s s) b' end
with lay_h (lo : Z) (h : hands) : Prop :=
  match h with HNil => True | HCons n _ b h' => (lo < n)%Z /\ b <> BNil /\ lay_b n b /\ lay_h (last_b n b) h' end.

(** *** The try statements, as they should be seen *)

(** Lines of the raise statements without argument. *)
Fixpoint bares_s (s : stmt) : list Z :=
  match s with
  | Simple _ _ | Leave _ _ => []
  | Bare n => [n]
  | Def _ b | With _ _ b => bares_b b
  | Block _ b c => bares_b b ++ bares_b c
  | Try _ _ b h o f => bares_b b ++ bares_h h ++ bares_b o ++ bares_b f
  end
with bares_b (b : block) : list Z := match b with BNil => [] | BCons s b' => bares_s s ++ bares_b b' end
with bares_h (h : hands) : list Z := match h with HNil => [] | HCons _ _ b h' => bares_b b ++ bares_h h' end.

Definition own (n : Z) (b : block) (h : hands) : list tryexc :=
  match h with
  | HNil => []
  | HCons e _ _ _ => [TryExc n e (last_h (last_b n b) h) (bares_h h)]
  end.

(** All try statements with except clauses, the last one first; [deep]: also those of the functions and classes
    inside. *)
Fixpoint tries_s (deep : bool) (s : stmt) : list tryexc :=
  match s with
  | Simple _ _ | Leave _ _ | Bare _ => []
  | Def _ b => if deep then tries_b deep b else []
  | With _ _ b => tries_b deep b
  | Block _ b c => tries_b deep c ++ tries_b deep b
  | Try _ n b h o f => own n b h ++ tries_b deep f ++ tries_b deep o ++ tries_h deep h ++ tries_b deep b
  end
with tries_b (deep : bool) (b : block) : list tryexc :=
  match b with BNil => [] | BCons s b' => tries_b deep b' ++ tries_s deep s end
with tries_h (deep : bool) (h : hands) : list tryexc :=
  match h with HNil => [] | HCons _ _ b h' => tries_h deep h' ++ tries_b deep b end.

(** No except clauses with a star. *)
Fixpoint starless_s (s : stmt) : Prop :=
  match s with
  | Simple _ _ | Leave _ _ | Bare _ => True
  | Def _ b | With _ _ b => starless_b b
  | Block _ b c => starless_b b /\ starless_b c
  | Try star _ b h o f => star = false /\ starless_b b /\ starless_h h /\ starless_b o /\ starless_b f
  end
with starless_b (b : block) : Prop := match b with BNil => True | BCons s b' => starless_s s /\ starless_b b' end
with starless_h (h : hands) : Prop := match h with HNil => True | HCons _ _ b h' => starless_b b /\ starless_h h' end.

(** *** When a return is not taken for an exception *)

(** No return, break or continue. *)
Fixpoint stays_s (s : stmt) : Prop :=
  match s with
  | Simple _ _ | Bare _ | Def _ _ => True
  | Leave _ _ => False
  | With _ _ b => stays_b b
  | Block _ b c => stays_b b /\ stays_b c
  | Try _ _ b h o f => stays_b b /\ stays_h h /\ stays_b o /\ stays_b f
  end
with stays_b (b : block) : Prop := match b with BNil => True | BCons s b' => stays_s s /\ stays_b b' end
with stays_h (h : hands) : Prop := match h with HNil => True | HCons _ _ b h' => stays_b b /\ stays_h h' end.

(** Exceptions are taken by except clauses only: not by with, nor by return, break or continue in a finally
    block. *)
Fixpoint clauses_s (s : stmt) : Prop :=
  match s with
  | Simple _ _ | Bare _ | Leave _ _ | Def _ _ => True
  | With s _ b => s = false /\ clauses_b b
  | Block _ b c => clauses_b b /\ clauses_b c
  | Try _ _ b h o f => clauses_b b /\ clauses_h h /\ clauses_b o /\ clauses_b f /\ stays_b f
  end
with clauses_b (b : block) : Prop := match b with BNil => True | BCons s b' => clauses_s s /\ clauses_b b' end
with clauses_h (h : hands) : Prop := match h with HNil => True | HCons _ _ b h' => clauses_b b /\ clauses_h h' end.

(** *** When an exception is not taken for a return *)

(** There is one clause, or the last one takes everything. *)
Fixpoint takes_all (h : hands) : Prop :=
  match h with HNil => False | HCons _ all _ h' => all = true \/ takes_all h' end.
Definition decided (h : hands) : Prop :=
  match h with HNil => True | HCons _ _ _ HNil => True | _ => takes_all h end.

(** Each try statement with several clauses has one which takes everything; those with a finally block neither have
    except clauses, in them or anywhere inside, nor are they inside an except clause.  [c]: inside an except clause. *)
Fixpoint plain_s (c : bool) (s : stmt) : Prop :=
  match s with
  | Simple _ _ | Bare _ | Leave _ _ | Def _ _ => True
  | With _ _ b => plain_b c b
  | Block _ b d => plain_b c b /\ plain_b c d
  | Try _ _ b h o f =>
      (f = BNil /\ plain_b c b /\ plain_h h /\ plain_b c o /\ decided h) \/
      (c = false /\ tries_s false s = [])
  end
with plain_b (c : bool) (b : block) : Prop := match b with BNil => True | BCons s b' => plain_s c s /\ plain_b c b' end
with plain_h (h : hands) : Prop := match h with HNil => True | HCons _ _ b h' => plain_b true b /\ plain_h h' end.

(** The code of a def or class in a module: its line and its body. *)
Fixpoint code_s (s : stmt) : list (Z * block) :=
  match s with
  | Simple _ _ | Leave _ _ | Bare _ => []
  | Def n b => (n, b) :: code_b b
  | With _ _ b => code_b b
  | Block _ b c => code_b b ++ code_b c
  | Try _ _ b h o f => code_b b ++ code_h h ++ code_b o ++ code_b f
  end
with code_b (b : block) : list (Z * block) := match b with BNil => [] | BCons s b' => code_s s ++ code_b b' end
with code_h (h : hands) : list (Z * block) := match h with HNil => [] | HCons _ _ b h' => code_b b ++ code_h h' end.

(** ** Proofs: lines *)

Lemma last_cons lo s b : last_b lo (BCons s b) = last_b (last_s s) b.
Proof.
  cbn [last_b]. destruct b as [|s' b']; [reflexivity|].
  revert s s'. induction b' as [|s2 b' IH]; intros s s'; [reflexivity|]. exact (IH s s2).
Qed.
Lemma last_hcons lo n a b h : last_h lo (HCons n a b h) = last_h (last_b n b) h.
Proof.
  cbn [last_h]. destruct h as [|n' a' b' h']; [reflexivity|].
  revert n' a' b'. induction h' as [|n2 a2 b2 h' IH]; intros n' a' b'; [reflexivity|]. exact (IH n2 a2 b2).
Qed.

Lemma lasts :
  (forall s lo, lay_s lo s -> (lo < last_s s)%Z) /\
  (forall b lo, lay_b lo b -> (lo <= last_b lo b)%Z) /\
  (forall h lo, lay_h lo h -> (lo <= last_h lo h)%Z).
Proof.
  apply syntax_ind; intros; try (cbn [lay_s last_s] in *; lia).
  - cbn [lay_s last_s] in *. destruct H0 as [A B]. specialize (H _ B). lia.
  - cbn [lay_s last_s] in *. destruct H1 as (A & B & C). specialize (H _ B). specialize (H0 _ C). lia.
  - cbn [lay_s last_s] in *. destruct H0 as [A B]. specialize (H _ B). lia.
  - cbn [lay_s last_s] in *. destruct H3 as (A & B & C & D & E). specialize (H _ B). specialize (H0 _ C).
    specialize (H1 _ D). specialize (H2 _ E). lia.
  - cbn [last_b]. lia.
  - rewrite last_cons. destruct H1 as [A B]. specialize (H _ A). specialize (H0 _ B). lia.
  - cbn [last_h]. lia.
  - rewrite last_hcons. destruct H1 as (A & _ & B & C). specialize (H _ B). specialize (H0 _ C). lia.
Qed.
Definition last_s_lt s lo := proj1 lasts s lo.
Definition last_b_le b lo := proj1 (proj2 lasts) b lo.
Definition last_h_le h lo := proj2 (proj2 lasts) h lo.

(** Lines of the code itself, those of the code inside left out. *)
Fixpoint at_s (s : stmt) (x : Z) : Prop :=
  match s with
  | Simple n m | Leave n m => (n <= x <= m)%Z
  | Bare n | Def n _ => x = n
  | With _ n b => x = n \/ at_b b x
  | Block n b c => x = n \/ at_b b x \/ at_b c x
  | Try _ n b h o f => x = n \/ at_b b x \/ at_h h x \/ at_b o x \/ at_b f x
  end
with at_b (b : block) (x : Z) : Prop := match b with BNil => False | BCons s b' => at_s s x \/ at_b b' x end
with at_h (h : hands) (x : Z) : Prop := match h with HNil => False | HCons n _ b h' => x = n \/ at_b b x \/ at_h h' x end.

(** Those which are not of an except clause or of raise without argument. *)
Fixpoint calm_s (s : stmt) (x : Z) : Prop :=
  match s with
  | Simple n m | Leave n m => (n <= x <= m)%Z
  | Bare _ => False
  | Def n _ => x = n
  | With _ n b => x = n \/ calm_b b x
  | Block n b c => x = n \/ calm_b b x \/ calm_b c x
  | Try _ n b h o f => x = n \/ calm_b b x \/ calm_h h x \/ calm_b o x \/ calm_b f x
  end
with calm_b (b : block) (x : Z) : Prop := match b with BNil => False | BCons s b' => calm_s s x \/ calm_b b' x end
with calm_h (h : hands) (x : Z) : Prop := match h with HNil => False | HCons _ _ b h' => calm_b b x \/ calm_h h' x end.

Lemma calm_at : (forall s x, calm_s s x -> at_s s x) /\ (forall b x, calm_b b x -> at_b b x) /\ (forall h x, calm_h h x -> at_h h x).
Proof. apply syntax_ind; cbn; intros; intuition. Qed.

Ltac bnd :=
  repeat match goal with
  | H : lay_b ?lo ?b |- _ => lazymatch goal with _ : (lo <= last_b lo b)%Z |- _ => fail | _ => pose proof (last_b_le b lo H) end
  | H : lay_h ?lo ?b |- _ => lazymatch goal with _ : (lo <= last_h lo b)%Z |- _ => fail | _ => pose proof (last_h_le b lo H) end
  | H : lay_s ?lo ?s |- _ => lazymatch goal with _ : (lo < last_s s)%Z |- _ => fail | _ => pose proof (last_s_lt s lo H) end
  end.

Lemma at_bounds :
  (forall s lo x, lay_s lo s -> at_s s x -> (lo < x <= last_s s)%Z) /\
  (forall b lo x, lay_b lo b -> at_b b x -> (lo < x <= last_b lo b)%Z) /\
  (forall h lo x, lay_h lo h -> at_h h x -> (lo < x <= last_h lo h)%Z).
Proof.
  apply syntax_ind; intros; rewrite ?last_cons, ?last_hcons in *; cbn [lay_s lay_b lay_h at_s at_b at_h last_s] in *;
    repeat match goal with H : _ /\ _ |- _ => destruct H end; bnd; 
    repeat match goal with H : _ \/ _ |- _ => destruct H | H : False |- _ => destruct H end; subst; try lia;
    match goal with H : forall lo x, _ -> at_b ?b x -> _, L : lay_b _ ?b, A : at_b ?b _ |- _ => specialize (H _ _ L A); lia
                  | H : forall lo x, _ -> at_s ?b x -> _, L : lay_s _ ?b, A : at_s ?b _ |- _ => specialize (H _ _ L A); lia
                  | H : forall lo x, _ -> at_h ?b x -> _, L : lay_h _ ?b, A : at_h ?b _ |- _ => specialize (H _ _ L A); lia end.
Qed.
Definition at_s_in s lo x := proj1 at_bounds s lo x.
Definition at_b_in b lo x := proj1 (proj2 at_bounds) b lo x.
Definition at_h_in h lo x := proj2 (proj2 at_bounds) h lo x.

Lemma bares_bounds :
  (forall s lo x, lay_s lo s -> In x (bares_s s) -> (lo < x <= last_s s)%Z) /\
  (forall b lo x, lay_b lo b -> In x (bares_b b) -> (lo < x <= last_b lo b)%Z) /\
  (forall h lo x, lay_h lo h -> In x (bares_h h) -> (lo < x <= last_h lo h)%Z).
Proof.
  apply syntax_ind; intros; rewrite ?last_cons, ?last_hcons in *; cbn [lay_s lay_b lay_h bares_s bares_b bares_h last_s] in *;
    rewrite ?in_app_iff in *; cbn [In] in *;
    repeat match goal with H : _ /\ _ |- _ => destruct H end; bnd; 
    repeat match goal with H : _ \/ _ |- _ => destruct H | H : False |- _ => destruct H end; subst; try lia;
    match goal with H : forall lo x, _ -> In x ?b -> _, A : In _ ?b, L : _ |- _ => specialize (H _ _ L A); lia end.
Qed.
Definition bares_s_in s lo x := proj1 bares_bounds s lo x.
Definition bares_b_in b lo x := proj1 (proj2 bares_bounds) b lo x.
Definition bares_h_in h lo x := proj2 (proj2 bares_bounds) h lo x.

(** Where the try statements are: the body before the clauses, all within the block. *)
Definition within (lo hi : Z) (t : tryexc) : Prop :=
  (lo < t_try t < t_except t)%Z /\ (t_except t <= t_end t <= hi)%Z /\ forall x, In x (t_raises t) -> (t_except t < x <= t_end t)%Z.

Lemma within_mono lo hi lo' hi' t : (lo' <= lo)%Z -> (hi <= hi')%Z -> within lo hi t -> within lo' hi' t.
Proof. unfold within. intuition lia. Qed.

Lemma own_within n b h t : lay_b n b -> lay_h (last_b n b) h -> In t (own n b h) -> within (n - 1) (last_h (last_b n b) h) t /\ t_try t = n.
Proof.
  intros B H I. destruct h as [|e al d h']; [destruct I|]. destruct I as [<- | []]. split; [|reflexivity]. unfold within.
  cbn [t_try t_except t_end t_raises]. cbn [lay_h] in H. destruct H as (P & _ & Q & R). rewrite last_hcons.
  bnd. split; [lia|]. split; [lia|]. intros x X. cbn [bares_h] in X. apply in_app_or in X. destruct X as [X | X].
  - apply (bares_b_in _ _ _ Q) in X. lia.
  - apply (bares_h_in _ _ _ R) in X. lia.
Qed.

Lemma tries_within deep :
  (forall s lo t, lay_s lo s -> In t (tries_s deep s) -> within lo (last_s s) t) /\
  (forall b lo t, lay_b lo b -> In t (tries_b deep b) -> within lo (last_b lo b) t) /\
  (forall h lo t, lay_h lo h -> In t (tries_h deep h) -> within lo (last_h lo h) t).
Proof.
  apply syntax_ind; intros; rewrite ?last_cons, ?last_hcons in *; cbn [lay_s lay_b lay_h tries_s tries_b tries_h last_s] in *;
    try (match goal with H : In _ (if ?d then _ else _) |- _ => destruct d end);
    rewrite ?in_app_iff in *; cbn [In] in *;
    repeat match goal with H : _ /\ _ |- _ => destruct H end; bnd; 
    repeat match goal with H : _ \/ _ |- _ => destruct H | H : False |- _ => destruct H end;
    try (match goal with H : forall lo x, _ -> In x ?b -> _, A : In _ ?b, L : _ |- _ => refine (within_mono _ _ _ _ _ _ _ (H _ _ L A)); lia end).
  match goal with A : In _ (own _ _ _) |- _ => apply own_within in A; [|assumption..]; destruct A as [A _] end.
  match goal with A : within _ _ _ |- _ => refine (within_mono _ _ _ _ _ _ _ A); lia end.
Qed.
Definition tries_s_in deep s lo t := proj1 (tries_within deep) s lo t.
Definition tries_b_in deep b lo t := proj1 (proj2 (tries_within deep)) b lo t.
Definition tries_h_in deep h lo t := proj2 (proj2 (tries_within deep)) h lo t.

Lemma in_try_iff t x : in_try t x = true <-> (t_try t <= x < t_except t)%Z.
Proof. unfold in_try. rewrite andb_true_iff, Z.leb_le, Z.ltb_lt. tauto. Qed.
Lemma in_except_iff t x : in_except t x = true <-> (t_except t <= x <= t_end t)%Z.
Proof. unfold in_except. rewrite andb_true_iff, !Z.leb_le. tauto. Qed.

Lemma shallow_deep : (forall s t, In t (tries_s false s) -> In t (tries_s true s)) /\
  (forall b t, In t (tries_b false b) -> In t (tries_b true b)) /\ (forall h t, In t (tries_h false h) -> In t (tries_h true h)).
Proof. apply syntax_ind; cbn [tries_s tries_b tries_h In]; intros; rewrite ?in_app_iff in *; intuition. Qed.

(** [x] lies in the try statement [t] *)
Definition covers (t : tryexc) (x : Z) : Prop := (t_try t <= x <= t_end t)%Z.

Ltac split_all := repeat match goal with H : _ /\ _ |- _ => destruct H end.
Ltac cases_all := repeat match goal with H : _ \/ _ |- _ => destruct H | H : False |- _ => destruct H end.
(** Bounds of all lines and try statements in the context. *)
Ltac facts :=
  repeat match goal with
  | A : at_b ?b ?x, L : lay_b ?lo ?b |- _ => lazymatch goal with _ : (lo < x <= last_b lo b)%Z |- _ => fail | _ => pose proof (at_b_in b lo x L A) end
  | A : at_h ?b ?x, L : lay_h ?lo ?b |- _ => lazymatch goal with _ : (lo < x <= last_h lo b)%Z |- _ => fail | _ => pose proof (at_h_in b lo x L A) end
  | A : at_s ?b ?x, L : lay_s ?lo ?b |- _ => lazymatch goal with _ : (lo < x <= last_s b)%Z |- _ => fail | _ => pose proof (at_s_in b lo x L A) end
  | A : In ?x (bares_b ?b), L : lay_b ?lo ?b |- _ => lazymatch goal with _ : (lo < x <= last_b lo b)%Z |- _ => fail | _ => pose proof (bares_b_in b lo x L A) end
  | A : In ?x (bares_h ?b), L : lay_h ?lo ?b |- _ => lazymatch goal with _ : (lo < x <= last_h lo b)%Z |- _ => fail | _ => pose proof (bares_h_in b lo x L A) end
  | A : In ?x (bares_s ?b), L : lay_s ?lo ?b |- _ => lazymatch goal with _ : (lo < x <= last_s b)%Z |- _ => fail | _ => pose proof (bares_s_in b lo x L A) end
  | A : In ?t (tries_b ?d ?b), L : lay_b ?lo ?b |- _ => lazymatch goal with _ : within lo (last_b lo b) t |- _ => fail | _ => pose proof (tries_b_in d b lo t L A) end
  | A : In ?t (tries_h ?d ?b), L : lay_h ?lo ?b |- _ => lazymatch goal with _ : within lo (last_h lo b) t |- _ => fail | _ => pose proof (tries_h_in d b lo t L A) end
  | A : In ?t (tries_s ?d ?b), L : lay_s ?lo ?b |- _ => lazymatch goal with _ : within lo (last_s b) t |- _ => fail | _ => pose proof (tries_s_in d b lo t L A) end
  end.
Ltac far := bnd; facts; exfalso; unfold within, covers in *; split_all; lia.

(** A line of the code itself lies in no try statement of the code inside. *)
Lemma shallow_only :
  (forall s lo x t, lay_s lo s -> at_s s x -> In t (tries_s true s) -> covers t x -> In t (tries_s false s)) /\
  (forall b lo x t, lay_b lo b -> at_b b x -> In t (tries_b true b) -> covers t x -> In t (tries_b false b)) /\
  (forall h lo x t, lay_h lo h -> at_h h x -> In t (tries_h true h) -> covers t x -> In t (tries_h false h)).
Proof.
  apply syntax_ind; intros; cbn [lay_s lay_b lay_h at_s at_b at_h tries_s tries_b tries_h last_s] in *;
    rewrite ?in_app_iff in *; split_all; cases_all; subst; try tauto;
    try (match goal with H : forall lo x t, _ -> _ -> In t ?l -> _ -> _, L : _, A : _, B : In _ ?l, C : covers _ _ |- _ =>
           solve [pose proof (H _ _ _ L A B C); tauto] end);
    far.
Qed.

(** The line of a calm statement is not the one of an except clause or of raise in one. *)
Lemma calm_bare :
  (forall s lo x, lay_s lo s -> calm_s s x -> ~ In x (bares_s s)) /\
  (forall b lo x, lay_b lo b -> calm_b b x -> ~ In x (bares_b b)) /\
  (forall h lo x, lay_h lo h -> calm_h h x -> ~ In x (bares_h h)).
Proof.
  destruct calm_at as (CS & CB & CH).
  apply syntax_ind; intros; cbn [lay_s lay_b lay_h calm_s calm_b calm_h bares_s bares_b bares_h last_s] in *; intros J;
    rewrite ?in_app_iff in *; split_all; cases_all; subst; try tauto;
    try (match goal with H : forall lo x, _ -> _ -> ~ In x ?l, L : _, A : _, B : In _ ?l |- _ =>
           solve [exact (H _ _ L A B)] end);
    repeat match goal with A : calm_b _ _ |- _ => apply CB in A | A : calm_s _ _ |- _ => apply CS in A | A : calm_h _ _ |- _ => apply CH in A end;
    far.
Qed.

Lemma calm_h_head n al b h x lo : lay_h lo (HCons n al b h) -> calm_h (HCons n al b h) x -> (n < x)%Z.
Proof.
  destruct calm_at as (CS & CB & CH). cbn [lay_h calm_h]. intros (A & _ & B & C) [D | D]; [apply CB in D|apply CH in D]; bnd; facts; lia.
Qed.

Lemma own_calm n b h x t lo : lay_h lo h -> calm_h h x -> In t (own n b h) -> x <> t_except t /\ ~ In x (t_raises t).
Proof.
  intros L C I. destruct h as [|e al d h']; [destruct I|]. destruct I as [<- | []]. cbn [t_except t_raises]. split.
  - pose proof (calm_h_head _ _ _ _ _ _ L C). lia.
  - exact (proj2 (proj2 calm_bare) _ _ _ L C).
Qed.

Lemma calm_no_clause :
  (forall s lo x t, lay_s lo s -> calm_s s x -> In t (tries_s false s) -> x <> t_except t /\ ~ In x (t_raises t)) /\
  (forall b lo x t, lay_b lo b -> calm_b b x -> In t (tries_b false b) -> x <> t_except t /\ ~ In x (t_raises t)) /\
  (forall h lo x t, lay_h lo h -> calm_h h x -> In t (tries_h false h) -> x <> t_except t /\ ~ In x (t_raises t)).
Proof.
  destruct calm_at as (CS & CB & CH).
  assert (OUT : forall lo hi t x, within lo hi t -> (x <= lo \/ hi < x)%Z -> x <> t_except t /\ ~ In x (t_raises t)).
  { intros lo hi t x (A & B & C) D. split; [lia|]. intros I. apply C in I. lia. }
  apply syntax_ind; intros; cbn [lay_s lay_b lay_h calm_s calm_b calm_h tries_s tries_b tries_h last_s] in *;
    rewrite ?in_app_iff in *; cbn [In] in *; split_all; cases_all; subst; try tauto;
    try (match goal with H : forall lo x t, _ -> _ -> In t ?l -> _, L : _, A : _, B : In _ ?l |- _ =>
           solve [exact (H _ _ _ L A B)] end);
    try (eapply own_calm; eassumption);
    repeat match goal with A : calm_b _ _ |- _ => apply CB in A | A : calm_s _ _ |- _ => apply CS in A | A : calm_h _ _ |- _ => apply CH in A end;
    bnd; facts;
    try (match goal with W : within _ _ ?t |- _ <> t_except ?t /\ _ => refine (OUT _ _ _ _ W _); lia end).
  all: match goal with A : In ?t (own ?n ?b ?h), L : lay_b ?n ?b, M : lay_h (last_b ?n ?b) ?h |- _ =>
         destruct h as [|e al d h']; [destruct A|]; pose proof M as M'; cbn [lay_h] in M';
         pose proof (own_within _ _ _ _ L M A) as (W & _); rewrite last_hcons in *; destruct A as [<- | []] end;
       destruct W as (W1 & W2 & W3); cbn [t_try t_except t_end t_raises] in *; split_all; bnd;
       (split; [lia|]; intros I; apply W3 in I; lia).
Qed.

(** ** Proofs: runs *)

Lemma app_in {A} (P : A -> Prop) l l' : (forall x, In x l -> P x) -> (forall x, In x l' -> P x) -> forall x, In x (l ++ l') -> P x.
Proof. intros A1 A2 x I. apply in_app_or in I. destruct I; auto. Qed.

(** Exceptions are raised at lines of the code itself, and it ends at one. *)
Lemma exec_at :
  (forall a s r o l, exec_s a s r o l -> (forall x, In x r -> at_s s x) /\ at_s s l) /\
  (forall a cur b r o l, exec_b a cur b r o l -> (forall x, In x r -> at_b b x) /\ (l = cur \/ at_b b l)) /\
  (forall a n b h o r u l, exec_t a n b h o r u l ->
     (forall x, In x r -> at_b b x \/ at_h h x \/ at_b o x) /\ (l = n \/ at_b b l \/ at_h h l \/ at_b o l)) /\
  (forall cur h r o l, exec_h cur h r o l -> (forall x, In x r -> at_h h x) /\ (l = cur \/ at_h h l)).
Proof.
  apply exec_ind; intros; cbn [at_s at_b at_h] in *; split_all;
    (split; [repeat apply app_in; intros; cbn [In] in *; cases_all; subst; auto; try tauto; try lia;
             repeat match goal with H : forall x, In x ?r -> _, I : In _ ?r |- _ => apply H in I; clear H end; tauto
            | cases_all; subst; auto; try tauto; try lia]).
Qed.

(** Without return, break and continue there is no leaving. *)
Lemma exec_stays :
  (forall a s r o l, exec_s a s r o l -> stays_s s -> o <> Left) /\
  (forall a cur b r o l, exec_b a cur b r o l -> stays_b b -> o <> Left) /\
  (forall a n b h o r u l, exec_t a n b h o r u l -> stays_b b -> stays_h h -> stays_b o -> u <> Left) /\
  (forall cur h r o l, exec_h cur h r o l -> stays_h h -> o <> Left).
Proof.
  apply exec_ind; intros; cbn [stays_s stays_b stays_h] in *; split_all; try discriminate; try tauto; auto.
  destruct o0; subst; tauto.
Qed.

(** Without an exception being handled, an exception which leaves has been seen. *)
Lemma exec_fresh :
  (forall a s r o l, exec_s a s r o l -> a = false -> o = Exc -> r <> []) /\
  (forall a cur b r o l, exec_b a cur b r o l -> a = false -> o = Exc -> r <> []) /\
  (forall a n b h o r u l, exec_t a n b h o r u l -> a = false -> u = Exc -> r <> []) /\
  (forall cur h r o l, exec_h cur h r o l -> True).
Proof.
  assert (AL : forall (x y : list Z), x <> [] -> x ++ y <> []) by (intros [|] y X; [congruence|discriminate]).
  assert (AR : forall (x y : list Z), y <> [] -> x ++ y <> []) by (intros [|] y X; [exact X|discriminate]).
  apply exec_ind; intros; subst; try discriminate; auto.
  - apply AR. discriminate.
  - destruct u; auto.
Qed.

(** What an except clause takes lies in its try statement; the code ends at a calm line. *)
Lemma exec_handled :
  (forall a s r o l, exec_s a s r o l -> forall lo, lay_s lo s -> clauses_s s -> o <> Exc ->
     (forall x, In x r -> exists t, In t (tries_s false s) /\ in_try t x = true) /\ calm_s s l) /\
  (forall a cur b r o l, exec_b a cur b r o l -> forall lo, lay_b lo b -> clauses_b b -> o <> Exc ->
     (forall x, In x r -> exists t, In t (tries_b false b) /\ in_try t x = true) /\ (calm_b b l \/ (b = BNil /\ l = cur))) /\
  (forall a n b h o r u l, exec_t a n b h o r u l -> lay_b n b -> lay_h (last_b n b) h -> lay_b (last_h (last_b n b) h) o ->
     clauses_b b -> clauses_h h -> clauses_b o -> u <> Exc ->
     (forall x, In x r -> exists t, In t (own n b h ++ tries_b false o ++ tries_h false h ++ tries_b false b) /\ in_try t x = true) /\
     (l = n \/ calm_b b l \/ calm_h h l \/ calm_b o l)) /\
  (forall cur h r o l, exec_h cur h r o l -> forall lo, lay_h lo h -> clauses_h h -> o <> Exc ->
     (forall x, In x r -> exists t, In t (tries_h false h) /\ in_try t x = true) /\ calm_h h l).
Proof.
  assert (UP : forall (l l' : list tryexc) x, (forall t, In t l -> In t l') -> (exists t, In t l /\ in_try t x = true) ->
    exists t, In t l' /\ in_try t x = true) by (intros l l' x I (t & A & B); exists t; auto).
  apply exec_ind; intros; cbn [lay_s lay_b lay_h clauses_s clauses_b clauses_h calm_s calm_b calm_h tries_s tries_b tries_h last_s] in *;
    split_all; try congruence;
    try (split; [intros x []|solve [auto | lia]]).
  all: try match goal with H : _ \/ _ |- _ => destruct H; subst end.
  all: repeat match goal with
    | H : forall lo, lay_b lo ?b -> clauses_b ?b -> _, L : lay_b _ ?b, C : clauses_b ?b |- _ => specialize (H _ L C)
    | H : forall lo, lay_h lo ?b -> clauses_h ?b -> _, L : lay_h _ ?b, C : clauses_h ?b |- _ => specialize (H _ L C)
    | H : forall lo, lay_s lo ?b -> clauses_s ?b -> _, L : lay_s _ ?b, C : clauses_s ?b |- _ => specialize (H _ L C)
    | H : lay_b ?n ?b -> lay_h _ ?h -> lay_b _ ?o -> clauses_b ?b -> clauses_h ?h -> clauses_b ?o -> _ |- _ =>
        specialize (H ltac:(assumption) ltac:(assumption) ltac:(assumption) ltac:(assumption) ltac:(assumption) ltac:(assumption))
    | H : ?o <> Exc -> _, E : ?o <> Exc |- _ => specialize (H E)
    | H : Done <> Exc -> _ |- _ => specialize (H ltac:(discriminate))
    | H : Left <> Exc -> _ |- _ => specialize (H ltac:(discriminate))
    | H : forall lo, _ -> _ -> ?o <> Exc -> _, E : ?o <> Exc |- _ =>
        specialize (H _ (conj ltac:(eassumption) (conj ltac:(eassumption) ltac:(eassumption))) (conj ltac:(eassumption) ltac:(eassumption)) E)
    end; split_all.
  all: try (split; [repeat apply app_in; intros x I;
    repeat match goal with H : forall x, In x ?r -> _, I : In _ ?r |- _ => specialize (H _ I); refine (UP _ _ _ _ H); intros t J; rewrite ?in_app_iff in *; tauto end
    | cases_all; split_all; subst; tauto]).
  1,2: match goal with H : forall lo, (lo < _)%Z /\ _ -> _ |- _ =>
         edestruct H as [H1' H2']; [split; [eassumption|split; eassumption]|split; assumption|assumption|] end;
       (split; [|exact H2']); apply app_in; [|exact H1']; intros x I;
       match goal with H : forall x, In x ?r -> _, I : In _ ?r |- _ => refine (UP _ _ _ _ (H _ I)); intros t J; rewrite ?in_app_iff in *; tauto end.
  - exfalso. match goal with X : exec_b _ _ ?f _ _ _, S : stays_b ?f |- _ => pose proof (proj1 (proj2 exec_stays) _ _ _ _ _ _ X S) end.
    destruct u'; congruence.
  - destruct h as [|e1 al d h']; [congruence|]. eexists. split; [apply in_or_app; left; left; reflexivity|].
    apply in_try_iff. cbn [t_try t_except]. cbn [lay_h] in *. split_all.
    match goal with X : exec_b _ _ b ?r _ _, I : In _ ?r |- _ => pose proof (proj1 (proj1 (proj2 exec_at) _ _ _ _ _ _ X) _ I) end. facts. lia.
Qed.

(** How an exception which leaves is recognised. *)
Definition marked (ts : list tryexc) (l : Z) : Prop :=
  exists t, In t ts /\ in_except t l = true /\ (l = t_except t \/ In l (t_raises t)).
Definition outside (ts : list tryexc) (r : list Z) : Prop := r <> [] /\ forall t, In t ts -> in_try t (last r 0%Z) = false.

Fixpoint last_clause (cur : Z) (h : hands) : Z := match h with HNil => cur | HCons n _ _ h' => last_clause n h' end.

Lemma last_app_r (r r' : list Z) : r' <> [] -> last (r ++ r') 0%Z = last r' 0%Z.
Proof.
  intros N0. destruct r' as [|x r' _] using rev_ind; [congruence|]. rewrite app_assoc, !last_last. reflexivity.
Qed.
Lemma last_in_list (r : list Z) : r <> [] -> In (last r 0%Z) r.
Proof. intros N0. destruct r as [|x r' _] using rev_ind; [congruence|]. rewrite last_last. apply in_or_app. right. left. reflexivity. Qed.

Lemma outside_app ts r r' : outside ts r' -> outside ts (r ++ r').
Proof. intros [A B]. split; [destruct r; [exact A|discriminate]|]. rewrite last_app_r by exact A. exact B. Qed.
Lemma outside_more ts ts' r : outside ts r -> (forall t, In t ts' -> In t ts \/ in_try t (last r 0%Z) = false) -> outside ts' r.
Proof. intros [A B] C. split; [exact A|]. intros t I. destruct (C t I); auto. Qed.
Lemma marked_more ts ts' l : marked ts l -> (forall t, In t ts -> In t ts') -> marked ts' l.
Proof. intros (t & A & B) I. exists t. auto. Qed.

Lemma not_in_try lo hi t x : within lo hi t -> (x <= lo \/ hi < x)%Z -> in_try t x = false.
Proof.
  intros (A & B & _) C. destruct (in_try t x) eqn:E; [|reflexivity]. apply in_try_iff in E. lia.
Qed.

Lemma carry (a : Prop) r l ts bs r0 ts' bs' :
  In l r \/ marked ts l \/ (a /\ In l bs) \/ outside ts r ->
  (forall t, In t ts -> In t ts') -> (forall x, In x bs -> In x bs') ->
  (r <> [] -> In (last r 0%Z) r -> forall t, In t ts' -> In t ts \/ in_try t (last r 0%Z) = false) ->
  In l (r0 ++ r) \/ marked ts' l \/ (a /\ In l bs') \/ outside ts' (r0 ++ r).
Proof.
  intros [A | [A | [[A B] | A]]] T S O.
  - left. apply in_or_app. auto.
  - right. left. exact (marked_more _ _ _ A T).
  - right. right. left. auto.
  - right. right. right. apply outside_app. pose proof A as [N0 _]. exact (outside_more _ _ _ A (O N0 (last_in_list _ N0))).
Qed.
Definition carry0 a r l ts bs ts' bs' := carry a r l ts bs [] ts' bs'.

Lemma exec_leaving :
  (forall a s r o l, exec_s a s r o l -> forall lo, lay_s lo s -> plain_s a s -> o = Exc ->
     In l r \/ marked (tries_s false s) l \/ (a = true /\ In l (bares_s s)) \/ outside (tries_s false s) r) /\
  (forall a cur b r o l, exec_b a cur b r o l -> forall lo, lay_b lo b -> plain_b a b -> o = Exc ->
     In l r \/ marked (tries_b false b) l \/ (a = true /\ In l (bares_b b)) \/ outside (tries_b false b) r) /\
  (forall a n b h o r u l, exec_t a n b h o r u l -> lay_b n b -> lay_h (last_b n b) h -> lay_b (last_h (last_b n b) h) o ->
     plain_b a b -> plain_h h -> plain_b a o -> decided h -> u = Exc ->
     let ts := own n b h ++ tries_b false o ++ tries_h false h ++ tries_b false b in
     In l r \/ marked ts l \/ (a = true /\ In l (bares_b b ++ bares_h h ++ bares_b o)) \/ outside ts r) /\
  (forall cur h r o l, exec_h cur h r o l -> forall lo, lay_h lo h -> plain_h h -> o = Exc ->
     In l r \/ marked (tries_h false h) l \/ In l (bares_h h) \/ outside (tries_h false h) r \/
     (r = [] /\ ~ takes_all h /\ l = last_clause cur h)).
Proof.
  apply exec_ind; cbv zeta; intros; try discriminate; try (left; left; reflexivity).
  - right. right. left. split; [reflexivity|]. left. reflexivity.
  - destruct H0 as (L1 & L2 & L3). destruct H1 as (P1 & P2). pose proof (proj1 (proj2 exec_at) _ _ _ _ _ _ e) as (AT & _).
    cbn [tries_s bares_s]. destruct o0 as [-> | ->].
    + eapply carry0; [exact (H _ L2 P1 ltac:(first [reflexivity | assumption]))|intros; apply in_or_app; auto..|].
      intros _ I t J. apply in_app_or in J. destruct J as [J | J]; [right|auto]. apply AT in I. facts. bnd.
      eapply not_in_try; [eassumption|lia].
    + eapply carry0; [exact (H _ L3 P2 ltac:(first [reflexivity | assumption]))|intros; apply in_or_app; auto..|].
      intros _ I t J. apply in_app_or in J. destruct J as [J | J]; [auto|right]. apply AT in I. facts. bnd.
      eapply not_in_try; [eassumption|lia].
  - eapply carry; [eapply H0; eassumption|auto..].
  - eapply carry0; [eapply H; [apply H0|assumption|first [reflexivity | assumption]]|auto..].
  - congruence.
  - left. apply in_or_app. right. left. reflexivity.
  - (* try without finally *)
    assert (AT : forall x, In x r -> at_b b x \/ at_h h x \/ at_b o x) by exact (proj1 (proj1 (proj2 (proj2 exec_at)) _ _ _ _ _ _ _ _ e)).
    destruct H1 as [(_ & P1 & P2 & P3 & D) | [-> E]].
    + destruct H0 as (L1 & L2 & L3 & L4 & L5). cbn [tries_s tries_b bares_s bares_b app]. rewrite app_nil_r.
      exact (H L2 L3 L4 P1 P2 P3 D ltac:(first [reflexivity | assumption])).
    + right. right. right. rewrite E. split; [|intros t []]. exact (proj1 (proj2 (proj2 exec_fresh)) _ _ _ _ _ _ _ _ e eq_refl H2).
  - (* finally, done *)
    destruct H2 as [(E & _) | [-> E]]; [congruence|]. right. right. right. rewrite E. split; [|intros t []].
    apply (proj1 exec_fresh false (Try star n b h o f) (r ++ r') u l'); [|reflexivity|assumption]. econstructor; eassumption.
  - destruct H2 as [(E & _) | [-> E]]; [congruence|]. right. right. right. rewrite E. split; [|intros t []].
    apply (proj1 exec_fresh false (Try star n b h o f) (r ++ r') u' l'); [|reflexivity|assumption].
    eapply x_finally_out; eassumption.
  - destruct H1 as [L1 L2]. destruct H2 as [P1 P2]. cbn [tries_b bares_b].
    pose proof (proj1 (proj2 exec_at) _ _ _ _ _ _ e0) as (AT & _).
    eapply carry; [exact (H0 _ L2 P2 ltac:(first [reflexivity | assumption]))|intros; apply in_or_app; auto..|].
    intros _ I t J. apply in_app_or in J. destruct J as [J | J]; [auto|right]. apply AT in I. facts. bnd.
    eapply not_in_try; [eassumption|lia].
  - destruct H0 as [L1 L2]. destruct H1 as [P1 P2]. cbn [tries_b bares_b].
    pose proof (proj1 exec_at _ _ _ _ _ e) as (AT & _).
    eapply carry0; [exact (H _ L1 P1 ltac:(first [reflexivity | assumption]))|intros; apply in_or_app; auto..|].
    intros _ I t J. apply in_app_or in J. destruct J as [J | J]; [right|auto]. apply AT in I. facts. bnd.
    eapply not_in_try; [eassumption|lia].
  - (* else *)
    pose proof (proj1 (proj2 exec_at) _ _ _ _ _ _ e0) as (AT & _).
    eapply carry; [exact (H0 _ H3 H6 H8)|intros; rewrite !in_app_iff; auto..|].
    intros _ I t J. rewrite !in_app_iff in J. apply AT in I. destruct J as [J | [J | [J | J]]]; [right|auto|right|right]; bnd.
    + apply own_within in J; [|assumption..]. destruct J as [J _]. facts. eapply not_in_try; [exact J|lia].
    + facts. eapply not_in_try; [eassumption|lia].
    + facts. eapply not_in_try; [eassumption|lia].
  - (* no clauses *)
    pose proof (proj1 (proj2 exec_at) _ _ _ _ _ _ e) as (AT & _). cbn [own app tries_h].
    eapply carry0; [exact (H _ H0 H3 ltac:(first [reflexivity | assumption]))|intros; rewrite !in_app_iff; auto..|].
    intros _ I t J. rewrite !in_app_iff in J. apply AT in I. destruct J as [J | J]; [right|auto]. cbn [last_h] in *. bnd. facts.
    eapply not_in_try; [eassumption|lia].
  - (* clauses *)
    pose proof (proj2 (proj2 (proj2 exec_at)) _ _ _ _ _ e0) as (AT & _).
    assert (OWN : forall x, In x (own n b h) -> t_except x = last_clause l h \/ ~ decided h \/ takes_all h).
    { intros t J. destruct h as [|e1 al d h']; [congruence|]. destruct J as [<- | []]. cbn [t_except last_clause].
      destruct h'; [left; reflexivity|right]. right. exact H7. }
    assert (EX : exists t, In t (own n b h) /\ (forall x, In x (bares_h h) -> In x (t_raises t) /\ in_except t x = true) /\ in_except t (t_except t) = true).
    { destruct h as [|e1 al d h']; [congruence|]. eexists. split; [left; reflexivity|]. cbn [t_raises t_except].
      pose proof H2 as L. cbn [lay_h] in L. split_all. split.
      - intros x X. split; [exact X|]. apply in_except_iff. cbn [t_except t_end]. cbn [bares_h] in X. rewrite last_hcons.
        apply in_app_or in X. bnd. destruct X as [X | X]; facts; lia.
      - apply in_except_iff. cbn [t_except t_end]. rewrite last_hcons. bnd. lia. }
    destruct (H0 _ H2 H5 H8) as [A | [A | [A | [A | (-> & A & B)]]]].
    + left. apply in_or_app. auto.
    + right. left. eapply marked_more; [exact A|]. intros. rewrite !in_app_iff. auto.
    + right. left. destruct EX as (t & T1 & T2 & _). exists t. split; [apply in_or_app; auto|]. destruct (T2 _ A). auto.
    + right. right. right. apply outside_app. pose proof A as [N0 _]. pose proof (AT _ (last_in_list _ N0)) as I.
      eapply outside_more; [exact A|]. intros t J. rewrite !in_app_iff in J. bnd.
      destruct J as [J | [J | [J | J]]]; [right|right|auto|right].
      * destruct h as [|e1 al d h']; [congruence|]. pose proof H2 as L. cbn [lay_h] in L. cbn [at_h] in I. destruct J as [<- | []].
        destruct (in_try _ _) eqn:Q; [|reflexivity]. apply in_try_iff in Q. cbn [t_try t_except] in Q. split_all. bnd.
        destruct I as [I | [I | I]]; facts; lia.
      * facts. eapply not_in_try; [eassumption|lia].
      * facts. eapply not_in_try; [eassumption|lia].
    + right. left. destruct EX as (t & T1 & _ & T2). exists t. split; [apply in_or_app; auto|].
      destruct (OWN t T1) as [E | [E | E]]; [|tauto..]. rewrite B, <- E. auto.
  - right. right. right. right. cbn. auto.
  - destruct H0 as (L1 & L2 & L3 & L4). destruct H1 as [P1 P2]. cbn [tries_h bares_h last_clause takes_all].
    pose proof (proj2 (proj2 (proj2 exec_at)) _ _ _ _ _ e) as (AT & _).
    destruct (H _ L4 P2 H2) as [A | [A | [A | [A | (-> & A & B)]]]].
    + auto.
    + right. left. eapply marked_more; [exact A|]. intros. apply in_or_app. auto.
    + right. right. left. apply in_or_app. auto.
    + right. right. right. left. eapply outside_more; [exact A|]. intros t J. apply in_app_or in J.
      destruct J as [J | J]; [auto|right]. destruct A as [N0 _]. pose proof (AT _ (last_in_list _ N0)). bnd. facts.
      eapply not_in_try; [eassumption|lia].
    + right. right. right. right. split; [reflexivity|]. split; [|exact B]. intros [X | X]; [discriminate|tauto].
  - destruct H0 as (L1 & L2 & L3 & L4). destruct H1 as [P1 P2]. cbn [tries_h bares_h].
    pose proof (proj1 (proj2 exec_at) _ _ _ _ _ _ e) as (AT & _).
    destruct (H _ L3 P1 H2) as [A | [A | [[_ A] | A]]].
    + auto.
    + right. left. eapply marked_more; [exact A|]. intros. apply in_or_app. auto.
    + right. right. left. apply in_or_app. auto.
    + right. right. right. left. eapply outside_more; [exact A|]. intros t J. apply in_app_or in J.
      destruct J as [J | J]; [right|auto]. destruct A as [N0 _]. pose proof (AT _ (last_in_list _ N0)). bnd. facts.
      eapply not_in_try; [eassumption|lia].
Qed.

(** ** Proofs: the visitor *)

Definition nmem (j : nat) (l : list nat) : bool := existsb (Nat.eqb j) l.
Lemma nmem_in j l : nmem j l = true <-> In j l.
Proof.
  unfold nmem. rewrite existsb_exists. split.
  - intros (x & I & E). apply Nat.eqb_eq in E. subst. exact I.
  - intros I. exists j. split; [exact I|apply Nat.eqb_refl].
Qed.

Definition adds (c : bool) (ls : list Z) (x : info) : info :=
  if c then Info (f_try x) (f_ignore x) (f_except x) (f_end x) (f_raises x ++ ls) else x.

Lemma adds_nil c x : adds c [] x = x.
Proof. unfold adds. destruct c; [|reflexivity]. destruct x. cbn. rewrite app_nil_r. reflexivity. Qed.
Lemma adds_adds c l l' x : adds c l' (adds c l x) = adds c (l ++ l') x.
Proof. unfold adds. destruct c; [|reflexivity]. cbn. rewrite app_assoc. reflexivity. Qed.

Lemma bare_fold n l : NoDup l -> forall p j,
  fold_left (fun p i => hset p i (add_raise n (p i))) l p j = adds (nmem j l) [n] (p j).
Proof.
  induction l as [|i l IH]; intros D p j; [reflexivity|]. inversion D; subst. cbn [fold_left]. rewrite IH by assumption.
  unfold nmem. cbn [existsb]. fold (nmem j l). unfold hset. destruct (Nat.eqb_spec j i) as [-> | NE]; [|reflexivity].
  cbn [orb]. destruct (nmem i l) eqn:E; [apply nmem_in in E; tauto|]. reflexivity.
Qed.

(** What a visit does: it adds the infos [ts], and the lines [bs] to those of the clauses it is in. *)
Definition visited (v v' : vst) (bs : list Z) (ts : list tryexc) : Prop :=
  stack v' = stack v /\ in_except_at v' = in_except_at v /\ nxt v <= nxt v' /\
  (forall j, j < nxt v -> hp v' j = adds (nmem j (in_except_at v)) bs (hp v j)) /\
  exists ids, infos_at v' = ids ++ infos_at v /\ (forall i, In i ids -> nxt v <= i < nxt v') /\
    map (fun i => seen_as (hp v' i)) ids = ts.
Definition good (v : vst) : Prop := NoDup (in_except_at v) /\ forall j, In j (in_except_at v) -> j < nxt v.

Lemma visited_good v v' bs ts : good v -> visited v v' bs ts -> good v'.
Proof. intros [A B] (_ & E & L & _). unfold good. rewrite E. split; [exact A|]. intros j J. specialize (B j J). lia. Qed.

Lemma visited_refl v : visited v v [] [].
Proof.
  repeat split; auto.
  - intros j _. rewrite adds_nil. reflexivity.
  - exists []. repeat split; try reflexivity; destruct H.
Qed.

Lemma visited_trans v v1 v2 b1 b2 t1 t2 : good v -> visited v v1 b1 t1 -> visited v1 v2 b2 t2 -> visited v v2 (b1 ++ b2) (t2 ++ t1).
Proof.
  intros [_ G] (S1 & I1 & N1 & H1 & ids1 & E1 & R1 & M1) (S2 & I2 & N2 & H2 & ids2 & E2 & R2 & M2).
  split; [congruence|]. split; [congruence|]. split; [lia|]. split.
  - intros j J. rewrite H2 by lia. rewrite H1 by lia. rewrite I1. apply adds_adds.
  - exists (ids2 ++ ids1). split; [rewrite E2, E1; apply app_assoc|]. split.
    + intros i I. apply in_app_or in I. destruct I as [I | I]; [specialize (R2 i I)|specialize (R1 i I)]; lia.
    + rewrite map_app, M2. f_equal. rewrite <- M1. apply map_ext_in. intros i I. specialize (R1 i I). rewrite H2 by lia.
      destruct (nmem i (in_except_at v1)) eqn:Q; [|reflexivity]. apply nmem_in in Q. rewrite I1 in Q. specialize (G i Q). lia.
Qed.

(** What the clauses do to the info of their try statement. *)
Definition clause (h : hands) (x : info) : info :=
  match h with
  | HNil => x
  | HCons n _ _ _ => Info (f_try x) false (if Z.eqb (f_except x) (-1) then n else f_except x) (last_h 0 h) (f_raises x ++ bares_h h)
  end.

(** The same for the clauses of the try statement at [i]. *)
Definition visited_h (v v' : vst) (i : nat) (h : hands) (ts : list tryexc) : Prop :=
  stack v' = stack v /\ in_except_at v' = in_except_at v /\ nxt v <= nxt v' /\
  (forall j, j < nxt v -> j <> i -> hp v' j = adds (nmem j (in_except_at v)) (bares_h h) (hp v j)) /\
  hp v' i = clause h (hp v i) /\
  exists ids, infos_at v' = ids ++ infos_at v /\ (forall j, In j ids -> nxt v <= j < nxt v') /\
    map (fun j => seen_as (hp v' j)) ids = ts.

Lemma hset_same p i x : hset p i x i = x.
Proof. unfold hset. rewrite Nat.eqb_refl. reflexivity. Qed.
Lemma hset_other p i x j : j <> i -> hset p i x j = p j.
Proof. unfold hset. destruct (Nat.eqb_spec j i); [congruence|reflexivity]. Qed.

Lemma visit_ok :
  (forall s lo v, lay_s lo s -> (0 <= lo)%Z -> starless_s s -> good v ->
     exists v', visit_s s v = Some v' /\ visited v v' (bares_s s) (tries_s true s)) /\
  (forall b lo v, lay_b lo b -> (0 <= lo)%Z -> starless_b b -> good v ->
     exists v', visit_b b v = Some v' /\ visited v v' (bares_b b) (tries_b true b)) /\
  (forall h lo v i st, lay_h lo h -> (0 <= lo)%Z -> starless_h h -> good v -> stack v = i :: st -> i < nxt v -> ~ In i (in_except_at v) ->
     exists v', visit_h h v = Some v' /\ visited_h v v' i h (tries_h true h)).
Proof.
  apply syntax_ind.
  - intros n m lo v _ _ _ _. exists v. split; [reflexivity|apply visited_refl].
  - intros n lo v _ _ _ [D G]. eexists. split; [reflexivity|]. cbn [bares_s tries_s]. repeat split; auto.
    + intros j J. cbn [hp]. apply bare_fold. exact D.
    + exists []. repeat split; try reflexivity; destruct H.
  - intros n m lo v _ _ _ _. exists v. split; [reflexivity|apply visited_refl].
  - intros n b IH lo v [A B] Z0 S G. cbn [visit_s bares_s tries_s]. apply (IH n); auto; lia.
  - intros n b IHb c IHc lo v (A & B & C) Z0 (S1 & S2) G. cbn [visit_s bares_s tries_s].
    destruct (IHb n v B ltac:(lia) S1 G) as (v1 & E1 & V1). rewrite E1. cbn [bind].
    pose proof (last_b_le _ _ B). destruct (IHc _ v1 C ltac:(lia) S2 (visited_good _ _ _ _ G V1)) as (v2 & E2 & V2).
    exists v2. split; [exact E2|]. eapply visited_trans; eassumption.
  - intros s n b IH lo v [A B] Z0 S G. cbn [visit_s bares_s tries_s]. apply (IH n); auto; lia.
  - intros star n b IHb h IHh o IHo f IHf lo v (A & B & C & D & E) Z0 (-> & S1 & S2 & S3 & S4) G.
    pose proof (last_b_le _ _ B) as LB. pose proof (last_h_le _ _ C) as LC. pose proof (last_b_le _ _ D) as LD.
    cbn [visit_s bares_s tries_s]. set (i := nxt v). set (v0 := Vst (hset (hp v) i (Info n true (-1) (-1) [])) (S i) (infos_at v) (i :: stack v) (in_except_at v)).
    assert (G0 : good v0). { destruct G as [G1 G2]. split; [exact G1|]. intros j J. specialize (G2 j J). cbn [nxt v0]. lia. }
    destruct (IHb n v0 B ltac:(lia) S1 G0) as (v1 & E1 & V1). rewrite E1. cbn [bind]. pose proof (visited_good _ _ _ _ G0 V1) as G1.
    assert (NI : ~ In i (in_except_at v0)). { intros J. destruct G as [_ G]. specialize (G i J). unfold i in G. lia. }
    destruct V1 as (T1 & X1 & N1 & H1 & ids1 & I1 & R1 & M1). cbn [v0 stack in_except_at nxt infos_at] in T1, X1, N1, H1, I1, R1.
    destruct (IHh _ v1 i (stack v) C ltac:(lia) S2 G1 T1 ltac:(lia) ltac:(rewrite X1; exact NI)) as (v2 & E2 & V2).
    rewrite E2. cbn [bind]. destruct V2 as (T2 & X2 & N2 & H2 & Hi & ids2 & I2 & R2 & M2).
    assert (G2 : good v2). { destruct G1 as [P Q]. split; [rewrite X2; exact P|]. intros j J. rewrite X2 in J. specialize (Q j J). lia. }
    destruct (IHo _ v2 D ltac:(lia) S3 G2) as (v3 & E3 & V3). rewrite E3. cbn [bind]. pose proof (visited_good _ _ _ _ G2 V3) as G3.
    destruct V3 as (T3 & X3 & N3 & H3 & ids3 & I3 & R3 & M3).
    destruct (IHf _ v3 E ltac:(lia) S4 G3) as (v4 & E4 & V4). rewrite E4. cbn [bind]. destruct V4 as (T4 & X4 & N4 & H4 & ids4 & I4 & R4 & M4).
    eexists. split; [reflexivity|].
    assert (NM : nmem i (in_except_at v) = false). { destruct (nmem i (in_except_at v)) eqn:Q; [|reflexivity]. apply nmem_in in Q. destruct (NI Q). }
    assert (HI : hp v4 i = clause h (Info n true (-1) (-1) [])).
    { rewrite H4 by lia. rewrite H3 by lia. rewrite Hi. rewrite H1 by lia. rewrite X3, X2, X1. cbn [v0 hp]. rewrite hset_same, NM. reflexivity. }
    assert (OLD : forall j, j < nxt v -> hp v4 j = adds (nmem j (in_except_at v)) (bares_b b ++ bares_h h ++ bares_b o ++ bares_b f) (hp v j)).
    { intros j J. rewrite H4 by lia. rewrite H3 by lia. rewrite H2 by (unfold i; lia). rewrite H1 by (unfold i; lia). rewrite X3, X2, X1. cbn [v0 hp].
      rewrite hset_other by (unfold i; lia). rewrite !adds_adds, ?app_assoc. reflexivity. }
    assert (KEEP : forall l, (forall j, In j l -> S i <= j < nxt v1) -> map (fun j => seen_as (hp v4 j)) l = map (fun j => seen_as (hp v1 j)) l).
    { intros l L. apply map_ext_in. intros j J. specialize (L j J). rewrite H4 by lia. rewrite H3 by lia. rewrite H2 by lia. rewrite X3, X2, X1.
      destruct (nmem j (in_except_at v)) eqn:Q; [|reflexivity]. apply nmem_in in Q. destruct G as [_ G]. specialize (G j Q). unfold i in L. lia. }
    assert (KEEP2 : map (fun j => seen_as (hp v4 j)) ids2 = map (fun j => seen_as (hp v2 j)) ids2).
    { apply map_ext_in. intros j J. specialize (R2 j J). rewrite H4 by lia. rewrite H3 by lia. rewrite X3, X2, X1.
      destruct (nmem j (in_except_at v)) eqn:Q; [|reflexivity]. apply nmem_in in Q. destruct G as [_ G]. specialize (G j Q). unfold i in *. lia. }
    assert (KEEP3 : map (fun j => seen_as (hp v4 j)) ids3 = map (fun j => seen_as (hp v3 j)) ids3).
    { apply map_ext_in. intros j J. specialize (R3 j J). rewrite H4 by lia. rewrite X3, X2, X1.
      destruct (nmem j (in_except_at v)) eqn:Q; [|reflexivity]. apply nmem_in in Q. destruct G as [_ G]. specialize (G j Q). unfold i in *. lia. }
    set (J := ids4 ++ ids3 ++ ids2 ++ ids1).
    assert (MJ : map (fun j => seen_as (hp v4 j)) J = tries_b true f ++ tries_b true o ++ tries_h true h ++ tries_b true b).
    { unfold J. rewrite !map_app, M4, KEEP3, M3, KEEP2, M2, KEEP by exact R1. rewrite M1. reflexivity. }
    assert (IJ : infos_at v4 = J ++ infos_at v).
    { unfold J. rewrite I4, I3, I2, I1, <- !app_assoc. reflexivity. }
    assert (RJ : forall j, In j J -> S i <= j < nxt v4).
    { intros j Q. unfold J in Q. rewrite !in_app_iff in Q. destruct Q as [Q | [Q | [Q | Q]]];
        [specialize (R4 j Q)|specialize (R3 j Q)|specialize (R2 j Q)|specialize (R1 j Q)]; lia. }
    unfold visited. cbn [stack in_except_at nxt hp infos_at]. rewrite T4, T3, T2, T1, X4, X3, X2, X1. cbn [tl].
    split; [reflexivity|]. split; [reflexivity|]. split; [unfold i in *; lia|]. split; [exact OLD|].
    rewrite HI. destruct h as [|e al d h'].
    + exists J. cbn [clause f_ignore own app]. split; [exact IJ|]. split; [|exact MJ]. intros j Q. specialize (RJ j Q). unfold i in *. lia.
    + exists (i :: J). cbn [clause f_ignore own app map]. split; [rewrite IJ; reflexivity|]. split.
      * intros j [<- | Q]; [unfold i in *; lia|]. specialize (RJ j Q). unfold i in *. lia.
      * rewrite HI, MJ. unfold seen_as. cbn [clause f_try f_except f_end f_raises Z.eqb]. f_equal. f_equal. rewrite !last_hcons. reflexivity.
  - intros lo v _ _ _ _. exists v. split; [reflexivity|apply visited_refl].
  - intros s IHs b IHb lo v (A & B) Z0 (S1 & S2) G. cbn [visit_b bares_b tries_b].
    destruct (IHs lo v A ltac:(lia) S1 G) as (v1 & E1 & V1). rewrite E1. cbn [bind].
    pose proof (last_s_lt _ _ A). destruct (IHb _ v1 B ltac:(lia) S2 (visited_good _ _ _ _ G V1)) as (v2 & E2 & V2).
    exists v2. split; [exact E2|]. eapply visited_trans; eassumption.
  - intros lo v i st _ _ _ _ _ _ _. exists v. split; [reflexivity|]. unfold visited_h. cbn [clause bares_h tries_h]. repeat split; auto.
    + intros j _ _. rewrite adds_nil. reflexivity.
    + exists []. repeat split; try reflexivity; destruct H.
  - intros n al b IHb h IHh lo v i st (A & _ & B & C) Z0 (S1 & S2) G T LT NI. cbn [visit_h bares_h tries_h]. rewrite T.
    pose proof (last_b_le _ _ B).
    set (v0 := Vst (hset (hp v) i (enter n (hp v i))) (nxt v) (infos_at v) (i :: st) (i :: in_except_at v)).
    assert (G0 : good v0). { destruct G as [G1 G2]. split; [constructor; assumption|]. intros j [<- | J]; [exact LT|exact (G2 j J)]. }
    destruct (IHb n v0 B ltac:(lia) S1 G0) as (v1 & E1 & V1). rewrite E1. cbn [bind].
    destruct V1 as (T1 & X1 & N1 & H1 & ids1 & I1 & R1 & M1). cbn [v0 stack in_except_at nxt infos_at] in T1, X1, N1, H1, I1, R1.
    set (v2 := Vst (hset (hp v1) i (leave (last_b n b) (hp v1 i))) (nxt v1) (infos_at v1) (stack v1) (tl (in_except_at v1))).
    assert (X2 : in_except_at v2 = in_except_at v) by (unfold v2; cbn [in_except_at]; rewrite X1; reflexivity).
    assert (G2 : good v2). { destruct G as [P Q]. split; [rewrite X2; exact P|]. intros j J. rewrite X2 in J. specialize (Q j J). unfold v2. cbn [nxt]. lia. }
    destruct (IHh _ v2 i st C ltac:(lia) S2 G2 T1 ltac:(unfold v2; cbn [nxt]; lia) ltac:(rewrite X2; exact NI)) as (v3 & E3 & V3).
    exists v3. split; [exact E3|]. destruct V3 as (T3 & X3 & N3 & H3 & Hi & ids3 & I3 & R3 & M3).
    unfold v2 in T3, N3, H3, Hi, I3, R3. cbn [stack in_except_at nxt hp infos_at] in T3, N3, H3, Hi, I3, R3. rewrite X1 in H3. cbn [tl] in H3.
    unfold visited_h. split; [congruence|]. split; [congruence|]. split; [lia|]. split; [|split].
    + intros j J NE. rewrite H3 by lia. rewrite hset_other by exact NE. rewrite H1 by lia. cbn [v0 hp]. rewrite hset_other by exact NE.
      unfold nmem at 2. cbn [existsb]. rewrite (proj2 (Nat.eqb_neq j i) NE). cbn [orb]. apply adds_adds.
    + rewrite Hi, hset_same, H1 by lia. cbn [v0 hp]. rewrite hset_same. unfold nmem. cbn [existsb]. rewrite Nat.eqb_refl. cbn [orb].
      unfold adds, leave, enter. cbn [clause f_try f_ignore f_except f_end f_raises bares_h]. rewrite last_hcons. destruct h as [|n2 al2 b2 h2].
      * cbn [clause last_h bares_h]. rewrite app_nil_r. reflexivity.
      * cbn [clause f_try f_except f_raises]. rewrite !last_hcons, <- app_assoc. f_equal.
        destruct (Z.eqb_spec (f_except (hp v i)) (-1)) as [Q | Q].
        -- destruct (Z.eqb_spec n (-1)); [lia|reflexivity].
        -- destruct (Z.eqb_spec (f_except (hp v i)) (-1)); [congruence|reflexivity].
    + exists (ids3 ++ ids1). split; [rewrite I3, I1; apply app_assoc|]. split.
      * intros j J. apply in_app_or in J. destruct J as [J | J]; [specialize (R3 j J)|specialize (R1 j J)]; lia.
      * rewrite map_app, M3. f_equal. rewrite <- M1. apply map_ext_in. intros j J. specialize (R1 j J). rewrite H3 by lia.
        rewrite hset_other by lia. destruct (nmem j (in_except_at v)) eqn:Q; [|reflexivity]. apply nmem_in in Q. destruct G as [_ G].
        specialize (G j Q). lia.
Qed.

(** ** Proofs: the code objects of a module *)

Lemma max_spec l : forall m, (m <= fold_left (fun m x => if (m <? x)%Z then x else m) l m)%Z /\
  (forall x, In x l -> (x <= fold_left (fun m x => if (m <? x)%Z then x else m) l m)%Z) /\
  (fold_left (fun m x => if (m <? x)%Z then x else m) l m = m \/ In (fold_left (fun m x => if (m <? x)%Z then x else m) l m) l).
Proof.
  induction l as [|y l IH]; intros m; cbn [fold_left]; [split; [lia|]; split; [intros x []|auto]|].
  destruct (IH (if (m <? y)%Z then y else m)) as (A & B & C). destruct (Z.ltb_spec m y).
  - split; [lia|]. split; [intros x [<- | X]; [exact A|auto]|]. right. destruct C as [-> | C]; [left; reflexivity|right; exact C].
  - split; [lia|]. split; [intros x [<- | X]; [lia|auto]|]. destruct C as [C | C]; [auto|right; right; exact C].
Qed.
Lemma min_spec l : forall m, (fold_left (fun m x => if (x <? m)%Z then x else m) l m <= m)%Z /\
  (forall x, In x l -> (fold_left (fun m x => if (x <? m)%Z then x else m) l m <= x)%Z) /\
  (fold_left (fun m x => if (x <? m)%Z then x else m) l m = m \/ In (fold_left (fun m x => if (x <? m)%Z then x else m) l m) l).
Proof.
  induction l as [|y l IH]; intros m; cbn [fold_left]; [split; [lia|]; split; [intros x []|auto]|].
  destruct (IH (if (y <? m)%Z then y else m)) as (A & B & C). destruct (Z.ltb_spec y m).
  - split; [lia|]. split; [intros x [<- | X]; [exact A|auto]|]. right. destruct C as [-> | C]; [left; reflexivity|right; exact C].
  - split; [lia|]. split; [intros x [<- | X]; [lia|auto]|]. destruct C as [C | C]; [auto|right; right; exact C].
Qed.

Lemma lines_bounds :
  (forall s lo x, lay_s lo s -> In x (lines_s s) -> (lo < x <= last_s s)%Z) /\
  (forall b lo x, lay_b lo b -> In x (lines_b b) -> (lo < x <= last_b lo b)%Z) /\
  (forall h lo x, lay_h lo h -> In x (lines_h h) -> (lo < x <= last_h lo h)%Z).
Proof.
  apply syntax_ind; intros; rewrite ?last_cons, ?last_hcons in *; cbn [lay_s lay_b lay_h lines_s lines_b lines_h last_s In] in *;
    rewrite ?in_app_iff in *; cbn [In] in *; split_all; bnd; cases_all; subst; try lia;
    match goal with H : forall lo x, _ -> In x ?b -> _, A : In _ ?b, L : _ |- _ => specialize (H _ _ L A); lia end.
Qed.

Lemma tries_lines :
  (forall s t, In t (tries_s false s) -> In (t_try t) (lines_s s)) /\
  (forall b t, In t (tries_b false b) -> In (t_try t) (lines_b b)) /\
  (forall h t, In t (tries_h false h) -> In (t_try t) (lines_h h)).
Proof.
  assert (O : forall n b h t, In t (own n b h) -> t_try t = n) by (intros n b [|e al d h'] t I; [destruct I|destruct I as [<- | []]; reflexivity]).
  apply syntax_ind; intros; cbn [tries_s tries_b tries_h lines_s lines_b lines_h In] in *; rewrite ?in_app_iff in *;
    cases_all; auto 7. apply O in H3. auto.
Qed.

Lemma code_bounds :
  (forall s lo n b, lay_s lo s -> In (n, b) (code_s s) -> (lo < n)%Z /\ lay_b n b /\ (last_b n b <= last_s s)%Z) /\
  (forall d lo n b, lay_b lo d -> In (n, b) (code_b d) -> (lo < n)%Z /\ lay_b n b /\ (last_b n b <= last_b lo d)%Z) /\
  (forall h lo n b, lay_h lo h -> In (n, b) (code_h h) -> (lo < n)%Z /\ lay_b n b /\ (last_b n b <= last_h lo h)%Z).
Proof.
  apply syntax_ind; intros; rewrite ?last_cons, ?last_hcons in *; cbn [lay_s lay_b lay_h code_s code_b code_h last_s In] in *;
    rewrite ?in_app_iff in *; cbn [In] in *; split_all; bnd; cases_all;
    try (match goal with E : (_, _) = (_, _) |- _ => injection E as -> ->; split; [lia|]; split; [assumption|lia] end);
    match goal with H : forall lo n b, _ -> In (n, b) ?c -> _, A : In _ ?c, L : _ |- _ =>
      specialize (H _ _ _ L A); destruct H as (? & ? & ?); split; [lia|]; split; [assumption|lia] end.
Qed.

(** The try statements at the lines of a code object are the ones in it. *)
Lemma code_tries :
  (forall s lo n b t, lay_s lo s -> In (n, b) (code_s s) -> In t (tries_s true s) -> (n <= t_try t <= last_b n b)%Z -> In t (tries_b true b)) /\
  (forall d lo n b t, lay_b lo d -> In (n, b) (code_b d) -> In t (tries_b true d) -> (n <= t_try t <= last_b n b)%Z -> In t (tries_b true b)) /\
  (forall h lo n b t, lay_h lo h -> In (n, b) (code_h h) -> In t (tries_h true h) -> (n <= t_try t <= last_b n b)%Z -> In t (tries_b true b)).
Proof.
  assert (O : forall n b h t, In t (own n b h) -> t_try t = n) by (intros n b [|e al d h'] t I; [destruct I|destruct I as [<- | []]; reflexivity]).
  destruct code_bounds as (CS & CB & CH).
  apply syntax_ind; intros; cbn [lay_s lay_b lay_h code_s code_b code_h tries_s tries_b tries_h In] in *;
    rewrite ?in_app_iff in *; cbn [In] in *; cases_all; split_all;
    try (match goal with E : (_, _) = (_, _) |- _ => injection E as -> ->; assumption end);
    try (match goal with H : forall lo n b t, _ -> In (n, b) ?c -> In t ?d -> _, A : In _ ?c, B : In _ ?d, L : _ |- _ =>
      solve [refine (H _ _ _ _ L A B _); lia] end);
    repeat match goal with
    | A : In _ (code_b ?c), L : lay_b _ ?c |- _ => apply (CB _ _ _ _ L) in A
    | A : In _ (code_h ?c), L : lay_h _ ?c |- _ => apply (CH _ _ _ _ L) in A
    | A : In _ (code_s ?c), L : lay_s _ ?c |- _ => apply (CS _ _ _ _ L) in A
    | A : In _ (own _ _ _) |- _ => apply O in A
    end; bnd; facts; exfalso; unfold within in *; split_all; lia.
Qed.

Lemma verdict is l r raised : is_unhandled is l r raised =
  zmem l raised || negb (existsb (fun t => in_try t r) is) ||
  existsb (fun t => in_except t l && (Z.eqb l (t_except t) || zmem l (t_raises t))) is.
Proof.
  unfold is_unhandled. destruct (zmem l raised); [reflexivity|]. destruct is as [|t is]; [reflexivity|].
  destruct (existsb (fun t => in_try t r) (t :: is)); reflexivity.
Qed.
Lemma zmem_in x l : zmem x l = true <-> In x l.
Proof.
  unfold zmem. rewrite existsb_exists. split.
  - intros (y & I & E). apply Z.eqb_eq in E. subst. exact I.
  - intros I. exists x. split; [exact I|apply Z.eqb_refl].
Qed.

Lemma reported_eq is r l : reported is r l = match r with [] => false | _ => is_unhandled is l (last r 0%Z) (rev r) end.
Proof.
  unfold reported. rewrite fold_left_app.
  assert (F : forall r t, fold_left (tracer_step is) (map EExc r) t =
    Tracer (match r with [] => tr_exc t | _ => true end) (rev r ++ tr_lines t) (match r with [] => tr_last t | _ => last r 0%Z end) (tr_reported t)).
  { clear. induction r as [|x r IH]; intros t; [destruct t; reflexivity|]. cbn [map fold_left tracer_step rev]. rewrite IH.
    cbn [tr_exc tr_lines tr_last tr_reported]. rewrite <- app_assoc. destruct r; reflexivity. }
  rewrite F. cbn [fold_left tracer_step tr_exc tr_lines tr_last tr_reported]. rewrite app_nil_r. destruct r; reflexivity.
Qed.

(** ** Theorems *)

(** The code objects of a module: the one of the module itself, and those of its functions and classes. *)
Definition codes (m : block) : list (Z * block) := (0%Z, m) :: code_b m.

(** The visitor finds exactly the try statements with except clauses, each with the line of the try, the line of the
    first clause, the line where the clauses end, and the lines of raise without argument in them. *)
Theorem collected_exact m : lay_b 0 m -> starless_b m -> collect m = Some (tries_b true m).
Proof.
  intros L S. unfold collect.
  destruct (proj1 (proj2 visit_ok) m 0%Z (Vst (fun _ => blank) 0 [] [] []) L ltac:(lia) S) as (v & -> & _ & _ & _ & _ & ids & E & _ & M).
  - split; [constructor|intros j []].
  - rewrite E. cbn [infos_at]. rewrite app_nil_r, M. reflexivity.
Qed.

(** For a code object of it those are kept which are in it, perhaps not all of those in code inside it. *)
Theorem code_infos_exact big m n b : lay_b 0 m -> starless_b m -> (last_b 0 m < big)%Z -> In (n, b) (codes m) ->
  let is := code_infos big (Some m) (n :: lines_b b) in
  (forall t, In t (tries_b false b) -> In t is) /\ (forall t, In t is -> In t (tries_b true b)).
Proof.
  intros L S BIG C. cbv zeta.
  assert (F : forall l, code_infos big (Some m) l =
    filter (fun t => (min_line big l <=? t_try t)%Z && (t_try t <=? max_line l)%Z) (tries_b true m)).
  { intros l. unfold code_infos. rewrite (collected_exact m L S). destruct (tries_b true m); reflexivity. }
  rewrite F. clear F.
  assert (Q : (0 <= n)%Z /\ lay_b n b /\ (last_b n b <= last_b 0 m)%Z).
  { destruct C as [E | C]; [injection E as <- <-; split; [lia|split; [exact L|lia]]|].
    destruct (proj1 (proj2 code_bounds) _ _ _ _ L C) as (A & B & D). split; [lia|auto]. }
  destruct Q as (Q0 & QL & Q1). pose proof (last_b_le _ _ QL) as Q2.
  assert (MIN : min_line big (n :: lines_b b) = n).
  { unfold min_line. destruct (min_spec (n :: lines_b b) big) as (A & B & D). specialize (B n (or_introl eq_refl)).
    set (k := fold_left _ _ big) in *. destruct D as [D | [D | D]]; [lia|auto|].
    apply (proj1 (proj2 lines_bounds) _ _ _ QL) in D. lia. }
  assert (MAX : forall x, In x (lines_b b) -> (x <= max_line (n :: lines_b b))%Z).
  { intros x X. unfold max_line. destruct (max_spec (n :: lines_b b) (-1)%Z) as (_ & B & _). apply B. right. exact X. }
  assert (TOP : (max_line (n :: lines_b b) <= last_b n b)%Z).
  { unfold max_line. destruct (max_spec (n :: lines_b b) (-1)%Z) as (A & B & D). set (k := fold_left _ _ (-1)%Z) in *.
    destruct D as [D | [D | D]]; [lia|lia|]. apply (proj1 (proj2 lines_bounds) _ _ _ QL) in D. lia. }
  assert (SUB : forall t, In t (tries_b true b) -> In t (tries_b true m)).
  { destruct C as [E | C]; [injection E as <- <-; auto|]. clear - C. intros t T. revert n b t C T.
    assert (X : (forall s n b t, In (n, b) (code_s s) -> In t (tries_b true b) -> In t (tries_s true s)) /\
                (forall m n b t, In (n, b) (code_b m) -> In t (tries_b true b) -> In t (tries_b true m)) /\
                (forall h n b t, In (n, b) (code_h h) -> In t (tries_b true b) -> In t (tries_h true h))).
    { apply syntax_ind; intros; cbn [code_s code_b code_h tries_s tries_b tries_h In] in *; rewrite ?in_app_iff in *; cases_all;
        try (match goal with E : (_, _) = (_, _) |- _ => injection E as -> ->; assumption end);
        match goal with H : forall n b t, In (n, b) ?c -> _ -> _, A : In _ ?c |- _ => pose proof (H _ _ _ A ltac:(eassumption)); tauto end. }
    exact (proj1 (proj2 X) m). }
  split.
  - intros t T. apply filter_In. split; [apply SUB, shallow_deep, T|]. rewrite MIN, andb_true_iff, !Z.leb_le.
    pose proof (proj1 (proj2 tries_lines) _ _ T) as I. specialize (MAX _ I). apply (proj1 (proj2 lines_bounds) _ _ _ QL) in I. lia.
  - intros t T. apply filter_In in T. destruct T as [T R]. rewrite MIN, andb_true_iff, !Z.leb_le in R.
    destruct C as [E | C]; [injection E as <- <-; exact T|].
    apply (proj1 (proj2 code_tries) m 0%Z n b t L C T). lia.
Qed.

(** The decision for lines of the code itself depends on its own try statements only. *)
Lemma verdict_own n b is l r raised : lay_b n b -> (l = n \/ at_b b l) -> at_b b r ->
  (forall t, In t (tries_b false b) -> In t is) -> (forall t, In t is -> In t (tries_b true b)) ->
  is_unhandled is l r raised = is_unhandled (tries_b false b) l r raised.
Proof.
  intros L AL AR SUB SUP. rewrite !verdict.
  assert (X : forall (p : tryexc -> bool) x, (x = n \/ at_b b x) -> (forall t, In t is -> p t = true -> covers t x) ->
    existsb p is = existsb p (tries_b false b)).
  { intros p x AX CV. apply eq_iff_eq_true. rewrite !existsb_exists. split; intros (t & T & E); exists t; split; auto.
    destruct AX as [-> | AX]; [|exact (proj1 (proj2 shallow_only) _ _ _ _ L AX (SUP t T) (CV t T E))].
    specialize (CV t T E). specialize (SUP t T). facts. exfalso. unfold within, covers in *. lia. }
  rewrite (X (fun t => in_try t r) r), (X (fun t => in_except t l && _) l); auto.
  - intros t T E. apply andb_true_iff in E. destruct E as [E _]. apply in_except_iff in E. specialize (SUP t T). facts.
    unfold within, covers in *. lia.
  - intros t T E. apply in_try_iff in E. specialize (SUP t T). facts. unfold within, covers in *. lia.
Qed.

(** A run of a code object: without an exception being handled, from its first line. *)
Definition runs (m : block) (n : Z) (b : block) (r : list Z) (o : out) (l : Z) : Prop :=
  lay_b 0 m /\ starless_b m /\ In (n, b) (codes m) /\ exec_b false n b r o l.

Lemma runs_verdict big m n b r o l : runs m n b r o l -> (last_b 0 m < big)%Z -> lay_b n b /\
  reported (code_infos big (Some m) (n :: lines_b b)) r l = match r with [] => false | _ => is_unhandled (tries_b false b) l (last r 0%Z) (rev r) end.
Proof.
  intros (L & S & C & X) BIG.
  assert (LB : lay_b n b).
  { destruct C as [E | C]; [injection E as <- <-; exact L|]. apply (proj1 (proj2 code_bounds) _ _ _ _ L C). }
  split; [exact LB|]. rewrite reported_eq. destruct (code_infos_exact big m n b L S BIG C) as [A B].
  destruct (proj1 (proj2 exec_at) _ _ _ _ _ _ X) as [P Q]. destruct r as [|x r]; [reflexivity|].
  apply (verdict_own n b); auto. apply P, last_in_list. discriminate.
Qed.

(** An exception which leaves the code is reported. *)
Theorem leaving_reported big m n b r l : runs m n b r Exc l -> (last_b 0 m < big)%Z -> plain_b false b ->
  reported (code_infos big (Some m) (n :: lines_b b)) r l = true.
Proof.
  intros R BIG P. destruct (runs_verdict big m n b r Exc l R BIG) as [LB ->]. destruct R as (_ & _ & _ & X).
  pose proof (proj1 (proj2 exec_fresh) _ _ _ _ _ _ X eq_refl eq_refl) as N0.
  destruct r as [|x r]; [congruence|]. rewrite verdict, !orb_true_iff.
  destruct (proj1 (proj2 exec_leaving) _ _ _ _ _ _ X n LB P eq_refl) as [I | [(t & T & E & K) | [[A _] | [_ O]]]].
  - left. left. apply zmem_in. apply -> in_rev. exact I.
  - right. apply existsb_exists. exists t. split; [exact T|]. rewrite E, andb_true_l, orb_true_iff, Z.eqb_eq, zmem_in. exact K.
  - discriminate.
  - left. right. apply negb_true_iff. destruct (existsb _ _) eqn:E; [|reflexivity]. apply existsb_exists in E.
    destruct E as (t & T & E). rewrite (O t T) in E. discriminate.
Qed.

(** A return is not reported, whatever exceptions were handled before, unless the line it returns from raised one of
    them. *)
Theorem return_quiet big m n b r o l : runs m n b r o l -> (last_b 0 m < big)%Z -> clauses_b b -> o <> Exc -> ~ In l r ->
  reported (code_infos big (Some m) (n :: lines_b b)) r l = false.
Proof.
  intros R BIG P NE NI. destruct (runs_verdict big m n b r o l R BIG) as [LB ->]. destruct R as (_ & _ & _ & X).
  destruct r as [|x r]; [reflexivity|]. rewrite verdict, !orb_false_iff.
  destruct (proj1 (proj2 exec_handled) _ _ _ _ _ _ X n LB P NE) as [A B]. split; [split|].
  - destruct (zmem l (rev (x :: r))) eqn:E; [|reflexivity]. apply zmem_in in E. apply in_rev in E. destruct (NI E).
  - apply negb_false_iff, existsb_exists. apply A, last_in_list. discriminate.
  - destruct (existsb _ _) eqn:E; [|reflexivity]. apply existsb_exists in E. destruct E as (t & T & E).
    apply andb_true_iff in E. destruct E as [E1 E2]. apply orb_true_iff in E2. rewrite Z.eqb_eq, zmem_in in E2.
    destruct B as [B | [-> _]]; [|destruct T].
    destruct (proj1 (proj2 calm_no_clause) _ _ _ _ LB B T) as [C D]. destruct E2; tauto.
Qed.

(** Both. *)
Theorem report_exact big m n b r o l : runs m n b r o l -> (last_b 0 m < big)%Z -> plain_b false b -> clauses_b b ->
  (o <> Exc -> ~ In l r) -> (reported (code_infos big (Some m) (n :: lines_b b)) r l = true <-> o = Exc).
Proof.
  intros R BIG P C NI. split.
  - intros E. destruct o; [exfalso|exfalso|reflexivity]; rewrite (return_quiet _ _ _ _ _ _ _ R BIG C) in E; try discriminate; apply NI; discriminate.
  - intros ->. exact (leaving_reported _ _ _ _ _ _ R BIG P).
Qed.

(** Without a source which can be read, every call in which exceptions were seen is reported. *)
Theorem no_source_reported big ls r l : reported (code_infos big None ls) r l = true <-> r <> [].
Proof.
  rewrite reported_eq. cbn [code_infos]. destruct r; [split; congruence|]. rewrite verdict. cbn [existsb negb]. rewrite orb_true_r.
  split; [discriminate|reflexivity].
Qed.

(** ** Examples and what does not hold *)

Fixpoint blk (l : list stmt) : block := match l with [] => BNil | s :: l' => BCons s (blk l') end.
Definition line (n : Z) : stmt := Simple n n.
Definition ret (n : Z) : stmt := Leave n n.
Definition big0 : Z := 1000%Z.
(** def at line 1 with the body [b] *)
Definition func (b : list stmt) : block := blk [Def 1 (blk b)].
Notation told b r l := (reported (code_infos big0 (Some (func b)) (1%Z :: lines_b (blk b))) r l).

Ltac ready := split; [cbn; repeat split; try lia; discriminate|split; [cbn; tauto|split; [right; left; reflexivity|]]].
Lemma x_one a cur s r o l : exec_s a s r o l -> exec_b a cur (BCons s BNil) r o l.
Proof.
  intros X. destruct o; [|apply x_cons_out; [exact X|discriminate]..].
  rewrite <- (app_nil_r r). eapply x_cons; [exact X|apply x_nil].
Qed.

(** A try statement inside another one: no clause of the inner one matches, the outer one raises again or not. *)
Definition nested (s : stmt) : list stmt :=
  [Try false 2 (blk [Try false 3 (blk [line 4]) (HCons 5 false (blk [line 6]) HNil) BNil BNil]) (HCons 7 true (blk [s]) HNil) BNil BNil].

Lemma nested_run s o l : exec_s true s [] o l -> exec_b false 1 (blk (nested s)) [4%Z] o l.
Proof.
  intros X. apply x_one. apply x_try. apply (x_except _ _ _ _ _ [4%Z] 5%Z []); [|discriminate|apply x_match, x_one, X].
  apply x_one. apply x_try. apply (x_except _ _ _ _ _ [4%Z] 4%Z []); [|discriminate|apply x_no_match, x_none_left].
  apply x_one. constructor. lia.
Qed.

Example nested_case : runs (func (nested (Bare 8))) 1 (blk (nested (Bare 8))) [4%Z] Exc 8 /\
  runs (func (nested (line 8))) 1 (blk (nested (line 8))) [4%Z] Done 8 /\
  plain_b false (blk (nested (Bare 8))) /\ clauses_b (blk (nested (line 8))) /\
  told (nested (Bare 8)) [4%Z] 8 = true /\ told (nested (line 8)) [4%Z] 8 = false.
Proof.
  split; [ready; apply nested_run; constructor|]. split; [ready; apply nested_run; constructor; lia|].
  split; [cbn; tauto|]. split; [cbn; tauto|]. split; reflexivity.
Qed.

Example collected_case : collect (func (nested (Bare 8))) = Some [TryExc 2 7 8 [8%Z]; TryExc 3 5 6 []].
Proof. reflexivity. Qed.

(** An except clause on one line with its body: what it handles is reported. *)
Theorem one_line_refuted : exists b r l, exec_b false 1 (blk b) r Done l /\ clauses_b (blk b) /\ ~ In l r /\ told b r l = true.
Proof.
  exists [Try false 2 (blk [line 3]) (HCons 4 true (blk [line 4]) HNil) BNil BNil], [3%Z], 4%Z.
  split; [|split; [cbn; tauto|split; [intros [E | []]; discriminate|reflexivity]]].
  apply x_one, x_try. apply (x_except _ _ _ _ _ [3%Z] 3%Z []); [apply x_one; constructor; lia|discriminate|].
  apply x_match, x_one. constructor. lia.
Qed.

(** Returning from a line which raised an exception before, as a loop which tries again does, is reported. *)
Theorem retry_refuted : exists b r l, runs (func b) 1 (blk b) r Left l /\ clauses_b (blk b) /\ plain_b false (blk b) /\ told b r l = true.
Proof.
  exists [Block 2 (blk [Try false 3 (blk [ret 4]) (HCons 5 true (blk [line 6]) HNil) BNil BNil]) BNil], [4%Z], 4%Z.
  split; [|split; [cbn; tauto|split; [cbn; tauto|reflexivity]]]. ready.
  apply x_one. apply (x_loop_again _ _ _ _ (blk [Try false 3 (blk [ret 4]) (HCons 5 true (blk [line 6]) HNil) BNil BNil]) [4%Z] Done 6%Z []).
  - left. reflexivity.
  - apply x_one, x_try. apply (x_except _ _ _ _ _ [4%Z] 4%Z []); [apply x_one; constructor; lia|discriminate|].
    apply x_match, x_one. constructor. lia.
  - discriminate.
  - eapply x_branch; [left; reflexivity|]. apply x_one, x_try, x_body_left, x_one. constructor. lia.
Qed.

(** What a context manager swallows is reported. *)
Theorem suppressed_refuted : exists b r l, runs (func b) 1 (blk b) r Done l /\ ~ In l r /\ told b r l = true.
Proof.
  exists [With true 2 (blk [line 3])], [3%Z], 2%Z. split; [|split; [intros [E | []]; discriminate|reflexivity]]. ready.
  apply x_one. apply x_with_swallow with (l := 3%Z). apply x_one. constructor. lia.
Qed.

(** What return in a finally block drops is reported. *)
Theorem finally_return_refuted : exists b r l, runs (func b) 1 (blk b) r Left l /\ ~ In l r /\ told b r l = true.
Proof.
  exists [Try false 2 (blk [line 3]) HNil BNil (blk [ret 4])], [3%Z], 4%Z.
  split; [|split; [intros [E | []]; discriminate|reflexivity]]. ready.
  apply x_one. apply (x_finally_out _ _ _ _ _ _ _ [3%Z] Exc 3%Z []); [|discriminate| |discriminate].
  - apply x_no_except, x_one. constructor. lia.
  - apply x_one. constructor. lia.
Qed.

(** An exception which none of two clauses takes is not reported. *)
Theorem two_clauses_refuted : exists b r l, runs (func b) 1 (blk b) r Exc l /\ told b r l = false.
Proof.
  exists [Try false 2 (blk [line 3]) (HCons 4 false (blk [line 5]) (HCons 6 false (blk [line 7]) HNil)) BNil BNil], [3%Z], 6%Z.
  split; [|reflexivity]. ready. apply x_one, x_try.
  apply (x_except _ _ _ _ _ [3%Z] 3%Z []); [apply x_one; constructor; lia|discriminate|].
  apply x_no_match, x_no_match, x_none_left.
Qed.

(** An exception which no clause takes and which leaves through a finally block is not reported. *)
Theorem finally_missed_refuted : exists b r l, runs (func b) 1 (blk b) r Exc l /\ told b r l = false.
Proof.
  exists [Try false 2 (blk [line 3]) (HCons 4 false (blk [line 5]) HNil) BNil (blk [line 6])], [3%Z], 6%Z.
  split; [|reflexivity]. ready. apply x_one. apply (x_finally _ _ _ _ _ _ _ [3%Z] Exc 4%Z []); [|discriminate|].
  - apply (x_except _ _ _ _ _ [3%Z] 3%Z []); [apply x_one; constructor; lia|discriminate|]. apply x_no_match, x_none_left.
  - apply x_one. constructor. lia.
Qed.

(** Nor is one which a clause raises again through a finally block. *)
Theorem finally_again_refuted : exists b r l, runs (func b) 1 (blk b) r Exc l /\ told b r l = false.
Proof.
  exists [Try false 2 (blk [line 3]) (HCons 4 true (blk [Try false 5 (blk [Bare 6]) HNil BNil (blk [line 7])]) HNil) BNil BNil], [3%Z], 7%Z.
  split; [|reflexivity]. ready. apply x_one, x_try.
  apply (x_except _ _ _ _ _ [3%Z] 3%Z []); [apply x_one; constructor; lia|discriminate|]. apply x_match, x_one.
  apply (x_finally _ _ _ _ _ _ _ [] Exc 6%Z []); [|discriminate|].
  - apply x_no_except, x_one. constructor.
  - apply x_one. constructor. lia.
Qed.

(** With a clause with a star outside any try statement nothing is collected, and what it takes is reported. *)
Theorem star_refuted : exists b r l, exec_b false 1 (blk b) r Done l /\ lay_b 0 (func b) /\ clauses_b (blk b) /\ ~ In l r /\
  collect (func b) = None /\ told b r l = true.
Proof.
  exists [Try true 2 (blk [line 3]) (HCons 4 false (blk [line 5]) HNil) BNil BNil], [3%Z], 5%Z.
  split; [|split; [cbn; repeat split; try lia; discriminate|split; [cbn; tauto|split; [intros [E | []]; discriminate|split; reflexivity]]]].
  apply x_one, x_try. apply (x_except _ _ _ _ _ [3%Z] 3%Z []); [apply x_one; constructor; lia|discriminate|].
  apply x_match, x_one. constructor. lia.
Qed.

(** Inside another try statement such a clause is taken for one of that statement, and what is raised after it and
    handled by the statement is reported. *)
Theorem star_inside_refuted : exists b r l, exec_b false 1 (blk b) r Done l /\ lay_b 0 (func b) /\ clauses_b (blk b) /\ ~ In l r /\
  told b r l = true.
Proof.
  exists [Try false 2 (blk [Try true 3 (blk [line 4]) (HCons 5 false (blk [line 6]) HNil) BNil BNil; line 7]) (HCons 8 true (blk [line 9]) HNil) BNil BNil],
    [7%Z], 9%Z.
  split; [|split; [cbn; repeat split; try lia; discriminate|split; [cbn; tauto|split; [intros [E | []]; discriminate|reflexivity]]]].
  apply x_one, x_try. apply (x_except _ _ _ _ _ [7%Z] 7%Z []); [|discriminate|].
  - apply (x_cons _ _ _ _ [] 4%Z [7%Z]); [|apply x_one; constructor; lia].
    apply x_try. apply (x_else _ _ _ _ _ [] 4%Z []); [apply x_one; constructor; lia|apply x_nil].
  - apply x_match, x_one. constructor. lia.
Qed.

Print Assumptions collected_exact.
Print Assumptions code_infos_exact.
Print Assumptions leaving_reported.
Print Assumptions return_quiet.
Print Assumptions report_exact.
Print Assumptions no_source_reported.
Print Assumptions one_line_refuted.
Print Assumptions retry_refuted.
Print Assumptions suppressed_refuted.
Print Assumptions finally_return_refuted.
Print Assumptions two_clauses_refuted.
Print Assumptions finally_missed_refuted.
Print Assumptions finally_again_refuted.
Print Assumptions star_refuted.
Print Assumptions star_inside_refuted.
