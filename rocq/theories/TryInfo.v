(** Model of how the debugger tells from the source whether an exception left the first function of a thread
    (property C73).
    Sources: /repo/_pydevd_bundle/pydevd_collect_bytecode_info.py L12-39, L416-466, L470-480;
    /repo/pydevd.py L783-807; /repo/_pydevd_bundle/pydevd_trace_dispatch_regular.py L284-328.
    The decision itself, is_unhandled_exception, is the one of ExcFlow.v. *)
From Coq Require Import List ZArith Bool Arith.
From Verif Require Import ExcFlow.
Import ListNotations.
Open Scope list_scope.

(** ** The source of a module (what ast.parse gives) *)

(** Statements, with the lines they are on.
    [Simple n m]: a statement without blocks, on the lines [n] to [m];
    [Bare n]: raise without an exception;
    [Leave n m]: return, break or continue;
    [Def n b]: def or class: the body is another code object;
    [Block n b c]: if, for, while or match: the header is on line [n], [b] and [c] are the branches;
    [With s n b]: with; [s]: the context manager swallows exceptions;
    [Try star n b h o f]: try with its except clauses [h] ([star]: except clauses with a star), its else block
    and its finally block, empty if there is none.
    Lambdas and comprehensions, which have frames of their own, are part of their statement; decorators are
    on the line of the def. *)
Inductive stmt :=
| Simple (n m : Z)
| Bare (n : Z)
| Leave (n m : Z)
| Def (n : Z) (b : block)
| Block (n : Z) (b c : block)
| With (s : bool) (n : Z) (b : block)
| Try (star : bool) (n : Z) (b : block) (h : hands) (o f : block)
with block := BNil | BCons (s : stmt) (b : block)
(** Except clauses: the line, whether it takes every exception (no expression), the body. *)
with hands := HNil | HCons (n : Z) (all : bool) (b : block) (h : hands).

(** Line at which a block or the except clauses end, the node's end_lineno; [lo]: the line they come after. *)
Fixpoint last_s (s : stmt) : Z :=
  match s with
  | Simple _ m | Leave _ m => m
  | Bare n => n
  | Def n b | With _ n b => last_b n b
  | Block n b c => last_b (last_b n b) c
  | Try _ n b h o f => last_b (last_b (last_h (last_b n b) h) o) f
  end
with last_b (lo : Z) (b : block) : Z :=
  match b with BNil => lo | BCons s BNil => last_s s | BCons _ b' => last_b lo b' end
with last_h (lo : Z) (h : hands) : Z :=
  match h with HNil => lo | HCons n _ b HNil => last_b n b | HCons _ _ _ h' => last_h lo h' end.

(** ** The visitor, pydevd_collect_bytecode_info.py L416-466 *)

(** TryExceptInfo, L12-31, without the offsets in the bytecode. *)
Record info := Info { f_try : Z; f_ignore : bool; f_except : Z; f_end : Z; f_raises : list Z }.

(** The visitor's attributes; the infos are shared objects, so they are on a heap: [hp], and [nxt] the first
    free address.  max_line is only used if nodes have no end_lineno (before Python 3.8) and is left out. *)
Record vst := Vst { hp : nat -> info; nxt : nat; infos_at : list nat; stack : list nat; in_except_at : list nat }.

Definition hset (p : nat -> info) (i : nat) (x : info) : nat -> info := fun j => if Nat.eqb j i then x else p j.

(** L442-444: the first except clause of the try on top of the stack *)
Definition enter (n : Z) (x : info) : info :=
  Info (f_try x) false (if Z.eqb (f_except x) (-1) then n else f_except x) (f_end x) (f_raises x).
(** L447-448 *)
Definition leave (m : Z) (x : info) : info := Info (f_try x) (f_ignore x) (f_except x) m (f_raises x).
(** L457-458 *)
Definition add_raise (n : Z) (x : info) : info :=
  Info (f_try x) (f_ignore x) (f_except x) (f_end x) (f_raises x ++ [n]).

Definition bind {A B} (o : option A) (f : A -> option B) : option B :=
  match o with Some x => f x | None => None end.

(** visit, [None]: an error.  NodeVisitor.generic_visit visits the blocks in the order of the fields, and the
    except clauses between the body and the else block.  A try with stars is another node, TryStar, which has
    no method here, but its clauses are ExceptHandler nodes. *)
Fixpoint visit_s (s : stmt) (v : vst) : option vst :=
  match s with
  | Simple _ _ | Leave _ _ => Some v
  | Bare n =>
      (* visit_Raise, L455-459 *)
      Some (Vst (fold_left (fun p i => hset p i (add_raise n (p i))) (in_except_at v) (hp v))
                (nxt v) (infos_at v) (stack v) (in_except_at v))
  | Def _ b | With _ _ b => visit_b b v
  | Block _ b c => bind (visit_b b v) (visit_b c)
  | Try true _ b h o f => bind (bind (bind (visit_b b v) (visit_h h)) (visit_b o)) (visit_b f)
  | Try false n b h o f =>
      (* visit_Try, L429-435 *)
      let i := nxt v in
      let v1 := Vst (hset (hp v) i (Info n true (-1) (-1) [])) (S i) (infos_at v) (i :: stack v) (in_except_at v) in
      bind (bind (bind (bind (visit_b b v1) (visit_h h)) (visit_b o)) (visit_b f)) (fun v2 =>
        Some (Vst (hp v2) (nxt v2)
                  (if f_ignore (hp v2 i) then infos_at v2 else i :: infos_at v2)
                  (tl (stack v2)) (in_except_at v2)))
  end
with visit_b (b : block) (v : vst) : option vst :=
  match b with BNil => Some v | BCons s b' => bind (visit_s s v) (visit_b b') end
with visit_h (h : hands) (v : vst) : option vst :=
  match h with
  | HNil => Some v
  | HCons n _ b h' =>
      (* visit_ExceptHandler, L440-451 *)
      match stack v with
      | [] => None
      | i :: _ =>
          let v1 := Vst (hset (hp v) i (enter n (hp v i))) (nxt v) (infos_at v) (stack v) (i :: in_except_at v) in
          bind (visit_b b v1) (fun v2 =>
            visit_h h' (Vst (hset (hp v2) i (leave (last_b n b) (hp v2 i))) (nxt v2) (infos_at v2) (stack v2)
                            (tl (in_except_at v2))))
      end
  end.

Definition blank : info := Info 0 true (-1) (-1) [].
Definition seen_as (x : info) : tryexc := TryExc (f_try x) (f_except x) (f_end x) (f_raises x).

(** collect_try_except_info_from_contents, L476-480 *)
Definition collect (b : block) : option (list tryexc) :=
  match visit_b b (Vst (fun _ => blank) 0 [] [] []) with
  | Some v => Some (map (fun i => seen_as (hp v i)) (infos_at v))
  | None => None
  end.

(** ** PyDB.collect_try_except_info, pydevd.py L783-807 *)

(** Lines of the instructions of a code object with the body [b] (dis.findlinestarts); those of the code
    objects inside are not included.  Each statement has instructions at least at its first line and its
    last one; those between do not matter here, as the least and the greatest are what is used. *)
Fixpoint lines_s (s : stmt) : list Z :=
  match s with
  | Simple n m | Leave n m => [n; m]
  | Bare n => [n]
  | Def n _ => [n]
  | Block n b c => n :: lines_b b ++ lines_b c
  | With _ n b => n :: lines_b b
  | Try _ n b h o f => n :: lines_b b ++ lines_h h ++ lines_b o ++ lines_b f
  end
with lines_b (b : block) : list Z :=
  match b with BNil => [] | BCons s b' => lines_s s ++ lines_b b' end
with lines_h (h : hands) : list Z :=
  match h with HNil => [] | HCons n _ b h' => n :: lines_b b ++ lines_h h' end.

(** L791-800; [big]: sys.maxsize *)
Definition max_line (l : list Z) : Z := fold_left (fun m x => if (m <? x)%Z then x else m) l (-1)%Z.
Definition min_line (big : Z) (l : list Z) : Z := fold_left (fun m x => if (x <? m)%Z then x else m) l big.

(** [m]: the module in the file of the code object, [None] if the file does not exist or cannot be parsed;
    [l]: the lines of the code object.  If the source cannot be used the bytecode is looked at, which gives
    nothing since Python 3.11 (pydevd_collect_bytecode_info.py L402-410); the versions of it for older
    Pythons are not modelled. *)
Definition code_infos (big : Z) (m : option block) (l : list Z) : list tryexc :=
  match m with
  | None => []
  | Some b =>
      match collect b with
      | None => []
      | Some [] => []
      | Some is => filter (fun t => (min_line big l <=? t_try t)%Z && (t_try t <=? max_line l)%Z) is
      end
  end.

(** ** TopLevelThreadTracerNoBackFrame, pydevd_trace_dispatch_regular.py L284-328 *)

(** Events of a frame with no caller: an exception arrives at a line, or the frame is left at a line,
    whether it returns or is unwound. *)
Inductive ev := EExc (n : Z) | ELeft (n : Z).

(** _last_exc_arg is not None, _raise_lines, _last_raise_line; and whether stop_on_unhandled_exception was
    called (it decides about the stop, see ExcFlow.v).  suspended_at_unhandled, set by an earlier stop for
    the same exception, is taken to be unset. *)
Record tracer := Tracer { tr_exc : bool; tr_lines : list Z; tr_last : Z; tr_reported : bool }.

Definition tracer_step (is : list tryexc) (t : tracer) (e : ev) : tracer :=
  match e with
  | EExc n => Tracer true (n :: tr_lines t) n (tr_reported t)
  | ELeft n =>
      if tr_exc t
      then Tracer false (tr_lines t) (tr_last t) (tr_reported t || is_unhandled is n (tr_last t) (tr_lines t))
      else t
  end.

(** The events of a call: the lines at which exceptions arrived, in order, and the line at which it was left. *)
Definition reported (is : list tryexc) (raised : list Z) (left : Z) : bool :=
  tr_reported (fold_left (tracer_step is) (map EExc raised ++ [ELeft left]) (Tracer false [] (-1) false)).
