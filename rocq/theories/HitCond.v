(** Model of hit conditions (properties C07 and C20).
    Sources: /repo/_pydevd_bundle/pydevd_process_net_command_json.py L700-725
    (_get_hit_condition_expression), /repo/_pydevd_bundle/pydevd_breakpoints.py L46-75 (LineBreakpoint),
    /repo/pydevd.py L945-982 (handle_breakpoint_condition). *)
From Coq Require Import List NArith ZArith Bool String.
From Verif Require Import Base.
Import ListNotations.

Definition HIT : str := lit "@HIT@".

(** _get_hit_condition_expression, L700-725; None stands for Python's None. *)
Definition hit_expression (hit_condition : option str) : option str :=
  match hit_condition with
  | None => None
  | Some [] => None
  | Some h =>
      let expr := strip h in
      match py_int expr with
      | Some _ => Some (HIT ++ lit " == " ++ expr)
      | None =>
          if starts_with (lit "%") expr then Some (HIT ++ lit " " ++ expr ++ lit " == 0")
          else if starts_with (lit "==") expr || starts_with (lit ">") expr || starts_with (lit "<") expr
          then Some (HIT ++ lit " " ++ expr)
          else Some h
      end
  end.

(** str.replace(old, new) for a non-empty [old]; [skip] characters of a match remain to be dropped. *)
Fixpoint replace_from (skip : nat) (old new s : str) : str :=
  match s with
  | [] => []
  | c :: r =>
      match skip with
      | S k => replace_from k old new r
      | O => if starts_with old (c :: r) then new ++ replace_from (List.length old - 1) old new r
             else c :: replace_from 0 old new r
      end
  end.
Definition replace (old new s : str) : str := replace_from 0 old new s.

(** The fragment of Python's eval that hit conditions use: integer literals, one comparison, and
    remainder.  Everything else is [None] (outside the model). *)
Inductive cmp := CEq | CLt | CLe | CGt | CGe.
Inductive raw := RDigit (d : N) | RSpace | RCmp (c : cmp) | RMod.

(** Lexer.  Space, tab and form feed separate tokens (Python reference, 2.1.9). *)
Fixpoint lex (s : str) : option (list raw) :=
  match s with
  | [] => Some []
  | c :: r =>
      let cons x (t : option (list raw)) := match t with Some l => Some (x :: l) | None => None end in
      if is_digit c then cons (RDigit (c - 48)%N) (lex r)
      else if (N.eqb c 32 || N.eqb c 9 || N.eqb c 12)%bool then cons RSpace (lex r)
      else if N.eqb c 37 then cons RMod (lex r)
      else if N.eqb c 61 then
        match r with
        | d :: r' => if N.eqb d 61 then cons (RCmp CEq) (lex r') else None
        | [] => None
        end
      else if N.eqb c 60 then
        match r with
        | d :: r' => if N.eqb d 61 then cons (RCmp CLe) (lex r') else cons (RCmp CLt) (lex r)
        | [] => cons (RCmp CLt) (Some [])
        end
      else if N.eqb c 62 then
        match r with
        | d :: r' => if N.eqb d 61 then cons (RCmp CGe) (lex r') else cons (RCmp CGt) (lex r)
        | [] => cons (RCmp CGt) (Some [])
        end
      else None
  end.

Inductive tok := TNum (n : N) | TCmp (c : cmp) | TMod | TBad.

(** A decimal literal: leading zeros only in zero itself (Python reference, 2.4.5). *)
Definition literal (ds : list N) : tok :=
  match ds with
  | d :: _ => if N.eqb d 0 && negb (forallb (N.eqb 0) ds) then TBad
              else TNum (fold_left (fun a d => 10 * a + d)%N ds 0%N)
  | [] => TBad
  end.

Definition flush (ds : list N) (l : list tok) : list tok :=
  match ds with [] => l | _ => literal ds :: l end.

(** [ds]: digits of the number being read. *)
Fixpoint group (ds : list N) (l : list raw) : list tok :=
  match l with
  | [] => flush ds []
  | RDigit d :: r => group (ds ++ [d]) r
  | RSpace :: r => flush ds (group [] r)
  | RCmp c :: r => flush ds (TCmp c :: group [] r)
  | RMod :: r => flush ds (TMod :: group [] r)
  end.

Definition compare (c : cmp) (a b : N) : bool :=
  match c with
  | CEq => N.eqb a b
  | CLt => N.ltb a b
  | CLe => N.leb a b
  | CGt => N.ltb b a
  | CGe => N.leb b a
  end.

Inductive value := VBool (b : bool) | VInt (n : N) | VError | VUnknown.

(** bool(eval(expr)) raises SyntaxError for a malformed literal and ZeroDivisionError for % 0. *)
Definition eval_tokens (l : list tok) : value :=
  if existsb (fun t => match t with TBad => true | _ => false end) l then VError
  else match l with
  | [TNum a] => VInt a
  | [TNum a; TCmp c; TNum b] => VBool (compare c a b)
  | [TNum a; TMod; TNum b] => if N.eqb b 0 then VError else VInt (a mod b)
  | [TNum a; TMod; TNum b; TCmp c; TNum d] => if N.eqb b 0 then VError else VBool (compare c (a mod b)%N d)
  | _ => VUnknown
  end.

Definition py_eval (s : str) : value :=
  match lex s with Some l => eval_tokens (group [] l) | None => VUnknown end.

(** LineBreakpoint.handle_hit_condition, L64-75, for the hit number [count] (the counter is in HitCount
    below); an exception gives False.  None: outside the modelled fragment of eval. *)
Definition handle_hit (hit_condition : option str) (count : N) : option bool :=
  match hit_condition with
  | None => Some false
  | Some [] => Some false
  | Some h =>
      match py_eval (replace HIT (dec count) h) with
      | VBool b => Some b
      | VInt n => Some (negb (N.eqb n 0))
      | VError => Some false
      | VUnknown => None
      end
  end.

(** pydevd_frame.py L705-709 and pydevd.py L945-982.  [condition]: None for no condition, otherwise what its
    evaluation gives; [skip_suspend]: the exception is one of skip_suspend_on_breakpoint_exception. *)
Inductive cond_result := CondValue (b : bool) | CondRaises (skip_suspend : bool).

Definition stops (hit_condition : option str) (condition : option cond_result) (count : N) : option bool :=
  let has_hit := match hit_condition with None | Some [] => false | _ => true end in
  match has_hit, condition with
  | false, None => Some true                         (* not has_condition *)
  | _, _ =>
      match handle_hit hit_condition count with
      | None => None
      | Some true => Some true
      | Some false =>
          match condition with
          | None => Some false
          | Some (CondValue b) => Some b
          | Some (CondRaises skip) => Some (negb skip)
          end
      end
  end.

(** ** The counter, shared by threads.
    L68-75: the increment and the evaluation happen under _hit_condition_lock; the increment is a read
    and a write, and the text uses a second read. *)
Inductive phase := Idle | Locked | Read (v : N) | Written | Evaluated.

Record hstate := H {
  owner : option nat;          (* thread holding the lock *)
  count : N;                   (* _hit_count *)
  ph : nat -> phase;
  log : list (nat * N)         (* evaluations in order: thread and the number put in the expression *)
}.

Definition hinit : hstate := H None 0 (fun _ => Idle) [].

Definition set_ph (f : nat -> phase) (t : nat) (p : phase) : nat -> phase :=
  fun t' => if Nat.eqb t' t then p else f t'.

(** One step of thread [t]; a thread waiting for the lock does not move. *)
Definition hstep (s : hstate) (t : nat) : hstate :=
  match ph s t with
  | Idle => match owner s with
            | None => H (Some t) (count s) (set_ph (ph s) t Locked) (log s)
            | Some _ => s
            end
  | Locked => H (owner s) (count s) (set_ph (ph s) t (Read (count s))) (log s)
  | Read v => H (owner s) (v + 1) (set_ph (ph s) t Written) (log s)
  | Written => H (owner s) (count s) (set_ph (ph s) t Evaluated) (log s ++ [(t, count s)])
  | Evaluated => H None (count s) (set_ph (ph s) t Idle) (log s)
  end.

Definition hrun (sched : list nat) : hstate := fold_left hstep sched hinit.
