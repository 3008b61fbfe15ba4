(** Model of the queues of internal commands (property C16).
    Source: /repo/pydevd.py L1580-1601 and L1815-1860 (process_internal_commands), L2229-2249 (_do_wait_suspend);
    /repo/_pydevd_bundle/pydevd_comm.py L544-596 and L680-705.
    Simplifications: the locks are not modelled (they only remove interleavings); the thread notifications at the start
    of process_internal_commands and the case where no thread is alive are not modelled. *)
From Coq Require Import List NArith Bool String.
From Verif Require Import Base Dict.
Import ListNotations.

(** thread_id[thread_id.rfind("|") + 1:] *)
Fixpoint after_bar (s cur : str) : str :=
  match s with
  | [] => cur
  | c :: r => if N.eqb c 124 then after_bar r r else after_bar r cur
  end.

(** get_internal_queue_and_event, pydevd.py L1580-1585: the key of the queue *)
Definition queue_of (tid : str) : str :=
  if starts_with (lit "__frame__") tid then after_bar tid tid else tid.

(** Kinds of commands: InternalThreadCommand, InternalThreadCommandForAnyThread, InternalGetThreadStack *)
Inductive kind := Plain | AnyThread | Stack.
Record cmd := Cmd { cid : N; ctid : str; ckind : kind }.

(** can_be_executed_by, pydevd_comm.py L558-560, L587-588, L680-705; [ok]: the stack is available or timed out *)
Definition can (c : cmd) (t : str) (ok : bool) : bool :=
  match ckind c with
  | Plain => str_eqb (ctid c) t || ends_with (124%N :: t) (ctid c)
  | AnyThread => true
  | Stack => ok
  end.

(** the queue a command is put in: post_internal_command, post_method_as_internal_command (pydevd.py L1587-1601),
    request_stack (pydevd_api.py L231-239) *)
Definition key (c : cmd) : str := match ckind c with Plain => queue_of (ctid c) | _ => lit "*" end.

(** Activations of process_internal_commands in a thread. *)
Inductive frame :=
| Coll (q : str) (more : list str) (back cmds : list cmd)      (* while True: queue.get(False), L1829-1842 *)
| Back (q : str) (more : list str) (back cmds : list cmd)      (* L1844-1847 *)
| Exec (cmds : list cmd) (running : option cmd).               (* L1854-1859; [running]: inside do_it *)

Record state := State {
  queues : list (str * list cmd);
  stacks : list (str * list frame);       (* per thread, innermost activation first *)
  log : list (str * cmd)                  (* commands executed: by which thread; newest first *)
}.
Definition init : state := State [] [] [].

Definition getl {A} (k : str) (d : list (str * list A)) : list A := match get str_eqb k d with Some l => l | None => [] end.
Definition setq (s : state) (k : str) (l : list cmd) : state := State (set str_eqb k l (queues s)) (stacks s) (log s).
Definition setst (s : state) (t : str) (l : list frame) : state := State (queues s) (set str_eqb t l (stacks s)) (log s).

Inductive op :=
| Post (c : cmd)
| Begin (t : str) (all : bool)      (* process_internal_commands() or process_internal_commands(("*",)) *)
| Step (t : str) (ok : bool)
| Take (t : str) (ok : bool)        (* one turn of the loop of _do_wait_suspend, L2229-2249 *)
| Raise (t : str).                  (* can_be_executed_by raises, L1840-1842 *)

(** a thread runs code of its own when no activation is collecting *)
Definition free (l : list frame) : bool :=
  match l with [] | Exec _ (Some _) :: _ => true | _ => false end.

Definition step (s : state) (o : op) : state :=
  match o with
  | Post c => setq s (key c) (getl (key c) (queues s) ++ [c])
  | Begin t all =>
      let st := getl t (stacks s) in
      if free st then setst s t ((if all then Coll t [lit "*"] [] [] else Coll (lit "*") [] [] []) :: st) else s
  | Step t ok =>
      match getl t (stacks s) with
      | [] => s
      | Coll q more back cmds :: st =>
          match getl q (queues s) with
          | [] => setst s t (Back q more back cmds :: st)
          | c :: r =>
              let s := setq s q r in
              if can c t ok then setst s t (Coll q more back (cmds ++ [c]) :: st)
              else setst s t (Coll q more (back ++ [c]) cmds :: st)
          end
      | Back q more (b :: bs) cmds :: st => setst (setq s q (getl q (queues s) ++ [b])) t (Back q more bs cmds :: st)
      | Back q (q' :: more) [] cmds :: st => setst s t (Coll q' more [] cmds :: st)
      | Back q [] [] cmds :: st => setst s t (Exec cmds None :: st)
      | Exec cs (Some c) :: st => setst s t (Exec cs None :: st)
      | Exec (c :: cs) None :: st =>
          let s := setst s t (Exec cs (Some c) :: st) in State (queues s) (stacks s) ((t, c) :: log s)
      | Exec [] None :: st => setst s t st
      end
  | Take t ok =>
      let st := getl t (stacks s) in
      if free st then
        match getl t (queues s) with
        | [] => s
        | c :: r =>
            if can c t ok then setst (setq s t r) t (Exec [c] None :: st)
            else setq s t (r ++ [c])
        end
      else s
  | Raise t =>
      match getl t (stacks s) with
      | Coll q more back cmds :: st =>
          match getl q (queues s) with
          | c :: r => setst (setq s q r) t st
          | [] => s
          end
      | _ => s
      end
  end.
Definition run (ops : list op) : state := fold_left step ops init.
