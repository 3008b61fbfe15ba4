(** Model of message sequence numbers (property C03).
    Source: /repo/_pydevd_bundle/pydevd_net_command.py, NetCommand.next_seq (L51) and
    NetCommand.__init__ (L58-69). *)
From Coq Require Import List NArith ZArith Bool.
Import ListNotations.
Open Scope Z_scope.

(** L65-69: [if seq == 0: NetCommand.next_seq += 2; seq = NetCommand.next_seq].
    State: NetCommand.next_seq.  Result: new state and the number of the created message. *)
Definition create (next_seq seq : Z) : Z * Z :=
  if (seq =? 0)%Z then (next_seq + 2, next_seq + 2) else (next_seq, seq).

(** Messages created one after the other, each with the [seq] argument given by the caller. *)
Fixpoint create_all (next_seq : Z) (args : list Z) : Z * list Z :=
  match args with
  | [] => (next_seq, [])
  | a :: r =>
      let '(n1, s) := create next_seq a in
      let '(n2, ss) := create_all n1 r in
      (n2, s :: ss)
  end.

(** The same code run by several threads, one bytecode-level access at a time.  There is no lock
    around L66-67: a thread reads the class attribute, adds 2, stores it, and reads it again. *)
Inductive phase :=
| Idle
| Loaded (v : Z)   (* after the read of "next_seq += 2" *)
| Stored           (* after the store *)
| Done (s : Z).    (* self.seq assigned *)

Record cstate := CState { cnext : Z; cphase : nat -> phase }.

Definition set_phase (f : nat -> phase) (t : nat) (p : phase) : nat -> phase :=
  fun t' => if Nat.eqb t' t then p else f t'.

(** One access by thread [t] creating a message with [seq == 0]. *)
Definition cstep (st : cstate) (t : nat) : cstate :=
  match cphase st t with
  | Idle => CState (cnext st) (set_phase (cphase st) t (Loaded (cnext st)))
  | Loaded v => CState (v + 2) (set_phase (cphase st) t Stored)
  | Stored => CState (cnext st) (set_phase (cphase st) t (Done (cnext st)))
  | Done _ => st
  end.

Definition crun (st : cstate) (sched : list nat) : cstate := fold_left cstep sched st.
Definition cinit : cstate := CState 0 (fun _ => Idle).
