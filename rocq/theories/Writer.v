(** Model of the writer thread and its queue (property C04).
    Source: /repo/_pydevd_bundle/pydevd_comm.py, class WriterThread (L363-448). *)
From Coq Require Import List NArith Bool.
Import ListNotations.

(** A queued command: an identity and whether its id is CMD_EXIT (L424). *)
Record cmd := Cmd { cid : N; is_exit : bool }.

Inductive status := Running | Finished.

Record wstate := W {
  kill : bool;               (* _kill_received *)
  slot : N -> option cmd;    (* per calling thread: the command that passed the test at L380 and is not yet put *)
  queue : list cmd;          (* _cmd_queue *)
  sent : list cmd;           (* commands whose send (L422) completed *)
  failed : list cmd;         (* commands whose send raised (L430) *)
  wstatus : status
}.

Definition init : wstate := W false (fun _ => None) [] [] [] Running.

Inductive op :=
| Check (t : N) (c : cmd)  (* thread t, add_command L378-380: the test of _kill_received *)
| Put (t : N)              (* thread t, add_command L381: the put, if the test succeeded *)
| Kill                     (* PyDBDaemonThread.do_kill_pydev_thread, pydevd_daemon_thread.py L67-70 *)
| GetSend (ok : bool)      (* writer thread: L390 returns a command, then L416-429; [ok]: send returned *)
| GetEmpty.                (* writer thread: L391, the queue stayed empty for 0.1s *)

Definition upd (f : N -> option cmd) (t : N) (v : option cmd) : N -> option cmd :=
  fun t' => if N.eqb t' t then v else f t'.

(** One atomic step.  Steps that are not possible in the state leave it unchanged.
    do_kill_pydev_thread of the writer (L441-447) is [Check t exit; Put t; Kill].
    After a failed send the thread ends (L430); the kill of all threads that may follow (L432) is a
    later [Check t exit; Put t; Kill] of the environment.
    Simplification: message listeners (L416-418) and the sleep (L429) have no effect here. *)
Definition step (s : wstate) (o : op) : wstate :=
  match o with
  | Check t c =>
      W (kill s) (upd (slot s) t (if kill s then None else Some c))
        (queue s) (sent s) (failed s) (wstatus s)
  | Put t =>
      match slot s t with
      | Some c => W (kill s) (upd (slot s) t None) (queue s ++ [c]) (sent s) (failed s) (wstatus s)
      | None => s
      end
  | Kill => W true (slot s) (queue s) (sent s) (failed s) (wstatus s)
  | GetSend ok =>
      match wstatus s, queue s with
      | Running, c :: q =>
          if ok then
            W (kill s) (slot s) q (sent s ++ [c]) (failed s)
              (if is_exit c then Finished else Running)
          else
            W (kill s) (slot s) q (sent s) (failed s ++ [c]) Finished
      | _, _ => s
      end
  | GetEmpty =>
      match wstatus s, queue s with
      | Running, [] => if kill s then W (kill s) (slot s) [] (sent s) (failed s) Finished else s
      | _, _ => s
      end
  end.

Definition run (ops : list op) : wstate := fold_left step ops init.
