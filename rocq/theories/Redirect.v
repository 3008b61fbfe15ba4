(** Model of the redirection of the standard streams (property C27).
    Source: /repo/_pydevd_bundle/pydevd_io.py L7-59 (IORedirector), L62-111 (RedirectToPyDBIoMessages),
    L114-144 (IOBuf), L147-258 (start_redirect, end_redirect, redirect_stream_to_pydb_io_messages,
    stop_redirect_stream_to_pydb_io_messages and the context manager).
    Every function holds the lock of _RedirectionsHolder, so that calls of several threads are one sequence. *)
From Coq Require Import List NArith Bool.
From Verif Require Import Base.
Import ListNotations.

(** A stream object. [Plain]: a stream of the program with or without a binary buffer; [NoStream]: None;
    [IOBuf]; [Msgs]: RedirectToPyDBIoMessages (with a buffer of the same kind); [Raw] and [MsgsRaw]: these
    buffers; [Tee]: an IORedirector with its identity, the original, the redirection and wrap_buffer. *)
Inductive stream :=
| NoStream
| Plain (n : N) (has_buffer : bool)
| Raw (n : N)
| IOBuf (n : N)
| Msgs (n : N)
| MsgsRaw (n : N)
| Tee (id : N) (original redirect : stream) (wrap : bool).

(** The destinations a write reaches, in the order of the calls: IORedirector.write L28-41, not nested in a
    write to the same object. None has no attribute write. *)
Inductive dest := DProgram (n : N) | DRaw (n : N) | DBuf (n : N) | DClient (n : N).
Fixpoint dests (s : stream) : list dest :=
  match s with
  | NoStream => []
  | Plain n _ => [DProgram n]
  | Raw n => [DRaw n]
  | IOBuf n => [DBuf n]
  | Msgs n | MsgsRaw n => [DClient n]
  | Tee _ a b _ => dests a ++ dests b
  end.

(** The attribute buffer: L25-26 and __getattr__ L55-59 *)
Fixpoint buffer (s : stream) : option stream :=
  match s with
  | Plain n true => Some (Raw n)
  | Msgs n => Some (MsgsRaw n)
  | Tee id a b wrap =>
      match buffer a with
      | Some x => if wrap then match buffer b with Some y => Some (Tee id x y false) | None => Some x end else Some x
      | None => buffer b
      end
  | _ => None
  end.
Definition has_buffer (s : stream) : bool := match buffer s with Some _ => true | None => false end.

(** [is] between streams: identity *)
Definition is (a b : stream) : bool :=
  match a, b with
  | NoStream, NoStream => true
  | Plain n _, Plain m _ | Raw n, Raw m | IOBuf n, IOBuf m | Msgs n, Msgs m | MsgsRaw n, MsgsRaw m => N.eqb n m
  | Tee n _ _ _, Tee m _ _ _ => N.eqb n m
  | _, _ => false
  end.

Record info := Info { original : stream; redirect_to : stream }.
(** sys.<std>, _stack_<std> (top first), _pydevd_<std>_redirect_ *)
Record chan := Chan { cur : stream; stack : list info; held : option info }.
(** [fresh]: identity of the next object; [ctxs]: the lists [redirecting] of the blocks being executed *)
Inductive std := Out | Err.
Record world := World { out : chan; err : chan; fresh : N; ctxs : list (list std) }.

Definition chan_of (w : world) (s : std) : chan := match s with Out => out w | Err => err w end.
Definition upd (w : world) (s : std) (c : chan) : world :=
  match s with
  | Out => World c (err w) (fresh w) (ctxs w)
  | Err => World (out w) c (fresh w) (ctxs w)
  end.

Inductive target := One (s : std) | Both.
Definition stds (t : target) : list std := match t with One s => [s] | Both => [Out; Err] end.

(** start_redirect, one stream, L174-187 *)
Definition start1 (w : world) (keep : bool) (r : stream) (s : std) : world :=
  let c := chan_of w s in
  let new := if keep then Tee (fresh w) (cur c) r (has_buffer r) else r in
  let w := World (out w) (err w) (N.succ (fresh w)) (ctxs w) in
  upd w s (Chan new (Info (cur c) new :: stack c) (held c)).
Definition start (w : world) (keep : bool) (t : target) (r : stream) : world :=
  fold_left (fun w s => start1 w keep r s) (stds t) w.

(** end_redirect, L192-201; None: IndexError (an earlier stream of both has been changed, which is left out) *)
Definition end1 (w : world) (s : std) : option world :=
  let c := chan_of w s in
  match stack c with
  | [] => None
  | i :: r => Some (upd w s (Chan (original i) r (held c)))
  end.
Fixpoint end_all (w : world) (l : list std) : option world :=
  match l with [] => Some w | s :: r => match end1 w s with Some w => end_all w r | None => None end end.

(** redirect_stream_to_pydb_io_messages, L204-222 *)
Definition redirect (w : world) (s : std) : world * bool :=
  match held (chan_of w s) with
  | Some _ => (w, false)
  | None =>
      let w := World (out w) (err w) (N.succ (fresh w)) (ctxs w) in
      let w := start1 w true (Msgs (fresh w)) s in
      let c := chan_of w s in
      (upd w s (Chan (cur c) (stack c) (hd_error (stack c))), true)
  end.

(** stop_redirect_stream_to_pydb_io_messages, L225-241; None: IndexError *)
Definition stop (w : world) (s : std) : option world :=
  let c := chan_of w s in
  match held c with
  | None => Some w
  | Some i =>
      match stack c with
      | [] => None
      | _ :: r => Some (upd w s (Chan (if is (cur c) (redirect_to i) then original i else cur c) r None))
      end
  end.
Fixpoint stop_all (w : world) (l : list std) : option world :=
  match l with [] => Some w | s :: r => match stop w s with Some w => stop_all w r | None => None end end.

(** The context manager, L244-258 *)
Definition enter (w : world) : world :=
  let (w1, a) := redirect w Out in
  let (w2, b) := redirect w1 Err in
  World (out w2) (err w2) (fresh w2) (((if a then [Out] else []) ++ (if b then [Err] else [])) :: ctxs w2).
Definition exit (w : world) : option world :=
  match ctxs w with
  | [] => None
  | l :: r => stop_all (World (out w) (err w) (fresh w) r) l
  end.

(** What may happen to the streams; [Assign]: the program assigns sys.stdout or sys.stderr *)
Inductive op :=
| Start (keep : bool) (t : target) (r : stream)
| End (t : target)
| Redirect (s : std)
| Stop (s : std)
| Enter
| Exit
| Assign (s : std) (x : stream).
Definition exec (w : world) (o : op) : option world :=
  match o with
  | Start k t r => Some (start w k t r)
  | End t => end_all w (stds t)
  | Redirect s => Some (fst (redirect w s))
  | Stop s => stop w s
  | Enter => Some (enter w)
  | Exit => exit w
  | Assign s x => Some (let c := chan_of w s in upd w s (Chan x (stack c) (held c)))
  end.
Fixpoint run (w : world) (l : list op) : option world :=
  match l with [] => Some w | o :: r => match exec w o with Some w => run w r | None => None end end.

(** ** Writes by several threads through one IORedirector, L28-41 *)

(** Where a thread is: not writing; in the lock, before the call of the original's write, before the call of the
    redirection's, before the end. *)
Inductive pc := Idle | Locked (s : str) | First (s : str) | Second (s : str) | Ending (s : str).
Record tee := TeeSt {
  owner : option nat;                 (* the thread which holds the lock *)
  writing : bool;
  pcs : nat -> pc;
  log1 : list (nat * str);            (* texts received by the original: thread and text *)
  log2 : list (nat * str);            (* by the redirection *)
  completed : list (nat * str)        (* writes which returned without an exception and without being dropped *)
}.
Inductive action :=
| Call (t : nat) (s : str)            (* the thread calls write and gets the lock *)
| Step (t : nat)                      (* its next step *)
| Nested (t : nat) (s : str)          (* in a write, the stream written to calls write again in the same thread *)
| Raise (t : nat).                    (* the write of the stream being written to raises *)
Definition setpc (f : nat -> pc) (t : nat) (p : pc) : nat -> pc := fun u => if Nat.eqb u t then p else f u.

Definition act (x : tee) (a : action) : tee :=
  match a with
  | Call t s =>
      match owner x, pcs x t with
      | None, Idle => TeeSt (Some t) (writing x) (setpc (pcs x) t (Locked s)) (log1 x) (log2 x) (completed x)
      | _, _ => x                                                     (* waits *)
      end
  | Nested t s =>
      match pcs x t with
      | First _ | Second _ =>
          if writing x then x                                         (* L32-33 *)
          else TeeSt (owner x) (writing x) (pcs x) (log1 x ++ [(t, s)]) (log2 x ++ [(t, s)]) (completed x)
      | _ => x
      end
  | Step t =>
      match pcs x t with
      | Idle => x
      | Locked s =>
          if writing x then TeeSt None (writing x) (setpc (pcs x) t Idle) (log1 x) (log2 x) (completed x)
          else TeeSt (owner x) true (setpc (pcs x) t (First s)) (log1 x) (log2 x) (completed x)
      | First s => TeeSt (owner x) (writing x) (setpc (pcs x) t (Second s)) (log1 x ++ [(t, s)]) (log2 x) (completed x)
      | Second s => TeeSt (owner x) (writing x) (setpc (pcs x) t (Ending s)) (log1 x) (log2 x ++ [(t, s)]) (completed x)
      | Ending s => TeeSt None false (setpc (pcs x) t Idle) (log1 x) (log2 x) (completed x ++ [(t, s)])
      end
  | Raise t =>
      match pcs x t with
      | First _ | Second _ => TeeSt None false (setpc (pcs x) t Idle) (log1 x) (log2 x) (completed x)
      | _ => x
      end
  end.
Definition tee0 : tee := TeeSt None false (fun _ => Idle) [] [] [].
Definition acts (l : list action) : tee := fold_left act l tee0.
