(** Model of the source references handed to the client (property C23).
    Source: /repo/pydevd_file_utils.py L674-707, setup_client_server_paths L727-729, the end of
    _map_file_to_client L837-895; /repo/_pydevd_bundle/pydevd_process_net_command_json.py:
    on_source_request L1166-1221 (where the source is taken from).
    There is no lock: each thread is at a point of its call and the threads are interleaved arbitrarily.
    The translation of names itself (PathMap.v) is an arbitrary function here.
    Simplification: setup_client_server_paths takes effect in one step. *)
From Coq Require Import List NArith Bool.
From Verif Require Import Base Dict.
Import ListNotations.

(** The translation set up last: the client's name and whether a mapping was applied. *)
Definition translation := str -> str * bool.

(** What a reference stands for *)
Inductive source := File (f : str) | Lines (f : str) | Frame (id : N).

(** Where a thread is *)
Inductive pc :=
| Idle
| Translated (f c : str) (mapped : bool)   (* L839-879 done *)
| Cached (f c : str) (mapped : bool)       (* L883 *)
| Absent (f c : str) (mapped : bool)       (* L885: the name has no reference yet *)
| Numbered (f c : str) (r : N)             (* L886-889 *)
| Named (f : str) (r : N)                  (* L892 *)
| LineNumbered (f : str) (r : N)           (* L689 *)
| FrameNumbered (id : N) (r : N).          (* L700 *)

Record state := State {
  tr : translation;
  cache : list str;                 (* the keys of norm_filename_to_client_container *)
  next : N;                         (* _next_source_reference *)
  r2file : list (N * str);          (* _source_reference_to_server_filename *)
  c2r : list (str * N);             (* _client_filename_in_utf8_to_source_reference *)
  r2line : list (N * str);          (* _line_cache_source_reference_to_server_filename *)
  r2frame : list (N * N);           (* _source_reference_to_frame_id *)
  pcs : N -> pc;
  handed : list (N * source)        (* numbers taken so far and what for; newest first *)
}.

Definition init (t : translation) : state := State t [] 1 [] [] [] [] (fun _ => Idle) [].

Definition setpc (f : N -> pc) (t : N) (p : pc) : N -> pc := fun u => if N.eqb u t then p else f u.
Definition goto (s : state) (t : N) (p : pc) : state :=
  State (tr s) (cache s) (next s) (r2file s) (c2r s) (r2line s) (r2frame s) (setpc (pcs s) t p) (handed s).
(** next(itertools.count(1)): atomic *)
Definition number (s : state) (t : N) (p : N -> pc) (x : source) : state :=
  State (tr s) (cache s) (N.succ (next s)) (r2file s) (c2r s) (r2line s) (r2frame s)
        (setpc (pcs s) t (p (next s))) ((next s, x) :: handed s).

Inductive op :=
| Map (t : N) (f : str)          (* thread t calls map_file_to_client(f) *)
| NewLines (t : N) (f : str)     (* create_source_reference_for_linecache(f) *)
| NewFrame (t : N) (id : N)      (* create_source_reference_for_frame_id(id, _) *)
| Step (t : N)                   (* thread t goes on *)
| Setup (f : translation).       (* setup_client_server_paths *)

Definition step (s : state) (x : op) : state :=
  match x with
  | Map t f =>
      match pcs s t with
      | Idle =>
          if existsb (str_eqb f) (cache s) then s   (* L841 *)
          else goto s t (Translated f (fst (tr s f)) (snd (tr s f)))
      | _ => s
      end
  | NewLines t f => match pcs s t with Idle => number s t (LineNumbered f) (Lines f) | _ => s end
  | NewFrame t id => match pcs s t with Idle => number s t (FrameNumbered id) (Frame id) | _ => s end
  | Step t =>
      match pcs s t with
      | Idle => s
      | Translated f c m =>
          State (tr s) (f :: cache s) (next s) (r2file s) (c2r s) (r2line s) (r2frame s) (setpc (pcs s) t (Cached f c m)) (handed s)
      | Cached f c m => if mem str_eqb c (c2r s) then goto s t Idle else goto s t (Absent f c m)
      | Absent f c m => if m then goto s t (Numbered f c 0) else number s t (Numbered f c) (File f)
      | Numbered f c r =>
          State (tr s) (cache s) (next s) (r2file s) (set str_eqb c r (c2r s)) (r2line s) (r2frame s) (setpc (pcs s) t (Named f r)) (handed s)
      | Named f r =>
          State (tr s) (cache s) (next s) (set N.eqb r f (r2file s)) (c2r s) (r2line s) (r2frame s) (setpc (pcs s) t Idle) (handed s)
      | LineNumbered f r =>
          State (tr s) (cache s) (next s) (r2file s) (c2r s) (set N.eqb r f (r2line s)) (r2frame s) (setpc (pcs s) t Idle) (handed s)
      | FrameNumbered id r =>
          State (tr s) (cache s) (next s) (r2file s) (c2r s) (r2line s) (set N.eqb r id (r2frame s)) (setpc (pcs s) t Idle) (handed s)
      end
  | Setup f => State f [] 1 [] [] (r2line s) (r2frame s) (pcs s) (handed s)
  end.
Definition run (s : state) (ops : list op) : state := fold_left step ops s.

(** get_client_filename_source_reference, L681-682 *)
Definition reference (s : state) (c : str) : N := match get str_eqb c (c2r s) with Some r => r | None => 0 end.

(** on_source_request, L1174-1207: the file read (first by reference, then by linecache reference) and, if
    nothing could be read, the frame whose code is shown.  An empty file name counts as none. *)
Definition nonempty (o : option str) : option str := match o with Some [] => None | o => o end.
Definition file_of (s : state) (r : N) : option str :=
  if N.eqb r 0 then None else
  match nonempty (get N.eqb r (r2file s)) with
  | Some f => Some f
  | None => nonempty (get N.eqb r (r2line s))
  end.
Definition frame_of (s : state) (r : N) : option N := if N.eqb r 0 then None else get N.eqb r (r2frame s).
