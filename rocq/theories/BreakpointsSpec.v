(** Specification of the line breakpoint store, from the history of requests alone. *)
From Coq Require Import List NArith ZArith Bool Lia.
From Verif Require Import Base Breakpoints.
Import ListNotations.

(** Requests.  [valid], [found], [supported]: what the file system and the plugins answer at that time. *)
Inductive op :=
| Add (q : params) (valid : option (list Z)) (found supported : bool)
| Remove (name : str) (k : kind) (i : Z) (supported : bool)
| RemoveFile (name : str)
| RemoveAll.

Definition step (P : paths) (s : store) (o : op) : store :=
  match o with
  | Add q valid found sup => fst (add P s q valid found sup)
  | Remove name k i sup => remove_one P s name k i sup
  | RemoveFile name => remove_file P s name
  | RemoveAll => remove_all s
  end.

Definition run (P : paths) (h : list op) : store := fold_left (step P) h init.

(** The file a client name stands for. *)
Definition file_of (P : paths) (name : str) : str := canon P (server P name).

(** Names starting with '<' are accepted although there is no such file. *)
Definition accepted (P : paths) (q : params) (found : bool) : bool :=
  starts_with lt_sign (absolute P (server P (p_name q))) || found.

Definition effective_line (P : paths) (q : params) (valid : option (list Z)) : Z :=
  if starts_with lt_sign (absolute P (server P (p_name q))) then p_line q
  else adjust_line valid (p_line q).

Definition is_py (k : kind) : bool := match k with PyLine => true | _ => false end.

(** [current P c i h]: the Python breakpoint with id [i] active in file [c] after the history [h] (most
    recent request first), and the moment since which that id has been active without interruption. *)
Fixpoint current (P : paths) (c : str) (i : Z) (h : list op) : option (bp * nat) :=
  match h with
  | [] => None
  | Add q valid found _ :: r =>
      if is_py (p_kind q) && accepted P q found && str_eqb (file_of P (p_name q)) c && Z.eqb (p_id q) i
      then Some (Bp i (effective_line P q valid) (p_info q),
                 match current P c i r with Some (_, n) => n | None => length r end)
      else current P c i r
  | Remove name k i' _ :: r =>
      if is_py k && str_eqb (file_of P name) c && Z.eqb i' i then None else current P c i r
  | RemoveFile name :: r => if str_eqb (file_of P name) c then None else current P c i r
  | RemoveAll :: _ => None
  end.

(** Two client names are the same file for the server exactly when they are the same for the client. *)
Definition coherent (P : paths) : Prop :=
  forall a b, norm P a = norm P b <-> file_of P a = file_of P b.

(** Every breakpoint id is used for one type of breakpoint only. *)
Definition one_kind_per_id (kd : Z -> kind) (h : list op) : Prop :=
  Forall (fun o => match o with
                   | Add q _ _ _ => p_kind q = kd (p_id q)
                   | Remove _ k i _ => k = kd i
                   | _ => True
                   end) h.

(** ** setBreakpoints requests of the debug adapter protocol *)

Inductive dap_op :=
| SetBreakpoints (name : str) (k : kind) (bs : list source_bp)
| SetMapping (m : str -> Z -> option (str * Z)) (found : str -> bool) (supported : N -> bool)
| Disconnect.

Definition dap_step (P : paths) (st : store * Z) (o : dap_op) : store * Z :=
  let '(s, next) := st in
  match o with
  | SetBreakpoints name k bs => fst (set_breakpoints P s next name k bs)
  | SetMapping m f g => (change_mapping P s m f g, next)
  | Disconnect => (remove_all s, next)
  end.

Definition dap_run (P : paths) (h : list dap_op) : store * Z := fold_left (dap_step P) h (init, 0%Z).

(** Where a breakpoint of a request goes: file and line, if it is accepted. *)
Definition placed (P : paths) (m : str -> Z -> option (str * Z)) (name : str) (b : source_bp)
  : option (str * Z) :=
  match m (server P name) (sb_line b) with
  | Some (f, l) => if starts_with lt_sign f || sb_found b then Some (normcase P f, l) else None
  | None =>
      let abs := absolute P (server P name) in
      if starts_with lt_sign abs then Some (file_of P name, sb_line b)
      else if sb_found b then Some (file_of P name, adjust_line (sb_valid b) (sb_line b)) else None
  end.

(** The breakpoint of the request that decides at a place: the last one put there. *)
Fixpoint decides (P : paths) (m : str -> Z -> option (str * Z)) (name : str) (next : Z)
  (bs : list source_bp) (c : str) (l : Z) : option bp :=
  match bs with
  | [] => None
  | b :: r =>
      match decides P m name (next + 1) r c l with
      | Some x => Some x
      | None => match placed P m name b with
                | Some (f, l') => if str_eqb f c && Z.eqb l' l then Some (Bp next l (sb_info b)) else None
                | None => None
                end
      end
  end.

(** Every breakpoint recorded for file [c] was set by the client under a name equal to [name]. *)
Definition owned_by (P : paths) (s : store) (c name : str) : Prop :=
  forall n i q, In ((n, i), (c, q)) (received s) -> n = norm P name.
