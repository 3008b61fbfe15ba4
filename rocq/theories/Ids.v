(** Model of the translation of ids for the debug adapter protocol and of IDMap (property C14).
    Source: /repo/_pydevd_bundle/_debug_adapter/pydevd_base_schema.py L7-36;
    /repo/_pydevd_bundle/pydevd_process_net_command_json.py L122-138. *)
From Coq Require Import List NArith Bool.
From Verif Require Import Base Dict.
Import ListNotations.

(** Ids: None, "*", numbers and other texts (thread ids). *)
Inductive ident := INone | IStar | INum (n : N) | IStr (s : str).
Definition ident_eqb (a b : ident) : bool :=
  match a, b with
  | INone, INone | IStar, IStar => true
  | INum x, INum y => N.eqb x y
  | IStr x, IStr y => str_eqb x y
  | _, _ => false
  end.

(** A translation in progress, L18-27.  There is no lock: other threads run between its steps. *)
Inductive pc :=
| Idle
| Looked (o : ident)               (* L23 found nothing (or None) *)
| Counted (o : ident) (d : N)      (* L25, _next_dap_id() returned d *)
| Stored (o : ident) (d : N).      (* L25, the id is in _obj_id_to_dap_id *)

Record state := State {
  o2d : list (ident * ident);      (* _obj_id_to_dap_id *)
  d2o : list (ident * ident);      (* _dap_id_to_obj_id *)
  next : N;
  pcs : N -> pc;                   (* per thread *)
  out : list (ident * ident)       (* finished translations: id, translation; newest first *)
}.

(** initialize_ids_translation, L8-12 *)
Definition init : state :=
  State [(INum 0, INum 0); (INone, INone)] [(INum 0, INum 0); (INone, INone)] 1 (fun _ => Idle) [].

Definition setpc (f : N -> pc) (t : N) (p : pc) : N -> pc := fun u => if N.eqb u t then p else f u.

(** One step of thread [t]; [Begin o] calls _translate_id_to_dap(o). *)
Inductive op := Begin (t : N) (o : ident) | Step (t : N).

Definition step (s : state) (x : op) : state :=
  match x with
  | Begin t o =>
      match pcs s t with
      | Idle =>
          match o with
          | IStar => State (o2d s) (d2o s) (next s) (pcs s) ((IStar, IStar) :: out s)
          | _ =>
              match get ident_eqb o (o2d s) with
              | None | Some INone => State (o2d s) (d2o s) (next s) (setpc (pcs s) t (Looked o)) (out s)
              | Some d => State (o2d s) (d2o s) (next s) (pcs s) ((o, d) :: out s)
              end
          end
      | _ => s
      end
  | Step t =>
      match pcs s t with
      | Idle => s
      | Looked o => State (o2d s) (d2o s) (N.succ (next s)) (setpc (pcs s) t (Counted o (next s))) (out s)
      | Counted o d => State (set ident_eqb o (INum d) (o2d s)) (d2o s) (next s) (setpc (pcs s) t (Stored o d)) (out s)
      | Stored o d => State (o2d s) (set ident_eqb (INum d) o (d2o s)) (next s) (setpc (pcs s) t Idle) ((o, INum d) :: out s)
      end
  end.
Definition run (ops : list op) : state := fold_left step ops init.

(** _translate_id_from_dap, L30-36; None: KeyError *)
Definition from_dap (s : state) (d : ident) : option ident :=
  match d with
  | IStar => Some IStar
  | _ => get ident_eqb d (d2o s)
  end.

(** A whole translation without interference: what one thread sees. *)
Definition to_dap (s : state) (o : ident) : state :=
  let s := step s (Begin 0 o) in step (step (step s (Step 0)) (Step 0)) (Step 0).

(** IDMap, pydevd_process_net_command_json.py L122-138; values are given by numbers. *)
Record idmap := IDMap { v2k : list (N * N); k2v : list (N * N); nextk : N }.
Definition idmap_init : idmap := IDMap [] [] 0.
Definition obtain_key (m : idmap) (v : N) : idmap * N :=
  match get N.eqb v (v2k m) with
  | Some k => (m, k)
  | None => (IDMap (set N.eqb v (nextk m) (v2k m)) (set N.eqb (nextk m) v (k2v m)) (N.succ (nextk m)), nextk m)
  end.
Definition obtain_value (m : idmap) (k : N) : option N := get N.eqb k (k2v m).
Fixpoint obtain_keys (m : idmap) (vs : list N) : idmap * list N :=
  match vs with
  | [] => (m, [])
  | v :: r => let '(m, k) := obtain_key m v in let '(m, ks) := obtain_keys m r in (m, k :: ks)
  end.
