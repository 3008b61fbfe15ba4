(** Model of the classes of the debug adapter protocol: how messages are read from and written to JSON (property C81).
    Sources: /repo/_pydevd_bundle/_debug_adapter/pydevd_schema.py, whose 254 classes all have the shape which
    /repo/_pydevd_bundle/_debug_adapter/__main__pydevd_gen_debug_adapter_protocol.py L278-376 (to_dict and the translation of
    ids) and L379-471 (__init__) gives them; /repo/_pydevd_bundle/_debug_adapter/pydevd_base_schema.py L17-45, L84-109
    (from_dict).
    A class is the list of its properties; the lists of the real classes are in DapSchema.v.
    Not modelled: text and numbers inside of JSON (json.dumps, json.loads); answers without success which lack a part (from_json
    reads them as a general answer, L119-126); the order in which errors are found; a value
    changed in place when a list of dictionaries is read. *)
From Coq Require Import String List ZArith Bool.
Import ListNotations.
Open Scope list_scope.
Open Scope string_scope.

(** Python values: those of JSON, and objects of the classes: name, attributes, and kwargs *)
Inductive py :=
| PNull
| PBool (b : bool)
| PNum (z : Z)
| PStr (s : string)
| PArr (l : list py)
| PDict (d : list (string * py))
| PObj (c : string) (fs kw : list (string * py)).

(** [Const]: an enum of one value, which is no parameter of __init__; [Enum]: a class with VALID_VALUES; [Ref]: another class;
    [Array]: a list, of objects of a class or of anything *)
Inductive kind :=
| Plain
| Const (v : string)
| Enum (valid : list string)
| Ref (c : string)
| Array (item : option string).

(** [Required]: no default; [Given z]: the default is a number (seq); [Optional]: the default is None *)
Inductive need := Required | Given (z : Z) | Optional.

(** [ident]: is_variable_to_translate *)
Record prop := Prop_ { pname : string; pkind : kind; pneed : need; ident : bool }.
Notation class := (list prop).
Notation schema := (list (string * class)).

Fixpoint lookup {A} (k : string) (d : list (string * A)) : option A :=
  match d with
  | [] => None
  | (x, v) :: r => if String.eqb k x then Some v else lookup k r
  end.

(** dct[k] = v *)
Fixpoint set_ (k : string) (v : py) (d : list (string * py)) : list (string * py) :=
  match d with
  | [] => [(k, v)]
  | (x, w) :: r => if String.eqb k x then (x, v) :: r else (x, w) :: set_ k v r
  end.

(** dct.update(kw) *)
Definition update (d kw : list (string * py)) : list (string * py) :=
  fold_left (fun a kv => set_ (fst kv) (snd kv) a) kw d.

Fixpoint map_opt {A B} (f : A -> option B) (l : list A) : option (list B) :=
  match l with
  | [] => Some []
  | x :: r => match f x, map_opt f r with Some y, Some ys => Some (y :: ys) | _, _ => None end
  end.

(** as [map_opt], leaving out what the function leaves out *)
Fixpoint collect {A B} (f : A -> option (option B)) (l : list A) : option (list B) :=
  match l with
  | [] => Some []
  | x :: r =>
      match f x, collect f r with
      | Some (Some y), Some ys => Some (y :: ys)
      | Some None, Some ys => Some ys
      | _, _ => None
      end
  end.

Definition truthy (v : py) : bool :=
  match v with
  | PNull => false
  | PBool b => b
  | PNum z => negb (Z.eqb z 0)
  | PStr s => negb (String.eqb s "")
  | PArr l => match l with [] => false | _ => true end
  | PDict d => match d with [] => false | _ => true end
  | PObj _ _ _ => true
  end.

Definition is_null (v : py) : bool := match v with PNull => true | _ => false end.

(** The names which a class translates (generator L9-21, L284-287) *)
Definition id_names (S : schema) (c : string) : list string :=
  match lookup c S with
  | Some ps => map pname (filter ident ps)
  | None => []
  end.

Definition mem (k : string) (l : list string) : bool := existsb (String.eqb k) l.

Definition is_param (ps : class) (k : string) : bool :=
  existsb (fun p => String.eqb k (pname p) && match pkind p with Const _ => false | _ => true end) ps.

(** update_dict_ids_from_dap, update_dict_ids_to_dap (generator L304-312, L366-376) for one item of a list: every entry
    whose name is translated.  Simplification: an item which is no dictionary fails if the class has names to translate. *)
Definition item_ids (ids : list string) (f : py -> option py) (o : py) : option py :=
  match o with
  | PDict d =>
      match map_opt (fun kv => if mem (fst kv) ids then option_map (pair (fst kv)) (f (snd kv)) else Some kv) d with
      | Some d' => Some (PDict d')
      | None => None
      end
  | _ => match ids with [] => Some o | _ => None end
  end.

(** A list whose items are translated, if it is not empty.  Simplification: another value which is not empty fails. *)
Definition list_ids (ids : list string) (f : py -> option py) (v : py) : option py :=
  if truthy v then
    match v with PArr l => option_map PArr (map_opt (item_ids ids f) l) | _ => None end
  else Some v.

(** __init__ (generator L379-471); [from_]: _translate_id_from_dap, None: KeyError.
    self and update_ids_from_dap cannot be names of the dictionary: TypeError. *)
Section Read.
  Context (S : schema) (from_ : py -> option py).

  Definition reserved (k : string) : bool := String.eqb k "self" || String.eqb k "update_ids_from_dap".

  Fixpoint init (upd : bool) (n : nat) (c : string) (args : list (string * py)) : option py :=
    match n with
    | O => None
    | Datatypes.S n =>
        match lookup c S with
        | None => None
        | Some ps =>
            if existsb (fun kv => reserved (fst kv)) args then None else
            let value (p : prop) (v : py) : option py :=
              match pkind p with
              | Plain => Some v
              | Const t => Some (PStr t)
              | Enum valid =>
                  match v with
                  | PNull => Some v
                  | PStr s => if mem s valid then Some v else None
                  | _ => None
                  end
              | Ref r =>
                  match v with
                  | PNull => init false n r []
                  | PDict d => init upd n r d
                  | PObj r' _ _ => if String.eqb r r' then Some v else None
                  | _ => None
                  end
              | Array None => Some v
              | Array (Some r) => if upd then list_ids (id_names S r) from_ v else Some v
              end in
            let field (p : prop) : option (string * py) :=
              match (match pkind p with
                     | Const t => Some (PStr t)
                     | _ => match lookup (pname p) args with
                            | Some v => Some v
                            | None => match pneed p with Required => None | Given z => Some (PNum z) | Optional => Some PNull end
                            end
                     end) with
              | None => None
              | Some v =>
                  match value p v with
                  | None => None
                  | Some w => option_map (pair (pname p)) (if upd && ident p then from_ w else Some w)
                  end
              end in
            match map_opt field ps with
            | None => None
            | Some fs => Some (PObj c fs (filter (fun kv => negb (is_param ps (fst kv))) args))
            end
        end
    end.
End Read.

(** to_dict (generator L278-364); [to_]: _translate_id_to_dap *)
Section Write.
  Context (S : schema) (to_ : py -> py).

  Definition always (p : prop) : bool :=
    match pkind p with Const _ => true | _ => match pneed p with Optional => false | _ => true end end.

  Fixpoint to_dict (upd : bool) (n : nat) (o : py) : option py :=
    match n with
    | O => None
    | Datatypes.S n =>
        match o with
        | PObj c fs kw =>
            match lookup c S with
            | None => None
            | Some ps =>
                let entry (p : prop) : option (option (string * py)) :=
                  let v := match lookup (pname p) fs with Some v => v | None => PNull end in
                  (* L293-295: x and hasattr(x[0], ...) *)
                  match (match pkind p with
                         | Array _ =>
                             match v with
                             | PArr (PObj _ _ _ :: _ as l) => option_map PArr (map_opt (to_dict false n) l)
                             | PArr _ | PStr _ => Some v
                             | _ => if truthy v then None else Some v
                             end
                         | _ => Some v
                         end) with
                  | None => None
                  | Some v1 =>
                      let v2 := if upd && ident p && negb (is_null v1) then to_ v1 else v1 in
                      if negb (always p) && is_null v2 then Some None
                      else
                        match (match pkind p with
                               | Ref _ => to_dict upd n v2
                               | Array (Some r) => if upd then list_ids (id_names S r) (fun x => Some (to_ x)) v2 else Some v2
                               | _ => Some v2
                               end) with
                        | None => None
                        | Some w => Some (Some (pname p, w))
                        end
                  end in
                match collect entry ps with
                | None => None
                | Some d => Some (PDict (update d kw))
                end
            end
        | _ => None
        end
    end.
End Write.

(** from_dict (pydevd_base_schema.py L84-109); [regs]: the classes registered for a kind of message and its name *)
Definition from_dict (S : schema) (regs : list ((string * string) * string)) (from_ : py -> option py) (upd : bool) (n : nat)
    (dct : list (string * py)) : option py :=
  match lookup "type" dct with
  | None | Some PNull => None
  | Some ty =>
      let is s := match ty with PStr t => String.eqb t s | _ => false end in
      let table := if is "request" then "request" else if is "response" then "response" else "event" in
      let key := if is "request" || is "response" then "command" else "event" in
      match lookup key dct with
      | Some (PStr use) =>
          match find (fun e => String.eqb (fst (fst e)) table && String.eqb (snd (fst e)) use) regs with
          | Some (_, c) => init S from_ upd n c dct
          | None => None
          end
      | _ => None
      end
  end.
