(** Specification of exception breakpoints, from the history of requests and the class hierarchy alone. *)
From Coq Require Import List NArith ZArith Bool String Permutation.
From Verif Require Import Base Dict ExcBreak.
Import ListNotations.

(** When a breakpoint applies. *)
Inductive when := WhenRaised | WhenUnhandled | WhenUserUnhandled.

Definition wants (k : when) (b : exb) : bool :=
  match k with WhenRaised => e_handled b | WhenUnhandled => e_unhandled b | WhenUserUnhandled => e_user b end.

Definition table_of (k : when) (t : tables) : table :=
  match k with WhenRaised => caught t | WhenUnhandled => uncaught t | WhenUserUnhandled => user_uncaught t end.

(** Elementary effects of the requests, in order. *)
Inductive basic := BAdd (b : exb) | BRemove (k : str) | BClear.

(** The breakpoints a DAP request asks for: one per name per option, in order. *)
Definition requested (ignore_libs : bool) (filters : list str) (os : list exc_option) : list exb :=
  match os with
  | [] => if str_mem (lit "raised") filters || str_mem (lit "uncaught") filters || str_mem (lit "userUnhandled") filters
          then [Exb base_exception None 0 (str_mem (lit "uncaught") filters) (str_mem (lit "raised") filters)
                    (str_mem (lit "userUnhandled") filters) false ignore_libs]
          else []
  | _ => flat_map (fun o => map (fun n => Exb n None 0 (is_mode (o_mode o) Unhandled) (is_mode (o_mode o) Always)
                                              (is_mode (o_mode o) UserUnhandled) false ignore_libs) (option_names o)) os
  end.

(** The request stops at the first name whose look-up raises something else than ImportError. *)
Fixpoint until_raise (w : world) (bs : list exb) : list exb :=
  match bs with
  | [] => []
  | b :: r => match resolve w (e_key b) with RRaises => [] | _ => b :: until_raise w r end
  end.

Definition effects (w : world) (o : eop) : list basic :=
  match o with
  | EAdd b => [BAdd b]
  | ERemove k => [BRemove k]
  | ERemoveAll => [BClear]
  | EDap l f os => BClear :: map BAdd (until_raise w (requested l f os))
  end.

Definition typed (w : world) (b : exb) : option exb :=
  let mk t := Exb (e_key b) t (e_info b) (e_unhandled b) (e_handled b) (e_user b) (e_first_only b) (e_ignore_libs b) in
  match resolve w (e_key b) with
  | RClass c => Some (mk (Some c))
  | RNone => Some (mk None)
  | _ => None
  end.

(** [registered w k name l]: the breakpoint of kind [k] in force for [name] after the effects [l] (most
    recent first). *)
Fixpoint registered (w : world) (k : when) (name : str) (l : list basic) : option exb :=
  match l with
  | [] => None
  | BAdd b :: r =>
      if str_eqb (e_key b) name && wants k b
      then match typed w b with Some b' => Some b' | None => registered w k name r end
      else registered w k name r
  | BRemove n :: r => if str_eqb n name then None else registered w k name r
  | BClear :: _ => None
  end.

Definition in_force (w : world) (k : when) (name : str) (h : list eop) : option exb :=
  registered w k name (rev (flat_map (effects w) h)).

(** issubclass as a preorder. *)
Definition preorder (w : world) : Prop :=
  (forall c, sub w c c = true) /\ (forall a b c, sub w a b = true -> sub w b c = true -> sub w a c = true).

(** [b] is in force under its name and is for class [t]. *)
Definition candidate (w : world) (k : when) (h : list eop) (e : nat) (b : exb) (t : nat) : Prop :=
  in_force w k (e_key b) h = Some b /\ e_type b = Some t /\ sub w e t = true.

(** ** DAP: what the user asked for *)
Definition filter_of (k : when) : str :=
  match k with WhenRaised => lit "raised" | WhenUnhandled => lit "uncaught" | WhenUserUnhandled => lit "userUnhandled" end.
Definition mode_of (k : when) : break_mode :=
  match k with WhenRaised => Always | WhenUnhandled => Unhandled | WhenUserUnhandled => UserUnhandled end.

(** The exception names of an option: its path starts with the category "Python Exceptions"; alone it means
    all exceptions, otherwise the names follow. *)
Definition names (o : exc_option) (n : str) : Prop :=
  exists p rest, o_path o = p :: rest /\ In python_exceptions p /\
    ((rest = [] /\ n = base_exception) \/ (exists q, In q rest /\ In n q)).

(** Exception options, when present, take precedence over the filters. *)
Definition asks (w : world) (k : when) (e : nat) (filters : list str) (os : list exc_option) : Prop :=
  (os = [] /\ In (filter_of k) filters) \/
  (os <> [] /\ exists o n t, In o os /\ o_mode o = mode_of k /\ names o n /\ resolve w n = RClass t /\ sub w e t = true).

(** BaseException resolves to a class above all others; a class found under the qualified name of a class
    is that class. *)
Definition sane (w : world) : Prop :=
  preorder w /\
  (exists base, resolve w base_exception = RClass base /\ forall c, sub w c base = true) /\
  (forall c, resolve w (qname w c) = RClass c \/ resolve w (qname w c) = RImportError \/ resolve w (qname w c) = RRaises).

(** Every name given can be looked up (found or not importable). *)
Definition resolvable (w : world) (os : list exc_option) : Prop :=
  forall o n, In o os -> names o n -> resolve w n <> RRaises.

(** The event is one the debugger may stop at: not control flow, not filtered. *)
Definition visible (c : config) (il : bool) (v : event) : Prop :=
  v_ignored_exit v = false /\ ~ In (v_class v) (control_flow c) /\ v_ignored_trace v = false /\
  (il = true -> v_in_scope v = true) /\ (filters_enabled c = true -> v_excluded v = false).
