(** Model of log messages with placeholders (property C21).
    Source: /repo/_pydevd_bundle/pydevd_utils.py L205-245.
    The expression returned is modelled as a syntax tree: a string constant, or a string constant formatted with a tuple
    display; the text of each expression is kept. *)
From Coq Require Import List NArith ZArith Bool String.
From Verif Require Import Base.
Import ListNotations.

Definition c_open : N := 123.
Definition c_close : N := 125.
Definition c_pct : N := 37.

(** _extract_variable_nested_braces, L205-216; None: SyntaxError *)
Fixpoint extract_var (s : str) (level : nat) (acc : str) : option (str * str) :=
  match s with
  | [] => None
  | c :: r =>
      if N.eqb c c_open then extract_var r (S level) (acc ++ [c])
      else if N.eqb c c_close then
        match level with
        | O => Some (strip acc, r)
        | S l => extract_var r l (acc ++ [c])
        end
      else extract_var r level (acc ++ [c])
  end.

(** _extract_expression_list, L219-234; [n] bounds the number of characters (the iterator is shared) *)
Fixpoint extract_list (n : nat) (s : str) (fmt : str) (vars : list str) : option (str * list str) :=
  match n, s with
  | _, [] => Some (fmt, vars)
  | O, _ => None
  | S n, c :: r =>
      if N.eqb c c_open then
        match extract_var r 0 [] with
        | None => None
        | Some (v, r) =>
            match v with
            | [] => extract_list n r fmt vars
            | _ => extract_list n r (fmt ++ lit "%s") (vars ++ [v])
            end
        end
      else extract_list n r (fmt ++ [c]) vars
  end.

Inductive expr := Const (s : str) | Format (fmt : str) (vars : list str).

(** convert_dap_log_message_to_expression, L237-245 *)
Definition convert (msg : str) : expr :=
  match extract_list (List.length msg) msg [] [] with
  | None => Const (lit "Unbalanced braces in: " ++ msg)
  | Some (fmt, []) => Const fmt
  | Some (fmt, vars) => Format fmt vars
  end.

(** * Python's % operator on text (trusted description of the language).
    Flags, width and precision are skipped; "%%" with any of them gives "%"; "%s" without any takes the next value.
    Other conversions are not described: None.  None also stands for an exception. *)
Definition is_flag (c : N) : bool := existsb (N.eqb c) (lit "-+ 0#123456789.").
Fixpoint py_format (fmt : str) (conv : option bool) (vals : list str) : option str :=
  match fmt, conv with
  | [], None => match vals with [] => Some [] | _ => None end       (* not all arguments converted *)
  | [], Some _ => None                                               (* incomplete format *)
  | c :: r, None =>
      if N.eqb c c_pct then py_format r (Some false) vals
      else match py_format r None vals with Some t => Some (c :: t) | None => None end
  | c :: r, Some flags =>
      if N.eqb c c_pct then match py_format r None vals with Some t => Some (c_pct :: t) | None => None end
      else if N.eqb c 115 && negb flags then
        match vals with
        | [] => None                                                 (* not enough arguments *)
        | v :: vs => match py_format r None vs with Some t => Some (v ++ t) | None => None end
        end
      else if is_flag c then py_format r (Some true) vals
      else None
  end.

(** Evaluation: [items e] are the elements that the text [e] contributes to a tuple display, [str_of] the text of a value. *)
Definition eval (items : str -> list str) (str_of : str -> str) (e : expr) : option str :=
  match e with
  | Const s => Some s
  | Format fmt vars => py_format fmt None (map str_of (flat_map items vars))
  end.
