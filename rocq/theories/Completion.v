(** Completions offered at a place in a text: the name before the cursor, the names it may stand for, and the
    part of the line which they replace.
    Modelled from _pydev_bundle/_pydev_completer.py (extract_token_and_qualifier, Completer, _StartsWithFilter,
    generate_completions), _pydev_bundle/_pydev_imports_tipper.py (generate_imports_tip_for_module),
    _pydevd_bundle/pydevd_comm.py (internal_get_completions), pydevd_net_command_factory_json.py
    (make_get_completions_message) and pydevd_process_net_command_json.py (on_completions_request). *)
From Coq Require Import String.
From Coq Require Import List Bool Arith Lia NArith.
From Verif Require Import Base Dict Glob GlobSpec EvalText.
Import ListNotations.
Open Scope nat_scope.
Open Scope list_scope.

(** What Python knows of characters: the lower case of a text (str.lower), and which characters beyond ASCII are
    identifiers by themselves (str.isidentifier). *)
Record chars := Chars { lower : str -> str; id_start : N -> bool }.

(** _pydev_completer.py L206-213 and L255: c in identifier_part or isidentifier(c) *)
Definition word_char (u : chars) (c : N) : bool :=
  (97 <=? c)%N && (c <=? 122)%N || (65 <=? c)%N && (c <=? 90)%N || (c =? 95)%N || (48 <=? c)%N && (c <=? 57)%N ||
  (128 <=? c)%N && id_start u c.

(** text.splitlines(), L239: the lines without their ends *)
Definition plain_lines (text : str) : list str := map (filter (fun c => negb (brk Text c))) (lines Text text).

(** L252-259: backwards from the end of the reversed text *)
Fixpoint back (u : chars) (r : str) : str :=
  match r with
  | c :: r' => if word_char u c || (c =? 46)%N then c :: back u r' else []
  | [] => []
  end.

(** extract_token_and_qualifier, L219-267 *)
Definition extract (u : chars) (text : str) (line column : nat) : str * str :=
  match nth_error (plain_lines text) line with
  | None => ([], [])
  | Some l =>
      let column := if length l <=? column then length l else column in
      let temp := rev (back u (rev (firstn column l))) in
      if existsb (N.eqb 46%N) temp then
        let ps := split_on 46%N temp in (join 46%N (removelast ps), last ps [])
      else ([], temp)
  end.

(** What can be completed: the names of the builtins and of the frame's globals and locals; dir() of what an
    expression evaluates to in the frame (None: it raises), and whether the object has the attributes __dict__
    and __class__. *)
Record frame := Frame {
  builtins : list str; globals : list str; locals : list str;
  dir_of : str -> option (list str); has_dict : str -> bool; has_class : str -> bool
}.

(** dict.update: new keys at the end *)
Fixpoint update (a b : list str) : list str :=
  match b with
  | [] => a
  | k :: r => update (if existsb (str_eqb k) a then a else a ++ [k]) r
  end.

(** generate_completions, L150-177, and Completer.global_matches, L93-111 *)
Definition namespace (f : frame) : list str := update (update [] (globals f)) (locals f).
Definition global_names (f : frame) : list str := update (update [] (builtins f)) (namespace f).

(** generate_imports_tip_for_module, _pydev_imports_tipper.py L167-172: the names of an object *)
Definition object_names (f : frame) (e : str) : option (list str) :=
  match dir_of f e with
  | None => None
  | Some d => Some (d ++ (if has_dict f e then [lit "__dict__"] else []) ++ (if has_class f e then [lit "__class__"] else []))
  end.

(** Completer.complete, L76-91, and attr_matches, L113-147, for a text which is empty or ends with a dot: the
    expression before the dot, and no start of a name *)
Definition complete (f : frame) (act_tok : str) : list str :=
  match act_tok with
  | [] => global_names f
  | _ => match object_names f (removelast act_tok) with Some l => l | None => [] end
  end.

Record item := Item { label : str; start : nat; len : nat }.

(** make_get_completions_message, L190-213 *)
Definition offered (u : chars) (names : list str) (qualifier : str) (start : nat) : list item :=
  let q := lower u qualifier in
  map (fun n => Item n start (length q)) (filter (fun n => starts_with q (lower u n)) names).

(** internal_get_completions, pydevd_comm.py L1395-1419; the column is at least 0 *)
Definition get_completions (u : chars) (f : frame) (text : str) (line column : nat) : list item :=
  let '(token, qualifier) := extract u text line column in
  let act_tok := match token with [] => [] | _ => token ++ lit "." end in
  offered u (complete f act_tok) qualifier (column - length qualifier).

(** on_completions_request, L312-338: line (optional) and column count from 1 *)
Definition request (u : chars) (f : frame) (text : str) (line : option nat) (column : nat) : list item :=
  get_completions u f text (match line with None => 0 | Some n => n - 1 end) (column - 1).
