(** Model of the decoding of breakpoint commands of the line protocol (properties C35 and C47).
    Source: /repo/_pydevd_bundle/pydevd_process_net_command.py: cmd_set_break L254-306, cmd_remove_break L373-386,
    cmd_add_exception_break L579-645, cmd_remove_exception_break L647-657; strip() is that of ASCII texts. The results are the arguments given to the API;
    None stands for an exception raised by the decoding (the client gets an error message). *)
From Coq Require Import String List NArith ZArith Bool.
From Verif Require Import Base HitCond.
Import ListNotations.
Local Open Scope list_scope.

Definition tab : N := 9.
Definition newline : N := 10.
(** text.split(sep, n) *)
Fixpoint splitn (n : nat) (s : str) : list str :=
  match n with
  | O => [s]
  | S n => match split1 tab s with Some (a, b) => a :: splitn n b | None => [s] end
  end.

Definition nl_mark : str := lit "@_@NEW_LINE_CHAR@_@".
Definition tab_mark : str := lit "@_@TAB_CHAR@_@".
(** L287-289, L301-303 *)
Definition restore (s : str) : str := strip (replace tab_mark [tab] (replace nl_mark [newline] s)).
(** L305-312 *)
Definition opt_text (s : str) : option str :=
  match s with [] => None | _ => if str_eqb s (lit "None") then None else Some s end.

Record brk := Brk {
  b_id : Z; b_type : str; b_file : str; b_line : Z; b_func : str; b_cond : option str; b_expr : option str;
  b_hit : option str; b_log : bool; b_policy : str
}.
(** The common end: int(breakpoint_id), int(line), the texts *)
Definition make (id ty file line func cond expr : str) (hit : option str) (log : bool) (policy : str) : option brk :=
  match py_int id, py_int line with
  | Some i, Some l => Some (Brk i ty file l func (opt_text (restore cond)) (opt_text (restore expr))
                              (match hit with Some h => opt_text h | None => None end) log policy)
  | _, _ => None
  end.
(** cmd_set_break; [by_id]: _set_breakpoints_with_id *)
Definition set_break (by_id : bool) (text : str) : option brk :=
  if by_id then
    match splitn 9 text with
    | [id; ty; file; line; func; cond; expr; hit; log; policy] => make id ty file line func cond expr (Some hit) (str_eqb log (lit "True")) policy
    | _ => match splitn 8 text with
           | [id; ty; file; line; func; cond; expr; hit; log] => make id ty file line func cond expr (Some hit) (str_eqb log (lit "True")) (lit "NONE")
           | _ => match splitn 6 text with
                  | [id; ty; file; line; func; cond; expr] => make id ty file line func cond expr None false (lit "NONE")
                  | _ => None
                  end
           end
    end
  else
    match splitn 6 text with
    | [ty; file; line; func; policy; cond; expr] => make line ty file line func cond expr None false policy
    | _ => None
    end.
(** cmd_remove_break: type, file and id; a wrong id is only logged: [Some None] *)
Definition remove_break (text : str) : option (option (str * str * Z)) :=
  match splitn 2 text with
  | [ty; file; id] => Some (match py_int id with Some i => Some (ty, file, i) | None => None end)
  | _ => None
  end.

(** text.split("-") with exactly two parts *)
Definition dash : N := 45.
Definition typed (exc : str) : option (str * str) :=
  match split1 dash exc with
  | None => Some (lit "python", exc)
  | Some (t, e) => match split1 dash e with None => Some (t, e) | Some _ => None end
  end.
Inductive exc_brk :=
| PyExc (name : str) (cond expr : option str) (handled unhandled first_only ignore_libs : bool)
| PluginExc (ty name : str).
Definition make_exc (exc cond expr handled unhandled ignore : str) : option exc_brk :=
  match typed exc with
  | None => None
  | Some (ty, name) =>
      if str_eqb ty (lit "python") then
        match py_int handled, py_int unhandled, py_int ignore with
        | Some h, Some u, Some i => Some (PyExc name (opt_text (restore cond)) (opt_text (restore expr)) (Z.ltb 0 h) (Z.eqb u 1) (Z.eqb h 2) (Z.ltb 0 i))
        | _, _, _ => None
        end
      else Some (PluginExc ty name)
  end.
(** cmd_add_exception_break; the numbers 0 of a text without tab are written as texts *)
Definition add_exc (text : str) : option exc_brk :=
  match split1 tab text with
  | None => make_exc text [] [] (lit "0") (lit "0") (lit "0")
  | Some _ => match splitn 5 text with
              | [exc; cond; expr; handled; unhandled; ignore] => make_exc exc cond expr handled unhandled ignore
              | _ => match splitn 3 text with
                     | [exc; handled; unhandled; ignore] => make_exc exc [] [] handled unhandled ignore
                     | _ => None
                     end
              end
  end.
(** cmd_remove_exception_break: type and name *)
Definition remove_exc (text : str) : option (str * str) := typed text.
