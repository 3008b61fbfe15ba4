(** Model of the answer to exceptionInfo and of the stopped event (property C86).
    Source: /repo/_pydevd_bundle/pydevd_comm.py L1452-1608 (build_exception_info_response),
    /repo/_pydevd_bundle/pydevd_net_command_factory_json.py L367-432 (make_thread_suspend_single_notification).
    The exception stopped at and those it came from are a list, each with its frames as iter_visible_frames_info gives them (that is
    property C44).  Parameters: the lines of files (linecache) and the text which traceback makes of a list of entries.
    Simplifications: __module__ of a type is text; columns of a position are left out (they only underline); getting the frames
    raises nothing. *)
From Coq Require Import String.
From Coq Require Import List NArith ZArith Bool.
From Verif Require Import Base.
Import ListNotations.
Open Scope list_scope.

(** A visible frame: method name, file here, file for the client, line, whether it is the current frame, a plugin's frame, left out by
    the filters, and the last line of its position: None is no position, Some None a position without last line *)
Record frame := Frame { method : str; original : str; client : str; line : nat; is_current : bool; is_plugin : bool; filtered : bool; position : option (option nat) }.
(** exc_type: its __qualname__, its __name__ and its text, each None if that raises; its __module__ *)
Record etype := Etype { qualname : option str; tname : option str; shown : option str; module : option str }.
(** exc_desc: none, one with a text, one whose text raises *)
Inductive descr := NoDesc | Text (s : str) | Bad.
Record exc := Exc { frames : list frame; exc_type : option etype; exc_desc : descr; context_msg : str }.

(** What is given to traceback: file, line, method, text *)
Record entry := Entry { e_file : str; e_line : nat; e_method : str; e_text : str }.

Definition nonempty (s : option str) : bool := match s with Some (_ :: _) => true | _ => false end.
(** L1475-1487 *)
Definition name_of (e : exc) : option str :=
  match exc_type e with
  | None => None
  | Some t => match qualname t with Some q => Some q | None => match tname t with Some n => Some n | None => shown t end end
  end.
(** L1489-1495 *)
Definition description_of (e : exc) : option str := match exc_desc e with Text s => Some s | _ => None end.

(** L1511-1513 *)
Definition left_out (filter_on : bool) (f : frame) : bool := if is_plugin f then false else filter_on && filtered f.
(** L1515-1517 *)
Definition current_mark : str := lit " (Current frame)".
Definition method_text (f : frame) : str := if is_current f then method f ++ current_mark else method f.
(** getlines(file)[a : b] *)
Definition slice (a b : nat) (l : list str) : list str := firstn (b - a) (skipn a l).
Fixpoint join_lines (l : list str) : str := match l with [] => [] | [x] => x | x :: r => x ++ 10%N :: join_lines r end.
(** linecache.getline(file, n): an empty text when there is no such line *)
Definition getline (lines : str -> list str) (file : str) (n : nat) : str :=
  match n with O => [] | S k => nth k (lines file) [] end.
(** L1508, L1526-1542; py311 is false before Python 3.11 (L1548) *)
Definition entry_of (py311 : bool) (lines : str -> list str) (f : frame) : entry :=
  let text := getline lines (original f) (line f) in
  let text := if py311 then
                match position f with
                | Some (Some last) => if Nat.ltb (line f) last then join_lines (slice (line f) (last + 1) (lines (client f))) else text
                | _ => text
                end
              else text in
  Entry (client f) (line f) (method_text f) text.
(** frames[-max_frames:], L1525 *)
Definition limited {A} (max : Z) (l : list A) : list A :=
  if Z.eqb max 0 then l
  else if Z.ltb 0 max then skipn (length l - Z.to_nat max) l
  else skipn (Z.to_nat (- max)) l.

(** L1550-1559 *)
Definition stype_of (e : exc) : str :=
  match exc_type e with
  | None => lit "<unable to get exception type>"
  | Some t =>
      match qualname t with
      | None => lit "<unable to get exception type>"
      | Some q =>
          match module t with
          | Some m => if (str_eqb m (lit "__main__") || str_eqb m (lit "builtins"))%bool then q else m ++ lit "." ++ q
          | None => lit "<unknown>" ++ lit "." ++ q
          end
      end
  end.

Record found := Found { name : option str; description : option str; source : str; paused_at : str; stacks : list str }.

Section Build.
  Variables (py311 : bool) (lines : str -> list str) (format : list entry -> str) (filter_on : bool) (max : Z).

  (** The frames of one exception, L1497-1518: those shown, and the method of the current frame *)
  Definition kept (e : exc) : list frame := filter (fun f => negb (left_out filter_on f)) (frames e).
  Definition paused (e : exc) (before : str) : str :=
    fold_left (fun s f => if is_current f then method f else s) (kept e) before.

  (** One turn of the loop, L1470-1567; false: an exception ends it *)
  Definition turn (r : found) (e : exc) : found * bool :=
    let name' := if nonempty (name r) then name r else match name_of e with Some n => Some n | None => name r end in
    let description' := if nonempty (description r) then description r
                        else match description_of e with Some d => Some d | None => description r end in
    let paused' := paused e (paused_at r) in
    let entries := map (entry_of py311 lines) (kept e) in
    let source' := match source r with [] => match entries with [] => [] | x :: _ => e_file x end | s => s end in
    let stack := format (limited max entries) in
    match exc_desc e with
    | Bad => (Found name' description' source' paused' (stacks r), false)
    | NoDesc => (Found name' description' source' paused' (stacks r ++ [stack ++ (stype_of e ++ lit ": " ++ lit "None" ++ [10%N]) ++ context_msg e]), true)
    | Text s => (Found name' description' source' paused' (stacks r ++ [stack ++ (stype_of e ++ lit ": " ++ s ++ [10%N]) ++ context_msg e]), true)
    end.
  Fixpoint turns (r : found) (l : list exc) : found :=
    match l with
    | [] => r
    | e :: rest =>
        match frames e with
        | [] => r
        | _ => let (r', go) := turn r e in if go then turns r' rest else r'
        end
    end.
End Build.

Inductive break_mode := Always | Unhandled.
Record response := Response { exception_id : str; r_description : str; mode : break_mode; stack_trace : str; r_source : str }.

Definition CMD_STEP_CAUGHT_EXCEPTION : N := 137.
Definition note (at_ : str) : str :=
  lit "       (note: full exception trace is shown but execution is paused at: " ++ at_ ++ lit ")".
(** build_exception_info_response; topmost: the thread has a topmost frame *)
Definition build (py311 : bool) (lines : str -> list str) (format : list entry -> str) (filter_on : bool) (max : Z)
    (topmost : bool) (stop_reason : N) (l : list exc) : response :=
  let r0 := Found None None [] [] [] in
  let r := if topmost then turns py311 lines format filter_on max r0 l else r0 in
  let name := match name r with Some (c :: n) => c :: n | _ => lit "exception: type unknown" end in
  let description := match description r with Some (c :: d) => c :: d | _ => lit "exception: no description" end in
  Response (match paused_at r with [] => name | p => name ++ note p end) description
    (if N.eqb stop_reason CMD_STEP_CAUGHT_EXCEPTION then Always else Unhandled)
    (concat (rev (stacks r))) (source r).

(** * The stopped event, L367-432 *)
Inductive reason := Step | Entry_ | Exception_ | Breakpoint | FunctionBreakpoint | Goto | Pause.
Definition STOP_ON_START : N := 154.
(** CMD_STEP_INTO, CMD_STEP_INTO_MY_CODE, CMD_STEP_OVER, CMD_STEP_OVER_MY_CODE, CMD_STEP_RETURN, CMD_STEP_RETURN_MY_CODE,
    CMD_STOP_ON_START, CMD_STEP_INTO_COROUTINE, CMD_SMART_STEP_INTO of pydevd_comm_constants.py *)
Definition step_reasons : list N := [107; 144; 108; 159; 109; 160; 154; 206; 128]%N.
Definition exception_reasons : list N := [137; 122]%N.
Definition has (n : N) (l : list N) : bool := existsb (N.eqb n) l.
Record stopped := Stopped { s_reason : reason; s_description : option str; s_text : option str; preserve_focus : bool }.
(** original: info.pydev_original_step_cmd, None for -1; the second part is what it is afterwards *)
Definition notification (info : N -> response) (original : option N) (stop : N) : stopped * option N :=
  if has stop step_reasons then
    match original with
    | Some o => if N.eqb o STOP_ON_START then (Stopped Entry_ None None false, None) else (Stopped Step None None false, original)
    | None => (Stopped Step None None false, original)
    end
  else if has stop exception_reasons then
    (Stopped Exception_ (Some (r_description (info stop))) (Some (exception_id (info stop))) false, original)
  else if N.eqb stop 111 then (Stopped Breakpoint None None false, original)
  else if N.eqb stop 208 then (Stopped FunctionBreakpoint None None false, original)
  else if N.eqb stop 127 then (Stopped Goto None None false, original)
  else (Stopped Pause None None true, original).
