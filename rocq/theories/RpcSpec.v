(** What property C51 asks for: the requests made, the answers given, the requests still waiting, and the (documented)
    ways in which a request is never answered.  Nothing here uses the handlers of Rpc.v. *)
From Coq Require Import String.
From Coq Require Import List NArith ZArith Bool.
From Verif Require Import Base Dict Rpc.
Import ListNotations.
Open Scope list_scope.

Definition is (c : str) (s : string) : bool := str_eqb c (lit s).
Definition among (c : str) (l : list string) : bool := existsb (is c) l.
Definition opt {A} (o : option A) : list A := match o with Some x => [x] | None => [] end.

(** The requests the messages of the client make: those with a number, and those the protocol accepts without one. *)
Definition asked_by (m : message) : list key :=
  match m with
  | Unreadable => []
  | Object o =>
      match o_type o, o_seq o, o_command o with
      | MOther, Some q, c => if o_ok o then [] else [(q, match c with Some c => c | None => lit "<unknown>" end)]
      | MOther, None, _ => []
      | _, Some q, c => [(q, match c with Some c => c | None => lit "<unknown>" end)]
      | MRequest, None, Some c => if o_ok o && existsb (str_eqb c) registered then [((-1)%Z, c)] else []
      | _, None, _ => []
      end
  end.
Definition asked (s : state) (e : event) : list key :=
  match e with EMsg m => if reading s then asked_by m else [] | _ => [] end.

(** The requests answered, in the order of the answers. *)
Definition answered (s : state) : list key :=
  flat_map (fun m => match m with Resp k _ => [k] | Garbage _ => [] end) (out s).

(** The requests which wait to be answered: in the queues, for the program to run, for a thread to jump. *)
Definition wait_cmd (c : icmd) : list key := match i_kind c with IStep => [] | _ => [i_key c] end.
Definition gotos (l : list (N * thread)) : list key := flat_map (fun p => opt (th_goto (snd p))) l.
Definition waiting (s : state) : list key :=
  flat_map (fun p => flat_map wait_cmd (snd p)) (queues s) ++ flat_map wait_cmd (star s) ++ callbacks s ++ gotos (threads s).

(** Requests of the protocol which pydevd does not support. *)
Definition unsupported : list string :=
  ["cancel"; "runInTerminal"; "startDebugging"; "restart"; "breakpointLocations"; "dataBreakpointInfo";
   "setDataBreakpoints"; "setInstructionBreakpoints"; "stepBack"; "reverseContinue"; "restartFrame"; "terminateThreads";
   "loadedSources"; "readMemory"; "writeMemory"; "disassemble"]%string.

(** A request which ends the session: the arguments are not usable, the thread id is not that of a thread, breakpoints
    or a source map for a source without a path, scopes of something which is no frame. *)
Definition known_target (a : args) (s : state) : bool := (a_goto a <? N.of_nat (List.length (goto_map s)))%N.
Definition fatal (c : str) (a : args) (s : state) : bool :=
  a_raises a
  || match a_thread a with
     | TOther => among c ["pause"; "next"; "stepOut"]%string
                 || (is c "stepIn" && match a_target a with None => true | Some _ => false end)
                 || (is c "continue" && negb (single s))
                 || (is c "goto" && known_target a s)
     | _ => false
     end
  || match a_path a with
     | None => (is c "setBreakpoints" && launched s) || is c "setPydevdSourceMap"
     | Some _ => false
     end
  || (is c "scopes" && match a_ref a with RNum _ => false | _ => true end).

(** A goto for a thread which is gone. *)
Definition goto_gone (c : str) (a : args) (s : state) : bool :=
  is c "goto" && known_target a s && match find_thread (a_thread a) s with None => true | Some _ => false end.

(** The goto requests forgotten because their thread is told to run before it has jumped. *)
Definition goto_of (t : N) (s : state) : list key := match thr t s with Some h => opt (th_goto h) | None => [] end.
Definition gotos_but (t : N) (s : state) : list key :=
  flat_map (fun p => if N.eqb (fst p) t then [] else opt (th_goto (snd p))) (threads s).
Definition forgotten_by (c : str) (a : args) (s : state) : list key :=
  if is c "continue" then
    if single s then gotos (threads s)
    else match a_thread a with TStar => gotos (threads s) | TThread t => goto_of t s | _ => [] end
  else if is c "disconnect" && negb (a_terminate a) then gotos (threads s)
  else [].

Definition authorized (c : str) (a : args) (s : state) : bool :=
  Auth.is_authenticated (if is c "pydevdAuthorize" then Auth.login (auth s) (a_token a) else auth s).

(** A request accepted by the protocol classes. *)
Definition accepted (o : obj) : bool :=
  match o_type o, o_command o with MRequest, Some c => o_ok o && existsb (str_eqb c) registered | _, _ => false end.

(** The requests which an event leaves without an answer for ever. *)
Definition lost (s : state) (e : event) : list key :=
  match e with
  | EMsg (Object o) =>
      if reading s && accepted o then
        let c := match o_command o with Some c => c | None => [] end in
        let a := o_args o in
        if among c unsupported then asked_by (Object o)
        else if negb (authorized c a s) then []
        else if fatal c a s then asked_by (Object o)
        else (if goto_gone c a s then asked_by (Object o) else []) ++ forgotten_by c a s
      else []
  | EMsg Unreadable => []
  | EExec t x =>
      match thr t s, queue t s with
      | Some h, c :: _ =>
          if th_in h && negb (th_run h) then
            match i_kind c with
            | ISetVariable r => if tracked r h && x_raises x then [i_key c] else []
            | IEvaluate | ISetExpression => if x_raises x then [i_key c] else []
            | ICompletions r => if tracked r h && negb (x_raises x) then [] else [i_key c]
            | IGoto => goto_of t s
            | IStep => goto_of t s ++ (if resume_all s then gotos_but t s else [])
            | _ => []
            end
          else []
      | _, _ => []
      end
  | EStar i late x =>
      match nth_error (star s) i with
      | Some c =>
          let tried := match i_kind c with
                       | IStack d => late || match find_thread d s with
                                             | Some t => match thr t s with Some h => th_in h | None => false end
                                             | None => false end
                       | _ => true end in
          if tried && x_raises x then [i_key c] else []
      | None => []
      end
  | EMark t main => if main then [] else goto_of t s
  | _ => []
  end.

Fixpoint asked_in (s : state) (es : list event) : list key :=
  match es with [] => [] | e :: r => asked s e ++ asked_in (step s e) r end.
Fixpoint lost_in (s : state) (es : list event) : list key :=
  match es with [] => [] | e :: r => lost s e ++ lost_in (step s e) r end.

(** The requests which are answered at once, whatever the state. *)
Definition immediate : list string :=
  ["initialize"; "configurationDone"; "launch"; "attach"; "disconnect"; "terminate"; "setBreakpoints";
   "setFunctionBreakpoints"; "setExceptionBreakpoints"; "next"; "stepIn"; "stepOut"; "pause"; "scopes"; "source";
   "threads"; "modules"; "gotoTargets"; "setDebuggerProperty"; "setPydevdSourceMap"; "pydevdSystemInfo";
   "pydevdAuthorize"]%string.
