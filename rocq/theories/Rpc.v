(** Model of how requests of the debug adapter protocol are answered (property C51).
    Sources: /repo/_pydevd_bundle/pydevd_process_net_command_json.py L150-1360 (process_net_command_json and all the
    on_..._request methods), /repo/_pydevd_bundle/pydevd_comm.py L240-328 (ReaderThread), L544-597 (internal commands),
    L658-815, L906-960, L1052-1127, L1157-1322, L1346-1435, L1609-1620, /repo/pydevd.py L483-498 (callbacks of continue),
    L1587-1601 (posting), L1761-1856 (process_internal_commands), L2195-2306 (_do_wait_suspend),
    /repo/_pydevd_bundle/_debug_adapter/pydevd_base_schema.py L84-143.
    Bodies of responses are not modelled, only the number of the request, the command and the success.
    Authentication is Auth.v, the announcement of stops and continues is Notify.v.
    Simplification: what is written after the reader ended counts as sent, although the connection is then being closed. *)
From Coq Require Import String.
From Coq Require Import List NArith ZArith Bool.
From Verif Require Import Base Dict.
From Verif Require Auth Notify.
Import ListNotations.
Open Scope list_scope.

(** str.lower() on ASCII (command names are ASCII, see [registered]). *)
Definition lower1 (c : N) : N := if ((65 <=? c) && (c <=? 90))%N then (c + 32)%N else c.
Definition lower (s : str) : str := map lower1 s.

(** The requests known to the protocol classes: every register_request of pydevd_schema.py. *)
Definition registered : list str := map lit
  ["cancel"; "runInTerminal"; "startDebugging"; "initialize"; "configurationDone"; "launch"; "attach"; "restart";
   "disconnect"; "terminate"; "breakpointLocations"; "setBreakpoints"; "setFunctionBreakpoints";
   "setExceptionBreakpoints"; "dataBreakpointInfo"; "setDataBreakpoints"; "setInstructionBreakpoints"; "continue";
   "next"; "stepIn"; "stepOut"; "stepBack"; "reverseContinue"; "restartFrame"; "goto"; "pause"; "stackTrace"; "scopes";
   "variables"; "setVariable"; "source"; "threads"; "terminateThreads"; "modules"; "loadedSources"; "evaluate";
   "setExpression"; "stepInTargets"; "gotoTargets"; "completions"; "exceptionInfo"; "readMemory"; "writeMemory";
   "disassemble"; "setDebuggerProperty"; "setPydevdSourceMap"; "pydevdSystemInfo"; "pydevdAuthorize"]%string.

Inductive handler :=
| HAuthorize | HInitialize | HConfigurationDone | HThreads | HTerminate | HCompletions | HLaunch | HPause | HContinue
| HStep | HStepIn | HStepInTargets | HDisconnect | HSetBreakpoints | HSetFunctionBreakpoints
| HSetExceptionBreakpoints | HStackTrace | HExceptionInfo | HScopes | HEvaluate | HSetExpression | HVariables
| HSetVariable | HModules | HSource | HGotoTargets | HGoto | HSetDebuggerProperty | HSystemInfo | HSourceMap.

(** The methods on_..._request of PyDevJsonCommandProcessor, by the name between on_ and _request. *)
Definition handlers : list (str * handler) := map (fun p => (lit (fst p), snd p))
  [("pydevdauthorize", HAuthorize); ("initialize", HInitialize); ("configurationdone", HConfigurationDone);
   ("threads", HThreads); ("terminate", HTerminate); ("completions", HCompletions); ("launch", HLaunch);
   ("attach", HLaunch); ("pause", HPause); ("continue", HContinue); ("next", HStep); ("stepin", HStepIn);
   ("stepintargets", HStepInTargets); ("stepout", HStep); ("disconnect", HDisconnect);
   ("setfunctionbreakpoints", HSetFunctionBreakpoints); ("setbreakpoints", HSetBreakpoints);
   ("setexceptionbreakpoints", HSetExceptionBreakpoints); ("stacktrace", HStackTrace);
   ("exceptioninfo", HExceptionInfo); ("scopes", HScopes); ("evaluate", HEvaluate); ("setexpression", HSetExpression);
   ("variables", HVariables); ("setvariable", HSetVariable); ("modules", HModules); ("source", HSource);
   ("gototargets", HGotoTargets); ("goto", HGoto); ("setdebuggerproperty", HSetDebuggerProperty);
   ("pydevdsysteminfo", HSystemInfo); ("setpydevdsourcemap", HSourceMap)]%string.

(** L198-199: getattr(self, "on_%s_request" % command.lower(), None) *)
Definition handler_of (c : str) : option handler := get str_eqb (lower c) handlers.

(** A thread id as received: the id of a thread, the id of a custom frame of a thread, the text "*", or something which
    is no text at all: ids are numbers for the client, translated back to what they stand for (property C14), which is
    the number 0 for 0 and another number for the ids of frames and variables. *)
Inductive tid := TThread (t : N) | TFrame (t : N) | TStar | TOther.
(** A frame id or variables reference, translated back in the same way: none given, a number, the text of a thread id. *)
Inductive ref := RNone | RNum (r : Z) | RText.

(** The arguments the way a request is answered depends on.  [a_raises]: the code called by the handler raises for other
    reasons (such as options of the wrong type); [a_ok]: what is asked for is found (source) or accepted (source map). *)
Record args := Args {
  a_thread : tid;
  a_ref : ref;
  a_target : option N;          (* targetId of stepIn *)
  a_goto : N;                   (* targetId of goto *)
  a_path : option N;            (* source.path *)
  a_line : Z;
  a_terminate : bool;           (* terminateDebuggee *)
  a_single : option bool;       (* multiThreadsSingleNotification, or stopAllThreadsOnSuspend in launch and attach *)
  a_resume_all : bool;          (* steppingResumesAllThreads, in launch and attach *)
  a_return : bool;              (* the name of setVariable starts with "(return) " *)
  a_token : option str;         (* debugServerAccessToken *)
  a_ok : bool;
  a_raises : bool
}.

(** The number of a request and its command: what an answer must carry. *)
Definition key := (Z * str)%type.

(** What is written to the client: a response to a request, or a message made by make_error_message, which
    NetCommandFactoryJson inherits: it is not a protocol message (NetCommand(CMD_ERROR, seq, text), no json). *)
Inductive omsg := Resp (k : key) (ok : bool) | Garbage (q : Z).

(** Internal commands; [i_key] is what the response will carry: the request given to build_response, or the number and
    the literal command of make_get_thread_stack_message, make_get_completions_message,
    make_set_next_stmnt_status_message, build_exception_info_response. *)
Inductive ikind :=
| IVariables                      (* internal_get_variable_json *)
| ISetVariable (r : ref)          (* internal_change_variable_json *)
| IEvaluate                       (* internal_evaluate_expression_json *)
| ISetExpression                  (* internal_set_expression_json *)
| ICompletions (r : ref)          (* internal_get_completions *)
| ITargets (r : ref)              (* internal_get_step_in_targets_json *)
| IExceptionInfo                  (* internal_get_exception_details_json *)
| IStack (t : tid)                (* InternalGetThreadStack *)
| IGoto                           (* InternalSetNextStatementThread *)
| IStep.                          (* internal_step_in_thread, internal_smart_step_into: no response *)
Record icmd := ICmd { i_key : key; i_kind : ikind }.

(** What is known of a thread of the program.  [th_in]: it is in do_wait_suspend, its frames are tracked;
    [th_run]: pydev_state is STATE_RUN; [th_goto]: pydev_step_cmd is CMD_SET_NEXT_STATEMENT, with the request whose
    number is in pydev_message; [th_refs]: frame ids and variables references; [th_targets]: the ids in
    target_id_to_smart_step_into_variant; [th_noted]: its stop was handed to the single notification. *)
Record thread := Thread {
  th_in : bool;
  th_run : bool;
  th_goto : option key;
  th_refs : list Z;
  th_targets : list N;
  th_noted : bool
}.

Record state := State {
  reading : bool;                     (* the reader thread is in its loop *)
  auth : Auth.auth;
  launched : bool;                    (* _launch_or_attach_request_done *)
  single : bool;                      (* multi_threads_single_notification *)
  resume_all : bool;                  (* stepping_resumes_all_threads *)
  goto_map : list (option N * Z);     (* _goto_targets_map: the ids are the positions *)
  threads : list (N * thread);        (* alive *)
  queues : list (N * list icmd);      (* _cmd_queue of each thread *)
  star : list icmd;                   (* _cmd_queue of any thread *)
  callbacks : list key;               (* on_resumed callbacks: the continue requests *)
  notes : Notify.state;
  out : list omsg                     (* oldest first *)
}.

Definition init (a : Auth.auth) : state := State true a false false true [] [] [] [] [] Notify.init [].

Definition with_reading b s := State b (auth s) (launched s) (single s) (resume_all s) (goto_map s) (threads s) (queues s) (star s) (callbacks s) (notes s) (out s).
Definition with_auth a s := State (reading s) a (launched s) (single s) (resume_all s) (goto_map s) (threads s) (queues s) (star s) (callbacks s) (notes s) (out s).
Definition with_launched b s := State (reading s) (auth s) b (single s) (resume_all s) (goto_map s) (threads s) (queues s) (star s) (callbacks s) (notes s) (out s).
Definition with_single b s := State (reading s) (auth s) (launched s) b (resume_all s) (goto_map s) (threads s) (queues s) (star s) (callbacks s) (notes s) (out s).
Definition with_resume_all b s := State (reading s) (auth s) (launched s) (single s) b (goto_map s) (threads s) (queues s) (star s) (callbacks s) (notes s) (out s).
Definition with_goto_map m s := State (reading s) (auth s) (launched s) (single s) (resume_all s) m (threads s) (queues s) (star s) (callbacks s) (notes s) (out s).
Definition with_threads l s := State (reading s) (auth s) (launched s) (single s) (resume_all s) (goto_map s) l (queues s) (star s) (callbacks s) (notes s) (out s).
Definition with_queues q s := State (reading s) (auth s) (launched s) (single s) (resume_all s) (goto_map s) (threads s) q (star s) (callbacks s) (notes s) (out s).
Definition with_star q s := State (reading s) (auth s) (launched s) (single s) (resume_all s) (goto_map s) (threads s) (queues s) q (callbacks s) (notes s) (out s).
Definition with_callbacks c s := State (reading s) (auth s) (launched s) (single s) (resume_all s) (goto_map s) (threads s) (queues s) (star s) c (notes s) (out s).
Definition with_notes n s := State (reading s) (auth s) (launched s) (single s) (resume_all s) (goto_map s) (threads s) (queues s) (star s) (callbacks s) n (out s).
Definition write (l : list omsg) s := State (reading s) (auth s) (launched s) (single s) (resume_all s) (goto_map s) (threads s) (queues s) (star s) (callbacks s) (notes s) (out s ++ l).

Definition thr (t : N) (s : state) : option thread := get N.eqb t (threads s).
Definition set_thr (t : N) (h : thread) (s : state) : state := with_threads (set N.eqb t h (threads s)) s.
Definition queue (t : N) (s : state) : list icmd := match get N.eqb t (queues s) with Some q => q | None => [] end.

(** pydevd_thread_lifecycle.py L11-25 (pydevd_find_thread_by_id); also matches the id of a custom frame of a thread. *)
Definition find_thread (i : tid) (s : state) : option N :=
  match i with
  | TThread t | TFrame t => if mem N.eqb t (threads s) then Some t else None
  | TStar | TOther => None
  end.

(** pydevd.py L1580-1601 *)
Definition post (t : N) (c : icmd) (s : state) : state := with_queues (set N.eqb t (queue t s ++ [c]) (queues s)) s.
Definition post_any (c : icmd) (s : state) : state := with_star (star s ++ [c]) s.

(** pydevd_suspended_frames.py L458-490 (get_thread_id_for_variable_reference) *)
Definition zmem (r : Z) (l : list Z) : bool := existsb (Z.eqb r) l.
Definition thread_of (r : ref) (s : state) : option N :=
  match r with
  | RNum z => option_map fst (find (fun p => zmem z (th_refs (snd p))) (threads s))
  | RNone | RText => None
  end.

(** pydevd_thread_lifecycle.py L53-79 (internal_run_thread, resume_threads): L56 forgets the step command. *)
Definition run_thread (h : thread) : thread := Thread (th_in h) true None (th_refs h) (th_targets h) (th_noted h).
Definition resume_others (t : N) (s : state) : state :=
  with_threads (map (fun p => (fst p, if N.eqb (fst p) t then snd p else run_thread (snd p))) (threads s)) s.
Definition resume_every (s : state) : state := with_threads (map (fun p => (fst p, run_thread (snd p))) (threads s)) s.

(** L253-273 of pydevd_api.py (request_step, request_smart_step_into): None when it raises. *)
Definition request_step (i : tid) (k : key) (s : state) : option state :=
  match find_thread i s with
  | Some t => Some (post t (ICmd k IStep) s)
  | None => match i with TOther => None | _ => Some s end       (* thread_id.startswith *)
  end.

(** How a handler ends: it returns a response, returns nothing, or raises. *)
Inductive hres := HAnswer (ok : bool) | HNothing | HRaise.

(** The handlers, L223-1360.  Simplification: what they change besides what is in the state is left out. *)
Definition handle (h : handler) (k : key) (a : args) (s : state) : state * hres :=
  if a_raises a then (s, HRaise) else
  match h with
  | HAuthorize | HInitialize | HConfigurationDone | HThreads | HTerminate | HModules | HSystemInfo
  | HSetExceptionBreakpoints => (s, HAnswer true)
  | HSource => (s, HAnswer (a_ok a))
  | HCompletions =>                                               (* L312-337 *)
      match thread_of (a_ref a) s with
      | None => (s, HAnswer false)
      | Some t => (post t (ICmd (fst k, lit "completions") (ICompletions (a_ref a))) s, HNothing)
      end
  | HLaunch =>                                                    (* L348-358, L520-542 *)
      let s := with_resume_all (a_resume_all a) (with_launched true s) in
      (match a_single a with Some b => with_single b s | None => s end, HAnswer true)
  | HPause =>                                                     (* L544-554; the marks are events of their own *)
      match a_thread a with TOther => (s, HRaise) | _ => (s, HAnswer true) end     (* thread_id.strip() *)
  | HContinue =>                                                  (* L556-584 *)
      if single s then (resume_every (with_callbacks (callbacks s ++ [k]) s), HNothing)
      else match a_thread a with
           | TOther => (s, HRaise)
           | TStar => (resume_every s, HAnswer true)
           | TFrame _ => (s, HAnswer true)
           | TThread t => (match thr t s with Some h => set_thr t (run_thread h) s | None => s end, HAnswer true)
           end
  | HStep =>                                                      (* L586-601, L683-698 *)
      match request_step (a_thread a) k s with Some s' => (s', HAnswer true) | None => (s, HRaise) end
  | HStepIn =>                                                    (* L603-658 *)
      match a_target a with
      | Some g =>
          match find_thread (a_thread a) s with
          | None => (s, HAnswer false)
          | Some t =>
              let targets := match thr t s with Some h => th_targets h | None => [] end in
              if existsb (N.eqb g) targets then (post t (ICmd k IStep) s, HAnswer true) else (s, HAnswer false)
          end
      | None => match request_step (a_thread a) k s with Some s' => (s', HAnswer true) | None => (s, HRaise) end
      end
  | HStepInTargets =>                                             (* L660-681 *)
      match thread_of (a_ref a) s with
      | None => (s, HAnswer false)
      | Some t => (post t (ICmd k (ITargets (a_ref a))) s, HNothing)
      end
  | HDisconnect =>                                                (* L727-741; request_disconnect, on_disconnect *)
      if a_terminate a then (s, HAnswer true)
      else (resume_every (with_auth (Auth.logout (auth s)) (with_launched false s)), HAnswer true)
  | HSetFunctionBreakpoints => (s, HAnswer (launched s))          (* L757-788 *)
  | HSetBreakpoints =>                                            (* L790-854; filename_to_str(source.path) *)
      if launched s then match a_path a with Some _ => (s, HAnswer true) | None => (s, HRaise) end else (s, HAnswer false)
  | HStackTrace =>                                                (* L1001-1022, pydevd_api.py L231-239 *)
      let c := (fst k, lit "stackTrace") in
      let suspended := match find_thread (a_thread a) s with
                       | Some t => match thr t s with Some h => th_in h | None => false end
                       | None => false end in
      if suspended then (write [Resp c true] s, HNothing) else (post_any (ICmd c (IStack (a_thread a))) s, HNothing)
  | HExceptionInfo =>                                             (* L1024-1043 *)
      match find_thread (a_thread a) s with
      | Some t => (post t (ICmd (fst k, lit "exceptionInfo") IExceptionInfo) s, HNothing)
      | None => (s, HAnswer false)
      end
  | HScopes => match a_ref a with RNum _ => (s, HAnswer true) | _ => (s, HRaise) end     (* L1045-1061: int(...) *)
  | HEvaluate =>                                                  (* L1063-1082 *)
      match a_ref a with
      | RNone => (post_any (ICmd k IEvaluate) s, HNothing)
      | r => match thread_of r s with
             | Some t => (post t (ICmd k IEvaluate) s, HNothing)
             | None => (s, HAnswer false)
             end
      end
  | HSetExpression =>                                             (* L1084-1097 *)
      match thread_of (a_ref a) s with
      | Some t => (post t (ICmd k ISetExpression) s, HNothing)
      | None => (s, HAnswer false)
      end
  | HVariables =>                                                 (* L1099-1129 *)
      match thread_of (a_ref a) s with
      | Some t => (post t (ICmd k IVariables) s, HNothing)
      | None => (s, HAnswer false)
      end
  | HSetVariable =>                                               (* L1131-1157 *)
      if a_return a then (s, HAnswer false) else
      match thread_of (a_ref a) s with
      | Some t => (post t (ICmd k (ISetVariable (a_ref a))) s, HNothing)
      | None => (s, HAnswer false)
      end
  | HGotoTargets =>                                               (* L1223-1231, IDMap *)
      (if existsb (fun p => match fst p, a_path a with
                            | None, None => Z.eqb (snd p) (a_line a)
                            | Some x, Some y => N.eqb x y && Z.eqb (snd p) (a_line a)
                            | _, _ => false end) (goto_map s) then s
       else with_goto_map (goto_map s ++ [(a_path a, a_line a)]) s, HAnswer true)
  | HGoto =>                                                      (* L1233-1251, pydevd_api.py L295-314 *)
      if (a_goto a <? N.of_nat (length (goto_map s)))%N then
        match find_thread (a_thread a) s with
        | Some t => (post t (ICmd (fst k, lit "goto") IGoto) s, HNothing)
        | None => match a_thread a with TOther => (s, HRaise) | _ => (s, HNothing) end
        end
      else (s, HAnswer false)
  | HSetDebuggerProperty =>                                       (* L1253-1282 *)
      (match a_single a with Some b => with_single b s | None => s end, HAnswer true)
  | HSourceMap =>                                                 (* L1330-1360; filename_to_server(source.path) *)
      match a_path a with Some _ => (s, HAnswer (a_ok a)) | None => (s, HRaise) end
  end.

(** A message of the client: not usable at all (no json, or an object without a number which cannot be turned into a
    request), or an object.  [o_ok]: the protocol class accepts the fields and the ids in them are known. *)
Inductive mtype := MRequest | MOther | MUntyped.
Record obj := Obj { o_type : mtype; o_command : option str; o_seq : option Z; o_ok : bool; o_args : args }.
Inductive message := Unreadable | Object (o : obj).

(** pydevd_base_schema.py L84-126: from_json; the request, or that it is another message, or that it raises.
    A request without seq has the default -1. *)
Inductive loaded := LRequest (k : key) | LOther | LError.
Definition from_json (o : obj) : loaded :=
  match o_type o, o_command o with
  | MRequest, Some c =>
      if existsb (str_eqb c) registered && o_ok o
      then LRequest (match o_seq o with Some q => q | None => (-1)%Z end, c) else LError
  | MRequest, None => LError
  | MOther, _ => if o_ok o then LOther else LError
  | MUntyped, _ => LError
  end.

(** Ends the reader thread: L288-292 of pydevd_comm.py, for any exception out of process_net_command_json. *)
Definition stop_reading (s : state) : state := with_reading false s.

Definition is_authorize (c : str) : bool := str_eqb c (lit "pydevdAuthorize").

(** process_net_command_json, L150-221 *)
Definition process (m : message) (s : state) : state :=
  match m with
  | Unreadable => s                                                            (* L165-168 *)
  | Object o =>
      match from_json o with
      | LError =>
          match o_seq o with
          | None => s                                                          (* KeyError, L164-168 *)
          | Some q =>                                                          (* L176-184 *)
              let c := match o_command o with Some c => c | None => lit "<unknown>" end in
              write [Resp (q, c) false] s                                      (* authenticated or not *)
          end
      | LOther => stop_reading s                                               (* the assertion at L196 *)
      | LRequest k =>
          match handler_of (snd k) with
          | None => s                                                          (* L200-202 *)
          | Some h =>
              let s := if is_authorize (snd k) then with_auth (Auth.login (auth s) (a_token (o_args o))) s else s in
              if Auth.is_authenticated (auth s) then
                match handle h k (o_args o) s with
                | (s', HAnswer b) => write [Resp k b] s'
                | (s', HNothing) => s'
                | (s', HRaise) => stop_reading s'
                end
              else write [Resp k false] s                                      (* L213-217 *)
          end
      end
  end.

(** How the code run by an internal command ends: whether it raises an exception which is not caught, whether the
    response is a success, how many step in targets there are. *)
Record xres := XRes { x_raises : bool; x_ok : bool; x_targets : nat }.

Definition tracked (r : ref) (h : thread) : bool := match r with RNum z => zmem z (th_refs h) | _ => false end.

(** do_it of an internal command run by the thread [t] (not the one of InternalGetThreadStack). *)
Definition exec (t : N) (h : thread) (c : icmd) (x : xres) (s : state) : state :=
  let k := i_key c in
  match i_kind c with
  | IVariables => write [Resp k true] s                                        (* pydevd_comm.py L777-814 *)
  | ISetVariable r =>                                                          (* L906-960 *)
      if tracked r h then (if x_raises x then s else write [Resp k (x_ok x)] s) else write [Resp k false] s
  | IEvaluate | ISetExpression => if x_raises x then s else write [Resp k (x_ok x)] s     (* L1174-1289, L1352-1393 *)
  | ICompletions r =>                                                          (* L1395-1435 *)
      if tracked r h && negb (x_raises x) then write [Resp k true] s else write [Garbage (fst k)] s
  | ITargets r =>                                                              (* L1052-1126 *)
      if tracked r h && negb (x_raises x)
      then write [Resp k true] (set_thr t (Thread (th_in h) (th_run h) (th_goto h) (th_refs h)
                                                  (map N.of_nat (seq 0 (x_targets x))) (th_noted h)) s)
      else write [Resp k false] s
  | IExceptionInfo => write [Resp k (negb (x_raises x))] s                     (* L1609-1620 *)
  | IStack _ => s
  | IGoto => set_thr t (Thread (th_in h) true (Some k) (th_refs h) (th_targets h) (th_noted h)) s   (* L762-774 *)
  | IStep =>                                                                   (* L714-741 *)
      let s := set_thr t (run_thread h) s in
      if resume_all s then resume_others t s else s
  end.

(** The callbacks of send_resume_notification, L487-498: called when a continued event was sent. *)
Definition note (o : Notify.op) (s : state) : state :=
  let n := Notify.step (notes s) o in
  let s' := with_notes n s in
  match o with
  | Notify.Resume _ =>
      if Nat.ltb (length (Notify.events (notes s))) (length (Notify.events n))
      then write (map (fun k => Resp k true) (callbacks s)) (with_callbacks [] s') else s'
  | _ => s'
  end.

Definition enter (t : N) (h : thread) (refs : list Z) (plain : bool) (s : state) : state :=
  let noted := single s in
  let s := set_thr t (Thread true (th_run h) (th_goto h) refs (th_targets h) noted) s in
  if noted then note (Notify.Suspend t plain) s else s.

Definition leave (t : N) (h : thread) (s : state) : state :=
  let s := set_thr t (Thread false (th_run h) (th_goto h) [] (th_targets h) false) s in
  if th_noted h then note (Notify.Resume t) s else s.

(** What happens.  Events which are not possible in a state leave it alone. *)
Inductive event :=
| EMsg (m : message)                     (* the reader receives a message *)
| EExec (t : N) (x : xres)               (* a suspended thread runs the next command of its queue, pydevd.py L2235-2252 *)
| EWake (t : N) (ok : bool) (refs : list Z)  (* a thread in the loop sees STATE_RUN: L2230-2233 and what follows *)
| EStar (i : nat) (late : bool) (x : xres)   (* the i-th command of the queue for any thread is tried, L1825-1856 *)
| EStart (t : N)                         (* a thread starts *)
| EExit (t : N)                          (* a thread ends *)
| EMark (t : N) (main : bool)            (* mark_thread_suspended, pydevd_thread_lifecycle.py L28-50 *)
| EEnter (t : N) (refs : list Z) (plain : bool)   (* do_wait_suspend, pydevd.py L2088-2180 *)
| EReg (t : N) (r : Z)                   (* a variables reference is created *)
| EIncrement | EPaused | ETimeout (g : Z).        (* increment_suspend_time, on_pause, _notify_after_timeout *)

Definition step (s : state) (e : event) : state :=
  match e with
  | EMsg m => if reading s then process m s else s
  | EExec t x =>
      match thr t s, queue t s with
      | Some h, c :: q =>
          if th_in h && negb (th_run h) then exec t h c x (with_queues (set N.eqb t q (queues s)) s) else s
      | _, _ => s
      end
  | EWake t ok refs =>
      match thr t s with
      | Some h =>
          if th_in h && th_run h then
            match th_goto h with
            | Some k =>                                                        (* L2275-2306 *)
                let s := write [Resp k ok] s in
                let h := Thread (th_in h) false None (th_refs h) (th_targets h) (th_noted h) in
                if ok then enter t h refs false (note Notify.Increment (leave t h s)) else set_thr t h s
            | None => leave t h s
            end
          else s
      | None => s
      end
  | EStar i late x =>
      match nth_error (star s) i with
      | Some c =>
          let s' := with_star (firstn i (star s) ++ skipn (S i) (star s)) s in
          match i_kind c with
          | IStack d =>
              let suspended := match find_thread d s with
                               | Some t => match thr t s with Some h => th_in h | None => false end
                               | None => false end in
              if suspended || late then (if x_raises x then s' else write [Resp (i_key c) true] s') else s
          | _ => if x_raises x then s' else write [Resp (i_key c) (x_ok x)] s'
          end
      | None => s
      end
  | EStart t => if mem N.eqb t (threads s) then s else set_thr t (Thread false true None [] [] false) s
  | EExit t => match thr t s with Some h => if th_in h then s else with_threads (del N.eqb t (threads s)) s | None => s end
  | EMark t main =>
      match thr t s with
      | Some h => set_thr t (Thread (th_in h) false (if main then th_goto h else None) (th_refs h) (th_targets h) (th_noted h)) s
      | None => s
      end
  | EEnter t refs plain =>
      match thr t s with Some h => if th_in h then s else enter t h refs plain s | None => s end
  | EReg t r =>
      match thr t s with
      | Some h => if th_in h then set_thr t (Thread (th_in h) (th_run h) (th_goto h) (r :: th_refs h) (th_targets h) (th_noted h)) s else s
      | None => s
      end
  | EIncrement => note Notify.Increment s
  | EPaused => note Notify.Pause s
  | ETimeout g => note (Notify.Timeout g) s
  end.

Definition run (s : state) (es : list event) : state := fold_left step es s.
