(** Model of exceptions travelling through the frames of a thread and of the stops made on the way
    (property C66).
    Sources: /repo/_pydevd_sys_monitoring/_pydevd_sys_monitoring.py L196-248, L895-1011;
    /repo/_pydevd_bundle/pydevd_frame.py L78-112, L175-212, L488-509, L1064-1307;
    /repo/_pydevd_bundle/pydevd_breakpoints.py L125-171;
    /repo/_pydevd_bundle/pydevd_trace_dispatch_regular.py L212-231, L284-328.
    The decision for one event is the one of ExcBreak.v. *)
From Coq Require Import String.
From Coq Require Import List NArith ZArith Bool Arith.
From Verif Require Import Base Dict ExcBreak.
Import ListNotations.
Open Scope list_scope.

(** ** Frames *)

(** What the debugger looks at in a frame.  [fmod]: base name of the file without extension; [fname]: name of
    the function; [fskip]: get_file_type gives a type (files of the debugger, threading.py);
    [ffiltered]: apply_files_filter(frame, filename, True); [fscope]: in_project_scope; [fexcl]:
    _exclude_by_filter; [fimport]: the file is one of ignore_exception_trace (pydevd_frame_utils.py L82-96).
    For tracing only: [ffull]: the frame is traced by trace_dispatch (it has a breakpoint or is being stepped
    in), otherwise by trace_exception; [finfos]: collect_try_except_info of its code. *)
Record tryexc := TryExc { t_try : Z; t_except : Z; t_end : Z; t_raises : list Z }.

Record frame := Frame {
  fid : nat; fmod : str; fname : str; fskip : bool; ffiltered : bool; fscope : bool; fexcl : bool;
  fimport : bool; ffull : bool; finfos : list tryexc
}.

Definition frame_eq_dec (f g : frame) : {f = g} + {f <> g}.
Proof. repeat decide equality. Defined.

(** A frame and the line it is at. *)
Notation place := (frame * Z)%type.

(** ** The program (what the interpreter does; not code of the debugger) *)

(** Operations of the running code.  [ORaise x]: the frame raises the exception object [x]; [OUnwind]: no
    handler of the frame takes the exception, the frame is left and the caller receives it; [OCatch n]: a
    handler takes it, at line [n] (an except clause, a with statement); [OReraise x n]: a handler at line [n]
    raises the exception it took again, without argument, which gives no event; [OReturn b]: the function
    returns, [b]: it returns None. *)
Inductive op :=
| OCall (f : frame) (n : Z)
| OLine (n : Z)
| OReturn (none : bool)
| ORaise (x : nat)
| OCatch (n : Z)
| OReraise (x : nat) (n : Z)
| OUnwind.

(** The frames of the program, innermost first, above the [base] on which the thread was started; the
    exception being raised; the traceback of each exception object, outermost entry first; the frames there
    have been (a frame is not reused while a traceback holds it). *)
Record prog := Prog { stk : list place; flying : option nat; tbs : nat -> list place; seen : list nat }.

Definition upd (t : nat -> list place) (x : nat) (l : list place) : nat -> list place :=
  fun y => if Nat.eqb x y then l else t y.

(** Events given to the debugger, with the stack (innermost frame first, down to the thread's first frame)
    and the traceback: the exception arrives in the top frame, leaves it, or the top frame returns. *)
Inductive pev :=
| PRaise (x : nat) (stack tb : list place)
| PUnwind (x : nat) (stack tb : list place)
| PReturn (none : bool) (stack : list place).

Definition ids (l : list place) : list nat := map (fun p => fid (fst p)) l.

(** An operation which is not possible in the state changes nothing. *)
Definition pstep (base : list place) (p : prog) (o : op) : prog * list pev :=
  match o, stk p, flying p with
  | OCall f n, t :: r, None =>
      if existsb (Nat.eqb (fid f)) (seen p) then (p, [])
      else (Prog ((f, n) :: t :: r) None (tbs p) (fid f :: seen p), [])
  | OLine n, (f, _) :: r, None => (Prog ((f, n) :: r) None (tbs p) (seen p), [])
  | OReturn b, t :: r, None => (Prog r None (tbs p) (seen p), [PReturn b ((t :: r) ++ base)])
  | ORaise x, t :: r, None =>
      let tb := t :: tbs p x in
      (Prog (t :: r) (Some x) (upd (tbs p) x tb) (seen p), [PRaise x ((t :: r) ++ base) tb])
  | OCatch n, (f, _) :: r, Some _ => (Prog ((f, n) :: r) None (tbs p) (seen p), [])
  | OReraise x n, (f, _) :: r, None =>
      match tbs p x with
      | (g, _) :: _ => if frame_eq_dec g f then (Prog ((f, n) :: r) (Some x) (tbs p) (seen p), []) else (p, [])
      | [] => (p, [])
      end
  | OUnwind, t :: r, Some x =>
      let left := PUnwind x ((t :: r) ++ base) (tbs p x) in
      match r ++ base with
      | [] => (Prog [] None (tbs p) (seen p), [left])
      | c :: _ =>
          let tb := c :: tbs p x in
          (Prog r (match r with [] => None | _ => Some x end) (upd (tbs p) x tb) (seen p),
           [left; PRaise x (r ++ base) tb])
      end
  | _, _, _ => (p, [])
  end.

Fixpoint prun (base : list place) (p : prog) (l : list op) : prog * list pev :=
  match l with
  | [] => (p, [])
  | o :: r => let '(p1, e1) := pstep base p o in let '(p2, e2) := prun base p1 r in (p2, e1 ++ e2)
  end.

(** ** The debugger *)

(** [cls]: class of an exception object; [exit_ok]: it is a SystemExit with an ignored code; [kbd]: its class
    is KeyboardInterrupt; [cond]: what the condition of a breakpoint gives in a frame (true without
    condition); [expr]: the breakpoint has an expression; [honour]:
    ignore_exceptions_thrown_in_lines_with_ignore_exception; [tagged]: the line carries the tag, or the
    client listed it (pydevd_frame.py L1226-1274; the cache of the lines of a file is not modelled). *)
Record env := Env {
  wld : world; cfg : config; tabs : tables;
  cls : nat -> nat; exit_ok : nat -> bool; kbd : nat -> bool;
  cond : exb -> place -> bool; expr : exb -> bool;
  honour : bool; tagged : place -> bool
}.

Inductive kind := Handled | UserUnhandledStop | UnhandledStop.

(** [Stopped k x p]: the thread is suspended at [p] for the exception [x]; [Evaluated b p]: the expression of
    the breakpoint is evaluated in the frame (L1178-1179). *)
Inductive out := Stopped (k : kind) (x : nat) (p : place) | Evaluated (b : exb) (p : place).

(** L1128-1130: in user code called by code which is not. *)
Definition boundary (stack : list place) : bool :=
  match stack with
  | [] => false
  | (f, _) :: r => negb (ffiltered f) && match r with [] => true | (b, _) :: _ => ffiltered b end
  end.

(** What should_stop_on_exception looks at (template plugins are not modelled, the thread is not suspended). *)
Definition event_of (e : env) (x : nat) (stack tb : list place) : event :=
  Ev (cls e x) false
     (match tb with [] => None | _ :: r => Some (List.length r) end)
     false (exit_ok e x) (existsb (fun p => fimport (fst p)) tb)
     (match tb with [] => false | p :: _ => fscope (fst p) end)
     (match tb with [] => false | p :: _ => fexcl (fst p) end)
     (boundary stack)
     (fun b => match stack with [] => true | p :: _ => cond e b p end).

(** The information kept for user unhandled exceptions: the exception and its traceback, the line, the lines
    seen. *)
Record info := Info { i_exc : nat; i_tb : list place; i_line : Z; i_lines : list Z }.

(** L1131-1138 *)
Definition record_line (prev : option info) (x : nat) (tb : list place) (n : Z) : info :=
  match prev with
  | None => Info x tb n [n]
  | Some i => Info x tb n (n :: i_lines i)
  end.

(** should_stop_on_exception, pydevd_frame.py L1064-1182: stop, what is evaluated, the information. *)
Definition should_stop (e : env) (prev : option info) (x : nat) (stack tb : list place) : bool * list out * option info :=
  match stack with
  | [] => (false, [], prev)
  | p :: _ =>
      let '(stop, b, recorded) := should_stop_on_exception (wld e) (cfg e) (tabs e) (event_of e x stack tb) in
      (stop,
       match b with Some b => if stop && expr e b then [Evaluated b p] else [] | None => [] end,
       if recorded then Some (record_line prev x tb (snd p)) else prev)
  end.

(** handle_exception, pydevd_frame.py L1201-1307: the lines of the outermost and of the innermost entry of the
    traceback are looked up. *)
Definition handle_exception (e : env) (k : kind) (x : nat) (p : place) (tb : list place) : list out :=
  match tb with
  | [] => []
  | t :: r => if honour e && (tagged e t || tagged e (last r t)) then [] else [Stopped k x p]
  end.

(** stop_on_unhandled_exception, pydevd_breakpoints.py L125-171: the entry of the traceback at which the
    thread stops is the innermost one which the filters keep. *)
Fixpoint last_kept (keep : place -> bool) (l : list place) : option place :=
  match l with
  | [] => None
  | p :: r => match last_kept keep r with Some q => Some q | None => if keep p then Some p else None end
  end.

Definition kept (e : env) (b : exb) (p : place) : bool :=
  negb (frame_excluded (cfg e) b (Tb (fid (fst p)) (fscope (fst p)) (fexcl (fst p)))).

Definition stop_unhandled (e : env) (x : nat) (tb : list place) : list out :=
  match get_exception_breakpoint (wld e) (cls e x) (uncaught (tabs e)) with
  | None => []
  | Some b =>
      match tb with
      | [] => []
      | _ =>
          if kbd e x then []
          else if exit_ok e x then []
          else match last_kept (kept e b) tb with
               | None => []
               | Some p =>
                   if cond e b p
                   then (if expr e b then [Evaluated b p] else []) ++ [Stopped UnhandledStop x p]
                   else []
               end
      end
  end.

(** *** sys.monitoring *)

(** Thread-local state: the information kept by raise events; the exception and the frame found by
    _get_unhandled_exception_frame (no frame of the program: the frame of the handler itself). *)
Record mon := Mon { m_prev : option info; m_cache : option (nat * option nat) }.
Definition mon0 : mon := Mon None None.

Definition str_in (s : str) (l : list string) : bool := existsb (fun t => str_eqb s (lit t)) l.
Definition runs (s : str) : bool := starts_with (lit "run") s || starts_with (lit "_run") s.

(** L216-240: the frame is one of those which start the code of a thread *)
Definition starter (f : frame) : bool :=
  if str_eqb (fmod f) (lit "threading")
  then str_in (fname f) ["__bootstrap"; "_bootstrap"; "__bootstrap_inner"; "_bootstrap_inner"; "run"]%string
  else if str_eqb (fmod f) (lit "pydev_monkey") then str_eqb (fname f) (lit "__call__")
  else if str_eqb (fmod f) (lit "pydevd") then str_in (fname f) ["_exec"; "run"; "main"]%string
  else if str_in (fmod f) ["pydevd_runpy"; "<frozen runpy>"; "runpy"]%string then runs (fname f)
  else false.

(** L208-242: walks from a frame to its callers. The frame of the handler comes first. *)
Fixpoint walk (f : option nat) (callers : list place) : option nat :=
  match callers with
  | [] => f
  | (b, _) :: r => if starter b then f else walk (Some (fid b)) r
  end.

(** _get_unhandled_exception_frame, L196-248 *)
Definition unhandled_frame (m : mon) (x : nat) (stack : list place) : option nat * mon :=
  match m_cache m with
  | Some (y, f) => if Nat.eqb x y then (f, m) else let f' := walk None stack in (f', Mon (m_prev m) (Some (x, f')))
  | None => let f' := walk None stack in (f', Mon (m_prev m) (Some (x, f')))
  end.

Definition nonempty {A} (l : list A) : bool := match l with [] => false | _ => true end.

(** L928-930 *)
Definition tracks_caught (e : env) : bool := nonempty (caught (tabs e)) || nonempty (user_uncaught (tabs e)).

(** is_unhandled_exception, pydevd_frame.py L78-112 *)
Definition in_try (t : tryexc) (n : Z) : bool := (t_try t <=? n)%Z && (n <? t_except t)%Z.
Definition in_except (t : tryexc) (n : Z) : bool := (t_except t <=? n)%Z && (n <=? t_end t)%Z.
Definition zmem (n : Z) (l : list Z) : bool := existsb (Z.eqb n) l.

Definition is_unhandled (infos : list tryexc) (line last_raise : Z) (raise_lines : list Z) : bool :=
  if zmem line raise_lines then true
  else match infos with
  | [] => true
  | _ =>
      if existsb (fun t => in_try t last_raise) infos
      then existsb (fun t => in_except t line && (Z.eqb line (t_except t) || zmem line (t_raises t))) infos
      else true
  end.

(** _raise_event, L963-1011 (the callback is registered only if [tracks_caught], L1885-1888) *)
Definition raise_event (e : env) (m : mon) (x : nat) (stack tb : list place) : mon * list out :=
  match stack with
  | [] => (m, [])
  | p :: _ =>
      if negb (tracks_caught e) || fskip (fst p) then (m, [])
      else
        let '(stop, ev, i) := should_stop e (m_prev m) x stack tb in
        (Mon i (m_cache m), ev ++ (if stop then handle_exception e Handled x p tb else []))
  end.

(** _unwind_event, L900-954 *)
Definition unwind_event (e : env) (m : mon) (x : nat) (stack tb : list place) : mon * list out :=
  match stack with
  | [] => (m, [])
  | p :: _ =>
      if fskip (fst p) then (m, [])
      else
        let '(user, ev) :=
          if tracks_caught e
          then let '(_, ev, i) := should_stop e None x stack tb in
               match i with
               | Some i => if is_unhandled (finfos (fst p)) (snd p) (i_line i) (i_lines i)
                           then (Some i, ev) else (None, ev)
               | None => (None, ev)
               end
          else (None, []) in
        match user with
        | Some i => (m, ev ++ handle_exception e UserUnhandledStop (i_exc i) p (i_tb i))
        | None =>
            if nonempty (uncaught (tabs e))
            then let '(f, m') := unhandled_frame m x stack in
                 match f with
                 | Some n => if Nat.eqb (fid (fst p)) n then (m', ev ++ stop_unhandled e x tb) else (m', ev)
                 | None => (m', ev)
                 end
            else (m, ev)
        end
  end.

Definition mstep (e : env) (m : mon) (v : pev) : mon * list out :=
  match v with
  | PRaise x s t => raise_event e m x s t
  | PUnwind x s t => unwind_event e m x s t
  | PReturn _ _ => (m, [])
  end.

Fixpoint mrun (e : env) (m : mon) (l : list pev) : mon * list out :=
  match l with
  | [] => (m, [])
  | v :: r => let '(m1, o1) := mstep e m v in let '(m2, o2) := mrun e m1 r in (m2, o1 ++ o2)
  end.

(** A thread started in [entry] on [base]; what the client sees while the operations run. *)
Definition start (base : list place) (entry : place) : prog :=
  Prog [entry] None (fun _ => []) (fid (fst entry) :: ids base).

Definition session (e : env) (m : mon) (base : list place) (entry : place) (l : list op) : mon * list out :=
  mrun e m (snd (prun base (start base entry) l)).

(** *** Tracing *)

(** The information kept by the tracer of each frame (PyDBFrame.exc_info), whether the thread was already
    suspended at an unhandled exception, and the state of the tracer of a first frame without caller: the
    last exception, the last line and the lines. Stops at handled exceptions are not modelled here (they
    change the tracers of the frames): the theorems on tracing are on the other stops. *)
Record trc := Trc { r_infos : list (nat * info); r_seen : bool; r_top : option (nat * list place * Z); r_lines : list Z }.
Definition trc0 : trc := Trc [] false None [].

(** The exception event: trace_exception L184-191 or trace_dispatch L518-532 for frames of the program;
    trace_unhandled_exceptions (pydevd_trace_dispatch_regular.py L212-226) for the frame which started the
    thread; trace_dispatch_and_unhandled_exceptions L300-303 for a first frame without caller. *)
Definition trace_exception (e : env) (r : trc) (x : nat) (stack tb : list place) : trc * list out :=
  match stack with
  | [] => (r, [])
  | p :: callers =>
      if starter (fst p)
      then if r_seen r then (r, []) else (Trc (r_infos r) true (r_top r) (r_lines r), stop_unhandled e x tb)
      else
        let infos :=
          if negb (tracks_caught e) || fskip (fst p) then r_infos r
          else match should_stop e (get Nat.eqb (fid (fst p)) (r_infos r)) x stack tb with
               | (_, _, Some i) => set Nat.eqb (fid (fst p)) i (r_infos r)
               | (_, _, None) => r_infos r
               end in
        match callers with
        | [] => (Trc infos (r_seen r) (Some (x, tb, snd p)) (snd p :: r_lines r), [])
        | _ => (Trc infos (r_seen r) (r_top r) (r_lines r), [])
        end
  end.

(** The return event, of a function which returns ([none]: it returns None) or is left by an exception:
    trace_exception L193-204, trace_dispatch L506-508, trace_dispatch_and_unhandled_exceptions L305-315. *)
Definition trace_return (e : env) (r : trc) (none : bool) (stack : list place) : trc * list out :=
  match stack with
  | [] => (r, [])
  | p :: callers =>
      let user :=
        if fskip (fst p) then []
        else match get Nat.eqb (fid (fst p)) (r_infos r) with
        | None => []
        | Some i =>
            if ffull (fst p) || (none && is_unhandled (finfos (fst p)) (snd p) (i_line i) (i_lines i))
            then handle_exception e UserUnhandledStop (i_exc i) p (i_tb i) else []
        end in
      let rest := del Nat.eqb (fid (fst p)) (r_infos r) in     (* the tracer goes with its frame *)
      match callers, r_top r with
      | [], Some (x, tb, n) =>
          (Trc rest (r_seen r) None (r_lines r),
           user ++ (if negb (r_seen r) && is_unhandled (finfos (fst p)) (snd p) n (r_lines r)
                    then stop_unhandled e x tb else []))
      | _, _ => (Trc rest (r_seen r) (r_top r) (r_lines r), user)
      end
  end.

Definition tstep (e : env) (r : trc) (v : pev) : trc * list out :=
  match v with
  | PRaise x s t => trace_exception e r x s t
  | PUnwind x s t => trace_return e r true s
  | PReturn b s => trace_return e r b s
  end.

Fixpoint trun (e : env) (r : trc) (l : list pev) : trc * list out :=
  match l with
  | [] => (r, [])
  | v :: l' => let '(r1, o1) := tstep e r v in let '(r2, o2) := trun e r1 l' in (r2, o1 ++ o2)
  end.

Definition traced_session (e : env) (base : list place) (entry : place) (l : list op) : trc * list out :=
  trun e trc0 (snd (prun base (start base entry) l)).
