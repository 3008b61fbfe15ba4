(* Line events, breakpoints and stepping of one thread: the tracing function of
   threads and of frames, and what resuming does.

   Modelled from
     _pydevd_bundle/pydevd_trace_dispatch_regular.py  ThreadTracer.__call__
     _pydevd_bundle/pydevd_frame.py                   PyDBFrame.trace_dispatch,
       _is_same_frame, _get_unfiltered_back_frame, trace_exception
     pydevd.py                                        PyDB._do_wait_suspend,
       set_trace_for_frame_and_parents, set_tracing_for_untraced_contexts,
       on_breakpoints_changed, _clear_caches
     _pydevd_bundle/pydevd_thread_lifecycle.py        mark_thread_suspended,
       internal_run_thread
     _pydevd_bundle/pydevd_comm.py                    internal_step_in_thread
   and the rules of sys.settrace of CPython.

   Not modelled: plugins (templates), stops at exceptions, smart step into, set
   next statement, the scoped stepping of IPython cells, returned values, ending
   of the debugger.  The filters of files are taken as given, without their
   caches.  The first tracing function of a thread (fix_top_level_trace_and_get_
   trace_func) is taken as having found the thread. *)
From Coq Require Import NArith List Bool.
Import ListNotations.
Local Open Scope N_scope.

(* co_flags of the code: pydevd_frame.py:380 (0x20 generator, 0x80 coroutine). *)
Inductive kind := Plain | Gen | Coro.

(* The commands of info.pydev_step_cmd; NoStep is -1. *)
Inductive cmd := NoStep | Over | OverMy | Into | IntoMy | IntoCo | Return | ReturnMy | Suspend.

(* What f_trace of a frame may be: TNone no function, TNoF NO_FTRACE
   (pydevd_constants.py:553-594), TTop py_db.trace_dispatch (the function of the
   thread), TDisp PyDBFrame.trace_dispatch, TExc PyDBFrame.trace_exception. *)
Inductive tracer := TNone | TNoF | TTop | TDisp | TExc.

Inductive evt := ECall | ELine | ERet | EExc.

Inductive reason := RBreak | RFunc | RStep (c : cmd) | RPause.

(* What does not change: code objects are numbers.  cfile is the canonical file,
   clines the lines dis.findlinestarts gives, creturn the lines of
   collect_return_info, cmod tells the names <lambda>, <module> and the cells of
   pydevd_frame.py:711-713; ctyped tells get_file_type is not None, cskip that the
   type makes ThreadTracer skip the code (a debugger file, or a library file out
   of the project), cpydev that it is PYDEV_FILE; cfilt and cfilt_my are
   apply_files_filter without and with the check of the project scope; cdont
   tells that should_trace_hook refuses the code (@DontTrace). *)
Record world := World {
  cfile : N -> N;
  cname : N -> N;
  cfirst : N -> N;
  clines : N -> list N;
  ckind : N -> kind;
  creturn : N -> list N;
  cmod : N -> bool;
  ctyped : N -> bool;
  cskip : N -> bool;
  cpydev : N -> bool;
  filter_on : bool;
  cfilt : N -> bool;
  cfilt_my : N -> bool;
  cdont : N -> bool;
  show_ret : bool;
  exc_on : bool
}.

Record frame := Frame { fid : N; fcode : N; fline : N; ftrace : tracer }.

(* A breakpoint: whether it has a condition and whether it is a log point. *)
Record bp := Bp { conditional : bool; logpoint : bool }.

(* py_db.breakpoints: file, line and breakpoint; a file without breakpoints has
   no or an empty dictionary. *)
Definition breaks := list (N * N * bp).

Fixpoint find_break (bs : breaks) (file line : N) : option bp :=
  match bs with
  | [] => None
  | (f, l, b) :: bs =>
      if N.eqb f file && N.eqb l line then Some b else find_break bs file line
  end.

Definition no_breaks_in (bs : breaks) (file : N) : bool :=
  negb (existsb (fun b => N.eqb (fst (fst b)) file) bs).

Fixpoint find_func (fs : list (N * bp)) (name : N) : option bp :=
  match fs with
  | [] => None
  | (n, b) :: fs => if N.eqb n name then Some b else find_func fs name
  end.

(* pydevd_additional_thread_info: pydev_step_cmd, pydev_step_stop, pydev_state (is
   it STATE_SUSPEND), step_in_initial_location. *)
Record info := Info { step : cmd; stop : option N; susp : bool; initial : option (N * N) }.

Definition same (a b : option N) : bool :=
  match a, b with
  | None, None => true
  | Some x, Some y => N.eqb x y
  | _, _ => false
  end.

Definition back_id (back : list frame) : option N :=
  match back with [] => None | b :: _ => Some (fid b) end.

(* pydevd_frame.py:274-288 *)
Fixpoint unfiltered_back (w : world) (back : list frame) : option N :=
  match back with
  | [] => None
  | f :: rest =>
      if filter_on w && cfilt w (fcode f) then unfiltered_back w rest else Some (fid f)
  end.

(* pydevd_frame.py:421-462: leaving a generator or a coroutine. *)
Definition exit_gen (w : world) (i : info) (f : frame) (back : list frame) : info :=
  if same (stop i) (Some (fid f)) then
    match step i with
    | Over | OverMy | Into | IntoMy =>
        match unfiltered_back w back with
        | Some g => Info IntoCo (Some g) (susp i) (initial i)
        | None => match step i with
                  | Over => Info Into None (susp i) (initial i)
                  | OverMy => Info IntoMy None (susp i) (initial i)
                  | _ => i
                  end
        end
    | IntoCo =>
        match unfiltered_back w back with
        | Some g => Info IntoCo (Some g) (susp i) (initial i)
        | None => Info Into None (susp i) (initial i)
        end
    | _ => i
    end
  else i.

(* pydevd_frame.py:487-505: leaving another function. *)
Definition exit_plain (i : info) (f : frame) : info :=
  if same (stop i) (Some (fid f)) then
    match step i with
    | Over | Return => Info Into None (susp i) (initial i)
    | OverMy | ReturnMy => Info IntoMy None (susp i) (initial i)
    | _ => i
    end
  else i.

Definition in_context (st : option N) (fs : list frame) : bool :=
  existsb (fun f => same st (Some (fid f))) fs.

(* pydevd_frame.py:541-592: can the frame be left alone, as far as stepping goes;
   c and st are the step command and frame read at the start, i is what they
   have become (pydevd_frame.py:586). *)
Definition can_skip (w : world) (c : cmd) (st : option N) (i : info) (f : frame)
    (back : list frame) : bool :=
  if susp i then false
  else
    match c with
    | NoStep => true
    | Over | Return | OverMy | ReturnMy => negb (same st (Some (fid f)))
    | IntoMy => cfilt_my w (fcode f)
                && match back with [] => true | b :: _ => cfilt_my w (fcode b) end
    | IntoCo => negb (in_context st (f :: back))
    | _ => false
    end
    && negb (show_ret w
             && match step i with Over | OverMy => true | _ => false end
             && same st (back_id back)).

(* frame_skips_cache: lcache the lines without breakpoint (value 0), fcache
   whether the code has some breakpoint. *)
Record fcaches := FCaches { lcache : N -> N -> bool; fcache : N -> option bool }.

Definition is_call (e : evt) : bool := match e with ECall => true | _ => false end.
Definition is_line (e : evt) : bool := match e with ELine => true | _ => false end.
Definition is_ret (e : evt) : bool := match e with ERet => true | _ => false end.

(* Not tracing the frame any longer: None if is_call else NO_FTRACE. *)
Definition untraced (e : evt) : tracer := if is_call e then TNone else TNoF.

(* pydevd_frame.py:604-607 and 666-670 *)
Definition skipped (w : world) (e : evt) : tracer := if exc_on w then TExc else untraced e.

(* pydevd_frame.py:594-670: the answer when the frame is left alone, and what is
   stored in the cache of frames. *)
Definition skipping (w : world) (bs : breaks) (fc : fcaches) (func : option bp) (skip : bool)
    (e : evt) (f : frame) : option tracer * option (N * bool) :=
  let c := fcode f in
  match func with
  | Some _ => (None, None)
  | None =>
      if no_breaks_in bs (cfile w c) then
        (if skip then Some (skipped w e) else None, None)
      else if skip && lcache fc c (fline f) then (Some TDisp, None)
      else
        match fcache fc c with
        | Some has => (if skip && negb has then Some (skipped w e) else None, None)
        | None =>
            let has := existsb (fun l => match find_break bs (cfile w c) l with
                                         | Some _ => true | None => false end) (clines w c) in
            (if skip && negb has then Some (skipped w e) else None, Some (c, has))
        end
  end.

(* pydevd_thread_lifecycle.py:28-50 *)
Definition mark_suspended (main : bool) (i : info) : info :=
  if main then
    match step i with
    | NoStep => Info Into None true (initial i)
    | _ => Info (step i) (stop i) true (initial i)
    end
  else Info Suspend None true (initial i).

(* The outcome of PyDBFrame.trace_dispatch: what is returned, the thread's info,
   what is stored in the caches, where and why it stopped, and whether the frames
   from the back frame on are traced again. *)
Record res := Res {
  r_ret : tracer;
  r_inf : info;
  r_lc : option (N * N);
  r_fc : option (N * bool);
  r_stop : option (N * reason);
  r_again : bool
}.

(* pydevd_frame.py:806-867, 900-952: does a step end here; c and st as in can_skip. *)
Definition step_stop (w : world) (c : cmd) (st : option N) (i : info) (e : evt) (f : frame)
    (back : list frame) : bool :=
  let s :=
    if cdont w (fcode f) then false
    else
      match c with
      | Into | IntoMy | IntoCo | Suspend =>
          let my := match c with IntoMy => true | _ => false end in
          let filt := if my then cfilt_my w else cfilt w in
          let s :=
            match e with
            | ELine => if my || filter_on w then negb (filt (fcode f)) else true
            | ERet =>
                match back with
                | [] => false
                | b :: _ =>
                    if cpydev w (fcode b) then false
                    else if my || filter_on w then
                      negb (filt (fcode b))
                      && negb (match initial i with
                               | Some (g, l) => N.eqb g (fid b) && N.eqb l (fline b)
                               | None => false
                               end)
                    else true
                end
            | _ => false
            end in
          match c with IntoCo => s && in_context st (f :: back) | _ => s end
      | Over | OverMy => same st (Some (fid f)) && is_line e
      | Return | ReturnMy => is_ret e && same st (Some (fid f))
      | NoStep => false
      end in
  s && negb (match c with NoStep => false | _ => true end
             && is_ret e
             && match back with b :: _ => cpydev w (fcode b) | [] => false end).

(* pydevd_frame.py:953-992: stopping at the end of a step.  The checks for the
   run function of the debugger and pydevd_traceproperty (lines 965-972) concern
   debugger files, where step_stop is false. *)
Definition end_step (w : world) (c : cmd) (i : info) (e : evt) (f : frame) (back : list frame)
    (lw : option (N * N)) (fw : option (N * bool)) : res :=
  match e with
  | ELine => Res TDisp (mark_suspended true i) lw fw (Some (fid f, RStep c)) false
  | ERet =>
      match back with
      | [] => Res TDisp (Info NoStep None false (initial i)) lw fw None false
      | b :: _ =>
          if cdont w (fcode b) then Res TNoF i lw fw None true
          else Res TDisp (mark_suspended true i) lw fw (Some (fid b, RStep c)) false
      end
  | _ => Res TDisp i lw fw None false
  end.

(* pydevd_frame.py:672-992: breakpoints, a requested suspension and steps.  ok is
   what the condition of the breakpoint says (handle_breakpoint_condition). *)
Definition hit_or_step (w : world) (bs : breaks) (c : cmd) (st : option N) (i : info)
    (func : option bp) (ok : bool) (e : evt) (f : frame) (back : list frame)
    (fw : option (N * bool)) : res :=
  let b :=
    match func with
    | Some b => Some b
    | None =>
        if is_line e && negb (susp i) then find_break bs (cfile w (fcode f)) (fline f) else None
    end in
  let hit := match b with
             | Some b => (negb (conditional b) || ok) && negb (logpoint b)
             | None => false
             end in
  if match b with Some _ => is_call e && cmod w (fcode f) | None => false end then
    Res TDisp i None fw None false
  else
    let i := if hit then mark_suspended true i else i in
    if susp i then
      Res TDisp i None fw
        (Some (fid f, if hit then match func with Some _ => RFunc | None => RBreak end
                      else RPause)) false
    else
      let lw := match b with
                | None => if is_line e then Some (fcode f, fline f) else None
                | Some _ => None
                end in
      if step_stop w c st i e f back then end_step w c i e f back lw fw
      else Res TDisp i lw fw None false.

(* pydevd_frame.py:346-1055 *)
Definition dispatch (w : world) (bs : breaks) (fs : list (N * bp)) (i : info) (fc : fcaches)
    (e : evt) (ok : bool) (f : frame) (back : list frame) : res :=
  let c := step i in
  let st := stop i in
  let go i func :=
    match skipping w bs fc func (can_skip w c st i f back) e f with
    | (Some t, fw) => Res t i None fw None false
    | (None, fw) => hit_or_step w bs c st i func ok e f back fw
    end in
  match ckind w (fcode f) with
  | Plain =>
      match e with
      | ELine => go i None
      | ERet => go (exit_plain i f) None
      | ECall =>
          go i (if N.eqb (cfirst w (fcode f)) (fline f)
                then find_func fs (cname w (fcode f)) else None)
      | EExc => hit_or_step w bs c st i None ok e f back None
      end
  | _ =>
      match e with
      | ELine => go i None
      | ERet =>
          if existsb (N.eqb (fline f)) (creturn w (fcode f)) then go (exit_gen w i f back) None
          else Res TDisp i None None None false
      | ECall | EExc => Res TDisp i None None None false
      end
  end.

(* global_cache_skips: 1 filtered, 2 no breakpoint; here 0 is no entry. *)
Definition skips := N -> N.

Definition upd (g : skips) (c v : N) : skips := fun x => if N.eqb x c then v else g x.

Definition looks_back (c : cmd) : bool :=
  match c with Into | IntoMy | Return | ReturnMy => true | _ => false end.

(* pydevd_trace_dispatch_regular.py:401-470: is the code skipped because of its
   file; with the entries added to the cache. *)
Definition thread_skips (w : world) (g : skips) (c : cmd) (f : frame) (back : list frame)
    : bool * skips :=
  let code := fcode f in
  let stepping := match c with NoStep => false | _ => true end in
  let cached :=
    if N.eqb (g code) 0 then false
    else if negb stepping then true
    else if N.eqb (g code) 1 then
      match back with
      | b :: _ => if looks_back c then N.eqb (g (fcode b)) 1 else true
      | [] => true
      end
    else false in
  if cached then (true, g)
  else if cskip w code then (true, upd g code 1)
  else if filter_on w && cfilt w code then
    match back with
    | b :: _ =>
        if looks_back c then
          if cfilt w (fcode b) then (true, upd (upd g code 1) (fcode b) 1)
          else (false, upd g code 1)
        else (true, upd g code 1)
    | [] => (true, upd g code 1)
    end
  else (false, g).

(* ----- The thread and its frames ----- *)

(* A stop: the frame shown, why, the event; for a return, whether the frame is
   finished (a generator may only have yielded). *)
Record wait := Wait { shown : N; why : reason; at_evt : evt; finishing : bool }.

Record state := State {
  stack : list frame;        (* the current frame first *)
  gens : list frame;         (* generators and coroutines waiting to be resumed *)
  next : N;                  (* the next identity of a frame *)
  inf : info;
  cs : skips;
  fc : fcaches;
  brks : breaks;
  funcs : list (N * bp);
  waiting : option wait
}.

Definition no_caches : fcaches := FCaches (fun _ _ => false) (fun _ => None).

Definition start (bs : breaks) (fs : list (N * bp)) : state :=
  State [] [] 0 (Info NoStep None false None) (fun _ => 0) no_caches bs fs None.

(* pydevd.py:2377-2424: trace the frames again; fs are the frame and its parents. *)
Definition set_trace (w : world) (fs : list frame) : list frame :=
  map (fun f => if ctyped w (fcode f) then f else Frame (fid f) (fcode f) (fline f) TTop) fs.

(* The frames from the one with the given identity on are traced again. *)
Fixpoint set_trace_from (w : world) (i : N) (fs : list frame) : list frame :=
  match fs with
  | [] => []
  | f :: rest => if N.eqb (fid f) i then set_trace w fs else f :: set_trace_from w i rest
  end.

Definition store (k : option (N * N)) (h : option (N * bool)) (c : fcaches) : fcaches :=
  FCaches
    (match k with
     | Some (co, l) => fun x y => if N.eqb x co && N.eqb y l then true else lcache c x y
     | None => lcache c
     end)
    (match h with
     | Some (co, b) => fun x => if N.eqb x co then Some b else fcache c x
     | None => fcache c
     end).

(* The frame given up by its return: finished, or a generator to be resumed. *)
Definition popped (fin : bool) (s : state) : state :=
  match stack s with
  | [] => s
  | f :: rest =>
      State rest (if fin then gens s else f :: gens s) (next s) (inf s) (cs s) (fc s) (brks s)
        (funcs s) (waiting s)
  end.

(* sys.settrace: the result of a call event is stored in f_trace when it is not
   None; so is the result of another event (CPython, trace_trampoline). *)
Definition keep (t : tracer) (f : frame) : frame :=
  match t with TNone => f | _ => Frame (fid f) (fcode f) (fline f) t end.

(* Applying the outcome of PyDBFrame.trace_dispatch to the thread; the caches may
   have been cleared by another thread meanwhile, so only the new entries are
   applied. *)
Definition apply (w : world) (r : res) (e : evt) (fin : bool) (s : state) : state :=
  match stack s with
  | [] => s
  | f :: back =>
      let back := if r_again r then set_trace w back else back in
      let s' :=
        State (keep (r_ret r) f :: back) (gens s) (next s) (r_inf r) (cs s)
          (store (r_lc r) (r_fc r) (fc s)) (brks s) (funcs s)
          match r_stop r with
          | Some (g, y) => Some (Wait g y e fin)
          | None => None
          end in
      match r_stop r with
      | Some _ => s'
      | None => if is_ret e then popped fin s' else s'
      end
  end.

Definition with_cs (g : skips) (s : state) : state :=
  State (stack s) (gens s) (next s) (inf s) g (fc s) (brks s) (funcs s) (waiting s).

Definition with_stack (fs : list frame) (s : state) : state :=
  State fs (gens s) (next s) (inf s) (cs s) (fc s) (brks s) (funcs s) (waiting s).

(* The tracing functions called by the interpreter for an event of the current
   frame.  ThreadTracer.__call__ (pydevd_trace_dispatch_regular.py:359-527) is
   called for a call and by the frames whose f_trace is TTop. *)
Definition thread_tracer (w : world) (e : evt) (ok fin : bool) (s : state) : state :=
  match stack s with
  | [] => s
  | f :: back =>
      match thread_skips w (cs s) (step (inf s)) f back with
      | (true, g) =>
          apply w (Res (untraced e) (inf s) None None None false) e fin (with_cs g s)
      | (false, g) =>
          let r := dispatch w (brks s) (funcs s) (inf s) (fc s) e ok f back in
          let g := match r_ret r with TNone => upd g (fcode f) 2 | _ => g end in
          apply w r e fin (with_cs g s)
      end
  end.

Definition nothing (t : tracer) (s : state) : res := Res t (inf s) None None None false.

Definition fire (w : world) (e : evt) (ok fin : bool) (s : state) : state :=
  match stack s with
  | [] => s
  | f :: back =>
      if is_call e then thread_tracer w e ok fin s
      else
        match ftrace f with
        | TNone => apply w (nothing TNone s) e fin s
        | TNoF =>
            apply w (nothing TNone s) e fin
              (with_stack (Frame (fid f) (fcode f) (fline f) TNone :: back) s)
        | TTop => thread_tracer w e ok fin s
        | TDisp => apply w (dispatch w (brks s) (funcs s) (inf s) (fc s) e ok f back) e fin s
        | TExc => apply w (nothing TExc s) e fin s
        end
  end.

(* What the program does: call a function, resume a generator (the i-th one
   waiting), reach a line, return or yield, get an exception. *)
Inductive act :=
| Call (code : N) (ok : bool)
| Resume (i : nat)
| Line (l : N) (ok : bool)
| Ret (fin : bool)
| Exc.

Definition is_plain (w : world) (c : N) : bool :=
  match ckind w c with Plain => true | _ => false end.

Definition do_act (w : world) (a : act) (s : state) : state :=
  match a with
  | Call code ok =>
      fire w ECall ok false
        (State (Frame (next s) code (cfirst w code) TNone :: stack s) (gens s) (next s + 1)
           (inf s) (cs s) (fc s) (brks s) (funcs s) (waiting s))
  | Resume i =>
      match nth_error (gens s) i with
      | Some f =>
          fire w ECall false false
            (State (f :: stack s) (firstn i (gens s) ++ skipn (S i) (gens s)) (next s) (inf s)
               (cs s) (fc s) (brks s) (funcs s) (waiting s))
      | None => s
      end
  | Line l ok =>
      match stack s with
      | f :: back =>
          if existsb (N.eqb l) (clines w (fcode f)) then
            fire w ELine ok false
              (with_stack (Frame (fid f) (fcode f) l (ftrace f) :: back) s)
          else s
      | [] => s
      end
  | Ret fin =>
      match stack s with
      | f :: _ =>
          if fin || negb (is_plain w (fcode f)) then fire w ERet false fin s else s
      | [] => s
      end
  | Exc => fire w EExc false false s
  end.

(* pydevd.py:2311-2325: the frame a step return ends with. *)
Fixpoint return_target (w : world) (my : bool) (f : frame) (back : list frame)
    : option frame :=
  match back with
  | [] => None
  | b :: rest =>
      if (my || filter_on w) && (if my then cfilt_my w (fcode b) else cfilt w (fcode b))
      then return_target w my b rest
      else Some f
  end.

(* The frame with the given identity and its parents. *)
Fixpoint frames_from (i : N) (fs : list frame) : list frame :=
  match fs with
  | [] => []
  | f :: rest => if N.eqb (fid f) i then fs else frames_from i rest
  end.

(* internal_run_thread (pydevd_thread_lifecycle.py:53-59), internal_step_in_thread
   (pydevd_comm.py:714-722), then pydevd.py:2260-2336.  Only the commands a client
   may give are considered: IntoCo and Suspend are treated as Into is not. *)
Definition resumed (w : world) (c : cmd) (i : N) (s : state) : info * list frame :=
  match frames_from i (stack s) with
  | [] => (Info c None false None, stack s)
  | f :: back =>
      match c with
      | Into | IntoMy =>
          (match ckind w (fcode f) with
           | Coro => Info IntoCo (Some (fid f)) false (Some (fid f, fline f))
           | _ => Info c None false (Some (fid f, fline f))
           end, set_trace_from w i (stack s))
      | Over | OverMy => (Info c (Some (fid f)) false None, set_trace_from w i (stack s))
      | Return | ReturnMy =>
          match return_target w (match c with ReturnMy => true | _ => false end) f back with
          | Some g => (Info c (Some (fid g)) false None, set_trace_from w (fid g) (stack s))
          | None => (Info NoStep None false None, stack s)
          end
      | _ => (Info c None false None, stack s)
      end
  end.

Definition client_cmd (c : cmd) : bool :=
  match c with IntoCo | Suspend => false | _ => true end.

(* After the wait the tracing function returns self.trace_dispatch, which becomes
   the f_trace of the current frame; then a return is carried out. *)
Definition resume (w : world) (c : cmd) (s : state) : state :=
  match waiting s with
  | None => s
  | Some wt =>
      if client_cmd c then
        let (i, fs) := resumed w c (shown wt) s in
        let fs := match fs with f :: back => keep TDisp f :: back | [] => [] end in
        let s := State fs (gens s) (next s) i (cs s) (fc s) (brks s) (funcs s) None in
        if is_ret (at_evt wt) then popped (finishing wt) s else s
      else s
  end.

(* pydevd.py:1172-1189 and 1308-1311; sys._current_frames has the frames of the
   thread, not the generators waiting.  A waiting thread's frames are those of
   the debugger on top of the program's, so all of them are traced again. *)
Definition set_breaks (w : world) (bs : breaks) (fs : list (N * bp)) (s : state) : state :=
  State (set_trace w (stack s)) (gens s) (next s) (inf s) (fun _ => 0) no_caches bs fs
    (waiting s).

Definition has_break (bs : breaks) (file line : N) : bool :=
  match find_break bs file line with Some _ => true | None => false end.

(* on_breakpoints_changed(removed=True): the lines with breakpoints left had one. *)
Definition drop_breaks (bs : breaks) (s : state) : state :=
  if forallb (fun b => has_break (brks s) (fst (fst b)) (snd (fst b))) bs then
    State (stack s) (gens s) (next s) (inf s) (cs s) (fc s) bs (funcs s) (waiting s)
  else s.

(* The client pausing this thread, or all threads being suspended because of
   another one: set_suspend and suspend_all_threads; then the frames are traced
   again. *)
Definition pause (w : world) (main : bool) (s : state) : state :=
  State (set_trace w (stack s)) (gens s) (next s) (mark_suspended main (inf s)) (cs s) (fc s)
    (brks s) (funcs s) (waiting s).

Inductive op :=
| Do (a : act)
| Cmd (c : cmd)
| Add (bs : breaks) (fs : list (N * bp))
| Drop (bs : breaks)
| Pause (main : bool)
| Race (l : N) (bs : breaks) (fs : list (N * bp)).

(* Race: breakpoints are set by another thread while the tracing function of the
   current frame, called for a line, has already read py_db.breakpoints. *)
Definition race (w : world) (l : N) (bs : breaks) (fs : list (N * bp)) (s : state) : state :=
  match stack s with
  | f :: back =>
      let f := Frame (fid f) (fcode f) l (ftrace f) in
      match ftrace f with
      | TDisp =>
          apply w (dispatch w (brks s) (funcs s) (inf s) (fc s) ELine false f back) ELine false
            (set_breaks w bs fs (with_stack (f :: back) s))
      | _ => s
      end
  | [] => s
  end.

Definition exec (w : world) (o : op) (s : state) : state :=
  match o with
  | Do a => match waiting s with None => do_act w a s | Some _ => s end
  | Cmd c => resume w c s
  | Add bs fs => set_breaks w bs fs s
  | Drop bs => drop_breaks bs s
  | Pause main => match waiting s with None => pause w main s | Some _ => s end
  | Race l bs fs => match waiting s with None => race w l bs fs s | Some _ => s end
  end.

Fixpoint run (w : world) (os : list op) (s : state) : state :=
  match os with
  | [] => s
  | o :: os => run w os (exec w o s)
  end.
