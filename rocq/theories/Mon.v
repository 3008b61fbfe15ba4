(* Breakpoints, steps and pauses of several threads with sys.monitoring, the way
   events are received in Python 3.12 and later.

   Modelled from
     _pydevd_sys_monitoring/_pydevd_sys_monitoring.py  _get_func_code_info,
       enable_code_tracing, _enable_code_tracing, _enable_step_tracing,
       _start_method_event, _line_event, _internal_line_event, _return_event,
       _stop_on_return, _stop_on_breakpoint, update_monitor_events, restart_events
     pydevd.py                                         PyDB.set_suspend,
       _do_wait_suspend, on_breakpoints_changed, set_tracing_for_untraced_contexts,
       set_trace_for_frame_and_parents
     _pydevd_bundle/pydevd_thread_lifecycle.py         mark_thread_suspended,
       internal_run_thread, suspend_all_threads
     _pydevd_bundle/pydevd_additional_thread_info_regular.py  any_thread_stepping
     _pydevd_bundle/pydevd_comm.py                     internal_step_in_thread
   and the rules of sys.monitoring of CPython: an event of a code object is
   reported when it is among the global or the local events, has a callback and has
   not been disabled at its location since the last restart of events.

   Not modelled: plugins (templates), smart step into, set next statement, the
   scoped stepping of IPython cells, returned values, jump events (no callback from
   Python 3.13 on), suspend policies of single breakpoints, ending of the debugger,
   threads which are not traced or not known to the threading module.  The filters
   of files are taken as given.  Which exceptions stop is left open (Raise). *)
From Coq Require Import NArith List Bool.
From Verif Require Import Step.
Import ListNotations.
Local Open Scope N_scope.

(* What does not change.  mfile is the canonical file of a code object, mlines the
   pairs of dis.findlinestarts (offset of the instruction, line), mgen tells a
   generator or coroutine, mcoro a coroutine (co_flags & 0x80), mskip that
   get_file_type is not None, mdont that should_trace_hook refuses the code
   (@DontTrace), mfilt is apply_files_filter with the check of the project scope
   (it is also what counts without it: _pydevd_sys_monitoring.py:638-641), mend tells
   the functions DEBUG_START and DEBUG_START_PY3K, mprop the file of properties
   pydevd_traceproperty.py; single is multi_threads_single_notification. *)
Record mworld := MWorld {
  mfile : N -> N;
  mname : N -> N;
  mlines : N -> list (N * N);
  mgen : N -> bool;
  mcoro : N -> bool;
  mskip : N -> bool;
  mdont : N -> bool;
  mfilter_on : bool;
  mfilt : N -> bool;
  mend : N -> bool;
  mprop : N -> bool;
  single : bool
}.

(* Frames: identity, code object and line. *)
Record mf := Mf { mid : N; mcode : N; mline : N }.

(* FuncCodeInfo (_pydevd_sys_monitoring.py:385-450): always_skip_code,
   always_filtered_out, filtered_out_force_checked, bp_line_to_breakpoint (empty when
   breakpoint_found is False), function_breakpoint. *)
Record fci := Fci {
  k_skip : bool;
  k_filt : bool;
  k_forced : bool;
  k_lines : list (N * bp);
  k_func : option bp
}.

Definition line_of (ls : list (N * N)) (o : N) : option N :=
  match find (fun p => N.eqb (fst p) o) ls with Some p => Some (snd p) | None => None end.

Fixpoint bp_at (bs : list (N * bp)) (l : N) : option bp :=
  match bs with
  | [] => None
  | (l', b) :: bs => if N.eqb l' l then Some b else bp_at bs l
  end.

(* The breakpoints of a file at the lines of a code object: lines 659-671.  Were a
   line given twice the first entry would count, as in find_break. *)
Definition code_breaks (w : mworld) (bs : breaks) (c : N) : list (N * bp) :=
  map (fun p => (snd (fst p), snd p))
    (filter (fun p => N.eqb (fst (fst p)) (mfile w c)
                      && existsb (fun q => N.eqb (snd q) (snd (fst p))) (mlines w c)) bs).

(* _pydevd_sys_monitoring.py:566-688: what is computed for a code object. *)
Definition compute (w : mworld) (bs : breaks) (fs : list (N * bp)) (c : N) : fci :=
  if mskip w c then Fci true true false [] None
  else if mdont w c then Fci false true false [] None
  else if mfilter_on w && mfilt w c then Fci false true true [] None
  else Fci false false (mfilt w c) (code_breaks w bs c) (find_func fs (mname w c)).

(* Global and local events and the locations where they are disabled: mon_on tells
   that PY_START is among the global events and that the callbacks are there
   (update_monitor_events does both), lev and rev that LINE and PY_RETURN are among
   the local events of a code object, dst and dln where PY_START and LINE are
   disabled. *)
Record mon := Mon {
  mon_on : bool;
  lev : N -> bool;
  rev : N -> bool;
  dst : N -> bool;
  dln : N -> N -> bool
}.

Definition add (g : N -> bool) (c : N) : N -> bool := fun x => N.eqb x c || g x.

Definition set_on (b : bool) (m : mon) : mon := Mon b (lev m) (rev m) (dst m) (dln m).

(* _enable_line_tracing and _enable_return_tracing: lines 697-722. *)
Definition set_line (c : N) (m : mon) : mon :=
  Mon (mon_on m) (add (lev m) c) (rev m) (dst m) (dln m).
Definition set_ret (c : N) (m : mon) : mon :=
  Mon (mon_on m) (lev m) (add (rev m) c) (dst m) (dln m).

(* monitor.restart_events, and a callback answering monitor.DISABLE. *)
Definition restart (m : mon) : mon :=
  Mon (mon_on m) (lev m) (rev m) (fun _ => false) (fun _ _ => false).
Definition disable_start (c : N) (m : mon) : mon :=
  Mon (mon_on m) (lev m) (rev m) (add (dst m) c) (dln m).
Definition disable_line (c o : N) (m : mon) : mon :=
  Mon (mon_on m) (lev m) (rev m) (dst m)
    (fun x y => N.eqb x c && N.eqb y o || dln m x y).

(* A thread: its frames, its info, and where it waits (is_in_wait_loop). *)
Record thr := Thr { frames : list mf; nfo : info; wt : option wait }.

Record mstate := MState {
  thrs : list thr;
  idle : list mf;                   (* generators waiting to be resumed *)
  fresh : N;                        (* the next identity of a frame *)
  mn : mon;
  mtime : N;
  cache : N -> option (N * fci);    (* _code_to_func_code_info_cache *)
  mbrks : breaks;
  mfuncs : list (N * bp)
}.

Definition with_mon (m : mon) (s : mstate) : mstate :=
  MState (thrs s) (idle s) (fresh s) m (mtime s) (cache s) (mbrks s) (mfuncs s).

Definition with_thrs (ts : list thr) (s : mstate) : mstate :=
  MState ts (idle s) (fresh s) (mn s) (mtime s) (cache s) (mbrks s) (mfuncs s).

Definition with_idle (gs : list mf) (s : mstate) : mstate :=
  MState (thrs s) gs (fresh s) (mn s) (mtime s) (cache s) (mbrks s) (mfuncs s).

Definition with_fresh (n : N) (s : mstate) : mstate :=
  MState (thrs s) (idle s) n (mn s) (mtime s) (cache s) (mbrks s) (mfuncs s).

Fixpoint put (t : nat) (x : thr) (ts : list thr) : list thr :=
  match ts, t with
  | [], _ => []
  | _ :: ts, O => x :: ts
  | y :: ts, S t => y :: put t x ts
  end.

(* _get_func_code_info (lines 541-691): the entry of the cache when it is of the
   current time, else what is computed. *)
Definition code_info (w : mworld) (s : mstate) (c : N) : fci :=
  match cache s c with
  | Some (m, k) => if N.eqb m (mtime s) then k else compute w (mbrks s) (mfuncs s) c
  | None => compute w (mbrks s) (mfuncs s) c
  end.

(* The entry stored by a lookup.  Lookups of other frames than the one of the event
   store entries too; those are left out. *)
Definition remember (w : mworld) (c : N) (s : mstate) : mstate :=
  MState (thrs s) (idle s) (fresh s) (mn s) (mtime s)
    (fun x => if N.eqb x c then Some (mtime s, code_info w s c) else cache s x)
    (mbrks s) (mfuncs s).

(* additional_thread_info_regular.py:191-205 and any_thread_stepping (lines 363-366). *)
Definition stepping (t : thr) : bool :=
  match wt t with
  | Some _ => susp (nfo t)
  | None => negb (susp (nfo t)) && match step (nfo t) with NoStep => false | _ => true end
  end.

Definition any_stepping (s : mstate) : bool := existsb stepping (thrs s).

Definition is_step (c : cmd) : bool := match c with NoStep => false | _ => true end.

(* _enable_step_tracing (lines 832-859), without returned values. *)
Definition enable_step (i : info) (f : mf) (m : mon) : mon :=
  match step i with
  | Into | IntoMy | IntoCo | Suspend => set_ret (mcode f) (set_line (mcode f) m)
  | Return | ReturnMy => if same (stop i) (Some (mid f)) then set_ret (mcode f) m else m
  | Over | OverMy =>
      if same (stop i) (Some (mid f)) then set_ret (mcode f) (set_line (mcode f) m) else m
  | NoStep => m
  end.

(* _enable_code_tracing (lines 785-828) after the check of always_skip_code of its
   callers (lines 757 and 1241): the events enabled for a frame of a thread. *)
Definition enable (k : fci) (i : info) (f : mf) (m : mon) : mon :=
  if k_skip k then m
  else if k_filt k then (if is_step (step i) then enable_step i f m else m)
  else
    let m := match k_lines k with [] => m | _ => set_line (mcode f) m end in
    if is_step (step i) then enable_step i f m else m.

(* pydevd.py:2377-2425 and _enable_code_tracing_for_frame_and_parents (lines
   1231-1248). *)
Fixpoint enable_all (w : mworld) (s : mstate) (i : info) (fs : list mf) (m : mon) : mon :=
  match fs with
  | [] => m
  | f :: fs => enable_all w s i fs (enable (code_info w s (mcode f)) i f m)
  end.

Definition enable_thread (w : mworld) (t : nat) (s : mstate) : mstate :=
  match nth_error (thrs s) t with
  | Some th => with_mon (enable_all w s (nfo th) (frames th) (mn s)) s
  | None => s
  end.

Fixpoint enable_threads (w : mworld) (ts : list thr) (s : mstate) : mstate :=
  match ts with
  | [] => s
  | th :: ts => enable_threads w ts (with_mon (enable_all w s (nfo th) (frames th) (mn s)) s)
  end.

(* pydevd_thread_lifecycle.py:86-115 *)
Fixpoint suspend_others (t : nat) (ts : list thr) : list thr :=
  match ts, t with
  | [], _ => []
  | x :: ts, O => x :: map (fun x => Thr (frames x) (mark_suspended false (nfo x)) (wt x)) ts
  | x :: ts, S t =>
      Thr (frames x) (mark_suspended false (nfo x)) (wt x) :: suspend_others t ts
  end.

Fixpoint drop_nth {A} (t : nat) (l : list A) : list A :=
  match l, t with
  | [], _ => []
  | _ :: l, O => l
  | x :: l, S t => x :: drop_nth t l
  end.

Definition suspend_all (w : mworld) (t : nat) (s : mstate) : mstate :=
  let s := with_mon (set_on true (mn s)) s in
  let s := with_thrs (suspend_others t (thrs s)) s in
  let s := enable_threads w (drop_nth t (thrs s)) s in
  with_mon (restart (mn s)) s.

(* PyDB.set_suspend: pydevd.py:1916-1984. *)
Definition set_suspend (w : mworld) (t : nat) (pause all : bool) (s : mstate) : mstate :=
  match nth_error (thrs s) t with
  | None => s
  | Some th =>
      let s := with_thrs
                 (put t (Thr (frames th) (mark_suspended true (nfo th)) (wt th)) (thrs s)) s in
      let s := if all || single w then suspend_all w t s else s in
      let s := if pause then enable_thread w t (with_mon (set_on true (mn s)) s) else s in
      with_mon (restart (mn s)) s
  end.

(* do_wait_suspend: the thread waits; step_in_initial_location is cleared
   (pydevd.py:2186). *)
Definition wait_at (t : nat) (x : wait) (s : mstate) : mstate :=
  match nth_error (thrs s) t with
  | None => s
  | Some th =>
      let i := nfo th in
      with_thrs
        (put t (Thr (frames th) (Info (step i) (stop i) (susp i) None) (Some x)) (thrs s)) s
  end.

Definition suspend_at (w : mworld) (t : nat) (x : wait) (s : mstate) : mstate :=
  wait_at t x (set_suspend w t false false s).

(* What a callback does: answer DISABLE, nothing, or stop. *)
Inductive outcome := ODisable | OPass | OStop (y : reason) | OPause.

Definition hits (b : bp) (ok : bool) : bool := (negb (conditional b) || ok) && negb (logpoint b).

Definition is_nil {A} (l : list A) : bool := match l with [] => true | _ => false end.

(* _line_event and _internal_line_event: lines 1450-1712. *)
Definition line_outcome (k : fci) (any : bool) (i : info) (f : mf) (l : N) (ok : bool)
    : outcome :=
  if k_skip k || k_filt k then ODisable
  else if match bp_at (k_lines k) l with Some b => hits b ok | None => false end
  then OStop RBreak
  else if susp i then OPause
  else
    match step i with
    | NoStep => if negb (is_nil (k_lines k)) || any then OPass else ODisable
    | Into => OStop (RStep Into)
    | IntoCo => OStop (RStep IntoCo)
    | IntoMy => if k_forced k then OPass else OStop (RStep IntoMy)
    | Over => if same (stop i) (Some (mid f)) then OStop (RStep Over) else OPass
    | OverMy => if same (stop i) (Some (mid f)) then OStop (RStep OverMy) else OPass
    | Suspend => OStop (RStep Suspend)
    | Return | ReturnMy => OPass
    end.

(* Lines reported: a pause waits where the thread already is suspended (line 1556). *)
Definition line_event (w : mworld) (t : nat) (o l : N) (ok : bool) (s : mstate) : mstate :=
  match nth_error (thrs s) t with
  | Some th =>
      match frames th with
      | f :: _ =>
          let k := code_info w s (mcode f) in
          let s := remember w (mcode f) s in
          match line_outcome k (any_stepping s) (nfo th) f l ok with
          | ODisable => with_mon (disable_line (mcode f) o (mn s)) s
          | OPass => s
          | OStop y => suspend_at w t (Wait (mid f) y ELine false) s
          | OPause => wait_at t (Wait (mid f) RPause ELine false) s
          end
      | [] => s
      end
  | None => s
  end.

(* _start_method_event: lines 1715-1803. *)
Definition start_outcome (k : fci) (any : bool) (i : info) (ok : bool) : outcome :=
  if k_skip k then ODisable
  else
    match k_func k with
    | Some b => if hits b ok then OStop RFunc else OPass
    | None =>
        if is_step (step i) || negb (k_filt k) && negb (is_nil (k_lines k)) || any
        then OPass else ODisable
    end.

Definition start_event (w : mworld) (t : nat) (ok : bool) (s : mstate) : mstate :=
  match nth_error (thrs s) t with
  | Some th =>
      match frames th with
      | f :: _ =>
          let k := code_info w s (mcode f) in
          let s := remember w (mcode f) s in
          let s := with_mon (enable k (nfo th) f (mn s)) s in
          match start_outcome k (any_stepping s) (nfo th) ok with
          | ODisable => with_mon (disable_start (mcode f) (mn s)) s
          | OStop y => suspend_at w t (Wait (mid f) y ECall false) s
          | _ => s
          end
      | [] => s
      end
  | None => s
  end.

Definition set_info (t : nat) (i : info) (s : mstate) : mstate :=
  match nth_error (thrs s) t with
  | Some th => with_thrs (put t (Thr (frames th) i (wt th)) (thrs s)) s
  | None => s
  end.

(* Can a return be shown in the back frame: lines 1122-1131 and 1156-1163. *)
Definition shows_return (k : fci) (my : bool) : bool :=
  negb (k_skip k) && negb (k_filt k) && negb (my && k_forced k).

(* What a return event leads to: no stop, the end of the steps of the thread, a stop
   in the back frame, or the back frames being enabled. *)
Inductive returned := RNothing | RRun | RShow (b : mf) | REnable | RConvert.

(* _stop_on_return: lines 1255-1288. *)
Definition stop_on_return (w : mworld) (back : list mf) : returned :=
  match back with
  | [] => RRun
  | b :: _ =>
      if mend w (mcode b) then RRun
      else if mprop w (mcode b) then RNothing
      else if mdont w (mcode b) then REnable
      else RShow b
  end.

(* _return_event: lines 1066-1228.  kb is the information on the code of the back
   frame. *)
Definition return_outcome (w : mworld) (k : fci) (kb : mf -> fci) (i : info) (f : mf)
    (back : list mf) : returned :=
  if k_skip k then RNothing
  else
    match step i with
    | NoStep => RNothing
    | Into | IntoMy | IntoCo | Suspend =>
        match back with
        | [] => RNothing
        | b :: _ =>
            let my := match step i with IntoMy => true | _ => false end in
            if shows_return (kb b) my
               && negb (match initial i with
                        | Some (g, l) => N.eqb g (mid b) && N.eqb l (mline b)
                        | None => false
                        end)
            then stop_on_return w back else RNothing
        end
    | Return | ReturnMy =>
        if same (stop i) (Some (mid f)) then stop_on_return w back else RNothing
    | Over | OverMy =>
        if same (stop i) (Some (mid f)) then
          match back with
          | b :: _ =>
              let my := match step i with OverMy => true | _ => false end in
              if shows_return (kb b) my then stop_on_return w back else RConvert
          | [] => RConvert
          end
        else RNothing
    end.

(* Lines 1210-1228 *)
Definition converted (i : info) : info :=
  Info (match step i with OverMy | ReturnMy => IntoMy | _ => Into end) None (susp i) (initial i).

Definition return_event (w : mworld) (t : nat) (s : mstate) : mstate :=
  match nth_error (thrs s) t with
  | Some th =>
      match frames th with
      | f :: back =>
          let k := code_info w s (mcode f) in
          let s := remember w (mcode f) s in
          let i := nfo th in
          match return_outcome w k (fun b => code_info w s (mcode b)) i f back with
          | RNothing => s
          | RRun => set_info t (Info NoStep None false (initial i)) s
          | RShow b => suspend_at w t (Wait (mid b) (RStep (step i)) ERet true) s
          | REnable => with_mon (enable_all w s i back (mn s)) s
          | RConvert =>
              let i := converted i in
              let s := set_info t i s in
              with_mon (enable_all w s i back (mn s)) s
          end
      | [] => s
      end
  | None => s
  end.

(* The current frame of a thread is left. *)
Definition pop (t : nat) (s : mstate) : mstate :=
  match nth_error (thrs s) t with
  | Some th => with_thrs (put t (Thr (tl (frames th)) (nfo th) (wt th)) (thrs s)) s
  | None => s
  end.

Definition is_waiting (t : nat) (s : mstate) : bool :=
  match nth_error (thrs s) t with
  | Some th => match wt th with Some _ => true | None => false end
  | None => false
  end.

(* What a program does in one thread: call a function, resume a generator, reach the
   instruction starting a line, return, yield, leave a frame because of an exception,
   be stopped because of an exception.  PY_RESUME and PY_YIELD have no callback
   (line 1923), PY_UNWIND only concerns exceptions. *)
Inductive mact :=
| MCall (code : N) (ok : bool)
| MResume (i : nat)
| MLine (o : N) (ok : bool)
| MRet
| MYield
| MUnwind
| MRaise.

Definition set_frames (t : nat) (fs : list mf) (s : mstate) : mstate :=
  match nth_error (thrs s) t with
  | Some th => with_thrs (put t (Thr fs (nfo th) (wt th)) (thrs s)) s
  | None => s
  end.

Definition m_act (w : mworld) (t : nat) (a : mact) (s : mstate) : mstate :=
  match nth_error (thrs s) t with
  | None => s
  | Some th =>
      match a with
      | MCall c ok =>
          let s := with_fresh (fresh s + 1) (set_frames t (Mf (fresh s) c 0 :: frames th) s) in
          if mon_on (mn s) && negb (dst (mn s) c) then start_event w t ok s else s
      | MResume i =>
          match nth_error (idle s) i with
          | Some f => set_frames t (f :: frames th) (with_idle (drop_nth i (idle s)) s)
          | None => s
          end
      | MLine o ok =>
          match frames th with
          | f :: back =>
              match line_of (mlines w (mcode f)) o with
              | Some l =>
                  let c := mcode f in
                  let s := set_frames t (Mf (mid f) c l :: back) s in
                  if mon_on (mn s) && lev (mn s) c && negb (dln (mn s) c o)
                  then line_event w t o l ok s else s
              | None => s
              end
          | [] => s
          end
      | MRet =>
          match frames th with
          | f :: back =>
              let s := if mon_on (mn s) && rev (mn s) (mcode f) then return_event w t s else s in
              if is_waiting t s then s else pop t s
          | [] => s
          end
      | MYield =>
          match frames th with
          | f :: back =>
              if mgen w (mcode f) then set_frames t back (with_idle (f :: idle s) s) else s
          | [] => s
          end
      | MUnwind => pop t s
      | MRaise =>
          match frames th with
          | f :: _ =>
              if k_skip (code_info w s (mcode f)) then s
              else suspend_at w t (Wait (mid f) RPause EExc false) s
          | [] => s
          end
      end
  end.

Fixpoint m_from (i : N) (fs : list mf) : list mf :=
  match fs with
  | [] => []
  | f :: rest => if N.eqb (mid f) i then fs else m_from i rest
  end.

(* pydevd.py:2311-2325: the frames from the one a step return ends with. *)
Fixpoint m_target (w : mworld) (my : bool) (f : mf) (back : list mf) : list mf :=
  match back with
  | [] => []
  | b :: rest =>
      if (my || mfilter_on w) && mfilt w (mcode b) then m_target w my b rest else f :: back
  end.

(* internal_run_thread (pydevd_thread_lifecycle.py:53-59), internal_step_in_thread
   (pydevd_comm.py:714-722), then pydevd.py:2260-2327: the info of the thread and the
   frames whose events are enabled. *)
Definition m_resumed (w : mworld) (c : cmd) (x : wait) (fs : list mf) : info * list mf :=
  match m_from (shown x) fs with
  | [] => (Info c None false None, [])
  | f :: back =>
      match c with
      | Into | IntoMy =>
          (if mcoro w (mcode f) then Info IntoCo (Some (mid f)) false (Some (mid f, mline f))
           else Info c None false (Some (mid f, mline f)), f :: back)
      | Over | OverMy => (Info c (Some (mid f)) false None, f :: back)
      | Return | ReturnMy =>
          match m_target w (match c with ReturnMy => true | _ => false end) f back with
          | g :: fs => (Info c (Some (mid g)) false None, g :: fs)
          | [] => (Info NoStep None false None, [])
          end
      | _ => (Info c None false None, [])
      end
  end.

(* A command of the client for a waiting thread; then the callback ends, and with it
   a return.  Continuing also reaches threads which have not stopped yet. *)
Definition m_cmd (w : mworld) (t : nat) (c : cmd) (s : mstate) : mstate :=
  match nth_error (thrs s) t with
  | None => s
  | Some th =>
      match wt th with
      | Some x =>
          if client_cmd c then
            let (i, fs) := m_resumed w c x (frames th) in
            let s := with_thrs (put t (Thr (frames th) i None) (thrs s)) s in
            let s := with_mon (enable_all w s i fs (mn s)) s in
            if is_ret (at_evt x) then pop t s else s
          else s
      | None =>
          match c with
          | NoStep => set_info t (Info NoStep None false (initial (nfo th))) s
          | _ => s
          end
      end
  end.

(* update_monitor_events (lines 1862-1935), called without argument. *)
Definition has_breaks (s : mstate) : bool :=
  negb (is_nil (mfuncs s)) || negb (is_nil (mbrks s)).

Definition suspend_requested (s : mstate) : bool :=
  existsb (fun th => is_step (step (nfo th)) || susp (nfo th)) (thrs s).

Definition update_events (s : mstate) : mstate :=
  with_mon (set_on (has_breaks s || suspend_requested s) (mn s)) s.

(* on_breakpoints_changed (pydevd.py:1172-1233) after breakpoints were added; the
   frames of the threads are those of sys._current_frames, so not the generators. *)
Definition m_add (w : mworld) (bs : breaks) (fs : list (N * bp)) (s : mstate) : mstate :=
  let s := MState (thrs s) (idle s) (fresh s) (mn s) (mtime s + 1) (cache s) bs fs in
  let s := update_events s in
  let s := enable_threads w (thrs s) s in
  with_mon (restart (mn s)) s.

(* on_breakpoints_changed(removed=True): the breakpoints left were there. *)
Definition m_drop (bs : breaks) (fs : list (N * bp)) (s : mstate) : mstate :=
  if forallb (fun b => has_break (mbrks s) (fst (fst b)) (snd (fst b))) bs
     && forallb (fun b => match find_func (mfuncs s) (fst b) with Some _ => true | None => false end) fs
  then MState (thrs s) (idle s) (fresh s) (mn s) (mtime s + 1) (cache s) bs fs
  else s.

(* A line reported to a callback which answers DISABLE while another thread adds
   breakpoints: it has read the old ones, and its answer comes after the restart. *)
Definition m_race (w : mworld) (t : nat) (o : N) (bs : breaks) (fs : list (N * bp)) (s : mstate)
    : mstate :=
  match nth_error (thrs s) t with
  | Some th =>
      match frames th with
      | f :: _ =>
          match line_of (mlines w (mcode f)) o with
          | Some l =>
              if mon_on (mn s) && lev (mn s) (mcode f) && negb (dln (mn s) (mcode f) o) then
                match line_outcome (code_info w s (mcode f)) (any_stepping s) (nfo th) f l false with
                | ODisable =>
                    let s := m_add w bs fs s in
                    with_mon (disable_line (mcode f) o (mn s)) s
                | _ => s
                end
              else s
          | None => s
          end
      | [] => s
      end
  | None => s
  end.

Inductive mop :=
| MDo (t : nat) (a : mact)
| MCmd (t : nat) (c : cmd)
| MAdd (bs : breaks) (fs : list (N * bp))
| MDrop (bs : breaks) (fs : list (N * bp))
| MPause (t : nat) (all : bool)
| MSpawn
| MRace (t : nat) (o : N) (bs : breaks) (fs : list (N * bp)).

Definition m_exec (w : mworld) (o : mop) (s : mstate) : mstate :=
  match o with
  | MDo t a => if is_waiting t s then s else m_act w t a s
  | MCmd t c => m_cmd w t c s
  | MAdd bs fs => m_add w bs fs s
  | MDrop bs fs => m_drop bs fs s
  | MPause t all => set_suspend w t true all s
  | MSpawn => with_thrs (thrs s ++ [Thr [] (Info NoStep None false None) None]) s
  | MRace t o bs fs => if is_waiting t s then s else m_race w t o bs fs s
  end.

Fixpoint m_run (w : mworld) (os : list mop) (s : mstate) : mstate :=
  match os with
  | [] => s
  | o :: os => m_run w os (m_exec w o s)
  end.

(* start_monitoring(all_threads=True): lines 1825-1833, with the breakpoints received
   before the program started (the filters and the like are not modelled). *)
Definition m_start (bs : breaks) (fs : list (N * bp)) : mstate :=
  update_events
    (MState [Thr [] (Info NoStep None false None) None] [] 0
       (Mon false (fun _ => false) (fun _ => false) (fun _ => false) (fun _ _ => false))
       0 (fun _ => None) bs fs).
