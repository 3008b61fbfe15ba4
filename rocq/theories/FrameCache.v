(** Model of how frame evaluation decides, for each frame which starts or is resumed, whether to trace it, to give it code with calls
    at its breakpoints or to leave it alone (property C62), with the debugger's reader thread changing breakpoints meanwhile.
    Sources: /repo/_pydevd_frame_eval/pydevd_frame_evaluator.template.pyx (get_func_code_info, _CacheValue, generate_code_with_breakpoints,
    get_bytecode_while_frame_eval); /repo/pydevd.py (on_breakpoints_changed). *)
From Coq Require Import List NArith Bool.
From Verif Require Import Base Dict.
Import ListNotations.
Open Scope list_scope.

(** A code object: its file and name, the lines at which instructions start, whether it belongs to the debugger (get_file_type gives a
    type for it), whether the calls for some lines can be inserted (insert_pydevd_breaks, C61), and, for code which the debugger made, the
    lines which have calls (its entry in _cache, L351; the code of a generator which was started with replaced code). *)
Record code := Code { c_file : N; c_name : N; c_lines : list N; c_skip : bool; c_inserts : list N -> bool; c_calls : option (list N) }.
(** FuncCodeInfo, L121-150.  The replaced code is given by the lines which have calls; the code itself, which
    generate_code_with_breakpoints returns when there is no line to insert, has none. *)
Record info := Info { i_mtime : nat; i_skip : bool; i_found : bool; i_new : option (list N) }.

Definition mem_line (n : N) (l : list N) : bool := existsb (N.eqb n) l.
(** _CacheValue.compute_force_stay_in_untraced_mode, L381-402, for a dict of breakpoints; sets are lists here *)
Definition compute_force (c_lines calls b : list N) : bool * bool :=
  let found := match filter (fun n => mem_line n b) c_lines with [] => false | _ => true end in
  (found, if found then forallb (fun n => mem_line n calls) b else true).
(** generate_code_with_breakpoints, L412-470 *)
Definition generate (c : code) (b : list N) : bool * option (list N) :=
  match filter (fun n => mem_line n (c_lines c)) b with
  | [] => (false, Some [])
  | hit => (true, if c_inserts c hit then Some hit else None)
  end.
(** get_func_code_info, L253-312, once the breakpoints of the file (None: the file is not in the dict) and the function breakpoint of the
    name were read: breakpoint_found, new_code and force_stay_in_untraced_mode; None: intersection(None), a TypeError. *)
Definition compute (c : code) (b : option (list N)) (fb : bool) : option (bool * option (list N) * bool) :=
  if c_skip c then Some (false, None, false)
  else match c_calls c with
       | Some calls => match b with
                       | None => None
                       | Some b => let '(found, force) := compute_force (c_lines c) calls b in Some (found, None, force)
                       end
       | None =>
           if fb then Some (true, None, false)
           else match b with
                | None | Some [] => Some (false, None, false)
                | Some b => let '(found, new) := generate c b in Some (found, new, false)
                end
       end.

(** What happens to the frame; [Failed]: it is not evaluated because of the exception. *)
Inductive decision := Traced | Replaced (calls : list N) | Left | Failed.
(** The end of get_bytecode_while_frame_eval, L563-606; [can_skip]: what the plugins say *)
Definition decide (can_skip : bool) (i : info) (force : bool) : decision :=
  if i_skip i then Left
  else if can_skip then
    if i_found i then
      if force then Left else match i_new i with None => Traced | Some calls => Replaced calls end
    else Left
  else Traced.

(** * Threads *)
(** How far a thread is in get_func_code_info: it found no info which it can use; it read mtime (L249); and the breakpoints (L282). *)
Inductive phase := Begun | HasTime (m : nat) | HasBreaks (m : nat) (b : option (list N)).
Record job := Job { j_code : N; j_skip : bool; j_phase : phase }.
(** [changed]: breakpoints were changed and on_breakpoints_changed was not called yet. *)
Record state := State { mtime : nat; breaks : N -> option (list N); functions : N -> bool; changed : bool;
  infos : list (N * info); jobs : list (N * job) }.
(** [Start t c stepping can_skip]: thread t evaluates a frame with the code c; stepping: the conditions under which every frame is
    traced, L552-557.  The others are the next steps of the thread's evaluation.  The reader thread changes breakpoints and then calls
    on_breakpoints_changed, pydevd.py L1172-1189 (when it is ready to run). *)
Inductive act :=
  | Start (t c : N) (stepping can_skip : bool) | ReadTime (t : N) | ReadBreaks (t : N) | Finish (t : N)
  | SetBreaks (f : N) (b : option (list N)) | SetFunctions (g : N -> bool) | Bump.
Definition with_job (t : N) (j : job) (s : state) : state :=
  State (mtime s) (breaks s) (functions s) (changed s) (infos s) (set N.eqb t j (jobs s)).
Definition step (codes : N -> code) (s : state) (a : act) : state * option (N * N * decision) :=
  match a with
  | Start t c stepping can_skip =>
      if stepping then (s, Some (t, c, Traced))
      else match get N.eqb c (infos s) with
           | Some i => if Nat.eqb (i_mtime i) (mtime s) then (s, Some (t, c, decide can_skip i false))
                       else (with_job t (Job c can_skip Begun) s, None)
           | None => (with_job t (Job c can_skip Begun) s, None)
           end
  | ReadTime t =>
      match get N.eqb t (jobs s) with
      | Some (Job c k Begun) => (with_job t (Job c k (HasTime (mtime s))) s, None)
      | _ => (s, None)
      end
  | ReadBreaks t =>
      match get N.eqb t (jobs s) with
      | Some (Job c k (HasTime m)) => (with_job t (Job c k (HasBreaks m (breaks s (c_file (codes c))))) s, None)
      | _ => (s, None)
      end
  | Finish t =>
      match get N.eqb t (jobs s) with
      | Some (Job c k (HasBreaks m b)) =>
          let rest := del N.eqb t (jobs s) in
          match compute (codes c) b (functions s (c_name (codes c))) with
          | None => (State (mtime s) (breaks s) (functions s) (changed s) (infos s) rest, Some (t, c, Failed))
          | Some (found, new, force) =>
              let i := Info m (c_skip (codes c)) found new in
              (State (mtime s) (breaks s) (functions s) (changed s) (set N.eqb c i (infos s)) rest, Some (t, c, decide k i force))
          end
      | _ => (s, None)
      end
  | SetBreaks f b => (State (mtime s) (fun g => if N.eqb g f then b else breaks s g) (functions s) true (infos s) (jobs s), None)
  | SetFunctions g => (State (mtime s) (breaks s) g true (infos s) (jobs s), None)
  | Bump => (State (S (mtime s)) (breaks s) (functions s) false (infos s) (jobs s), None)
  end.
Definition start : state := State 0 (fun _ => None) (fun _ => false) false [] [].
Definition run (codes : N -> code) (s : state) (l : list act) : state := fold_left (fun s a => fst (step codes s a)) l s.
