(** Model of the stack shown for a suspended thread (properties C34, C44, C45).
    Source: /repo/_pydevd_bundle/pydevd_frame_utils.py: FramesList L209-273, create_frames_list_from_exception_cause
    L305-346, create_frames_list_from_traceback L372-436, create_frames_list_from_frame L439-445,
    _utf8_byte_offset_to_character_offset L148-172, _LineColInfo.map_columns_to_line L114-140;
    /repo/_pydevd_bundle/pydevd_net_command_factory_xml.py: _iter_visible_frames_info L197-247;
    /repo/_pydevd_bundle/pydevd_net_command_factory_json.py: make_get_thread_stack_message L239-344;
    /repo/_pydevd_bundle/pydevd_process_net_command_json.py: on_stacktrace_request L1001-1022.
    Left out: the texts of names, paths and source references (each is a function of one frame) and the modules
    (Modules.v). *)
From Coq Require Import List NArith ZArith Bool.
From Verif Require Import Base Dict.
Import ListNotations.
Local Open Scope list_scope.

(** A frame object: its identity, f_lineno, what the filters say of it and f_back *)
Record attrs := Attrs {
  code : bool;          (* f_code and co_name are not None *)
  internal : bool;      (* get_file_type gives PYDEV_FILE *)
  plugin : bool;        (* IS_PLUGIN_FRAME *)
  filtered : bool       (* is_files_filter_enabled and apply_files_filter *)
}.
Inductive frame := Frame (id : N) (line : Z) (a : attrs) (back : option frame).
Definition fid (f : frame) : N := let (i, _, _, _) := f in i.
Definition fline (f : frame) : Z := let (_, l, _, _) := f in l.
Definition fattrs (f : frame) : attrs := let (_, _, a, _) := f in a.
Definition fback (f : frame) : option frame := let (_, _, _, b) := f in b.

(** create_frames_list_from_frame L439-445 *)
Fixpoint from_frame (f : frame) : list frame :=
  match f with Frame _ _ _ b => f :: match b with Some g => from_frame g | None => [] end end.
(** The frames from f_back on *)
Definition callers (f : frame) : list frame := match fback f with Some g => from_frame g | None => [] end.

(** A FramesList without its chained lists; current_frame by identity *)
Record flist := FList { frames : list frame; lineno_of : list (N * Z); current : option N }.
(** A traceback: the frames with their lines, outermost first *)
Definition traceback := list (frame * Z).
Inductive kind := Handled | UserUnhandled | Unhandled.

(** create_frames_list_from_traceback L385-422: L385-396 *)
Definition all_frames (tb : traceback) : traceback :=
  match tb with
  | [] => []
  | (f, _) :: _ => rev (map (fun c => (c, fline c)) (callers f)) ++ tb
  end.
(** L400-407: from the first one which is the wanted frame *)
Fixpoint drop_until (want : frame * Z -> bool) (l : traceback) : traceback :=
  match l with [] => [] | x :: r => if want x then l else drop_until want r end.
Definition from_traceback (tb : traceback) (f : option frame) (k : kind) : flist :=
  let want := fun x : frame * Z => match f with
                         | None => true
                         | Some g => N.eqb (fid g) (fid (fst x)) || match k with UserUnhandled => true | _ => false end
                         end in
  let l := drop_until want (rev (all_frames tb)) in
  let base := match l, f with
              | [], Some g => FList (from_frame g) [] None                (* L409-412 *)
              | _, _ => FList (map fst l) (fold_left (fun d x => set N.eqb (fid (fst x)) (snd x) d) l []) None
              end in
  FList (frames base) (lineno_of base)
        (match k with
         | UserUnhandled => option_map fid f
         | Unhandled => option_map fid (last (map Some (frames base)) None)
         | Handled => None
         end).

(** An exception object: __cause__, __context__, __suppress_context__ and __traceback__ *)
Record exc := Exc { cause : option N; context : option N; suppress : bool; tb_of : traceback }.
Definition heap := list (N * exc).
(** create_frames_list_from_exception_cause L305-325; an unknown object has neither *)
Definition next_exc (h : heap) (e : N) : option N :=
  match get N.eqb e h with
  | None => None
  | Some x => match cause x with Some c => Some c | None => context x end
  end.
(** L327-346: new wrapper objects stand for the frames of the traceback; their identities are new numbers *)
Definition wrap (fresh : N) (x : frame * Z) : frame := Frame fresh (snd x) (fattrs (fst x)) None.
Fixpoint wrap_all (fresh : N) (tb : traceback) : list frame :=
  match tb with [] => [] | x :: r => wrap fresh x :: wrap_all (N.succ fresh) r end.
Definition from_cause (fresh : N) (tb : traceback) : flist :=
  let l := wrap_all fresh tb in
  FList l (fold_left (fun d f => set N.eqb (fid f) (fline f) d) l []) None.
Definition tb_at (h : heap) (e : N) : traceback := match get N.eqb e h with Some x => tb_of x | None => [] end.
(** L424-434: the loop over causes; the number of turns is bounded by the number of objects (chain_enough) *)
Fixpoint chain (fuel : nat) (h : heap) (e : N) (memo : list N) (fresh : N) : list (N * flist) :=
  match fuel with
  | O => []
  | S n => match next_exc h e with
           | None => []
           | Some c => if existsb (N.eqb c) memo then [] else
               (c, from_cause fresh (tb_at h c)) :: chain n h c (c :: memo) (fresh + N.of_nat (List.length (tb_at h c)))
           end
  end.
Definition chained (h : heap) (e : N) (fresh : N) : list (N * flist) := chain (S (S (List.length h))) h e [e] fresh.

(** ** The frames sent *)
(** One visible frame: identity, line, shown as the current one, and the exception of a chained list *)
Record row := Row { rid : N; rline : Z; rcurrent : bool; rexc : option N; rattrs : attrs }.
Definition line_in (fl : flist) (f : frame) : Z := match get N.eqb (fid f) (lineno_of fl) with Some l => l | None => fline f end.
(** The for loop of _iter_visible_frames_info L201-239 *)
Definition visible1 (e : option N) (fl : flist) : list row :=
  flat_map (fun f => if negb (code (fattrs f)) || internal (fattrs f) then [] else
                     [Row (fid f) (line_in fl f) (match current fl with Some c => N.eqb c (fid f) | None => false end) e (fattrs f)])
           (frames fl).
(** L241-247: the loop ends at the first chained list without frames *)
Fixpoint visible_chain (l : list (N * flist)) : list row :=
  match l with
  | [] => []
  | (e, fl) :: r => match frames fl with [] => [] | _ => visible1 (Some e) fl ++ visible_chain r end
  end.
Definition visible (fl : flist) (ch : list (N * flist)) : list row := visible1 None fl ++ visible_chain ch.
(** make_get_thread_stack_message L249-329 *)
Definition sent_rows (l : list row) : list row := filter (fun r => plugin (rattrs r) || negb (filtered (rattrs r))) l.

(** A slice l[i:j] of Python *)
Definition slice {A} (l : list A) (i j : Z) : list A :=
  let n := Z.of_nat (List.length l) in
  let norm k := (if Z.ltb k 0 then Z.max 0 (k + n) else Z.min k n)%Z in
  firstn (Z.to_nat (norm j - norm i)) (skipn (Z.to_nat (norm i)) l).
(** L331-336 and the arguments of the request L1009-1017 (absent is 0): the frames and totalFrames *)
Definition page {A} (l : list A) (start levels : option Z) : list A * nat :=
  let start := match start with Some s => s | None => 0%Z end in
  let levels := match levels with Some n => n | None => 0%Z end in
  let total := List.length l in
  (if Z.eqb levels 0 then l else slice l start (Z.min (start + levels) (Z.of_nat total)), total).

(** ** Columns *)
(** The bytes of a character in UTF-8, L149-163 *)
Definition char_bytes (c : N) : N :=
  (1 + (if N.leb 65536 c then 3 else if N.leb 2048 c then 2 else if N.leb 128 c then 1 else 0))%N.
(** The for loop: [i] characters and [b] bytes so far *)
Fixpoint char_offset_from (s : str) (offset b : N) (i : N) : N :=
  match s with
  | [] => i
  | c :: r => let b' := (b + char_bytes c)%N in
              if N.ltb offset b' then i else char_offset_from r offset b' (N.succ i)
  end.
(** The else branch adds 1 to the index of the last character, or to 0 for an empty text *)
Definition char_offset (s : str) (offset : option N) : N :=
  match s with [] => 1 | _ => char_offset_from s (match offset with Some o => o | None => 0 end) 0 0 end.
(** A _LineColInfo; [anchors] is the answer of _extract_caret_anchors_in_bytes_from_line_segment, which parses the text *)
Record linecol := LineCol { ln : Z; end_ln : Z; col : N; end_col : N }.
Definition map_columns (anchors : str -> option (N * N)) (p : linecol) (line : str) : N * N :=
  let c := char_offset line (Some (col p)) in
  let e := char_offset line (Some (end_col p)) in
  if Z.eqb (ln p) (end_ln p) then
    match anchors (firstn (N.to_nat e - N.to_nat c) (skipn (N.to_nat c) line)) with
    | Some (a, b) => (char_offset line (Some (a + col p)%N), char_offset line (Some (b + col p)%N))
    | None => (c, e)
    end
  else (c, e).
(** The column and endColumn sent, L300-313; without a text of the line or positions, 1 and none *)
Definition columns (anchors : str -> option (N * N)) (p : option linecol) (line : str) : N * option N :=
  match p, line with
  | Some p, _ :: _ => let (c, e) := map_columns anchors p line in
                      (c + 1, if Z.eqb (ln p) (end_ln p) then Some (e + 1) else None)%N
  | _, _ => (1%N, None)
  end.
