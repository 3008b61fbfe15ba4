(** Model of the debugger's reader thread: how bytes from the socket become messages.
    Source: /repo/_pydevd_bundle/pydevd_comm.py, class ReaderThread (L153-327). *)
From Coq Require Import List NArith ZArith Bool String Lia.
From Verif Require Import Base.
Import ListNotations.

(** What the reader does with the input, in order. [EvJson b]: process_net_command_json is called
    with the bytes [b] (L275).  [EvCmd id seq text]: process_command is called (L308).
    [EvBadLine l]: "Can't process net command" is logged (L309-311). *)
Inductive event :=
| EvJson (body : str)
| EvCmd (id seq : Z) (text : str)
| EvBadLine (line : str).

(** Effect of the handler of one event: normal, raised an exception, or made the debugger set the
    reader's kill flag (PyDBDaemonThread.do_kill_pydev_thread, pydevd_daemon_thread.py L67-70).
    Simplification: the kill flag is only set while a message is being handled, not by an
    unrelated thread between two messages. *)
Inductive hres := HOk | HRaise | HKill.

(** How the reader loop ended. *)
Inductive outcome :=
| Closed            (* L247-250, L266-269: empty read *)
| HandlerRaised     (* L288-292 *)
| BadContentLength  (* L256 raises ValueError, L288-292 *)
| NotUtf8           (* L298 raises UnicodeDecodeError, L313-318 *)
| OutOfFuel.        (* artefact of the model, excluded by reader_total *)

(** The socket: the chunks the network will deliver, then end of stream.  [recv n] returns at most
    [n] bytes; an empty chunk or the end is the empty read (L211-214, L228-231; an OSError is treated
    by the code exactly like an empty read). *)
Definition recv (n : Z) (chunks : list str) : str * list str :=
  match chunks with
  | [] => ([], [])
  | c :: cs =>
      if (Z.of_nat (List.length c) <=? n)%Z then (c, cs)
      else (firstn (Z.to_nat n) c, skipn (Z.to_nat n) c :: cs)
  end.

(** Python slices [b[:n]] and [b[n:]], with negative [n] counting from the end. *)
Definition slice_to (n : Z) (b : str) : str :=
  if (n <? 0)%Z then firstn (Z.to_nat (Z.of_nat (List.length b) + n)) b else firstn (Z.to_nat n) b.
Definition slice_from (n : Z) (b : str) : str :=
  if (n <? 0)%Z then skipn (Z.to_nat (Z.of_nat (List.length b) + n)) b else skipn (Z.to_nat n) b.

(** ReaderThread._read, L196-215.  Result: returned bytes, new buffer, remaining chunks. *)
Fixpoint read (fuel : nat) (size : Z) (buf : str) (chunks : list str)
  : option (str * str * list str) :=
  match fuel with
  | O => None
  | S fuel' =>
      let buffer_len := Z.of_nat (List.length buf) in
      if (buffer_len =? size)%Z then Some (buf, [], chunks)
      else if (buffer_len >? size)%Z then Some (slice_to size buf, slice_from size buf, chunks)
      else
        let '(r, chunks') := recv (Z.max (size - buffer_len) 1024) chunks in
        match r with
        | [] => Some ([], buf, chunks')
        | _ => read fuel' size (buf ++ r) chunks'
        end
  end.

(** [buffer.find(b"\n")] followed by the slices of L219-224. *)
Fixpoint cut_line (b : str) : option (str * str) :=
  match b with
  | [] => None
  | c :: r =>
      if N.eqb c 10 then Some ([c], r)
      else match cut_line r with
           | Some (l, rest) => Some (c :: l, rest)
           | None => None
           end
  end.

(** ReaderThread._read_line, L217-232. *)
Fixpoint read_line (fuel : nat) (buf : str) (chunks : list str)
  : option (str * str * list str) :=
  match fuel with
  | O => None
  | S fuel' =>
      match cut_line buf with
      | Some (ret, rest) => Some (ret, rest, chunks)
      | None =>
          let '(r, chunks') := recv 1024 chunks in
          match r with
          | [] => Some ([], buf, chunks')
          | _ => read_line fuel' (buf ++ r) chunks'
          end
      end
  end.

Definition is_nil {A} (l : list A) : bool := match l with [] => true | _ => false end.

Definition header_name : str := lit "Content-Length:".
Definition crlf : str := [13; 10]%N.

(** [int(line.strip().split(b":", 1)[1])], L256. *)
Definition header_value (line : str) : option Z :=
  match split1 58 (strip line) with
  | Some (_, v) => py_int v
  | None => None
  end.

(** Removal of the trailing newline, L280-287. *)
Definition chop_line (line : str) : str :=
  if ends_with [10; 10]%N line then firstn (List.length line - 2) line
  else if ends_with [10]%N line then firstn (List.length line - 1) line
  else if ends_with [13]%N line then firstn (List.length line - 1) line
  else line.

(** [args = line.split("\t", 2)] and the conversions of L303-308; [None] stands for an exception
    (ValueError or IndexError), caught at L309.  Simplification: the text stays in its UTF-8 form. *)
Definition parse_cmd (line : str) : option (Z * Z * str) :=
  match split1 9 line with
  | Some (a0, r) =>
      match split1 9 r with
      | Some (a1, a2) =>
          match py_int a0, py_int a1 with
          | Some i, Some q => Some (i, q, a2)
          | _, _ => None
          end
      | None => None
      end
  | None => None
  end.

Definition total (buf : str) (chunks : list str) : nat := List.length (buf ++ List.concat chunks).

Section Reader.
(** [decodes l]: does [l.decode("utf-8")] succeed (L298).  [handler]: effect of each message. *)
Variable decodes : str -> bool.
Variable handler : event -> hres.

(** ReaderThread._on_run, L234-320. *)
Fixpoint on_run (fuel : nat) (content_len : Z) (killed : bool) (buf : str) (chunks : list str)
  : list event * outcome :=
  match fuel with
  | O => ([], OutOfFuel)
  | S fuel' =>
      match read_line (S (total buf chunks)) buf chunks with
      | None => ([], OutOfFuel)
      | Some (line, buf1, chunks1) =>
          if is_nil line then ([], Closed)                                        (* L247-250 *)
          else if killed then on_run fuel' content_len killed buf1 chunks1        (* L252-253 *)
          else if starts_with header_name line then                               (* L255-257 *)
            match header_value line with
            | None => ([], BadContentLength)
            | Some n => on_run fuel' n killed buf1 chunks1
            end
          else if negb (content_len =? -1)%Z then                                 (* L259-277 *)
            if str_eqb line crlf then
              match read (S (total buf1 chunks1)) content_len buf1 chunks1 with
              | None => ([], OutOfFuel)
              | Some (body, buf2, chunks2) =>
                  if is_nil body then ([], Closed)                                (* L266-269 *)
                  else
                    match handler (EvJson body) with
                    | HRaise => ([EvJson body], HandlerRaised)                    (* L288-292 *)
                    | h =>
                        let '(evs, o) := on_run fuel' (-1)%Z
                                           (match h with HKill => true | _ => killed end)
                                           buf2 chunks2 in
                        (EvJson body :: evs, o)
                    end
              end
            else on_run fuel' content_len killed buf1 chunks1
          else
            let line' := chop_line line in                                        (* L280-287 *)
            if negb (decodes line') then ([], NotUtf8)                            (* L298 *)
            else
              let ev := match parse_cmd line' with                                (* L303-311 *)
                        | Some (i, q, t) => EvCmd i q t
                        | None => EvBadLine line'
                        end in
              let '(evs, o) := on_run fuel' content_len
                                 (match ev, handler ev with
                                  | EvCmd _ _ _, HKill => true
                                  | _, _ => killed
                                  end)
                                 buf1 chunks1 in
              (ev :: evs, o)
      end
  end.

(** A reader thread started on a fresh connection (L161-162, L237). *)
Definition run (chunks : list str) : list event * outcome :=
  on_run (S (total [] chunks)) (-1) false [] chunks.
End Reader.

(** NetCommand.send with the HTTP-like protocols, pydevd_net_command.py L107-109. *)
Definition http_frame (as_bytes : str) : str :=
  lit "Content-Length: " ++ dec (N.of_nat (List.length as_bytes)) ++ [13; 10; 13; 10]%N ++ as_bytes.

(** urllib.parse.quote on UTF-8 bytes with a set of extra safe characters: pydevd_utils.quote_smart
    (L106-107).  Always-safe characters are letters, digits and "_.-~". *)
Definition always_safe (c : N) : bool :=
  ((65 <=? c) && (c <=? 90))%N || ((97 <=? c) && (c <=? 122))%N || is_digit c
  || N.eqb c 95 || N.eqb c 46 || N.eqb c 45 || N.eqb c 126.

Definition hex_digit (d : N) : N := if (d <? 10)%N then (48 + d)%N else (55 + d)%N.

Definition quote (safe : str) (s : str) : str :=
  flat_map (fun c => if always_safe c || existsb (N.eqb c) safe then [c]
                     else [37%N; hex_digit (c / 16); hex_digit (c mod 16)]) s.

(** The safe set of pydevd_net_command.py L91. *)
Definition net_safe : str := lit "/<>_=" ++ [34; 32; 9]%N.

(** NetCommand.__init__ for the line protocol, pydevd_net_command.py L91-92 and L104-109: the bytes
    written to the socket for a non-JSON command. *)
Definition line_frame (cmd_id seq : Z) (text : str) : str :=
  zdec cmd_id ++ [9]%N ++ zdec seq ++ [9]%N ++ quote net_safe text ++ [10]%N.
