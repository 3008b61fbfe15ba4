(** Model of the messages of the line based protocol which carry text as XML (property C57).
    Sources: /repo/_pydevd_bundle/pydevd_xml.py: make_valid_xml_value L25-27, frame_vars_to_xml L285-317, var_to_xml L393-434;
    /repo/_pydevd_bundle/pydevd_net_command_factory_xml.py: NetCommandFactory;
    /repo/_pydev_bundle/_pydev_completer.py: completions_to_xml L185-202; /repo/_pydevd_bundle/pydevd_net_command.py: NetCommand;
    /repo/_pydevd_bundle/pydevd_comm.py: internal_get_frame L963-982, InternalGetVariable.do_it L826-854.
    The quoting is urllib.parse.quote of the standard library, the bytes are those of str.encode.
    Not modelled: the text of a value and its type (get_variable_details), which are given. *)
From Coq Require Import String.
From Coq Require Import List NArith Bool Arith.
From Verif Require Import Base.
Import ListNotations.
Open Scope list_scope.

(** * Text *)
(** str.encode with utf-8; None: UnicodeEncodeError, for a surrogate *)
Definition encode_char (c : N) : option (list N) :=
  if (c <? 128)%N then Some [c]
  else if (c <? 2048)%N then Some [192 + c / 64; 128 + c mod 64]%N
  else if ((55296 <=? c) && (c <? 57344))%N then None
  else if (c <? 65536)%N then Some [224 + c / 4096; 128 + (c / 64) mod 64; 128 + c mod 64]%N
  else Some [240 + c / 262144; 128 + (c / 4096) mod 64; 128 + (c / 64) mod 64; 128 + c mod 64]%N.
Fixpoint encode (s : str) : option (list N) :=
  match s with
  | [] => Some []
  | c :: r => match encode_char c, encode r with Some a, Some b => Some (a ++ b) | _, _ => None end
  end.
(** urllib.parse.quote: bytes which are not letters, digits, one of _.-~ or in [safe] are written as a percent sign and two digits. *)
Definition always_safe (b : N) : bool :=
  (((65 <=? b) && (b <=? 90)) || ((97 <=? b) && (b <=? 122)) || ((48 <=? b) && (b <=? 57)))%N || existsb (N.eqb b) (lit "_.-~").
Definition hex_digit (n : N) : N := if (n <? 10)%N then (48 + n)%N else (55 + n)%N.
Definition quote_byte (safe : str) (b : N) : str :=
  if always_safe b || existsb (N.eqb b) safe then [b] else [37; hex_digit (b / 16); hex_digit (b mod 16)]%N.
Definition quote (safe s : str) : option str := option_map (flat_map (quote_byte safe)) (encode s).

(** s.replace(c, w) for one character *)
Definition replace (c : N) (w : str) (s : str) : str := flat_map (fun x => if N.eqb x c then w else [x]) s.
(** make_valid_xml_value, L25-27 *)
Definition escape (s : str) : str :=
  replace 34 (lit "&quot;") (replace 62 (lit "&gt;") (replace 60 (lit "&lt;") (replace 38 (lit "&amp;") s))).
Definition bind {A B : Type} (x : option A) (f : A -> option B) : option B := match x with Some a => f a | None => None end.
Definition escaped_quote (safe s : str) : option str := option_map escape (quote safe s).

(** name, an equals sign and the value in quotation marks *)
Definition q : str := [34%N].
Definition at_ (name value : str) : str := name ++ lit "=" ++ q ++ value ++ q.
Definition safe_value : str := lit "/>_= ".
Definition safe_tab : str := lit "/>_= " ++ [9%N].

(** * Messages *)
(** NetCommand.__init__, L59-104: the bytes of a message; [http]: one of the protocols with a length before each message. *)
Definition safe_net : str := lit "/<>_=" ++ q ++ lit " " ++ [9%N].
Definition wire (http : bool) (id seq : N) (text : str) : option (list N) :=
  if http then encode (dec id ++ [9%N] ++ dec seq ++ [9%N] ++ text)
  else option_map (fun e => dec id ++ [9%N] ++ dec seq ++ [9%N] ++ e ++ [10%N]) (quote safe_net text).

(** What get_variable_details and get_var_scope find for a variable. *)
Record details := Details { ty : str; qualifier : str; value : str; error : bool; container : bool; scope : str }.
Definition trimmed (limit : nat) (s : str) : str := if limit <? length s then firstn limit s ++ lit "..." else s.
(** var_to_xml, L393-434.  [limit]: MAXIMUM_VARIABLE_REPRESENTATION_SIZE, 1000. *)
Definition var_to_xml (limit : nat) (additional : str) (name : str) (d : details) : option str :=
  let name := match quote safe_value name with Some n => n | None => name end in
  bind (match value d with [] => Some [] | v => option_map (fun v => lit " " ++ at_ (lit "value") v) (escaped_quote safe_value (trimmed limit v)) end) (fun v =>
  Some (lit "<var " ++ at_ (lit "name") (escape name) ++ lit " " ++ at_ (lit "type") (escape (ty d)) ++ lit " " ++
        match qualifier d with [] => [] | x => at_ (lit "qualifier") (escape x) end ++ v ++
        (if error d then lit " " ++ at_ (lit "isErrorOnEval") (lit "True") else if container d then lit " " ++ at_ (lit "isContainer") (lit "True") else []) ++
        additional ++ match scope d with [] => [] | x => lit " " ++ at_ (lit "scope") x end ++ lit " />" ++ [10%N])).

Definition ret_val : str := lit " " ++ at_ (lit "isRetVal") (lit "True").
Definition hidden : str := lit " " ++ at_ (lit "isIPythonHidden") (lit "True").
Definition xml (s : str) : str := lit "<xml>" ++ s ++ lit "</xml>".
(** The variables of a frame, L285-317 and internal_get_frame.  The locals are given in the order of their names; [returned]: the
    values in the dictionary of return values; [hide]: hidden_ns.  What raises for one variable leaves it out (L314), and for the
    returned values leaves out the rest of them. *)
Fixpoint each_var (f : str * details -> option str) (l : list (str * details)) : str :=
  match l with [] => [] | v :: r => match f v with Some s => s | None => [] end ++ each_var f r end.
Fixpoint until_raise (f : str * details -> option str) (l : list (str * details)) : str :=
  match l with [] => [] | v :: r => match f v with Some s => s ++ until_raise f r | None => [] end end.
Definition frame_vars (limit : nat) (hide : str -> bool) (returned locals : list (str * details)) : str :=
  until_raise (fun v => var_to_xml limit ret_val (fst v) (snd v)) returned ++
  each_var (fun v => var_to_xml limit (if hide (fst v) then hidden else []) (fst v) (snd v))
    (filter (fun v => negb (str_eqb (fst v) (lit "_pydev_stop_at_break"))) locals).
Definition frame_message http limit seq hide returned locals : option (list N) := wire http 114 seq (xml (frame_vars limit hide returned locals)).
(** InternalGetVariable.do_it: what raises for one makes the whole answer an error message. *)
Fixpoint all_vars (f : str * details -> option str) (l : list (str * details)) : option str :=
  match l with [] => Some [] | v :: r => bind (f v) (fun s => bind (all_vars f r) (fun t => Some (s ++ t))) end.
Definition variable_message http limit seq (children : list (str * details)) : option (list N) :=
  bind (all_vars (fun v => var_to_xml limit [] (fst v) (snd v)) children) (fun s => wire http 110 seq (xml s)).

(** make_io_message, L165-182; [ctx] 1 for the output, 2 for errors.  [limit]: MAX_IO_MSG_SIZE, 10000 *)
Definition io_message http limit seq (text : str) (ctx : N) : option (list N) :=
  bind (escaped_quote safe_value (trimmed limit text)) (fun t => wire http 116 seq (xml (lit "<io " ++ at_ (lit "s") t ++ lit " " ++ at_ (lit "ctx") (dec ctx) ++ lit "/>"))).

(** completions_to_xml *)
Definition completion := (str * str * str * str)%type.
Definition comp_to_xml (c : completion) : option str :=
  let '(a, b, c, d) := c in
  bind (escaped_quote safe_tab a) (fun a => bind (escaped_quote safe_tab b) (fun b => bind (escaped_quote safe_tab c) (fun c => bind (escaped_quote safe_tab d) (fun d =>
  Some (lit "<comp " ++ at_ (lit "p0") a ++ lit " " ++ at_ (lit "p1") b ++ lit " " ++ at_ (lit "p2") c ++ lit " " ++ at_ (lit "p3") d ++ lit "/>"))))).
Fixpoint comps_to_xml (l : list completion) : option str :=
  match l with [] => Some [] | c :: r => bind (comp_to_xml c) (fun s => bind (comps_to_xml r) (fun t => Some (s ++ t))) end.
Definition completions_message http seq (l : list completion) : option (list N) := bind (comps_to_xml l) (fun s => wire http 120 seq (xml s)).

(** Threads: _thread_to_xml L72-76, make_thread_created_message L87-89, make_custom_frame_created_message L103-106,
    make_list_threads_message L108-125.  The ids are texts of letters, digits and underscores. *)
Definition thread_xml (name id : str) : option str :=
  option_map (fun n => lit "<thread " ++ at_ (lit "name") n ++ lit " " ++ at_ (lit "id") id ++ lit " />") (quote (lit "/") (escape name)).
Definition thread_created http seq name id : option (list N) := bind (thread_xml name id) (fun s => wire http 103 seq (xml s)).
Definition custom_created http seq name id : option (list N) :=
  wire http 103 seq (xml (lit "<thread " ++ at_ (lit "name") (escape name) ++ lit " " ++ at_ (lit "id") id ++ lit "/>")).
Fixpoint threads_xml (l : list (str * str)) : option str :=
  match l with [] => Some [] | t :: r => bind (thread_xml (fst t) (snd t)) (fun s => bind (threads_xml r) (fun u => Some (s ++ u))) end.
Definition threads_message http seq (l : list (str * str)) : option (list N) := bind (threads_xml l) (fun s => wire http 502 seq (xml s)).

(** The stack, make_thread_stack_str L249-275: a frame which raises ends the list.  A frame: id, name, file, line. *)
Definition sframe := (N * str * str * N)%type.
Definition frame_xml (f : sframe) : option str :=
  let '(id, name, file, line) := f in
  option_map (fun file => lit "<frame " ++ at_ (lit "id") (dec id) ++ lit " " ++ at_ (lit "name") (escape name) ++ lit " " ++ at_ (lit "file") file ++ lit " " ++ at_ (lit "line") (dec line) ++ lit "></frame>")
    (quote safe_tab (escape file)).
(** The first part of a frame is appended before the second raises (L269-271). *)
Fixpoint stack_xml (l : list sframe) : str :=
  match l with
  | [] => []
  | (id, name, file, line) as f :: r =>
      match frame_xml f with
      | Some s => s ++ stack_xml r
      | None => lit "<frame " ++ at_ (lit "id") (dec id) ++ lit " " ++ at_ (lit "name") (escape name) ++ lit " "
      end
  end.
(** make_get_thread_stack_message, L127-155 *)
Definition stack_message http seq thread_id (l : list sframe) : option (list N) :=
  wire http 152 seq (xml (lit "<thread " ++ at_ (lit "id") thread_id ++ lit ">" ++ stack_xml l ++ lit "</thread>")).
(** make_thread_suspend_str, L277-331; [message]: None, or a text.  The reason is a number. *)
Definition suspend_xml thread_id (reason : N) (message : option str) (l : list sframe) : str :=
  xml (lit "<thread " ++ at_ (lit "id") thread_id ++ lit " " ++ at_ (lit "stop_reason") (dec reason) ++
    match message with None => [] | Some m => lit " " ++ at_ (lit "message") (escape m) end ++ lit " " ++ at_ (lit "suspend_type") (lit "trace") ++ lit ">" ++ stack_xml l ++ lit "</thread>").
Definition suspend_message http seq thread_id reason message l : option (list N) := wire http 105 seq (suspend_xml thread_id reason message l).
(** The names of the frames of an exception which caused another, L210-211 *)
Definition chained_name (description name : str) : str := lit "[Chained Exc: " ++ description ++ lit "] " ++ name.

(** Exceptions, _make_send_curr_exception_trace_str L415-425 and make_send_curr_exception_trace_message L427-435: fields between tabs. *)
Definition described (default s : str) : str := match replace 9 (lit "  ") (escape s) with [] => default | d => d end.
Definition exception_message http seq (frame : N) thread_id (etype desc : str) (l : list sframe) : option (list N) :=
  wire http 138 seq (dec frame ++ [9%N] ++ described (lit "exception: type unknown") etype ++ [9%N] ++ described (lit "exception: no description") desc ++ [9%N] ++
    suspend_xml thread_id 138 (Some []) l).
(** make_get_exception_details_message, L437-467; [exc]: the exception the thread is stopped at, with its stack; None: there is none.
    [suspended]: there is a topmost frame. *)
Definition details_message http seq thread_id (suspended : bool) (exc : option (str * str * list sframe)) : option (list N) :=
  wire http 155 seq (lit "<xml><thread " ++ at_ (lit "id") thread_id ++ lit " " ++
    (if suspended then
       match exc with
       | Some (etype, desc, l) => at_ (lit "exc_type") (described (lit "exception: type unknown") etype) ++ lit " " ++
           at_ (lit "exc_desc") (described (lit "exception: no description") desc) ++ lit " >" ++ stack_xml l
       | None => lit ">"
       end
     else []) ++ lit "</thread></xml>").
