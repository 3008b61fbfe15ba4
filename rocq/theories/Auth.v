(** Model of the authentication gate (property C05).
    Sources: /repo/pydevd.py L518-553 (_Authentication), L912-917 (on_disconnect),
    /repo/_pydevd_bundle/pydevd_process_net_command.py L31-89 (process_net_command, cmd_authenticate),
    /repo/_pydevd_bundle/pydevd_process_net_command_json.py L150-231 (process_net_command_json,
    on_pydevdauthorize_request), L727-741 (on_disconnect_request). *)
From Coq Require Import List NArith Bool.
From Verif Require Import Base.
Import ListNotations.

(** pydevd.py L519-534: the tokens and the two mutable fields. *)
Record auth := Auth {
  access_token : option str;
  client_access_token : option str;
  authenticated : option bool;   (* _authenticated *)
  wrong_attempts : nat           (* _wrong_attempts *)
}.

(** pydevd.py L521-534, with the tokens as configured at start (pydevd.py L3083, L3146, L3653). *)
Definition init (token client : option str) : auth := Auth token client None 0.

(** Python's [==] on values that are None or text. *)
Definition opt_eqb (a b : option str) : bool :=
  match a, b with
  | None, None => true
  | Some x, Some y => str_eqb x y
  | _, _ => false
  end.

(** pydevd.py L536-539 *)
Definition is_authenticated (s : auth) : bool :=
  match authenticated s with
  | None => match access_token s with None => true | Some _ => false end
  | Some b => b
  end.

(** pydevd.py L541-549 *)
Definition login (s : auth) (a : option str) : auth :=
  if Nat.leb 10 (wrong_attempts s) then s
  else
    let ok := opt_eqb a (access_token s) in
    Auth (access_token s) (client_access_token s) (Some ok)
         (if ok then 0 else S (wrong_attempts s)).

(** pydevd.py L551-553 *)
Definition logout (s : auth) : auth :=
  Auth (access_token s) (client_access_token s) None 0.

(** What a client can send; one constructor per path through the two entry points.
    Simplification: commands other than the ones touching authentication are represented only by the
    path they take (handled, no handler, unknown id). *)
Inductive request :=
| LineAuthenticate (text : str)   (* process_net_command with CMD_AUTHENTICATE *)
| LineCommand                     (* an id with a handler *)
| LineNoHandler                   (* known id without a handler, L50-55 *)
| LineUnknownId                   (* id missing from ID_TO_MEANING, KeyError at L46 *)
| JsonAuthorize (token : option str)  (* PydevdAuthorizeRequest, L208-211 *)
| JsonDisconnect                  (* disconnect without terminateDebuggee *)
| JsonRequest                     (* any other request with a handler *)
| JsonBadWithSeq                  (* L162-186: could not be loaded, but has a seq *)
| JsonNoHandler                   (* L200-202 *)
| JsonUnreadable                  (* L166-169 *)
| ConnectionLost.                 (* pydevd.py L1561: request_disconnect from the debugger itself *)

Inductive reply :=
| Denied        (* "Client not authenticated." *)
| Granted       (* the reply to a successful login *)
| Executed      (* the handler of the command ran *)
| ErrorReply    (* another error message *)
| Silent        (* no reply and no handler run *)
| Raised.       (* exception out of the entry point *)

(** process_net_command / process_net_command_json.
    LineAuthenticate: NetCommand(cmd_id, seq, None) fails its assertion on text
    (pydevd_net_command.py L80) when there is no client token; the exception is answered by the error
    message of L67-80. *)
Definition process (s : auth) (r : request) : auth * reply :=
  match r with
  | LineAuthenticate text =>
      let s' := login s (Some text) in
      (s', if is_authenticated s'
           then match client_access_token s' with Some _ => Granted | None => ErrorReply end
           else Denied)
  | LineCommand => (s, if is_authenticated s then Executed else Denied)
  | LineNoHandler => (s, if is_authenticated s then ErrorReply else Denied)
  | LineUnknownId => (s, if is_authenticated s then Raised else Denied)
  | JsonAuthorize a =>
      let s' := login s a in (s', if is_authenticated s' then Granted else Denied)
  | JsonDisconnect => if is_authenticated s then (logout s, Executed) else (s, Denied)
  | JsonRequest => (s, if is_authenticated s then Executed else Denied)
  | JsonBadWithSeq => (s, if is_authenticated s then ErrorReply else Denied)
  | JsonNoHandler => (s, Silent)
  | JsonUnreadable => (s, Silent)
  | ConnectionLost => (logout s, Silent)
  end.

Fixpoint run (s : auth) (rs : list request) : auth * list reply :=
  match rs with
  | [] => (s, [])
  | r :: rest =>
      let (s1, a) := process s r in
      let (s2, l) := run s1 rest in (s2, a :: l)
  end.
