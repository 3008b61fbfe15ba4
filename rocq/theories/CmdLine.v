(** Model of the debugger's command line (property C26).
    Source: /repo/_pydevd_bundle/pydevd_command_line_handling.py L5-181;
    /repo/_pydev_bundle/pydev_monkey.py: _get_setup_updated_with_protocol_and_ppid L46-91 (the protocol and
    the ppid); /repo/pydevd.py L3639-3650 (the protocol chosen from the settings). *)
From Coq Require Import String List NArith ZArith Bool.
From Verif Require Import Base Dict.
Import ListNotations.
Local Open Scope list_scope.

Inductive value := VNone | VBool (b : bool) | VInt (z : Z) | VText (s : str).
Definition setup := list (str * value).

(** The kinds of handlers: ArgHandlerWithParam without conversion, with int and convert_ppid; ArgHandlerBool *)
Inductive kind := KText | KInt | KPpid | KBool.
Record handler := Handler { name : str; knd : kind; dflt : value }.

(** ACCEPTED_ARG_HANDLERS, L64-92 *)
Definition handlers : list handler :=
  [ Handler (lit "port") KInt (VInt 0);
    Handler (lit "ppid") KPpid (VInt 0);
    Handler (lit "vm_type") KText VNone;
    Handler (lit "client") KText VNone;
    Handler (lit "access-token") KText VNone;
    Handler (lit "client-access-token") KText VNone;
    Handler (lit "debug-mode") KText VNone;
    Handler (lit "preimport") KText VNone;
    Handler (lit "log-file") KText VNone;
    Handler (lit "log-level") KInt VNone;
    Handler (lit "server") KBool (VBool false);
    Handler (lit "multiproc") KBool (VBool false);
    Handler (lit "multiprocess") KBool (VBool false);
    Handler (lit "save-signatures") KBool (VBool false);
    Handler (lit "save-threading") KBool (VBool false);
    Handler (lit "save-asyncio") KBool (VBool false);
    Handler (lit "print-in-debugger-startup") KBool (VBool false);
    Handler (lit "cmd-line") KBool (VBool false);
    Handler (lit "module") KBool (VBool false);
    Handler (lit "skip-notify-stdin") KBool (VBool false);
    Handler (lit "json-dap") KBool (VBool false);
    Handler (lit "json-dap-http") KBool (VBool false);
    Handler (lit "protocol-quoted-line") KBool (VBool false);
    Handler (lit "protocol-http") KBool (VBool false) ].

Definition rep (h : handler) : str := lit "--" ++ name h.

Definition value_eqb (a b : value) : bool :=
  match a, b with
  | VNone, VNone => true
  | VBool x, VBool y => Bool.eqb x y
  | VInt x, VInt y => Z.eqb x y
  | VText x, VText y => str_eqb x y
  | _, _ => false
  end.
(** "%s" % (v,) *)
Definition show (v : value) : str :=
  match v with
  | VNone => lit "None"
  | VBool true => lit "True"
  | VBool false => lit "False"
  | VInt z => zdec z
  | VText s => s
  end.
(** Truth value *)
Definition truth (v : value) : bool :=
  match v with VNone => false | VBool b => b | VInt z => negb (Z.eqb z 0) | VText [] => false | VText _ => true end.

(** to_argv, L16-20 and L44-47 *)
Definition to_argv (h : handler) (s : setup) : list str :=
  match get str_eqb (name h) s with
  | None | Some VNone => []
  | Some v =>
      match knd h with
      | KBool => if truth v then [rep h] else []
      | _ => if value_eqb v (dflt h) then [] else [rep h; show v]
      end
  end.

(** setup_to_argv, L110-128, without the first element (the path of pydevd.py) *)
Definition setup_to_argv (s : setup) (skip : list str) : list str :=
  flat_map (fun h => if mem str_eqb (name h) s && negb (existsb (str_eqb (name h)) skip) then to_argv h s else [])
           handlers.

(** The conversions, L55-61; None: an exception *)
Definition convert (pid : Z) (k : kind) (s : str) : option value :=
  match k with
  | KInt => option_map VInt (py_int s)
  | KPpid => match py_int s with
             | Some z => if negb (Z.eqb z 0) && Z.eqb z pid then None else Some (VInt z)
             | None => None
             end
  | _ => Some (VText s)
  end.

(** The state of process_command_line: [i] stays 0 until "--file". *)
Record st := St { argv : list str; conf : setup }.
Inductive outcome := Next (s : st) | Done (s : st) | Fail.

Definition qt_modes : list str := [lit "none"; lit "auto"; lit "pyqt5"; lit "pyqt4"; lit "pyside"; lit "pyside2"].

(** One iteration of the loop, L144-180 *)
Definition step (pid : Z) (s : st) : outcome :=
  match argv s with
  | [] => Done s
  | a :: r =>
      match find (fun h => str_eqb a (rep h)) handlers with
      | Some h =>
          match knd h with
          | KBool => Next (St r (set str_eqb (name h) (VBool true) (conf s)))
          | k =>
              match r with
              | [] => Fail
              | v :: r => match convert pid k v with
                          | Some x => Next (St r (set str_eqb (name h) x (conf s)))
                          | None => Fail
                          end
              end
          end
      | None =>
          if starts_with (lit "--qt-support") a then
            if str_eqb a (lit "--qt-support") then Next (St r (set str_eqb (lit "qt-support") (VText (lit "auto")) (conf s)))
            else if starts_with (lit "--qt-support=") a then
              let m := skipn (List.length (lit "--qt-support=")) a in
              if existsb (str_eqb m) qt_modes then
                Next (St r (set str_eqb (lit "qt-support") (VText (if str_eqb m (lit "none") then [] else m)) (conf s)))
              else Fail
            else Fail
          else if str_eqb a (lit "--file") then
            match r with
            | [] => Fail
            | f :: _ => Done (St r (set str_eqb (lit "file") (VText f) (conf s)))
            end
          else if str_eqb a (lit "--DEBUG") then Next s
          else Fail
      end
  end.

(** L136-140 *)
Definition defaults : setup :=
  map (fun h => (name h, dflt h)) handlers ++ [(lit "file", VText []); (lit "qt-support", VText [])].

(** The loop, for at most [n] iterations; None: not finished *)
Fixpoint loop (pid : Z) (n : nat) (s : st) : option outcome :=
  match n with
  | O => None
  | S n => match step pid s with Next s => loop pid n s | o => Some o end
  end.
(** process_command_line(argv): the first element is dropped *)
Definition process (pid : Z) (n : nat) (l : list str) : option outcome :=
  match l with [] => Some Fail | _ :: r => loop pid n (St r defaults) end.

(** ** The settings for a child process *)
Inductive protocol := PQuoted | PHttp | PJson | PHttpJson.
Definition flag (p : protocol) : str :=
  match p with
  | PQuoted => lit "protocol-quoted-line"
  | PHttp => lit "protocol-http"
  | PJson => lit "json-dap"
  | PHttpJson => lit "json-dap-http"
  end.
(** _get_setup_updated_with_protocol_and_ppid, L46-77 *)
Definition update (s : setup) (p : protocol) (pid : Z) (is_exec : bool) : setup :=
  let s := del str_eqb (lit "json-dap-http") s in
  let s := del str_eqb (lit "json-dap") s in
  let s := del str_eqb (lit "protocol-quoted-line") s in
  let s := if is_exec then s else set str_eqb (lit "ppid") (VInt pid) s in
  set str_eqb (flag p) (VBool true) s.

(** pydevd.py L3639-3650: the protocol used by the child *)
Definition on (s : setup) (n : str) : bool := match get str_eqb n s with Some v => truth v | None => false end.
Definition child_protocol (s : setup) : option protocol :=
  if on s (flag PJson) then Some PJson
  else if on s (flag PHttpJson) then Some PHttpJson
  else if on s (flag PHttp) then Some PHttp
  else if on s (flag PQuoted) then Some PQuoted
  else None.
