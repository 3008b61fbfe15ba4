(** Model of the expressions given to the client for the variables it shows (evaluateName), of what they mean, and of changing an item or
    an attribute through them (property C65).
    Sources: /repo/_pydevd_bundle/pydevd_suspended_frames.py (_ObjectVariable, _FrameVariable, _FramesTracker),
    /repo/_pydevd_bundle/pydevd_resolver.py (DefaultResolver, DictResolver, TupleResolver, SetResolver, MoreItems, MoreItemsRange).
    The order of the entries is left out (properties C19, C28 and C42), and so are the formats of names. *)
From Coq Require Import String.
From Coq Require Import List NArith ZArith Bool.
From Verif Require Import Base Dict SafeRepr Grouping.
Import ListNotations.
Open Scope list_scope.

(** * Values *)
(** Numbers, texts, None, the truth values and tuples are given by what they are; [VFloat]: the floats whose text is a name (inf and nan);
    [VEnum]: an instance of a subclass of int with a text of its own; [VRef]: any other object. *)
Inductive value :=
  | VInt (z : Z) | VStr (s : str) | VNone | VBool (b : bool) | VTuple (l : list value) | VFloat (name : str) | VEnum (text : str) (z : Z) | VRef (a : N).
(** What an object contains: the items of a list, the entries of a dictionary, the members of a set *)
Inductive contents := Items (l : list value) | Pairs (l : list (value * value)) | Members (l : list value) | NoContents.
(** An object: its contents, what dir() gives with what getattr gives for each name (None: it raises), and its __dict__, which is another object *)
Record obj := Obj { inside : contents; attrs : list (str * option value); dict_at : option N }.
(** The program: its objects, the attributes of the other values, what inspect says of a value, the text of an object, the text shown for an attribute
    which raises, and which characters are printed as they are *)
Record world := World { heap : N -> obj; attrs_of : value -> list (str * option value); kind_of : value -> vkind; text_of : N -> str;
  failure : value -> str -> str; printable : N -> bool }.
Definition attributes (w : world) (v : value) : list (str * option value) := match v with VRef a => attrs (heap w a) | _ => attrs_of w v end.
(** The entries of __dict__; those whose key is no text are left out *)
Definition own (w : world) (v : value) : list (str * value) :=
  match v with
  | VRef a => match dict_at (heap w a) with
              | Some b => match inside (heap w b) with Pairs l => flat_map (fun kx => match fst kx with VStr k => [(k, snd kx)] | _ => [] end) l | _ => [] end
              | None => []
              end
  | _ => []
  end.
Record frame := Frame { locals : list (str * value); globals : list (str * value) }.
(** Lookup of a name by eval() *)
Definition lookup (F : frame) (n : str) : option value :=
  match get str_eqb n (locals F) with Some v => Some v | None => get str_eqb n (globals F) end.

(** ** Equality and items, as Python has them *)
Definition number (v : value) : option Z := match v with VInt z | VEnum _ z => Some z | VBool b => Some (if b then 1%Z else 0%Z) | _ => None end.
Fixpoint py_eqb (a b : value) {struct a} : bool :=
  match number a, number b with
  | Some x, Some y => Z.eqb x y
  | None, None =>
      match a, b with
      | VStr s, VStr t => str_eqb s t
      | VNone, VNone => true
      | VFloat s, VFloat t => str_eqb s t
      | VRef x, VRef y => N.eqb x y
      | VTuple l, VTuple m =>
          (fix all2 (l m : list value) : bool :=
             match l, m with [], [] => true | x :: l, y :: m => py_eqb x y && all2 l m | _, _ => false end) l m
      | _, _ => false
      end
  | _, _ => false
  end.
Definition item {A} (l : list A) (z : Z) : option A :=
  if (z <? 0)%Z then (if (- z <=? Z.of_nat (length l))%Z then nth_error l (Z.to_nat (Z.of_nat (length l) + z)) else None)
  else nth_error l (Z.to_nat z).
Definition contents_of (w : world) (v : value) : contents := match v with VRef a => inside (heap w a) | VTuple l => Items l | _ => NoContents end.
Definition getitem (w : world) (v k : value) : option value :=
  match contents_of w v with
  | Items l => match number k with Some z => item l z | None => None end
  | Pairs l => option_map snd (find (fun p => py_eqb (fst p) k) l)
  | _ => None
  end.
Definition getattr (w : world) (v : value) (n : str) : option value :=
  match get str_eqb n (attributes w v) with
  | Some r => r
  | None => if str_eqb n (lit "__dict__") then match v with VRef a => option_map VRef (dict_at (heap w a)) | _ => None end else None
  end.
Definition size (w : world) (v : value) : option nat :=
  match contents_of w v with Items l | Members l => Some (length l) | Pairs l => Some (length l) | NoContents => None end.

(** * Expressions *)
(** The expressions of Python needed here: names, constants, attributes, items, calls with one argument, minus, plus and tuples *)
Inductive expr :=
  | EName (n : str) | EConst (v : value) | EAttr (e : expr) (n : str) | EIndex (e i : expr) | ECall (f x : expr) | ENeg (e : expr)
  | EAdd (a b : expr) | ETuple (l : list expr).
(** What they mean in a frame; None: an exception.  The only function which can be called is the built-in len, if the program has no variable
    of that name; plus is for numbers and texts only. *)
Fixpoint eval (w : world) (F : frame) (e : expr) {struct e} : option value :=
  match e with
  | EName n => lookup F n
  | EConst v => Some v
  | EAttr e n => match eval w F e with Some v => getattr w v n | None => None end
  | EIndex e i => match eval w F e, eval w F i with Some v, Some k => getitem w v k | _, _ => None end
  | ECall (EName f) x =>
      match lookup F f, eval w F x with
      | None, Some v => if str_eqb f (lit "len") then option_map (fun n => VInt (Z.of_nat n)) (size w v) else None
      | _, _ => None
      end
  | ECall _ _ => None
  | ENeg e => match eval w F e with Some v => option_map (fun z => VInt (- z)) (number v) | None => None end
  | EAdd a b =>
      match eval w F a, eval w F b with
      | Some (VStr s), Some (VStr t) => Some (VStr (s ++ t))
      | Some x, Some y => match number x, number y with Some m, Some n => Some (VInt (m + n)) | _, _ => None end
      | _, _ => None
      end
  | ETuple l =>
      (fix all (l : list expr) (acc : list value) : option value :=
         match l with [] => Some (VTuple (rev acc)) | x :: l => match eval w F x with Some v => all l (v :: acc) | None => None end end) l []
  end.

(** ** How Python reads them *)
Definition letter (c : N) : bool := ((65 <=? c) && (c <=? 90) || (97 <=? c) && (c <=? 122) || (c =? 95))%N.
Definition name_char (c : N) : bool := letter c || is_digit c.
Definition keywords : list str :=
  map lit ["False"; "None"; "True"; "and"; "as"; "assert"; "async"; "await"; "break"; "class"; "continue"; "def"; "del"; "elif"; "else"; "except";
           "finally"; "for"; "from"; "global"; "if"; "import"; "in"; "is"; "lambda"; "nonlocal"; "not"; "or"; "pass"; "raise"; "return"; "try";
           "while"; "with"; "yield"]%string.
(** The name (or the number) at the beginning of a text, and the rest *)
Fixpoint take (ok : N -> bool) (s : str) : str * str :=
  match s with
  | [] => ([], [])
  | c :: r => if ok c then let '(a, b) := take ok r in (c :: a, b) else ([], s)
  end.
Definition skip (s : str) : str := snd (take (N.eqb 32) s).
Definition hex_value (c : N) : option N :=
  if ((48 <=? c) && (c <=? 57))%N then Some (c - 48)%N else if ((97 <=? c) && (c <=? 102))%N then Some (c - 87)%N else None.
Fixpoint hex_number (s : str) (acc : N) : option N :=
  match s with [] => Some acc | c :: r => match hex_value c with Some d => hex_number r (acc * 16 + d)%N | None => None end end.
Definition cons_to (c : option N) (r : option (str * str)) : option (str * str) :=
  match c, r with Some c, Some (a, b) => Some (c :: a, b) | _, _ => None end.
(** The text constant which begins before [s] with the quotation mark [q]; the escapes which repr() makes *)
Fixpoint text (q : N) (s : str) {struct s} : option (str * str) :=
  match s with
  | [] => None
  | c :: r =>
      if (c =? q)%N then Some ([], r)
      else if (c =? 92)%N then
        match r with
        | [] => None
        | k :: r =>
            if (k =? 120)%N then match r with a :: b :: r => cons_to (hex_number [a; b] 0) (text q r) | _ => None end
            else if (k =? 117)%N then match r with a :: b :: c :: d :: r => cons_to (hex_number [a; b; c; d] 0) (text q r) | _ => None end
            else if (k =? 85)%N then match r with
                 | a :: b :: c :: d :: a' :: b' :: c' :: d' :: r => cons_to (hex_number [a; b; c; d; a'; b'; c'; d'] 0) (text q r) | _ => None end
            else if (k =? 110)%N then cons_to (Some 10%N) (text q r)
            else if (k =? 114)%N then cons_to (Some 13%N) (text q r)
            else if (k =? 116)%N then cons_to (Some 9%N) (text q r)
            else if (k =? 92)%N || (k =? 39)%N || (k =? 34)%N then cons_to (Some k) (text q r)
            else None
        end
      else if (c =? 10)%N then None
      else cons_to (Some c) (text q r)
  end.
(** Python's grammar for these expressions: a tuple, the rest of one, a sum, the rest of one, a primary, its trailers, an atom ([parse]: the same
    function for the parts).  Not checked: that a number has no leading zeros; names have ASCII letters only. *)
Inductive mode := MTuple | MMore (acc : list expr) | MSum | MPlus (e : expr) | MPrim | MTrail (e : expr) | MAtom.
Definition begins (c : N) (s : str) : option str := match s with x :: r => if (x =? c)%N then Some r else None | [] => None end.
Definition step (parse : mode -> str -> option (expr * str)) (m : mode) (s : str) : option (expr * str) :=
  match m with
  | MTuple => match parse MSum s with Some (e, r) => parse (MMore [e]) r | None => None end
  | MMore acc =>
      match begins 44 (skip s) with
      | Some r =>
          match skip r with
          | [] => Some (ETuple (rev acc), [])
          | c :: _ => if (c =? 41)%N || (c =? 93)%N then Some (ETuple (rev acc), skip r)
                      else match parse MSum r with Some (e, r) => parse (MMore (e :: acc)) r | None => None end
          end
      | None => Some (match acc with [e] => e | _ => ETuple (rev acc) end, s)
      end
  | MSum => match parse MPrim s with Some (e, r) => parse (MPlus e) r | None => None end
  | MPlus e =>
      match begins 43 (skip s) with
      | Some r => match parse MPrim r with Some (e2, r) => parse (MPlus (EAdd e e2)) r | None => None end
      | None => Some (e, s)
      end
  | MPrim =>
      match begins 45 (skip s) with
      | Some r => match parse MPrim r with Some (e, r) => Some (ENeg e, r) | None => None end
      | None => match parse MAtom (skip s) with Some (e, r) => parse (MTrail e) r | None => None end
      end
  | MTrail e =>
      match begins 46 (skip s) with
      | Some r =>
          let '(x, r) := take name_char (skip r) in
          if match x with c :: _ => letter c | [] => false end && negb (existsb (str_eqb x) keywords) then parse (MTrail (EAttr e x)) r else None
      | None =>
          match begins 91 (skip s) with
          | Some r => match parse MTuple r with
                      | Some (i, r) => match begins 93 (skip r) with Some r => parse (MTrail (EIndex e i)) r | None => None end
                      | None => None
                      end
          | None =>
              match begins 40 (skip s) with
              | Some r => match parse MTuple r with
                          | Some (i, r) => match begins 41 (skip r) with Some r => parse (MTrail (ECall e i)) r | None => None end
                          | None => None
                          end
              | None => Some (e, s)
              end
          end
      end
  | MAtom =>
      match s with
      | [] => None
      | c :: r =>
          if (c =? 40)%N then
            match begins 41 (skip r) with
            | Some r => Some (ETuple [], r)
            | None => match parse MTuple r with
                      | Some (e, r) => match begins 41 (skip r) with Some r => Some (e, r) | None => None end
                      | None => None
                      end
            end
          else if (c =? 39)%N || (c =? 34)%N then match text c r with Some (t, r) => Some (EConst (VStr t), r) | None => None end
          else if is_digit c then
            let '(d, r) := take is_digit s in match py_digits d 0 false with Some z => Some (EConst (VInt (Z.of_N z)), r) | None => None end
          else if letter c then
            let '(x, r) := take name_char s in
            if str_eqb x (lit "None") then Some (EConst VNone, r)
            else if str_eqb x (lit "True") then Some (EConst (VBool true), r)
            else if str_eqb x (lit "False") then Some (EConst (VBool false), r)
            else if existsb (str_eqb x) keywords then None else Some (EName x, r)
          else None
      end
  end.
(** [n] bounds the number of steps *)
Fixpoint parse (n : nat) (m : mode) (s : str) : option (expr * str) := match n with O => None | S n => step (parse n) m s end.
(** The text is the expression *)
Definition reads (t : str) (e : expr) : Prop := exists n, parse n MTuple t = Some (e, []).
(** eval() of the text in the frame gives the value *)
Definition evaluates (w : world) (F : frame) (t : str) (v : value) : Prop := exists e, reads t e /\ eval w F e = Some v.

(** * Entries, pydevd_resolver.py *)
(** The settings PYDEVD_CONTAINER_INITIAL_EXPANDED_ITEMS, PYDEVD_CONTAINER_BUCKET_SIZE, PYDEVD_CONTAINER_RANDOM_ACCESS_MAX_ITEMS *)
Record limits := Limits { initial : nat; bucket : nat; max_items : nat }.
(** What is added to the expression of the parent: nothing known, a suffix, or the parent is put into len() *)
Inductive part := PNone | PSuffix (s : str) | PLen.
(** What is shown: a value of the program, a text made by the debugger, the further items of a list, a range of them, a group of entries *)
Inductive shown := SVal (v : value) | SText (s : str) | SMore (v : value) (from : nat) | SRange (v : value) (from to : nat) | SGroup (l : list (str * shown * part)).
Definition entry := (str * shown * part)%type.
(** key_to_str without a format, L268-274; repr() *)
Fixpoint repr (w : world) (v : value) : str :=
  match v with
  | VInt z => zdec z
  | VStr s => str_repr (printable w) false s
  | VNone => lit "None"
  | VBool b => if b then lit "True" else lit "False"
  | VTuple l =>
      lit "(" ++ (fix each (l : list value) (first : bool) : str :=
                    match l with
                    | [] => []
                    | x :: l => (if first then [] else lit ", ") ++ repr w x ++ (if first then match l with [] => lit "," | _ => [] end else []) ++ each l false
                    end) l true ++ lit ")"
  | VFloat n => n
  | VEnum t _ => t
  | VRef a => text_of w a
  end.
(** _does_obj_repr_evaluate_to_obj, L224-239 *)
Fixpoint literal (v : value) : bool := match v with VTuple l => forallb literal l | VRef _ => false | _ => true end.
(** DefaultResolver, L71-90 and L147-211 *)
Definition default_entries (w : world) (v : value) : list entry :=
  match attributes w v with
  | [] => map (fun nv => (fst nv, SVal (snd nv), PSuffix (lit ".__dict__[" ++ fst nv ++ lit "]"))) (own w v)
  | l => map (fun nv => (fst nv, match snd nv with Some x => SVal x | None => SText (failure w v (fst nv)) end, PSuffix (lit "." ++ fst nv))) l
  end.
Definition len_entry (n : nat) : entry := (len_name, SVal (VInt (Z.of_nat n)), PLen).
(** The entries of items with their indices from [i] on *)
Definition item_entries (i : nat) (l : list value) : list entry :=
  map (fun ix => (dec (N.of_nat (fst ix)), SVal (snd ix), PSuffix (lit "[" ++ dec (N.of_nat (fst ix)) ++ lit "]"))) (combine (seq i (length l)) l).
(** TupleResolver, L471-510 *)
Definition list_entries (C : limits) (w : world) (v : value) (l : list value) : list entry :=
  default_entries w v ++ item_entries 0 (firstn (Nat.max 1 (initial C)) l)
  ++ (if (Nat.max 1 (initial C) <=? length l)%nat
      then [(lit "more", if (length l - initial C <? bucket C)%nat then SRange v (initial C) (length l) else SMore v (initial C), PNone)] else [])
  ++ [len_entry (length l)].
(** DictResolver, L279-327; the id added to the name of a key with the text of another one is left out *)
Definition dict_entries (C : limits) (w : world) (v : value) (l : list (value * value)) : list entry :=
  default_entries w v
  ++ map (fun kx => (repr w (fst kx), SVal (snd kx), if literal (fst kx) then PSuffix (lit "[" ++ repr w (fst kx) ++ lit "]") else PNone)) (firstn (Nat.max 1 (max_items C)) l)
  ++ (if (Nat.max 1 (max_items C) <=? length l)%nat then [(lit "Unable to handle:", SText (lit "Maximum number of items reached."), PNone)] else [])
  ++ [len_entry (length l)].
(** SetResolver, L544-559; the name is the id() of the member, here left open *)
Definition set_entries (C : limits) (w : world) (v : value) (l : list value) : list entry :=
  default_entries w v ++ map (fun x => (lit "id", SVal x, PNone)) (firstn (S (max_items C)) l)
  ++ (if (S (max_items C) <=? length l)%nat then [(lit "Unable to handle:", SText (lit "Maximum number of items reached."), PNone)] else [])
  ++ [len_entry (length l)].
(** MoreItems, L403-418, with the ranges not longer than a bucket; [n]: how many at most *)
Fixpoint ranges (C : limits) (v : value) (n from total : nat) : list entry :=
  match n with
  | O => []
  | S n => if (from <? total)%nat then
             let to := Nat.min (from + bucket C) total in
             (lit "[" ++ dec (N.of_nat from) ++ lit ":" ++ dec (N.of_nat to) ++ lit "]", SRange v from to, PNone) :: ranges C v n to total
           else []
  end.
(** The entries of what is shown: numbers, texts, None and the like have none *)
Definition entries (C : limits) (w : world) (x : shown) : list entry :=
  match x with
  | SVal (VTuple l) => list_entries C w (VTuple l) l
  | SVal (VRef a) =>
      match inside (heap w a) with
      | Items l => list_entries C w (VRef a) l
      | Pairs l => dict_entries C w (VRef a) l
      | Members l => set_entries C w (VRef a) l
      | NoContents => default_entries w (VRef a)
      end
  | SVal _ | SText _ => []
  | SMore v from => match size w v with Some n => ranges C v n from n | None => [] end
  | SRange v from to => match contents_of w v with Items l => item_entries from (firstn (to - from) (skipn from l)) | _ => [] end
  | SGroup l => l
  end.

(** * Variables, pydevd_suspended_frames.py *)
Record variable := Var { name : str; what : shown; ename : option str }.
(** The kind of an entry for grouping: inspect of what is shown *)
Definition kind_shown (w : world) (x : shown) : vkind := match x with SVal v => kind_of w v | _ => Plain end.
Definition scope_name (s : scope) : str :=
  match s with Special => lit "special variables" | Protected => lit "protected variables" | Function => lit "function variables" | Class => lit "class variables" end.
Definition entry_scope (w : world) (ret : bool) (e : entry) : option scope := get_var_scope (fst (fst e)) (kind_shown w (snd (fst e))) ret.
(** _group_entries, L112-151: the entries which stay, and those of each group *)
Definition stays (w : world) (pres : scope -> presentation) (ret : bool) (e : entry) : bool :=
  match entry_scope w ret e with None => true | Some s => match pres s with Inline => true | _ => false end end.
Definition grouped (w : world) (pres : scope -> presentation) (ret : bool) (s : scope) (e : entry) : bool :=
  match entry_scope w ret e with Some s' => scope_eqb s s' && match pres s with Group => true | _ => false end | None => false end.
Definition groups (w : world) (pres : scope -> presentation) (ret : bool) (l : list entry) : list entry :=
  flat_map (fun s => match filter (grouped w pres ret s) l with [] => [] | g => [(scope_name s, SGroup g, PNone)] end) scopes_sorted.
Definition group_entries (w : world) (pres : scope -> presentation) (ret : bool) (x : shown) (l : list entry) : list entry :=
  match x with SGroup _ => l | _ => groups w pres ret l ++ filter (stays w pres ret) l end.
(** The expression of a child, L185-198 *)
Definition child_name (parent : option str) (p : part) : option str :=
  match parent with
  | None | Some [] => None
  | Some t => match p with PNone => None | PSuffix s => Some (t ++ s) | PLen => Some (lit "len(" ++ t ++ lit ")") end
  end.
(** _ObjectVariable.get_children_variables, L166-201 *)
Definition children (C : limits) (w : world) (pres : scope -> presentation) (x : variable) : list variable :=
  map (fun e => Var (fst (fst e)) (snd (fst e)) (child_name (ename x) (snd e))) (group_entries w pres false (what x) (entries C w (what x))).
(** _FrameVariable.get_children_variables, L264-312, for the dictionary of the scope asked for *)
Definition frame_variables (w : world) (pres : scope -> presentation) (dct : list (str * value)) : list variable :=
  let l := map (fun nv => (fst nv, SVal (snd nv), PNone)) (filter (fun nv => negb (str_eqb (fst nv) (lit "_pydev_stop_at_break"))) dct) in
  map (fun e => Var (fst (fst e)) (snd (fst e)) (Some (fst (fst e)))) (groups w pres true l)
  ++ flat_map (fun e : entry =>
       if str_eqb (fst (fst e)) return_values then
         match snd (fst e) with
         | SVal v => match contents_of w v with
                     | Pairs d => flat_map (fun kx => match fst kx with
                         | VStr k => [Var k (SVal (snd kx)) (Some (return_values ++ lit "[" ++ repr w (VStr k) ++ lit "]"))]
                         | _ => []
                         end) d
                     | _ => []
                     end
         | _ => []
         end
       else [Var (fst (fst e)) (snd (fst e)) (Some (fst (fst e)))]) (filter (stays w pres true) l).
(** obtain_as_variable, L354-366, for the result of an expression: the expression is its own evaluateName *)
Definition expression_variable (t : str) (v : value) : variable := Var t (SVal v) (Some t).

(** * Changing an item or an attribute: _ObjectVariable.change_variable, L203-240 *)
(** An assignment to the expression; None: an exception.  Assigning to a name changes the variable of the frame, which is not in the world; a tuple of
    targets takes the elements of a tuple, one by one. *)
Definition put_item (l : list value) (z : Z) (x : value) : option (list value) :=
  match item l z with
  | None => None
  | Some _ => let i := if (z <? 0)%Z then Z.to_nat (Z.of_nat (length l) + z) else Z.to_nat z in Some (firstn i l ++ x :: skipn (S i) l)
  end.
Fixpoint put_pair (l : list (value * value)) (k x : value) : list (value * value) :=
  match l with [] => [(k, x)] | (k', y) :: r => if py_eqb k' k then (k', x) :: r else (k', y) :: put_pair r k x end.
Definition with_object (w : world) (a : N) (o : obj) : world :=
  World (fun b => if (b =? a)%N then o else heap w b) (attrs_of w) (kind_of w) (text_of w) (failure w) (printable w).
Fixpoint assign (w : world) (F : frame) (target : expr) (x : value) {struct target} : option world :=
  match target with
  | EIndex e i =>
      match eval w F e, eval w F i with
      | Some (VRef a), Some k =>
          let o := heap w a in
          match inside o with
          | Items l => match number k with
                       | Some z => option_map (fun l => with_object w a (Obj (Items l) (attrs o) (dict_at o))) (put_item l z x)
                       | None => None
                       end
          | Pairs l => Some (with_object w a (Obj (Pairs (put_pair l k x)) (attrs o) (dict_at o)))
          | _ => None
          end
      | _, _ => None
      end
  | EAttr e n =>
      match eval w F e with
      | Some (VRef a) => let o := heap w a in Some (with_object w a (Obj (inside o) (set str_eqb n (Some x) (attrs o)) (dict_at o)))
      | _ => None
      end
  | EName _ => Some w
  | ETuple l =>
      match x with
      | VTuple m =>
          (fix each (w : world) (l : list expr) (m : list value) : option world :=
             match l, m with
             | [], [] => Some w
             | e :: l, x :: m => match assign w F e x with Some w => each w l m | None => None end
             | _, _ => None
             end) w l m
      | _ => None
      end
  | _ => None
  end.
(** The child is changed to the value [x] of the text given: the text evaluateName = value is run *)
Definition changes (w : world) (F : frame) (child : variable) (x : value) (w' : world) : Prop :=
  exists t e, ename child = Some t /\ reads t e /\ assign w F e x = Some w'.

(** * The references of the variables: _FramesTracker, L350-352 and L354-370 *)
(** For each object the variable registered last, with the frame it belongs to *)
Definition registry := list (N * (N * variable)).
Definition register (r : registry) (f : N) (x : variable) : registry :=
  match what x with SVal (VRef a) => set N.eqb a (f, x) r | _ => r end.
