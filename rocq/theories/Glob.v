(** Model of path patterns and exclude rules (properties C09 and C41).
    Sources: /repo/_pydevd_bundle/pydevd_filtering.py L28-84, L315-339;
    /repo/_pydevd_bundle/pydevd_process_net_command_json.py L64-119. *)
From Coq Require Import List NArith ZArith Bool String.
From Verif Require Import Base.
Import ListNotations.

(** Platform: normcase, lower-casing of a character, os.sep, os.altsep; [bracket path pattern]: fnmatch for
    patterns with '[', which is left abstract. *)
Record plat := Plat {
  nc : str -> str;
  lower : N -> N;
  sep : N;
  altsep : option N;
  bracket : str -> str -> bool
}.

Definition star_c : N := 42.    (* * *)
Definition quest_c : N := 63.   (* ? *)
Definition brack_c : N := 91.   (* [ *)

Definition has (c : N) (s : str) : bool := existsb (N.eqb c) s.

(** glob.has_magic *)
Definition has_magic (p : str) : bool := has star_c p || has quest_c p || has brack_c p.

(** fnmatch.fnmatch without bracket expressions: * is any run of characters, ? one character. *)
Fixpoint wild (p s : str) : bool :=
  match p with
  | [] => match s with [] => true | _ => false end
  | c :: p' =>
      if N.eqb c star_c then
        (fix any (s : str) : bool := wild p' s || match s with [] => false | _ :: s' => any s' end) s
      else match s with
           | [] => false
           | x :: s' => (N.eqb c quest_c || N.eqb c x) && wild p' s'
           end
  end.

Definition fnmatch (P : plat) (path pattern : str) : bool :=
  if has brack_c pattern then bracket P path pattern else wild pattern path.

Definition dstar : str := [star_c; star_c].

Fixpoint tails {A} (l : list A) : list (list A) :=   (* non-empty tails, longest first *)
  match l with [] => [] | _ :: r => l :: tails r end.

(** _check_matches, L28-57 *)
Fixpoint check_matches (P : plat) (patterns paths : list str) : bool :=
  match patterns, paths with
  | [], [] => true
  | [], _ :: _ => false
  | _ :: _, [] => false
  | p0 :: ps, x0 :: xs =>
      let pattern := nc P p0 in
      let path := nc P x0 in
      if negb (has_magic pattern) then
        if negb (str_eqb pattern path) then false else check_matches P ps xs
      else if str_eqb pattern dstar then
        match ps with
        | [] => true
        | _ => existsb (check_matches P ps) (tails paths) || check_matches P ps xs
        end
      else if negb (fnmatch P path pattern) then false
      else check_matches P ps xs
  end.

(** s.split(sep) *)
Fixpoint split_on (c : N) (s : str) : list str :=
  match s with
  | [] => [[]]
  | x :: r => if N.eqb x c then [] :: split_on c r
              else match split_on c r with h :: t => (x :: h) :: t | [] => [[x]] end
  end.

Definition replace_char (a b : N) (s : str) : str := map (fun x => if N.eqb x a then b else x) s.

Definition drop_empty_head (l : list str) : list str :=
  match l with [] :: r => r | _ => l end.

(** glob_matches_path, L60-84 *)
Definition glob_matches_path (P : plat) (path pattern : str) : bool :=
  let '(pattern, path) := match altsep P with
                          | Some a => (replace_char a (sep P) pattern, replace_char a (sep P) path)
                          | None => (pattern, path)
                          end in
  let '(drive, path) := match path with
                        | d :: c :: r => if N.eqb c 58 then (Some d, r) else (None, path)
                        | _ => (None, path)
                        end in
  let go pattern := check_matches P (drop_empty_head (split_on (sep P) pattern)) (drop_empty_head (split_on (sep P) path)) in
  match drive, pattern with
  | Some d, pd :: c :: r =>
      if N.eqb c 58 then
        if negb (N.eqb (lower P d) (lower P pd)) then false else go r
      else go pattern
  | _, _ => go pattern
  end.

(** ExcludeFilter and FilesFiltering.exclude_by_filter, L315-328.  [module]: module name of the frame (the
    empty text when unknown). *)
Record rule := Rule { r_name : str; r_exclude : bool; r_is_path : bool }.

Definition rule_matches (P : plat) (file module : str) (r : rule) : bool :=
  if r_is_path r then glob_matches_path P file (r_name r)
  else str_eqb (r_name r) module || starts_with (r_name r ++ lit ".") module.

Fixpoint exclude_by_filter (P : plat) (rules : list rule) (file module : str) : option bool :=
  match rules with
  | [] => None
  | r :: rest => if rule_matches P file module r then Some (r_exclude r) else exclude_by_filter P rest file module
  end.

(** _convert_rules_to_exclude_filters, pydevd_process_net_command_json.py L64-119, on well-formed rules.
    [isdir]: os.path.isdir.  sorted is stable; the key is minus the length. *)
Inductive user_rule := PathRule (p : str) (include : bool) | ModuleRule (m : str) (include : bool).

Fixpoint insert_by_len (r : rule) (l : list rule) : list rule :=
  match l with
  | [] => [r]
  | x :: t => if Nat.ltb (List.length (r_name x)) (List.length (r_name r)) then r :: l else x :: insert_by_len r t
  end.
Definition sort_by_len (l : list rule) : list rule := fold_left (fun acc r => insert_by_len r acc) l [].

Definition is_glob (p : str) : bool := has star_c p || has quest_c p.

Definition dir_pattern (isdir : str -> bool) (p : str) : str :=
  if isdir p then
    (if negb (ends_with (lit "/") p) && negb (ends_with [92%N] p) then p ++ lit "/" else p) ++ dstar
  else p.

Definition convert_rules (isdir : str -> bool) (rules : list user_rule) : list rule :=
  let dirs := flat_map (fun r => match r with
                                 | PathRule p inc => if is_glob p then [] else [Rule (dir_pattern isdir p) (negb inc) true]
                                 | _ => [] end) rules in
  let globs := flat_map (fun r => match r with
                                  | PathRule p inc => if is_glob p then [Rule p (negb inc) true] else []
                                  | _ => [] end) rules in
  let mods := flat_map (fun r => match r with ModuleRule m inc => [Rule m (negb inc) false] | _ => [] end) rules in
  sort_by_len dirs ++ globs ++ sort_by_len mods.
