(** Model of the tables by which the client shows arrays and data frames (property C82).
    Sources: /repo/_pydevd_bundle/pydevd_vars.py L647-648 (the limits), L651-666 (table_like_struct_to_xml), L669-711
    (array_to_xml), L714-780 (array_to_meta_xml), L783-861 (dataframe_to_xml).
    An array of numpy is a number or a list of arrays, all of the same shape; the contents of numbers are of no interest.
    Offsets are not negative.  Not modelled: the text of the XML (property C57), the minimum and maximum of an array, the formats
    but for one thing: whether a value is written with %s. *)
From Coq Require Import List ZArith Arith Bool.
Import ListNotations.

Inductive nd := Sc (v : N) | Nd (l : list nd).

Definition max_array : Z := 100.
Definition max_slice : nat := Nat.mul 10 100.

(** len(array); None: TypeError *)
Definition len (a : nd) : option nat := match a with Sc _ => None | Nd l => Some (length l) end.

(** array.size *)
Fixpoint size (a : nd) : nat :=
  match a with
  | Sc _ => 1
  | Nd l => list_sum (map size l)
  end.

(** array[i]; None: IndexError *)
Definition index (a : nd) (i : nat) : option nd := match a with Sc _ => None | Nd l => nth_error l i end.

Definition is_nd (a : nd) : bool := match a with Sc _ => false | Nd _ => true end.

(** array[n:], array[n:, m:], array[0:n, 0:m] *)
Definition drop_ (n : nat) (a : nd) : nd := match a with Sc _ => a | Nd l => Nd (skipn n l) end.
Definition drop2 (n m : nat) (a : nd) : nd := match a with Sc _ => a | Nd l => Nd (map (drop_ m) (skipn n l)) end.
Definition take_ (n : nat) (a : nd) : nd := match a with Sc _ => a | Nd l => Nd (firstn n l) end.
Definition take2 (n m : nat) (a : nd) : nd := match a with Sc _ => a | Nd l => Nd (map (take_ m) (firstn n l)) end.

(** format % value: a number; an array of one number is converted by the formats of numbers; a larger array only by %s *)
Fixpoint the_one (a : nd) : option N :=
  match a with
  | Sc v => Some v
  | Nd [x] => the_one x
  | Nd _ => None
  end.

Definition written (text : bool) (v : nd) : option nd :=
  match v with
  | Sc _ => Some v
  | Nd _ => if text then Some v else option_map Sc (the_one v)
  end.

Fixpoint sequence {A} (l : list (option A)) : option (list A) :=
  match l with
  | [] => Some []
  | Some x :: r => option_map (cons x) (sequence r)
  | None :: _ => None
  end.

(** L694-709: the value shown at a place *)
Definition cell (a : nd) (rows cols : Z) (row col : nat) : option nd :=
  if (Z.eqb rows 1 || Z.eqb cols 1)%bool then
    if (Z.eqb rows 1 && Z.eqb cols 1)%bool then index a 0
    else
      match index a (if Z.eqb rows 1 then col else row) with
      | None => None
      | Some v => if is_nd v then index v 0 else Some v
      end
  else match index a row with None => None | Some v => index v col end.

(** L691-711 *)
Definition emit (text : bool) (a : nd) (rows cols : Z) : option (Z * Z * list (list nd)) :=
  option_map (pair (rows, cols))
    (sequence (map (fun row =>
       sequence (map (fun col => match cell a rows cols row col with None => None | Some v => written text v end)
         (seq 0 (Z.to_nat cols)))) (seq 0 (Z.to_nat rows)))).

(** L669-711 *)
Definition array_to_xml (text : bool) (a : nd) (ro co : nat) (rows0 cols0 : Z) : option (Z * Z * list (list nd)) :=
  let rows := Z.min rows0 max_array in
  let cols := Z.min cols0 max_array in
  match len a with
  | None => None
  | Some n =>
      match (if (Nat.eqb n 1 && (Z.ltb 1 rows || Z.ltb 1 cols))%bool then index a 0 else Some a) with
      | None => None
      | Some a =>
          match len a with
          | None => None
          | Some n =>
              if Nat.ltb n (size a) then
                let a := drop2 ro co a in
                match len a, index a 0 with
                | Some n, Some first =>
                    match len first with
                    | None => None
                    | Some m => emit text (if Nat.eqb n 1 then first else a) (Z.min rows (Z.of_nat n)) (Z.min cols (Z.of_nat m))
                    end
                | _, _ => None
                end
              else if Nat.eqb (size a) n then
                if (Nat.eqb ro 0 && Z.eqb rows 1)%bool then
                  let a := drop_ co a in
                  match len a with None => None | Some n => emit text a rows (Z.min cols (Z.of_nat n)) end
                else if (Nat.eqb co 0 && Z.eqb cols 1)%bool then
                  let a := drop_ ro a in
                  match len a with None => None | Some n => emit text a (Z.min rows (Z.of_nat n)) cols end
                else emit text a rows cols
              else emit text a rows cols
          end
      end
  end.

Fixpoint ndim (a : nd) : nat :=
  match a with
  | Sc _ => 0
  | Nd [] => 1
  | Nd (x :: _) => S (ndim x)
  end.

Fixpoint first_ (n : nat) (a : nd) : option nd :=
  match n with
  | O => Some a
  | S n => match index a 0 with None => None | Some b => first_ n b end
  end.

(** L714-780: the array, its number of rows and columns.  [initial]: the format is only a percent sign; [contiguous]: the flag
    C_CONTIGUOUS; [numbers]: the kind of the array is one of biufc, and then there has to be a minimum. *)
Definition array_to_meta (a : nd) (contiguous initial numbers : bool) : option (nd * Z * Z) :=
  match (if (initial && Nat.ltb 2 (ndim a))%bool then first_ (ndim a - 2) a else Some a) with
  | None => None
  | Some a =>
      match
        match ndim a, a with
        | 1, Nd l =>
            let n := Nat.min (length l) max_slice in
            if contiguous then Some (take_ n a, 1%Z, Z.of_nat n) else Some (take_ n a, Z.of_nat n, 1%Z)
        | 2, Nd l =>
            let n := Nat.min (length l) max_slice in
            match index a 0 with
            | Some (Nd f) =>
                let m := Nat.min (length f) max_slice in
                Some (take2 n m a, Z.of_nat n, Z.of_nat m)
            | _ => None
            end
        | _, _ => None
        end
      with
      | None => None
      | Some (a, r, c) => if (numbers && Nat.eqb (size a) 0)%bool then None else Some (a, r, c)
      end
  end.

(** L651-666, for an array *)
Definition table (text : bool) (a : nd) (contiguous initial numbers : bool) (ro co : nat) (rows cols : Z) :
    option (Z * Z * (Z * Z * list (list nd))) :=
  match array_to_meta a contiguous initial numbers with
  | None => None
  | Some (a, r, c) =>
      let all := (Z.eqb rows (-1) && Z.eqb cols (-1))%bool in
      option_map (pair (r, c)) (array_to_xml text a ro co (if all then r else rows) (if all then c else cols))
  end.

(** A data frame: the labels of its columns, the labels and values of its rows *)
Record frame := Frame { labels : list N; index_ : list N; body : list (list N) }.

Definition cut {A} (from count : nat) (l : list A) : list A := firstn count (skipn from l).

(** The header of a column: its label and the values its bounds are computed from; then the labels of the rows and the cells. *)
Record shown := Shown { heads : list (N * list N); rheads : list N; cells : list (list N) }.

(** L783-861; None: IndexError of df.dtypes.iloc.  Requests are positive, or -1 for both. *)
Definition frame_table (df : frame) (ro co : nat) (rows cols : Z) : option (nat * nat * shown) :=
  let num_rows := Nat.min (length (body df)) max_slice in
  let num_cols := Nat.min (length (labels df)) max_slice in
  let lab := firstn num_cols (labels df) in
  let idx := firstn num_rows (index_ df) in
  let dat := map (firstn num_cols) (firstn num_rows (body df)) in
  let all := (Z.eqb rows (-1) && Z.eqb cols (-1))%bool in
  let rows := if all then Z.of_nat num_rows else rows in
  let cols := if all then Z.of_nat num_cols else cols in
  let r := Z.to_nat (Z.min rows max_array) in
  let c := Nat.min (Z.to_nat (Z.min cols max_array)) num_cols in
  if (negb (Nat.eqb c 0) && Nat.leb num_cols (co + c - 1))%bool then None
  else
    let bounds := map (fun col => map (fun row => nth (co + col) row 0%N) dat) (seq 0 c) in
    Some (num_rows, num_cols,
          Shown (combine (cut co c lab) bounds) (cut ro r idx) (map (cut co c) (cut ro r dat))).
