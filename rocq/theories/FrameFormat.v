(** Model of openscm/scmdataframe/base.py: construction from tables, [_format_data] (109-158),
    [_format_long_data] (161-177), [_format_wide_data] (180-213) and the end of [__init__] (390-395);
    and [set_meta] (871-938) with an index.

    A [pd.DataFrame] is modelled as named index levels and columns; all have the same number of values.
    Which texts are understood as times ([float], [strptime], dateutil) and as which times
    (core/time.py 114-118) are oracles. *)
From Coq Require Import String Ascii List ZArith QArith Qcanon Reals Bool Qreals.
From Verif Require Import Base Calendar Core Filters Frame FrameAppend FrameWide.
Import ListNotations.
Local Open Scope string_scope.
Local Open Scope list_scope.

(** Labels of columns (109-213) *)
Inductive label := LText (s : string) | LYear (y : Z) | LTime (t : Z).
(** Cells: metadata, values, years (int) and datetimes. (109-213) *)
Inductive tcell := TMeta (v : mval) | TVal (x : num) | TYear (y : Z) | TTime (t : Z).
(** The table given (109-158) *)
Record table := mkTable {
  tb_rows : nat;
  tb_index : list (string * list mval);
  tb_columns : list (label * list tcell) }.

(** Equality of labels (145-153) *)
Definition label_eqb (a b : label) : bool :=
  match a, b with
  | LText x, LText y => String.eqb x y
  | LYear x, LYear y | LTime x, LTime y => Z.eqb x y
  | _, _ => false
  end.
(** Repeated labels, which the model leaves out (161-213) *)
Fixpoint label_dup (l : list label) : bool := match l with [] => false | x :: l' => existsb (label_eqb x) l' || label_dup l' end.
(** [s in df.columns] (145-153) *)
Definition has_text (s : string) (cols : list (label * list tcell)) : bool := existsb (fun c => label_eqb (LText s) (fst c)) cols.
(** Lower case for texts (138-139) *)
Definition text_lower (l : label) : label := match l with LText s => LText (lower s) | _ => l end.

(** Missing values in an index come back as NaN. (142-143) *)
Definition index_value (v : mval) : mval := match v with MNone => MNaN | _ => v end.

(** A column of metadata; a column of floats ([astype(float)], 392; texts are not modelled). *)
Definition meta_cell (c : tcell) : res mval := match c with TMeta v => Ok v | _ => Err EInvalid end.
(** A float (392) *)
Definition float_cell (c : tcell) : res num :=
  match c with
  | TVal x => Ok x
  | TMeta (MNum q) => Ok (Some (Q2R q))
  | TMeta (MNaN | MNone) => Ok None
  | _ => Err EInvalid
  end.

(** Sorting by labels of one kind. (156) *)
Fixpoint insert_by {A} (leb : A -> A -> bool) (x : A) (l : list A) : list A :=
  match l with [] => [x] | y :: l' => if leb x y then x :: l else y :: insert_by leb x l' end.
(** All of them (156) *)
Fixpoint sort_by {A} (leb : A -> A -> bool) (l : list A) : list A :=
  match l with [] => [] | x :: l' => insert_by leb x (sort_by leb l') end.
(** The order of labels (156) *)
Definition label_leb (a b : label) : bool :=
  match a, b with
  | LText x, LText y => String.leb x y
  | LYear x, LYear y | LTime x, LTime y => Z.leb x y
  | _, _ => false
  end.

(** Which columns are times (180-213) *)
Definition time_label (is_time : string -> bool) (l : label) : bool := match l with LText s => is_time s | _ => true end.
(** [TimePoints(_df.index.values)] (390): times, years or texts.  [sort_index] (156) cannot compare
    labels of different kinds. *)
Definition label_times (read_times : list string -> res (list Z)) (ls : list label) : res (list Z) :=
  match ls with
  | [] => Ok []
  | LTime _ :: _ => rmap (fun l => match l with LTime t => Ok t | _ => Err ETypeError end) ls
  | LYear _ :: _ => rmap (fun l => match l with LYear y => Ok (np_year_seconds y) | _ => Err ETypeError end) ls
  | LText _ :: _ => rbind (rmap (fun l => match l with LText s => Ok s | _ => Err ETypeError end) ls) read_times
  end.

(** The columns of metadata (161-213) *)
Definition meta_columns (cols : list (label * list tcell)) : res (list (string * list mval)) :=
  rmap (fun c => match fst c with
                 | LText s => rbind (rmap meta_cell (snd c)) (fun vs => Ok (s, vs))
                 | _ => Err EInvalid
                 end) cols.

(** [_format_wide_data]: the columns that are not required and not understood as times are metadata;
    each row is a timeseries. (180-213) *)
Definition format_wide (is_time : string -> bool) (read_times : list string -> res (list Z)) (n : nat) (cols : list (label * list tcell)) : res frame :=
  if label_dup (map fst cols) then Err EInvalid else
  let required (c : label * list tcell) := match fst c with LText s => mem s required_cols | _ => false end in
  let time_cols := filter (fun c => negb (required c) && time_label is_time (fst c)) cols in
  let meta_cols := filter (fun c => required c || negb (time_label is_time (fst c))) cols in
  match time_cols with
  | [] => Err EValueError
  | _ =>
    let sorted := sort_by (fun a b => label_leb (fst a) (fst b)) time_cols in
    rbind (label_times read_times (map fst sorted)) (fun times =>
    rbind (rmap (fun c => rmap float_cell (snd c)) sorted) (fun values =>
    rbind (meta_columns meta_cols) (fun meta =>
    Ok (sort_meta_cols (mkFrame times
      (map (fun i => (Z.of_nat i, map (fun vs => nth i vs None) values)) (seq 0 n))
      (map fst meta)
      (map (fun i => (Z.of_nat i, map (fun c => nth i (snd c) MNaN) meta)) (seq 0 n)))))))
  end.

(** [_format_long_data]: [pivot_table] leaves out rows with missing metadata, takes the mean of rows
    with the same metadata and time, and leaves out times and timeseries without any value. (161-177) *)
Definition long_time (by_year : bool) (c : tcell) : res Z :=
  match c, by_year with
  | TYear y, true => Ok (np_year_seconds y)
  | TTime t, false => Ok t
  | _, _ => Err EInvalid
  end.
(** A row: metadata, time and value (161-177) *)
Definition long_row := (list mval * Z * num)%type.
(** The rows for one timeseries and time ([pivot_table], 161-177) *)
Definition at_point (k : list mval) (t : Z) (r : long_row) : bool := row_same k (fst (fst r)) && Z.eqb t (snd (fst r)).
(** [pivot_table] (161-177) *)
Definition pivot (names : list string) (rows : list long_row) : frame :=
  let rows := filter (fun r => negb (existsb is_missing (fst (fst r)))) rows in
  let rows := filter (fun r => is_some (snd r)) rows in
  let times := sort_times (nodup Z.eq_dec (map (fun r => snd (fst r)) rows)) in
  let keys := distinct_keys (map (fun r => fst (fst r)) rows) in
  let labels := map Z.of_nat (seq 0 (length keys)) in
  mkFrame times
    (combine labels (map (fun k => map (fun t => mean_num (map snd (filter (at_point k t) rows))) times) keys))
    names (combine labels keys).
(** [_format_long_data] (161-177) *)
Definition format_long (n : nat) (cols : list (label * list tcell)) : res frame :=
  if label_dup (map fst cols) then Err EInvalid else
  let year := has_text "year" cols in
  let time := has_text "time" cols in
  if Bool.eqb year time then Err EValueError else
  let time_col := if year then "year" else "time" in
  let is_key (c : label * list tcell) := negb (label_eqb (fst c) (LText time_col)) && negb (label_eqb (fst c) (LText "value")) in
  let get s := concat (map snd (filter (fun c => label_eqb (fst c) (LText s)) cols)) in
  rbind (rmap (long_time year) (get time_col)) (fun times =>
  rbind (rmap float_cell (get "value")) (fun values =>
  rbind (meta_columns (filter is_key cols)) (fun meta =>
  let rows := map (fun i => (map (fun c => nth i (snd c) MNaN) meta, nth i times 0%Z, nth i values None)) (seq 0 n) in
  let f := pivot (map fst meta) rows in
  match fr_meta f with [] => Err EInvalid | _ => Ok (sort_meta_cols f) end))).

(** [_format_data]: text columns get lower case, then named index levels become columns. (109-158) *)
Definition format_data (is_time : string -> bool) (read_times : list string -> res (list Z)) (tb : table) : res frame :=
  let cols := map (fun c => (text_lower (fst c), snd c)) (tb_columns tb) in
  if existsb (fun i => has_text (fst i) cols) (tb_index tb) then Err EValueError else
  let cols := map (fun i => (LText (fst i), map (fun v => TMeta (index_value v)) (snd i))) (tb_index tb) ++ cols in
  if forallb (fun c => has_text c cols) required_cols then
    if has_text "value" cols then format_long (tb_rows tb) cols else format_wide is_time read_times (tb_rows tb) cols
  else Err EValueError.

(** [timeseries] (543-574) as a table *)
Definition wide_table (f : frame) (ts : list (list mval * list num)) : table :=
  mkTable (length ts)
    (map (fun c => (c, map (fun r => cell (fr_cols f) (fst r) c) ts)) (fr_cols f))
    (map (fun i => (LTime (nth i (fr_times f) 0%Z), map (fun r => TVal (nth i (snd r) None)) ts)) (seq 0 (length (fr_times f)))).

(** ** [set_meta] with an index (917-938)

    [names] are the names of the index levels, [values] the keys (texts, distinct, all found in the frame)
    with the value for each.  [pd.merge] with [how="outer"] sorts by the keys, unless both sides have the
    same keys in the same order.  Anything else is not modelled. *)
Definition texts (vs : list mval) : option (list string) :=
  fold_right (fun v acc => match v, acc with MStr s, Some l => Some (s :: l) | _, _ => None end) (Some []) vs.
(** The order of keys (917-938) *)
Fixpoint texts_leb (a b : list string) : bool :=
  match a, b with
  | [], _ => true
  | _ :: _, [] => false
  | x :: a', y :: b' => if String.eqb x y then texts_leb a' b' else String.leb x y
  end.
(** The value for a key (917-938) *)
Fixpoint key_lookup (k : list string) (values : list (list string * mval)) : mval :=
  match values with [] => MNaN | (k', v) :: values' => if list_eq_dec string_dec k k' then v else key_lookup k values' end.
(** [set_meta] with an index (871-938) *)
Definition set_meta_index (name : string) (names : list string) (values : list (list string * mval)) (f : frame) : res frame :=
  if String.eqb name "" then Err EValueError
  else if negb (forallb (fun c => mem c (fr_cols f)) names) then Err EKeyError
  else if mem name (fr_cols f) then Err EInvalid
  else
    match fold_right (fun r acc => match texts (map (cell (fr_cols f) (snd r)) names), acc with Some k, Some l => Some ((k, r) :: l) | _, _ => None end) (Some []) (fr_meta f) with
    | None => Err EInvalid
    | Some rows =>
      if negb (Nat.eqb (length (nodup (list_eq_dec string_dec) (map fst values))) (length values)) then Err EInvalid
      else if negb (forallb (fun p => existsb (fun r => if list_eq_dec string_dec (fst p) (fst r) then true else false) rows) values) then Err EInvalid
      else
        let rows := if list_eq_dec (list_eq_dec string_dec) (map fst rows) (map fst values) then rows
                    else sort_by (fun a b => texts_leb (fst a) (fst b)) rows in
        Ok (sort_meta_cols (mkFrame (fr_times f) (fr_data f) (fr_cols f ++ [name])
              (map (fun r => (fst (snd r), snd (snd r) ++ [key_lookup (fst r) values])) rows)))
    end.
