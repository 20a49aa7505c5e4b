(** Model of openscm/scmdataframe/base.py: the data frame, filters, renaming and unit
    conversion.

    pandas objects are modelled by what is observed of them:
    - [_data] has one column for every timeseries, labelled by an integer; values are floats,
      [None] is NaN;
    - [_meta] has one row for every timeseries, labelled likewise, with values [mval];
    - times are seconds since 1970 ([datetime64[s]]).
    Data types of metadata columns, and column labels that are not integers, are not modelled.
    The methods return a copy of the frame unless [inplace] is set; in the model they are
    functions of the frame, and where an exception can leave a changed frame behind ([inplace])
    they return that frame together with the exception. *)
From Coq Require Import String Ascii List ZArith QArith Qcanon Reals Bool.
From Verif Require Import Base Units TimeModel Core Filters Civil.
Import ListNotations.
Local Open Scope string_scope.
Local Open Scope list_scope.

(** [ScmDataFrameBase._data], [_meta], [_time_points] (280-286).  [fr_times] stands for both
    [_time_points] and [_data.index], which are always set together. *)
Record frame := mkFrame {
  fr_times : list Z;
  fr_data : list (Z * list num);
  fr_cols : list string;
  fr_meta : list (Z * list mval) }.

(** [REQUIRED_COLS] (42) *)
Definition required_cols : list string := ["model"; "scenario"; "region"; "variable"; "unit"].

(** [c in cols] (730, 858) *)
Definition mem (c : string) (cols : list string) : bool := existsb (String.eqb c) cols.

(** The value of a metadata row in a column. (585-590) *)
Fixpoint cell (cols : list string) (row : list mval) (c : string) : mval :=
  match cols, row with
  | c' :: cols', v :: row' => if String.eqb c c' then v else cell cols' row' c
  | _, _ => MNaN
  end.
(** [self.meta[col]] (719-766) *)
Definition column (f : frame) (c : string) : list mval := map (fun r => cell (fr_cols f) (snd r) c) (fr_meta f).

(** [sorted] of strings (408-412) *)
Fixpoint insert_string (s : string) (l : list string) : list string :=
  match l with
  | [] => [s]
  | x :: l' => if String.leb s x then s :: l else x :: insert_string s l'
  end.
(** All of them (408-412) *)
Fixpoint sort_strings (l : list string) : list string :=
  match l with [] => [] | s :: l' => insert_string s (sort_strings l') end.

(** [_sort_meta_cols] (408-412) *)
Definition sorted_cols (cols : list string) : list string :=
  required_cols ++ sort_strings (filter (fun c => negb (mem c required_cols)) cols).
(** [_sort_meta_cols] (408-412) *)
Definition sort_meta_cols (f : frame) : frame :=
  let cols := sorted_cols (fr_cols f) in
  mkFrame (fr_times f) (fr_data f) cols (map (fun r => (fst r, map (cell (fr_cols f) (snd r)) cols)) (fr_meta f)).

(** [pd.DataFrame.duplicated] does not distinguish NaN and [None]. (567, 863) *)
Definition mval_same (a b : mval) : bool :=
  match a, b with
  | MStr x, MStr y => String.eqb x y
  | MNum x, MNum y => if Qc_eq_dec x y then true else false
  | (MNaN | MNone), (MNaN | MNone) => true
  | _, _ => false
  end.
(** The same for rows (567, 863) *)
Fixpoint row_same (a b : list mval) : bool :=
  match a, b with
  | [], [] => true
  | x :: a', y :: b' => mval_same x y && row_same a' b'
  | _, _ => false
  end.
(** Whether a row occurs twice (567, 863) *)
Fixpoint has_dup (rows : list (list mval)) : bool :=
  match rows with [] => false | r :: rows' => existsb (row_same r) rows' || has_dup rows' end.
(** [self._meta.duplicated().any()] (567, 863) *)
Definition meta_dup (f : frame) : bool := has_dup (map snd (fr_meta f)).

(** ** Construction from timeseries: [_from_ts] (216-267) and [__init__] (365-395)

    [data]: one list of values for each timeseries, which all have the length of [index];
    [columns]: for each metadata name one value for all timeseries ([One]) or a list. *)
Inductive pyval := PStr (s : string) | PNum (q : Qc) | PInt (z : Z) | PDate (t : Z) | PNaN | PNone.
(** One value or several (249-265) *)
Inductive parg := One (v : pyval) | Many (vs : list pyval).

(** Metadata have no datetimes; as a filter a datetime equals none of them, like NaN. (249-265) *)
Definition mval_of (v : pyval) : mval :=
  match v with
  | PStr s => MStr s
  | PNum q => MNum q
  | PInt z => MNum (Q2Qc (inject_Z z))
  | PNone => MNone
  | PDate _ | PNaN => MNaN
  end.
(** The values of an argument (249-265) *)
Definition values_of (a : parg) : list mval := match a with One v => [mval_of v] | Many vs => map mval_of vs end.

(** [_from_ts] (216-267) and the end of [__init__] (390-395) *)
Definition from_ts (times : list Z) (data : list (list num)) (columns : list (string * parg)) : res frame :=
  if forallb (fun c => mem c (map fst columns)) required_cols then
    let n := length data in
    rbind (rmap (fun c =>
      let l := values_of (snd c) in
      if Nat.eqb (length l) n then Ok l
      else match l with [v] => Ok (repeat v n) | _ => Err EValueError end) columns) (fun cols =>
    let labels := map Z.of_nat (seq 0 n) in
    Ok (sort_meta_cols (mkFrame times (combine labels data) (map fst columns)
      (map (fun i => (Z.of_nat i, map (fun l => nth i l MNaN) cols)) (seq 0 n)))))
  else Err EValueError.

(** ** Filters *)

(** What the time filters are given (738-751) *)
Definition tval_of (v : pyval) : tval :=
  match v with
  | PStr s => TStr s
  | PInt z => TInt z
  | PDate t => TDate t
  | PNum q => TNum q
  | PNaN | PNone => TNone
  end.
(** The same for an argument (738-751) *)
Definition targ_of (a : parg) : targ := match a with One v => TOne (tval_of v) | Many vs => TList (map tval_of vs) end.
(** Levels other than integers and strings are not modelled. (721, 753-758) *)
Definition level_of (a : parg) : res level :=
  match a with One (PInt z) => Ok (LInt z) | One (PStr s) => Ok (LStr s) | _ => Err EInvalid end.

(** A boolean array; [np.array([True] * 0)] has no boolean type ([None]), and [&] is then a
    TypeError. (715-716) *)
Definition mask := option (list bool).
(** [np.array([True] * n)] (715-716) *)
Definition all_true {A} (l : list A) : mask := match l with [] => None | _ => Some (map (fun _ => true) l) end.
(** [keep &= b] (722-762) *)
Definition and_mask (m : mask) (b : list bool) : res mask :=
  match m with Some m => Ok (Some (andb_list m b)) | None => Err ETypeError end.

(** [data_hierarchy_separator] (289) *)
Definition separator : ascii := "|".

(** [_day_match] (770-783) *)
Definition fr_day_match (f : frame) (values : parg) : res (list bool) :=
  rbind (match values with
         | One (PStr _) => Ok true
         | Many (PStr _ :: _) => Ok true
         | Many [] => Err EIndexError
         | _ => Ok false
         end) (fun wday =>
  rbind (if wday then weekdays (fr_times f) else days (fr_times f)) (fun ds =>
  snd (day_match (map TInt ds) (targ_of values)))).

(** One pass of the loop 719-766. *)
Definition apply_filter (regexp has_nan : bool) (filters : list (string * parg)) (f : frame)
    (keep : mask * mask) (c : string * parg) : res (mask * mask) :=
  let (keep_ts, keep_meta) := keep in
  let (col, values) := c in
  let on_meta col values l :=
    rbind (pattern_match (column f col) values l regexp has_nan separator) (fun m =>
    rbind (and_mask keep_meta m) (fun keep_meta => Ok (keep_ts, keep_meta))) in
  let on_times r := rbind r (fun m => rbind (and_mask keep_ts m) (fun keep_ts => Ok (keep_ts, keep_meta))) in
  let timed ds match_ := on_times (rbind ds (fun ds => match_ (map TInt ds) (targ_of values))) in
  if String.eqb col "variable" then
    match alookup "level" filters with
    | None => on_meta col (values_of values) None
    | Some l => rbind (level_of l) (fun l => on_meta col (values_of values) (Some l))
    end
  else if mem col (fr_cols f) then on_meta col (values_of values) None
  else if String.eqb col "year" then timed (years (fr_times f)) years_match
  else if String.eqb col "month" then timed (months (fr_times f)) (fun ds v => snd (month_match ds v))
  else if String.eqb col "day" then on_times (fr_day_match f values)
  else if String.eqb col "hour" then timed (hours (fr_times f)) hour_match
  else if String.eqb col "time" then
    on_times (datetime_match (map TDate (fr_times f)) (targ_of values))
  else if String.eqb col "level" then
    if mem "variable" (map fst filters) then Ok (keep_ts, keep_meta)
    else rbind (level_of values) (fun l => on_meta "variable" [MStr "*"] (Some l))
  else Err EValueError.

(** [_apply_filters] (683-768) *)
Fixpoint apply_filters_loop (regexp has_nan : bool) (filters : list (string * parg)) (f : frame)
    (keep : mask * mask) (l : list (string * parg)) : res (mask * mask) :=
  match l with
  | [] => Ok keep
  | c :: l' => rbind (apply_filter regexp has_nan filters f keep c) (fun keep =>
               apply_filters_loop regexp has_nan filters f keep l')
  end.
(** [_apply_filters] (683-768) *)
Definition apply_filters (regexp has_nan : bool) (filters : list (string * parg)) (f : frame) : res (mask * mask) :=
  apply_filters_loop regexp has_nan filters f (all_true (fr_times f), all_true (fr_meta f)) filters.

(** No NaN (659-663) *)
Definition is_some {A} (x : option A) : bool := match x with Some _ => true | None => false end.
(** [dropna(axis=1, how="all")] keeps the column (659-661) *)
Definition has_value (c : Z * list num) : bool := existsb is_some (snd c).

(** Boolean indexing (659-664) *)
Definition select {A} (m : list bool) (l : list A) : list A := map snd (filter fst (combine m l)).

(** [self._data.where(idx)] (650-658); [idx] combines the masks by position. *)
Definition where_idx (keep : bool) (kt km : list bool) (data : list (Z * list num)) : list (Z * list num) :=
  map (fun c => (fst (snd c), map (fun p => if Bool.eqb keep (fst p && fst c) then snd p else None)
                                  (combine kt (snd (snd c))))) (combine km data).

(** The rows with a value in some column. ([dropna(axis=0, how="all")], 661) *)
Definition used_times (n : nat) (data : list (Z * list num)) : list bool :=
  map (fun i => existsb (fun c => is_some (nth i (snd c) None)) data) (seq 0 n).

(** [filter] (592-680): columns and then rows without any value are dropped; metadata rows
    are selected by their label ([EKeyError]: labels that differ from those of the data). *)
Definition fr_filter (keep regexp has_nan : bool) (filters : list (string * parg)) (f : frame) : res frame :=
  rbind (apply_filters regexp has_nan filters f) (fun k =>
  match k with
  | (Some kt, Some km) =>
    let d := where_idx keep kt km (fr_data f) in
    let d1 := filter has_value d in
    let used := used_times (length (fr_times f)) d1 in
    if forallb (fun r => existsb (fun c => Z.eqb (fst r) (fst c)) d) (fr_meta f) then
      let meta := filter (fun r => existsb (fun c => Z.eqb (fst r) (fst c)) d1) (fr_meta f) in
      if Nat.eqb (length d1) (length meta) then
        Ok (mkFrame (select used (fr_times f)) (map (fun c => (fst c, select used (snd c))) d1) (fr_cols f) meta)
      else Err EInvalid
    else Err EKeyError
  | _ => Err ETypeError
  end).

(** ** [rename] (823-869)

    The mapping gives for each column the strings to replace; [Series.replace] replaces all of
    them at once.  The frame in the result is the one that is left behind if [inplace] is set. *)
Definition replace_value (m : list (string * string)) (v : mval) : mval :=
  match v with
  | MStr s => match alookup s m with Some s' => MStr s' | None => v end
  | _ => v
  end.
(** A change of one column in one row (860-862, 1047-1049, 1266-1268) *)
Definition map_cell (cols : list string) (c : string) (g : mval -> mval) (row : list mval) : list mval :=
  map (fun p => if String.eqb c (fst p) then g (snd p) else snd p) (combine cols row).
(** The same in all rows (857-864) *)
Definition map_column (c : string) (g : mval -> mval) (f : frame) : frame :=
  mkFrame (fr_times f) (fr_data f) (fr_cols f) (map (fun r => (fst r, map_cell (fr_cols f) c g (snd r))) (fr_meta f)).
(** [rename] (823-869) *)
Fixpoint rename (mapping : list (string * list (string * string))) (f : frame) : frame * res unit :=
  match mapping with
  | [] => (f, Ok tt)
  | (c, m) :: mapping' =>
    if mem c (fr_cols f) then
      let f' := map_column c (replace_value m) f in
      if meta_dup f' then (f', Err EValueError) else rename mapping' f'
    else (f, Err EValueError)
  end.

(** ** [set_meta] (871-938) without an index: [self._meta[name] = meta]

    A frame without timeseries has no rows of metadata; pandas then makes a row for each item of an
    assigned list ([DataFrame._ensure_valid_index]). *)
Definition put_meta (name : string) (vs : list mval) (f : frame) : frame :=
  let put (p : mval * (Z * list mval)) : Z * list mval :=
    let (v, r) := p in
    (fst r, if mem name (fr_cols f) then map_cell (fr_cols f) name (fun _ => v) (snd r) else snd r ++ [v]) in
  mkFrame (fr_times f) (fr_data f) (if mem name (fr_cols f) then fr_cols f else fr_cols f ++ [name])
    (map put (combine vs (fr_meta f))).
(** The rows that pandas makes (913-915) *)
Definition new_rows (f : frame) (n : nat) : frame :=
  mkFrame (fr_times f) (fr_data f) (fr_cols f) (map (fun i => (Z.of_nat i, map (fun _ => MNaN) (fr_cols f))) (seq 0 n)).
(** [set_meta] without an index (871-915) *)
Definition set_meta (name : string) (a : parg) (f : frame) : res frame :=
  if String.eqb name "" then Err EValueError else
  match a with
  | One v => Ok (put_meta name (map (fun _ => mval_of v) (fr_meta f)) f)
  | Many vs =>
    match fr_meta f with
    | [] => Ok (put_meta name (map mval_of vs) (new_rows f (length vs)))
    | _ => if Nat.eqb (length vs) (length (fr_meta f)) then Ok (put_meta name (map mval_of vs) f) else Err EValueError
    end
  end.

(** ** [convert_unit] (1216-1272)

    [mk orig_unit] is [UnitConverter(orig_unit, unit, context).convert_from].  Groups are those
    of [groupby("unit")], sorted; rows without unit are in no group, and units that are numbers
    are not modelled. *)
Definition has_label (l : Z) (ls : list Z) : bool := existsb (Z.eqb l) ls.
(** The assignments to the timeseries of a group (1263-1268) *)
Definition convert_labels (ls : list Z) (conv : num -> num) (unit : string) (ctx : option string) (f : frame) : frame :=
  let context := match ctx with Some c => MStr c | None => MNone end in
  mkFrame (fr_times f)
    (map (fun c => if has_label (fst c) ls then (fst c, map conv (snd c)) else c) (fr_data f))
    (fr_cols f)
    (map (fun r => if has_label (fst r) ls
                   then (fst r, map_cell (fr_cols f) "unit_context" (fun _ => context)
                                  (map_cell (fr_cols f) "unit" (fun _ => MStr unit) (snd r)))
                   else r) (fr_meta f)).
(** Whether a row has this unit (1262) *)
Definition has_string (u : string) (v : mval) : bool := match v with MStr s => String.eqb u s | _ => false end.
(** The labels of a group (1262) *)
Definition group_labels (g : frame) (u : string) : list Z :=
  map fst (filter (fun r => has_string u (cell (fr_cols g) (snd r) "unit")) (fr_meta g)).
(** The units, sorted ([groupby("unit")], 1262) *)
Definition units_of (g : frame) : res (list string) :=
  rbind (rmap (fun v => match v with MStr s => Ok [s] | MNum _ => Err EInvalid | _ => Ok [] end) (column g "unit"))
        (fun us => Ok (sort_strings (nodup string_dec (concat us)))).
(** The loop over the groups (1262-1268) *)
Fixpoint convert_groups (mk : string -> res (num -> num)) (unit : string) (ctx : option string)
    (to_convert : frame) (us : list string) (f : frame) : frame * res Datatypes.unit :=
  match us with
  | [] => (f, Ok tt)
  | u :: us' =>
    match mk u with
    | Err e => (f, Err e)
    | Ok conv => convert_groups mk unit ctx to_convert us' (convert_labels (group_labels to_convert u) conv unit ctx f)
    end
  end.
(** A column for the context (1257-1259) *)
Definition with_context (f : frame) : frame :=
  if mem "unit_context" (fr_cols f) then f
  else sort_meta_cols (mkFrame (fr_times f) (fr_data f) (fr_cols f ++ ["unit_context"])
                        (map (fun r => (fst r, snd r ++ [MNone])) (fr_meta f))).
(** [convert_unit] (1216-1272) *)
Definition convert_unit (mk : string -> res (num -> num)) (unit : string) (ctx : option string)
    (keep regexp has_nan : bool) (filters : list (string * parg)) (f : frame) : frame * res Datatypes.unit :=
  let f := with_context f in
  match fr_filter keep regexp has_nan filters f with
  | Err e => (f, Err e)
  | Ok to_convert =>
    match units_of to_convert with
    | Err e => (f, Err e)
    | Ok us => convert_groups mk unit ctx to_convert us f
    end
  end.

(** [UnitConverter] without context (1263) *)
Definition plain_converter (env : uenv) (unit : string) (orig : string) : res (num -> num) :=
  rbind (unit_converter env (Some orig) (Some unit)) (fun c => Ok (option_map (uconvert_from c))).
