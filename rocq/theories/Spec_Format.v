(** Specification vocabulary for frames built from tables (C66, C68, C69). *)
From Coq Require Import String List ZArith Reals.
From Verif Require Import Base Calendar Core TimeModel Filters Frame Spec_Frame FrameAppend Spec_Append FrameInterp FrameFormat FrameItems.
Import ListNotations.
Local Open Scope string_scope.
Local Open Scope list_scope.

(** A table with one row for each point: metadata in the columns [names], a time (or a year) and a value. *)
Definition point_row := (list mval * Z * num)%type.
Definition long_table (by_year : bool) (names : list string) (rows : list point_row) : table :=
  mkTable (length rows) []
    (map (fun c => (LText c, map (fun r => TMeta (cell names (fst (fst r)) c)) rows)) names ++
     [(LText (if by_year then "year" else "time"), map (fun r => if by_year then TYear (snd (fst r)) else TTime (snd (fst r))) rows);
      (LText "value", map (fun r => TVal (snd r)) rows)]).
(** [cal y]: the start of year [y] *)
Definition instant (cal : Z -> Z) (by_year : bool) (t : Z) : Z := if by_year then cal t else t.
(** All metadata is there. *)
Definition complete (k : list mval) : Prop := Forall (fun v => ~ missing v) k.
(** The values the rows give for the metadata [k] at time [t]. *)
Definition given (cal : Z -> Z) (by_year : bool) (rows : list point_row) (k : list mval) (t : Z) : list R :=
  flat_map (fun r => match snd r with
                     | Some x => if row_dec (fst (fst r)) k then (if Z.eqb (instant cal by_year (snd (fst r))) t then [x] else []) else []
                     | None => []
                     end) rows.
(** Column names that make a long table. *)
Definition long_names (names : list string) : Prop :=
  NoDup (map lower names) /\ incl required_columns (map lower names) /\
  forall c, In c (map lower names) -> c <> "year" /\ c <> "time" /\ c <> "value".

(** The timeseries [l] has the texts [ks] in the columns [names]. *)
Definition keyed (f : frame) (names : list string) (l : Z) (ks : list string) : Prop :=
  Forall2 (fun c s => meta_of f l c (MStr s)) names ks.

(** Frames that can be built: from arrays with dictionaries of columns, from tables, and by filtering,
    renaming, setting metadata (a list only if there are timeseries) and times, converting units, appending, interpolating and resampling; operations in
    place leave a frame behind even if they fail. *)
Inductive reachable (is_time : string -> bool) (read_times : list string -> res (list Z)) : frame -> Prop :=
| from_arrays times data columns f : Forall (fun vs => length vs = length times) data -> NoDup (map fst columns) ->
    from_ts times data columns = Ok f -> reachable is_time read_times f
| from_table tb f : format_data is_time read_times tb = Ok f -> reachable is_time read_times f
| by_filter keep rx hn filters f g : reachable is_time read_times f -> fr_filter keep rx hn filters f = Ok g -> reachable is_time read_times g
| by_rename mapping f : reachable is_time read_times f -> reachable is_time read_times (fst (rename mapping f))
| by_set_meta name a f g : reachable is_time read_times f -> fr_data f <> [] \/ (exists v, a = One v) ->
    set_meta name a f = Ok g -> reachable is_time read_times g
| by_set_times ts f g : reachable is_time read_times f -> set_index ts f = Ok g -> reachable is_time read_times g
| by_convert mk u ctx keep rx hn filters f : reachable is_time read_times f ->
    reachable is_time read_times (fst (convert_unit mk u ctx keep rx hn filters f))
| by_append msg fs g : (forall f, In f fs -> reachable is_time read_times f) -> df_append msg fs = Ok (Joined g) -> reachable is_time read_times g
| by_interpolate env shared targets ex f g : reachable is_time read_times f -> interpolate env shared targets ex f = Ok g -> reachable is_time read_times g
| by_resample env shared rule ex f g : reachable is_time read_times f -> resample env shared rule ex f = Ok g -> reachable is_time read_times g.
