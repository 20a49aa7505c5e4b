(** Model of openscm/scmdataframe/base.py: [interpolate] (940-1052) and [resample] (1054-1167). *)
From Coq Require Import String Ascii List ZArith QArith Qcanon Reals Bool.
From Verif Require Import Base Units TimeModel Core Filters Civil Offsets ParameterType Frame.
Import ListNotations.
Local Open Scope string_scope.
Local Open Scope list_scope.

(** The column [parameter_type], empty if it was not there (985-987). *)
Definition with_type (f : frame) : frame :=
  if mem "parameter_type" (fr_cols f) then f
  else sort_meta_cols (mkFrame (fr_times f) (fr_data f) (fr_cols f ++ ["parameter_type"])
                        (map (fun r => (fst r, snd r ++ [MNone])) (fr_meta f))).

(** [guess] (989-1000) of one row.  Variables and units that are not strings are not modelled. *)
Definition type_name (p : ptype) : string := match p with AVERAGE_TIMESERIES => "average" | _ => "point" end.
(** The same for a row (989-1000) *)
Definition guess_row (env : uenv) (cols : list string) (row : list mval) : res (option string) :=
  match cell cols row "parameter_type" with
  | MNone =>
    match cell cols row "variable", cell cols row "unit" with
    | MStr v, MStr u => rbind (guess_parameter_type env v (Some u)) (fun p => Ok (Some (type_name p)))
    | MStr v, MNone => rbind (guess_parameter_type env v None) (fun p => Ok (Some (type_name p)))
    | _, _ => Err EInvalid
    end
  | _ => Ok None
  end.
(** [map_cell] of Frame.v changes one column of a row.  [res._meta.apply(guess, axis=1)] (1002) throws its
    result away; the assignment to the row reaches [_meta] only if pandas hands out views of one block
    of metadata ([shared]). *)
Definition guess_all (env : uenv) (shared : bool) (f : frame) : res frame :=
  rbind (rmap (fun r => rbind (guess_row env (fr_cols f) (snd r)) (fun g =>
    Ok (fst r, match g with
               | Some ty => if shared then map_cell (fr_cols f) "parameter_type" (fun _ => MStr ty) (snd r) else snd r
               | None => snd r
               end))) (fr_meta f)) (fun m =>
  Ok (mkFrame (fr_times f) (fr_data f) (fr_cols f) m)).

(** [groupby("parameter_type")] (1008): the keys, sorted; missing ones are left out.  Numbers are not
    modelled. *)
Definition type_keys (f : frame) : res (list string) :=
  rbind (rmap (fun v => match v with
                        | MStr s => Ok [s]
                        | MNum _ => Err EInvalid
                        | MNaN | MNone => Ok []
                        end) (column f "parameter_type")) (fun ls =>
  Ok (sort_strings (nodup string_dec (concat ls)))).
(** [grp.index] (1032-1033, 1047) *)
Definition type_labels (f : frame) (ty : string) : list Z :=
  map fst (filter (fun r => mval_same (cell (fr_cols f) (snd r) "parameter_type") (MStr ty)) (fr_meta f)).

(** [np.concatenate((t, [t[-1] + (t[-1] - t[-2])]))] (1016-1022) *)
Definition extended (t : list Z) : res (list Z) :=
  match rev t with
  | b :: a :: _ => Ok (t ++ [b + (b - a)])%Z
  | _ => Err EIndexError
  end.

(** Values without NaN; conversion of NaN is not modelled. (1032-1041) *)
Fixpoint all_present (l : list num) : res (list R) :=
  match l with
  | [] => Ok []
  | Some x :: l' => rbind (all_present l') (fun xs => Ok (x :: xs))
  | None :: _ => Err EInvalid
  end.

(** One column: [pd.Series(values, index=timeseries_index)] needs as many values as times (1032-1041). *)
Definition interp_column (c : tconv) (n : nat) (vs : list num) : res (list num) :=
  rbind (all_present vs) (fun xs => rbind (tconvert_from c xs) (fun w =>
  if Nat.eqb (length w) n then Ok (map Some w) else Err EValueError)).

(** The loop (1008-1049).  [f0] is the frame with its types, [targets] the local variable
    [target_times], [n] the length of the new index. *)
Fixpoint interp_groups (f0 : frame) (ex : extrapolation) (n : nat) (types : list string) (targets : list Z)
    (data : list (Z * list num)) (meta : list (Z * list mval)) : res (list (Z * list num) * list (Z * list mval)) :=
  match types with
  | [] => Ok (data, meta)
  | ty :: types' =>
    rbind (from_timeseries_type (AStr ty)) (fun p =>
    rbind (match p with
           | AVERAGE_TIMESERIES =>
             rbind (extended targets) (fun tgt => rbind (extended (fr_times f0)) (fun src => Ok (tgt, src)))
           | _ => Ok (targets, fr_times f0)
           end) (fun g =>
    let (targets, source) := g : list Z * list Z in
    rbind (timeseries_converter source targets p ex) (fun c =>
    let labels := type_labels f0 ty in
    rbind (rmap (fun col => if has_label (fst col) labels
                            then rbind (interp_column c n (snd col)) (fun w => Ok (Some (fst col, w)))
                            else Ok None) (fr_data f0)) (fun new =>
    let new := flat_map (fun o => match o with Some x => [x] | None => [] end) new in
    let data := map (fun col => match find (fun x => Z.eqb (fst x) (fst col)) new with Some x => x | None => col end) data in
    let meta := map (fun r => if has_label (fst r) labels
                              then (fst r, map_cell (fr_cols f0) "parameter_type" (fun _ => MStr (type_name p)) (snd r))
                              else r) meta in
    interp_groups f0 ex n types' targets data meta))))
  end.

(** [interpolate] (940-1052) *)
Definition interpolate (env : uenv) (shared : bool) (targets : list Z) (ex : extrapolation) (f : frame) : res frame :=
  rbind (guess_all env shared (with_type f)) (fun f0 =>
  rbind (type_keys f0) (fun types =>
  let n := length targets in
  rbind (interp_groups f0 ex n types targets (map (fun col => (fst col, repeat None n)) (fr_data f0)) (fr_meta f0)) (fun r =>
  Ok (mkFrame targets (fst r) (fr_cols f0) (snd r))))).

(** [resample] (1163-1167): [iloc] of an empty series raises IndexError. *)
Definition resample (env : uenv) (shared : bool) (rule : string) (ex : extrapolation) (f : frame) : res frame :=
  match fr_times f with
  | [] => Err EIndexError
  | t0 :: _ =>
    rbind (to_offset rule) (fun o => rbind (generate_range t0 (last (fr_times f) t0) o) (fun ts =>
    interpolate env shared ts ex f))
  end.
