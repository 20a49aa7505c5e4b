(** Model of the conversions between data frames and parameter sets:
    openscm/scmdataframe/base.py [to_parameterset] (453-534) and
    openscm/scmdataframe/__init__.py [convert_openscm_to_scmdataframe] (33-168).

    Both use the parameter set only through its calls, which are the operations [step] of Core.v,
    except for the walk over the parameter objects at the start of the way back.  As in Core.v,
    the state after a failing call is kept. *)
From Coq Require Import String Ascii List ZArith QArith Qcanon Reals Qreals Bool.
From Verif Require Import Base Units TimeModel Core Filters ParameterType Frame FrameInterp.
Import ListNotations.
Local Open Scope string_scope.
Local Open Scope list_scope.

(** ** [ScmDataFrameBase.to_parameterset] (base.py 453-534) *)

(** The columns that are dropped (484-486). *)
Definition series_cols : list string := ["variable"; "region"; "unit"; "parameter_type"].
(** The other columns (484-486) *)
Definition other_cols (cols : list string) : list string := filter (fun c => negb (mem c series_cols)) cols.

(** [drop_duplicates] (484-486): the first of each group of equal rows. *)
Fixpoint distinct_rows (rows : list (list mval)) : list (list mval) :=
  match rows with
  | [] => []
  | r :: rows' => r :: filter (fun r' => negb (row_same r r')) (distinct_rows rows')
  end.

(** Metadata values as Python objects; a number is a float. (526-532) *)
Definition num_of_q (q : Qc) : R := Q2R (this q).
(** A value as stored in a generic parameter (491-494, 525-532) *)
Definition gval_of (v : mval) : gval :=
  match v with
  | MStr s => GStr s
  | MNum q => GFloat (Some (num_of_q q))
  | MNaN => GFloat None
  | MNone => GNone
  end.

(** [timeseries_type] (505-510): [metadata.pop] raises KeyError only if the column is missing.
    Variables and units that are not strings are not modelled. *)
Definition row_type (env : uenv) (cols : list string) (row : list mval) (variable u : string) : res ptype :=
  if mem "parameter_type" cols then
    match cell cols row "parameter_type" with
    | MStr s => from_timeseries_type (AStr s)
    | _ => Err EValueError
    end
  else guess_parameter_type env variable (Some u).

(** [parameterset.timeseries(variable, unit, time_points, region=region, timeseries_type=...)]
    with the default interpolation and extrapolation (parameterset.py 174-183). *)
Definition series_request (variable u : string) (times : list Z) (region : string) (ty : ptype) : op :=
  OTimeseries (HStr variable) u (mkTP 1 times) (HStr region) (AEnum ty) (AEnum ILINEAR) (AEnum XNONE).

(** The body of the loop over the timeseries (500-523). *)
Definition put_series (env : uenv) (cols : list string) (times : list Z) (vals : list num) (row : list mval)
    (s : state) : state * res Datatypes.unit :=
  match cell cols row "variable", cell cols row "region", cell cols row "unit" with
  | MStr variable, MStr region, MStr u =>
    match row_type env cols row variable u with
    | Err e => (s, Err e)
    | Ok ty =>
      match (match ty with AVERAGE_TIMESERIES => extended times | _ => Ok times end) with
      | Err e => (s, Err e)
      | Ok tps =>
        match step env (series_request variable u tps region ty) s with
        | (s1, Ok (VView vi)) =>
          match step env (OSetValues vi (mkArr false vals)) s1 with
          | (s2, Ok _) => (s2, Ok tt)
          | (s2, Err e) => (s2, Err e)
          end
        | (s1, Ok _) => (s1, Err EInvalid)
        | (s1, Err e) => (s1, Err e)
        end
      end
    end
  | _, _, _ => (s, Err EInvalid)
  end.

(** [self._meta.loc[i]] (499-502) *)
Fixpoint row_at (l : Z) (meta : list (Z * list mval)) : option (list mval) :=
  match meta with [] => None | (l', r) :: meta' => if Z.eqb l l' then Some r else row_at l meta' end.

(** The loop over the timeseries (499-523). *)
Fixpoint put_all_series (env : uenv) (f : frame) (data : list (Z * list num)) (s : state) : state * res Datatypes.unit :=
  match data with
  | [] => (s, Ok tt)
  | (l, vals) :: data' =>
    match row_at l (fr_meta f) with
    | None => (s, Err EKeyError)
    | Some row =>
      match put_series env (fr_cols f) (fr_times f) vals row s with
      | (s1, Ok _) => put_all_series env f data' s1
      | (s1, Err e) => (s1, Err e)
      end
    end
  end.

(** [re.compile(r".*\(.*\)").match(k)] (525-527): an opening parenthesis and a closing one after it, both in
    the first line. *)
Definition newline : ascii := ascii_of_nat 10.
(** A closing parenthesis (525-527) *)
Fixpoint closes (k : string) : bool :=
  match k with
  | EmptyString => false
  | String c k' => if Ascii.eqb c newline then false else if Ascii.eqb c ")" then true else closes k'
  end.
(** [match(k)] (525-527) *)
Fixpoint has_unit (k : string) : bool :=
  match k with
  | EmptyString => false
  | String c k' => if Ascii.eqb c newline then false else if Ascii.eqb c "(" then closes k' else has_unit k'
  end.

(** [str.strip], ASCII only. (528-529) *)
Definition is_space (c : ascii) : bool :=
  let n := nat_of_ascii c in ((9 <=? n) && (n <=? 13) || (28 <=? n) && (n <=? 32))%nat.
(** At the beginning (528-529) *)
Fixpoint lstrip (s : string) : string :=
  match s with String c s' => if is_space c then lstrip s' else s | EmptyString => s end.
(** At the end (528-529) *)
Fixpoint rstrip (s : string) : string :=
  match s with
  | EmptyString => EmptyString
  | String c s' => match rstrip s' with
                   | EmptyString => if is_space c then EmptyString else String c EmptyString
                   | s'' => String c s''
                   end
  end.
(** [str.strip] (528-529) *)
Definition strip (s : string) : string := rstrip (lstrip s).

(** [k.split("(")[0].strip()], [k.split("(")[1].split(")")[0].strip()] (528-529) *)
Definition unit_name (k : string) : string := strip (nth 0 (split "(" k) "").
(** The unit in parentheses (529) *)
Definition unit_unit (k : string) : string := strip (nth 0 (split ")" (nth 1 (split "(" k) "")) "").

(** The body of the loop over the other metadata (526-532).  A scalar that is no number makes the assignment
    raise TypeError (the flags it sets before are not modelled). *)
Definition world : hname := HSeq ["World"].
(** The body of this loop (526-532) *)
Definition put_meta (env : uenv) (k : string) (v : mval) (s : state) : state * res Datatypes.unit :=
  if has_unit k then
    match step env (OScalar (HStr (unit_name k)) (unit_unit k) world) s with
    | (s1, Ok (VView vi)) =>
      match v with
      | MNum _ | MNaN =>
        match step env (OSetValue vi (match v with MNum q => Some (num_of_q q) | _ => None end)) s1 with
        | (s2, Ok _) => (s2, Ok tt)
        | (s2, Err e) => (s2, Err e)
        end
      | _ => (s1, Err ETypeError)
      end
    | (s1, Ok _) => (s1, Err EInvalid)
    | (s1, Err e) => (s1, Err e)
    end
  else
    match step env (OGeneric (HStr k) world) s with
    | (s1, Ok (VView vi)) =>
      match step env (OSetGeneric vi (gval_of v)) s1 with
      | (s2, Ok _) => (s2, Ok tt)
      | (s2, Err e) => (s2, Err e)
      end
    | (s1, Ok _) => (s1, Err EInvalid)
    | (s1, Err e) => (s1, Err e)
    end.
(** The loop (525-532) *)
Fixpoint put_all_meta (env : uenv) (kvs : list (string * mval)) (s : state) : state * res Datatypes.unit :=
  match kvs with
  | [] => (s, Ok tt)
  | (k, v) :: kvs' =>
    match put_meta env k v s with
    | (s1, Ok _) => put_all_meta env kvs' s1
    | (s1, Err e) => (s1, Err e)
    end
  end.

(** [to_parameterset] (453-534).  Frames without timeseries are not modelled. *)
Definition to_parameterset (env : uenv) (f : frame) (s : state) : state * res Datatypes.unit :=
  let others := other_cols (fr_cols f) in
  match distinct_rows (map (fun r => map (cell (fr_cols f) (snd r)) others) (fr_meta f)) with
  | [] => (s, Err EInvalid)
  | [values] =>
    if match (if mem "climate_model" others then cell others values "climate_model" else MStr "unspecified") with
       | MStr m => String.eqb m "unspecified"
       | _ => false
       end
    then
      match put_all_series env f (fr_data f) s with
      | (s1, Ok _) => put_all_meta env (combine others values) s1
      | (s1, Err e) => (s1, Err e)
      end
    else (s, Err EValueError)
  | _ => (s, Err EValueError)
  end.

(** ** [convert_openscm_to_scmdataframe] (__init__.py 33-168) *)

(** Dictionaries keep the order of first insertion. (__init__.py 99-107) *)
Fixpoint dict_put {K V} (eqb : K -> K -> bool) (k : K) (v : V) (d : list (K * V)) : list (K * V) :=
  match d with
  | [] => [(k, v)]
  | (k', v') :: d' => if eqb k k' then (k', v) :: d' else (k', v') :: dict_put eqb k v d'
  end.
(** [d.update(l)] (__init__.py 99-107) *)
Definition dict_update {K V} (eqb : K -> K -> bool) (d l : list (K * V)) : list (K * V) :=
  fold_left (fun d kv => dict_put eqb (fst kv) (snd kv) d) l d.

(** Keys of [root_params]: full name and region. (__init__.py 110-121) *)
Definition pkey := (list string * list string)%type.
(** Equality of names (__init__.py 110-121) *)
Fixpoint names_eqb (a b : list string) : bool :=
  match a, b with
  | [], [] => true
  | x :: a', y :: b' => String.eqb x y && names_eqb a' b'
  | _, _ => false
  end.
(** Equality of keys (__init__.py 110-121) *)
Definition pkey_eqb (a b : pkey) : bool := names_eqb (fst a) (fst b) && names_eqb (snd a) (snd b).

(** [walk_parameters] (83-94): the parameter itself if it has no children, otherwise what the children give.
    The fuel is proved sufficient. *)
Fixpoint walk_parameters (fuel : nat) (s : state) (past : list string) (p : nat) : res (list (pkey * nat)) :=
  match fuel with
  | O => Err EFuel
  | Datatypes.S fuel' =>
    match nth_error (st_params s) p with
    | None => Err EInvalid
    | Some q =>
      let full := past ++ [p_name q] in
      match p_children q with
      | [] => match info_region s p with
              | Some rs => Ok [((full, rs), p)]
              | None => Err EFuel
              end
      | cs =>
        rbind (rmap (fun c => walk_parameters fuel' s full (snd c)) cs) (fun ls =>
        Ok (fold_left (dict_update pkey_eqb) ls []))
      end
    end
  end.

(** [root_params] (110-121): the parameters of the root region, then those of its child regions. *)
Definition region_params (s : state) (r : nat) : list nat :=
  match nth_error (st_regions s) r with None => [] | Some rg => map snd (r_params rg) end.
(** [root_params] (__init__.py 110-121) *)
Definition root_params (s : state) : res (list (pkey * nat)) :=
  match nth_error (st_regions s) 0 with
  | None => Err EInvalid
  | Some root =>
    let ps := region_params s 0 ++ flat_map (fun c => region_params s (snd c)) (r_children root) in
    rbind (rmap (fun p => walk_parameters (Datatypes.S (length (st_params s))) s [] p) ps) (fun ls =>
    Ok (fold_left (dict_update pkey_eqb) ls []))
  end.

(** [metadata] (99-107): lists of values by name; [metadata[k].append(v)]. *)
Definition metadata := list (string * list pyval).
(** The values of a metadata column so far (__init__.py 123-165) *)
Definition meta_append (k : string) (v : pyval) (m : metadata) : metadata :=
  map (fun kv => if String.eqb k (fst kv) then (fst kv, snd kv ++ [v]) else kv) m.

(** What a stored value is as metadata; [q_of] reads a float (metadata keeps the rational number it is).
    Other objects in generic parameters are not modelled. (__init__.py 126-143) *)
Definition pyval_of (q_of : R -> Qc) (g : gval) : res pyval :=
  match g with
  | GNone => Ok PNone
  | GInt z => Ok (PInt z)
  | GFloat (Some x) => Ok (PNum (q_of x))
  | GFloat None => Ok PNaN
  | GStr s => Ok (PStr s)
  | GBool _ | GTime _ | GDelta _ => Err EInvalid
  end.

(** What the loop has collected (__init__.py 123-165) *)
Record collected := mkCollected { c_meta : metadata; c_data : list (list num) }.

(** One turn of the loop over [root_params] (123-165). *)
Definition collect_one (env : uenv) (q_of : R -> Qc) (times times_average : list Z) (s : state)
    (item : pkey * nat) (c : collected) : state * res collected :=
  let '((name, region), p) := item in
  match nth_error (st_params s) p with
  | None => (s, Err EInvalid)
  | Some q =>
    match p_type q with
    | Some GENERIC =>
      if names_eqb region ["World"] then
        match step env (OGeneric (HSeq name) (HSeq region)) s with
        | (s1, Ok (VView vi)) =>
          match step env (OGetGeneric vi) s1 with
          | (s2, Ok (VGen g)) =>
            (s2, rbind (pyval_of q_of g) (fun v =>
               Ok (mkCollected (dict_put String.eqb (join "|" name) [v] (c_meta c)) (c_data c))))
          | (s2, Ok _) => (s2, Err EInvalid)
          | (s2, Err e) => (s2, Err e)
          end
        | (s1, Ok _) => (s1, Err EInvalid)
        | (s1, Err e) => (s1, Err e)
        end
      else (s, Err EValueError)
    | Some SCALAR =>
      if names_eqb region ["World"] then
        match p_unit q with
        | None => (s, Err EInvalid)
        | Some u =>
          match step env (OScalar (HSeq name) u world) s with
          | (s1, Ok (VView vi)) =>
            match step env (OGetValue vi) s1 with
            | (s2, Ok (VNum x)) =>
              (s2, Ok (mkCollected
                 (dict_put String.eqb (join "|" name ++ " (" ++ u ++ ")")%string
                    [match x with Some x => PNum (q_of x) | None => PNaN end] (c_meta c)) (c_data c)))
            | (s2, Ok _) => (s2, Err EInvalid)
            | (s2, Err e) => (s2, Err e)
            end
          | (s1, Ok _) => (s1, Err EInvalid)
          | (s1, Err e) => (s1, Err e)
          end
        end
      else (s, Err EValueError)
    | Some ty =>
      match p_unit q with
      | None => (s, Err EInvalid)
      | Some u =>
        let tp := match ty with POINT_TIMESERIES => times | _ => times_average end in
        match step env (OTimeseries (HSeq name) u (mkTP 1 tp) (HSeq region) (AEnum ty) (AEnum ILINEAR) (AEnum XNONE)) s with
        | (s1, Ok (VView vi)) =>
          match step env (OGetValues vi) s1 with
          | (s2, Ok (VArr xs)) =>
            (s2, Ok (mkCollected
               (meta_append "parameter_type" (PStr (type_name ty))
                 (meta_append "unit" (PStr u)
                   (meta_append "region" (PStr (join "|" region))
                     (meta_append "variable" (PStr (join "|" name)) (c_meta c)))))
               (c_data c ++ [xs])))
          | (s2, Ok _) => (s2, Err EInvalid)
          | (s2, Err e) => (s2, Err e)
          end
        | (s1, Ok _) => (s1, Err EInvalid)
        | (s1, Err e) => (s1, Err e)
        end
      end
    | None => (s, Err EValueError)
    end
  end.
(** The loop (__init__.py 123-165) *)
Fixpoint collect (env : uenv) (q_of : R -> Qc) (times times_average : list Z) (items : list (pkey * nat))
    (s : state) (c : collected) : state * res collected :=
  match items with
  | [] => (s, Ok c)
  | i :: items' =>
    match collect_one env q_of times times_average s i c with
    | (s1, Ok c1) => collect env q_of times times_average items' s1 c1
    | (s1, Err e) => (s1, Err e)
    end
  end.

(** The whole function (33-168).  A parameter set without timeseries is not modelled.  The metadata are
    keyword arguments of [_from_ts] (base.py 216-218), whose own arguments are called "df" and "index". *)
Definition convert_openscm_to_scmdataframe (env : uenv) (q_of : R -> Qc) (s : state) (times : list Z)
    (model scenario climate_model : string) : state * res frame :=
  match extended times with
  | Err e => (s, Err e)
  | Ok times_average =>
    match root_params s with
    | Err e => (s, Err e)
    | Ok items =>
      match collect env q_of times times_average items s
              (mkCollected [("climate_model", [PStr climate_model]); ("scenario", [PStr scenario]);
                            ("model", [PStr model]); ("variable", []); ("region", []); ("unit", []);
                            ("parameter_type", [])] []) with
      | (s1, Err e) => (s1, Err e)
      | (s1, Ok c) =>
        (s1, if mem "df" (map fst (c_meta c)) || mem "index" (map fst (c_meta c)) then Err ETypeError
             else match c_data c with
                  | [] => Err EInvalid
                  | _ => from_ts times (c_data c) (map (fun kv => (fst kv, Many (snd kv))) (c_meta c))
                  end)
      end
    end
  end.
