(** Model of openscm/core/time.py 251-646 (time points, interpolation, conversion).

    Simplifications, used throughout:
    - floats are reals;
    - [scipy.interpolate.interp1d(kind="linear")] is the piecewise linear function
      through the given knots (scipy: searchsorted + clip); the knots are taken in the
      given order, scipy's sorting of unsorted knots is not modelled (the theorems assume
      increasing time points);
    - [scipy.integrate.quad] is the exact Riemann integral. *)
From Coq Require Import String List ZArith Reals Bool Arith.
From Coquelicot Require Import Coquelicot.
From Verif Require Import Base.
Import ListNotations.
Local Open Scope R_scope.

(** openscm/core/parameters.py 36-44 *)
Inductive ptype := SCALAR | AVERAGE_TIMESERIES | POINT_TIMESERIES | GENERIC.
(** Comparison of members of an enumeration (parameters.py 68-70, 257) *)
Definition ptype_eqb (a b : ptype) : bool :=
  match a, b with
  | SCALAR, SCALAR | AVERAGE_TIMESERIES, AVERAGE_TIMESERIES
  | POINT_TIMESERIES, POINT_TIMESERIES | GENERIC, GENERIC => true
  | _, _ => false
  end.

(** A [Union[Enum, str]] argument. (parameters.py 74-76; time.py 40, 73) *)
Inductive enum_arg (A : Type) := AEnum (a : A) | AStr (s : string).
Arguments AEnum {A} a.
Arguments AStr {A} s.

(** [ParameterType.timeseries_type_to_string] (parameters.py 46-72) *)
Definition timeseries_type_to_string (t : ptype) : res string :=
  match t with
  | AVERAGE_TIMESERIES => Ok "average"%string
  | POINT_TIMESERIES => Ok "point"%string
  | _ => Err EValueError
  end.

(** [ParameterType.from_timeseries_type] (parameters.py 74-108) *)
Definition from_timeseries_type (a : enum_arg ptype) : res ptype :=
  match a with
  | AStr s =>
    if String.eqb (lower s) "average" then Ok AVERAGE_TIMESERIES
    else if String.eqb (lower s) "point" then Ok POINT_TIMESERIES
    else Err EValueError
  | AEnum AVERAGE_TIMESERIES => Ok AVERAGE_TIMESERIES
  | AEnum POINT_TIMESERIES => Ok POINT_TIMESERIES
  | AEnum _ => Err EValueError
  end.

(** [ExtrapolationType] (time.py 28-60) *)
Inductive extrapolation := XNONE | XCONSTANT | XLINEAR.
(** [from_extrapolation_type] (time.py 38-60) *)
Definition from_extrapolation_type (a : enum_arg extrapolation) : res extrapolation :=
  match a with
  | AEnum x => Ok x
  | AStr s =>
    let s := upper s in
    if String.eqb s "NONE" then Ok XNONE
    else if String.eqb s "CONSTANT" then Ok XCONSTANT
    else if String.eqb s "LINEAR" then Ok XLINEAR
    else Err EKeyError
  end.

(** [InterpolationType] (time.py 63-91) *)
Inductive interpolation := ILINEAR.
(** [from_interpolation_type] (time.py 71-91) *)
Definition from_interpolation_type (a : enum_arg interpolation) : res interpolation :=
  match a with
  | AEnum x => Ok x
  | AStr s => if String.eqb (upper s) "LINEAR" then Ok ILINEAR else Err EKeyError
  end.

(** A numpy [datetime64] array: resolution in seconds per tick, and ticks since 1970. *)
Record timepoints := mkTP { tp_res : Z; tp_ticks : list Z }.

(** ** Interpolation *)

(** The straight line through two points (scipy interp1d [_call_linear]:
    [slope * (x_new - x_lo) + y_lo]). *)
Definition lin (x0 y0 x1 y1 x : R) : R := y0 + (y1 - y0) / (x1 - x0) * (x - x0).

(** Piecewise linear evaluation at [x]; [x0,y0] is the knot before [rest].  The segment
    used is the first one whose right end is [>= x], else the last one
    (scipy: [searchsorted(self.x, x_new)] clipped to [1 .. len-1]). *)
Fixpoint seg_eval (x0 y0 : R) (rest : list (R * R)) (x : R) : R :=
  match rest with
  | [] => y0
  | (x1, y1) :: rest' =>
    match rest' with
    | [] => lin x0 y0 x1 y1 x
    | _ => if Rle_dec x x1 then lin x0 y0 x1 y1 x else seg_eval x1 y1 rest' x
    end
  end.

(** The function through all knots (scipy [interp1d], used in time.py 473-488) *)
Definition pl_eval (knots : list (R * R)) (x : R) : R :=
  match knots with
  | [] => 0
  | (x0, y0) :: rest => seg_eval x0 y0 rest x
  end.

(** An [interp1d] object. [ip_fill] is the [fill_value] pair used with CONSTANT. *)
Record interp := mkInterp {
  ip_knots : list (R * R);
  ip_extra : extrapolation;
  ip_fill : R * R }.

(** The first knot, where the bounds check of [interp1d] begins (time.py 473-488) *)
Definition ip_lo (f : interp) : R := match ip_knots f with [] => 0 | (x, _) :: _ => x end.
(** The last one (time.py 473-488) *)
Definition ip_hi (f : interp) : R := match last (ip_knots f) (0, 0) with (x, _) => x end.

(** Value of the interpolating function where it does not raise
    (scipy [_evaluate]: values outside the bounds are replaced by the fill values
    unless extrapolating). (time.py 473-488) *)
Definition ip_val (f : interp) (x : R) : R :=
  match ip_extra f with
  | XCONSTANT =>
    if Rlt_dec x (ip_lo f) then fst (ip_fill f)
    else if Rlt_dec (ip_hi f) x then snd (ip_fill f)
    else pl_eval (ip_knots f) x
  | _ => pl_eval (ip_knots f) x
  end.

(** Does evaluation anywhere between [l] and [u] stay within the allowed range?
    (scipy [_check_bounds]: ValueError when [bounds_error], i.e. for NONE).
    For [quad] scipy only evaluates at its nodes; the model requires the whole
    interval. (time.py 473-488, 316-322) *)
Definition ip_ok (f : interp) (l u : R) : bool :=
  match ip_extra f with
  | XNONE => if Rle_dec (ip_lo f) l then (if Rle_dec u (ip_hi f) then true else false)
             else false
  | _ => true
  end.

(** [first] and [last] with a dummy for the (unreachable) empty case. (time.py 496: [values[0]]) *)
Definition first_val (l : list R) : R := hd 0 l.
(** The same for [values[-1]] (time.py 496) *)
Definition last_val (l : list R) : R := last l 0.

(** ** [_calc_integral_preserving_linear_interpolation] (time.py 325-366) *)

(** Edge values between adjacent periods: (values[1:] + values[:-1]) / 2 (line 342). *)
Fixpoint edge_values (v : list R) : list R :=
  match v with
  | v0 :: ((v1 :: _) as v') => (v1 + v0) / 2 :: edge_values v'
  | _ => []
  end.

(** Middles of the inner periods, lines 343-345: [vs] is [values[1:-1]] and [es] the
    edges, so the i-th inner value has edges [es[i]] and [es[i+1]]. *)
Fixpoint middle_values (vs es : list R) : list R :=
  match vs, es with
  | v :: vs', e0 :: ((e1 :: _) as es') => (4 * v - e0 - e1) / 2 :: middle_values vs' es'
  | _, _ => []
  end.

(** Interleave two lists, first element from the first list
    ([np.array([a, b]).T.reshape(...)], lines 356-364; also 458-469). *)
Fixpoint interleave {A} (a b : list A) : list A :=
  match a, b with
  | x :: a', y :: b' => x :: y :: interleave a' b'
  | a, [] => a
  | [], b => b
  end.

(** Lines 350-366. [removelast (tl values)] is [values[1:-1]]. *)
Definition linearization_values (values : list R) : list R :=
  let edges := edge_values values in
  let middles := middle_values (removelast (tl values)) edges in
  let first_edge := 2 * first_val values - hd 0 edges in
  let last_edge := 2 * last_val values - last edges 0 in
  interleave (first_edge :: edges)
             (first_val values :: middles ++ [last_val values])
  ++ [last_edge].

(** Period middles, time.py 463. *)
Fixpoint midpoints (t : list R) : list R :=
  match t with
  | t0 :: ((t1 :: _) as t') => (t1 + t0) / 2 :: midpoints t'
  | _ => []
  end.

(** time.py 458-469: time points interleaved with the period middles. *)
Definition linearization_points (t : list R) : list R := interleave t (midpoints t).

(** [_get_scipy_extrapolation_args] (time.py 492-498): the fill values are the first and
    last element of [values] (for averages too). *)
Definition fill_of (values : list R) : R * R := (first_val values, last_val values).

(** [_calc_continuous_representation] (time.py 428-490), including the ValueError of
    [interp1d] for knots of different lengths. *)
Definition continuous_representation (ty : ptype) (ex : extrapolation)
    (time_points values : list R) : res interp :=
  match ty with
  | AVERAGE_TIMESERIES =>
    let xs := linearization_points time_points in
    let ys := linearization_values values in
    if (length xs =? length ys)%nat
    then Ok (mkInterp (combine xs ys) ex (fill_of values))
    else Err EValueError
  | POINT_TIMESERIES =>
    if (length time_points =? length values)%nat
    then Ok (mkInterp (combine time_points values) ex (fill_of values))
    else Err EValueError
  | _ => Err ENotImplemented
  end.

(** Evaluation at one point. ([self._calc_continuous_representation(...)(target_time_points)], time.py 589-592) *)
Definition ip_eval (f : interp) (x : R) : res R :=
  if ip_ok f x x then Ok (ip_val f x) else Err EValueError.

(** [_calc_interval_averages] (time.py 291-322); [quad] is the exact integral. *)
Fixpoint interval_averages (f : interp) (t : list R) : res (list R) :=
  match t with
  | l :: ((u :: _) as t') =>
    if ip_ok f l u then
      match interval_averages f t' with
      | Ok r => Ok (RInt (ip_val f) l u / (u - l) :: r)
      | Err e => Err e
      end
    else Err EValueError
  | _ => Ok []
  end.

(** [_convert_unsafe] (time.py 553-594) *)
Definition convert_unsafe (ty : ptype) (ex : extrapolation) (values : list R)
    (src tgt : list R) : res (list R) :=
  match ty with
  | AVERAGE_TIMESERIES =>
    rbind (continuous_representation ty ex src values) (fun f => interval_averages f tgt)
  | POINT_TIMESERIES =>
    rbind (continuous_representation ty ex src values) (fun f => rmap (ip_eval f) tgt)
  | _ => Err ENotImplemented
  end.

(** [TimeseriesConverter._convert] (time.py 506-551): fewer than three values and every
    ValueError become InsufficientDataError. *)
Definition convert_R (ty : ptype) (ex : extrapolation) (values src tgt : list R)
    : res (list R) :=
  if (length values <? 3)%nat then Err EInsufficientData
  else match convert_unsafe ty ex values src tgt with
       | Err EValueError => Err EInsufficientData
       | r => r
       end.

(** ** [TimeseriesConverter] *)
(** time.py 369-426 *)
Record tconv := mkTconv {
  tc_source : list Z;
  tc_target : list Z;
  tc_type : ptype;
  tc_extra : extrapolation }.

(** [TimeseriesConverter.__init__] (time.py 390-426): [astype(np.int64)] keeps only the
    ticks; [source[0] > target[1]] raises IndexError when one of them does not exist. *)
Definition timeseries_converter (source target : list Z) (ty : ptype)
    (ex : extrapolation) : res tconv :=
  match source, target with
  | s0 :: _, _ :: t1 :: _ =>
    if (s0 >? t1)%Z then Err EInsufficientData
    else Ok (mkTconv source target ty ex)
  | _, _ => Err EIndexError
  end.

(** [convert_from] (596-611) and [convert_to] (613-628) *)
Definition tconvert_from (c : tconv) (values : list R) : res (list R) :=
  convert_R (tc_type c) (tc_extra c) values (map IZR (tc_source c)) (map IZR (tc_target c)).
(** [convert_to] (time.py 613-628) *)
Definition tconvert_to (c : tconv) (values : list R) : res (list R) :=
  convert_R (tc_type c) (tc_extra c) values (map IZR (tc_target c)) (map IZR (tc_source c)).

(** [source_length] (630-637), [target_length] (639-646) *)
Definition series_length (ty : ptype) (points : nat) : Z :=
  match ty with
  | AVERAGE_TIMESERIES => (Z.of_nat points - 1)%Z
  | _ => Z.of_nat points
  end.
(** [source_length] (time.py 630-637) *)
Definition source_length (c : tconv) : Z := series_length (tc_type c) (length (tc_source c)).
(** [target_length] (time.py 639-646) *)
Definition target_length (c : tconv) : Z := series_length (tc_type c) (length (tc_target c)).
