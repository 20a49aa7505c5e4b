(** Vocabulary used to state the properties of time conversion. *)
From Coq Require Import List ZArith Reals Sorted.
From Flocq Require Import Core.
From Verif Require Import Base TimeModel Calendar.
Import ListNotations.
Local Open Scope R_scope.

Definition increasing (t : list Z) : Prop := StronglySorted Z.lt t.
Definition timeseries (ty : ptype) : Prop := ty = AVERAGE_TIMESERIES \/ ty = POINT_TIMESERIES.

(** Number of values belonging to given time points: one per point, or one per period
    between two successive points. *)
Definition value_count (ty : ptype) (t : list Z) : nat :=
  match ty with AVERAGE_TIMESERIES => length t - 1 | _ => length t end.
Definition belongs (ty : ptype) (t : list Z) (v : list R) : Prop := length v = value_count ty t /\ t <> [].

(** The result of converting values [v] at time points [s] to time points [t]:
    [convert_from] of a converter from [s] to [t], or [convert_to] of one from [t] to [s]. *)
Definition conversion (ty : ptype) (ex : extrapolation) (s : list Z) (v : list R) (t : list Z)
    (r : res (list R)) : Prop :=
  (exists c, timeseries_converter s t ty ex = Ok c /\ tconvert_from c v = r) \/
  (exists c, timeseries_converter t s ty ex = Ok c /\ tconvert_to c v = r).

(** Sum of value times period length. *)
Fixpoint integral (t : list Z) (v : list R) : R :=
  match t, v with
  | a :: ((b :: _) as t'), x :: v' => x * IZR (b - a) + integral t' v'
  | _, _ => 0
  end.

(** The straight line through (x0, y0) and (x1, y1), at [x]. *)
Definition line (x0 : Z) (y0 : R) (x1 : Z) (y1 : R) (x : R) : R :=
  y0 + (y1 - y0) * (x - IZR x0) / IZR (x1 - x0).

Definition lin_comb (a : R) (x : list R) (b : R) (y : list R) : list R :=
  map (fun p => a * fst p + b * snd p) (combine x y).

(** The instants (in seconds) an array of time points denotes. *)
Definition instants (tp : timepoints) : list Z := map (Z.mul (tp_res tp)) (tp_ticks tp).
(** Conversion between such arrays, as views do it (views.py 172-193: the converter gets
    the arrays themselves). *)
Definition tp_conversion (ty : ptype) (ex : extrapolation) (s : timepoints) (v : list R)
    (t : timepoints) (r : res (list R)) : Prop :=
  conversion ty ex (tp_ticks s) v (tp_ticks t) r.

(** The Gregorian calendar: seconds between 1970-01-01 and the first day of a year. *)
Definition is_leap (y : Z) : Prop :=
  (Z.divide 4 y /\ ~ Z.divide 100 y \/ Z.divide 400 y)%Z.
Definition calendar (start_of : Z -> Z) : Prop :=
  (start_of 1970 = 0 /\
   forall y, (is_leap y -> start_of (y + 1) = start_of y + 366 * 86400) /\
             (~ is_leap y -> start_of (y + 1) = start_of y + 365 * 86400))%Z.
(** [x] is a double precision number. *)
Definition double (x : R) : Prop := FLT_format radix2 (-1074) 53 x.
