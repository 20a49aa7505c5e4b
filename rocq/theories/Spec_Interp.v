(** Specification vocabulary for interpolating data frames (C53). *)
From Coq Require Import String List ZArith Reals.
From Verif Require Import Base Units TimeModel Core Filters ParameterType Frame Spec_Frame.
Import ListNotations.

(** Averages need the end of the last period; it is taken to be as long as the one before. *)
Definition closed (t : list Z) : list Z :=
  match rev t with b :: a :: _ => (t ++ [2 * b - a])%Z | _ => t end.
Definition grid (p : ptype) (t : list Z) : list Z := match p with AVERAGE_TIMESERIES => closed t | _ => t end.

(** The type of a timeseries: the one that its metadata say, without regard to case; where they say
    [None] or nothing, the guess from variable and unit. *)
Definition named_type (s : string) (p : ptype) : Prop :=
  (lower s = "average"%string /\ p = AVERAGE_TIMESERIES) \/ (lower s = "point"%string /\ p = POINT_TIMESERIES).
Definition type_known (env : uenv) (f : frame) (l : Z) (p : ptype) : Prop :=
  (exists s, meta_of f l "parameter_type" (MStr s) /\ named_type s p) \/
  ((meta_of f l "parameter_type" MNone \/ ~ In "parameter_type"%string (fr_cols f)) /\ (p = AVERAGE_TIMESERIES \/ p = POINT_TIMESERIES) /\
   exists v u q, meta_of f l "variable" (MStr v) /\ meta_of f l "unit" (MStr u) /\ guess_parameter_type env v (Some u) = Ok q /\
     (q = AVERAGE_TIMESERIES <-> p = AVERAGE_TIMESERIES)).
Definition type_text (p : ptype) : string := match p with AVERAGE_TIMESERIES => "average" | _ => "point" end.

(** [w] are the values [xs] at the times [s] converted to the times [t] (C23-C33 say how). *)
Definition regridded (p : ptype) (ex : extrapolation) (s : list Z) (xs : list R) (t : list Z) (w : list R) : Prop :=
  exists c, timeseries_converter s t p ex = Ok c /\ tconvert_from c xs = Ok w.
