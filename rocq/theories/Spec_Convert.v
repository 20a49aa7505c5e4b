(** Specification vocabulary for sequences of unit conversions of data frames (C95). *)
From Coq Require Import String List ZArith Reals.
From Verif Require Import Base Units Core Spec_Core Filters Frame Spec_Frame.
Import ListNotations.

(** [g] is what [f] becomes in place by calls of [convert_unit] without context, each with any new unit
    and any filter, successful or not. *)
Inductive converted (env : uenv) (f : frame) : frame -> Prop :=
| not_yet : converted env f f
| one_more g unit keep regexp has_nan filters :
    converted env f g -> converted env f (fst (convert_unit (plain_converter env unit) unit None keep regexp has_nan filters g)).

(** The values [xs] in the unit [u] and [ys] in the unit [w] are the same; in different units (or the same)
    they are the same quantities. *)
Definition same_series (env : uenv) (u : string) (xs : list num) (w : string) (ys : list num) : Prop :=
  (w = u /\ ys = xs) \/ Forall2 (fun x y => same_num env u x w y) xs ys.
