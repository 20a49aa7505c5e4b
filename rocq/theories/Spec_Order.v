(** Specification vocabulary for the order of converted values (C103). *)
From Coq Require Import List ZArith Reals.
From Verif Require Import TimeModel.

(** All target times are between the first and the last source time. *)
Definition inside (s t : list Z) : Prop := forall x, In x t -> (hd 0 s <= x <= last s 0)%Z.
(** The times at which values are needed are those of the data, or the extrapolation does not continue
    the last piece straight. *)
Definition tame (ex : extrapolation) (s t : list Z) : Prop := ex <> XLINEAR \/ inside s t.
(** No value is above the one at the same position. *)
Definition below (v w : list R) : Prop := Forall2 Rle v w.
