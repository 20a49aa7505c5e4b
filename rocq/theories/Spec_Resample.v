(** Specification vocabulary for resampling data frames (C98). *)
From Coq Require Import List ZArith Reals Bool.
From Verif Require Import Base Offsets Spec_Offsets.
Import ListNotations.

(** The rule takes every time of its kind: it is a number of seconds, or one step of weeks, months,
    quarters or years (not "2AS"). *)
Definition every (o : offset) : Prop := (is_tick o /\ 0 < stride o)%Z \/ (~ is_tick o /\ stride o = 1%Z).

(** [x] is among the times of the rule seen from [t0]: a whole number of steps of seconds away, or on the
    offset at the same time of the day. *)
Definition of_rule (D : Z -> Z -> Z -> Z) (o : offset) (t0 x : Z) : Prop :=
  match o with
  | OTick n => exists k, x = (t0 + k * n)%Z
  | _ => on D o x /\ same_clock t0 x
  end.

(** Sum of value times length over those periods that lie between [a] and [b]. *)
Fixpoint total (a b : Z) (t : list Z) (v : list R) : R :=
  match t, v with
  | u :: ((u' :: _) as t'), y :: v' =>
    ((if (a <=? u)%Z && (u' <=? b)%Z then y * IZR (u' - u) else 0) + total a b t' v')%R
  | _, _ => 0%R
  end.
