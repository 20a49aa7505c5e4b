(** Specification vocabulary for statistics over metadata (C67) and reference periods (C59). *)
From Coq Require Import String List ZArith Reals Permutation Sorted.
From Verif Require Import Base Core Filters Frame Spec_Frame Spec_Append FrameWide.
Import ListNotations.
Local Open Scope R_scope.

Definition middle (xs : list R) (m : R) : Prop :=
  exists ys, Permutation xs ys /\ StronglySorted Rle ys /\
    m = (nth (Nat.div (length ys - 1) 2) ys 0 + nth (Nat.div (length ys) 2) ys 0) / 2.
(** The value at the fraction [q] of the way through the sorted values, linearly interpolated. *)
Definition at_fraction (q : R) (xs : list R) (m : R) : Prop :=
  exists ys i, Permutation xs ys /\ StronglySorted Rle ys /\ INR i <= INR (length ys - 1) * q < INR i + 1 /\
    let y := nth i ys 0 in m = y + (nth (i + 1) ys y - y) * (INR (length ys - 1) * q - INR i).
Definition stat_spec (op : operation) (xs : list R) (m : R) : Prop :=
  match op with
  | Mean => m = mean xs
  | Median => middle xs m
  | Quantile q => 0 <= q <= 1 /\ at_fraction q xs m
  | Other => False
  end.

Definition tag_dec (a b : list (string * mval)) : {a = b} + {a <> b}.
Proof. repeat decide equality. apply Qcanon.Qc_eq_dec. Defined.
(** The timeseries with given metadata, as pairs of time and value. *)
Definition track (pts : list point) (k : list (string * mval)) : list (Z * R) :=
  map (fun pt => (snd (fst pt), snd pt)) (filter (fun pt => if tag_dec (fst (fst pt)) k then true else false) pts).
(** The metadata after the variable got a suffix. *)
Definition suffixed (s : string) (k : list (string * mval)) : list (string * mval) :=
  map (fun p => if String.eqb (fst p) "variable"
                then (fst p, match snd p with MStr v => MStr (v ++ " " ++ s)%string | w => w end) else p) k.
