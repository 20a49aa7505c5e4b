(** C97: conversion of time series gives the exact values that can be computed with rational
    numbers alone.  Vocabulary: [Spec_Time.v] and [Spec_Exact.v]. *)
From Coq Require Import List ZArith QArith Qreals Reals Bool Lia.
From Verif Require Import Base TimeModel Spec_Time TimeProps Spec_Exact TimeConv ExactProps.
Import ListNotations.
Local Open Scope list_scope.

(** Values at times: the polyline through them, continued straight, or constant if the
    extrapolation type is CONSTANT. *)
Theorem C97_points ex s v t w :
  increasing s -> conversion POINT_TIMESERIES ex s (map Q2R v) t (Ok w) ->
  w = map Q2R (map (value_at (of_points (match ex with XCONSTANT => true | _ => false end) s v)) (map inject_Z t)).
Proof. intros I H. apply exact_points; [apply incr_IZR; exact I|symmetry; exact (conversion_eq _ _ _ _ _ _ H)]. Qed.
Print Assumptions C97_points.

(** Averages: areas under a polyline, sums of trapezoids, divided by the lengths of the periods. *)
Theorem C97_averages ex s v t w :
  increasing s -> increasing t -> conversion AVERAGE_TIMESERIES ex s (map Q2R v) t (Ok w) ->
  w = map Q2R (averages (of_averages (match ex with XCONSTANT => true | _ => false end) s v) (map inject_Z t)).
Proof.
  intros I J H. apply exact_averages; [apply incr_IZR; exact I|apply incr_IZR; exact J|].
  symmetry. exact (conversion_eq _ _ _ _ _ _ H).
Qed.
Print Assumptions C97_averages.

(** Four averages over unequal periods, converted to periods reaching beyond both ends, and five
    values at the same times. *)
Example C97_case : let s := [0; 10; 25; 45; 60]%Z in let v := [1; 4; 2; 7 # 2]%Q in let t := [-20; 0; 7; 33; 70]%Z in
  increasing s /\ increasing t /\
  conversion AVERAGE_TIMESERIES XCONSTANT s (map Q2R v) t (Ok (map Q2R [1; 11 # 20; 1683 # 520; 219 # 74]%Q)) /\
  conversion AVERAGE_TIMESERIES XLINEAR s (map Q2R v) t (Ok (map Q2R [- 7 # 2; 11 # 20; 1683 # 520; 122 # 37]%Q)) /\
  conversion POINT_TIMESERIES XLINEAR s (map Q2R (v ++ [5%Q])) t (Ok (map Q2R [-5 # 1; 1; 31 # 10; 13 # 5; 6]%Q)).
Proof.
  cbv zeta.
  assert (I : increasing [0; 10; 25; 45; 60]%Z) by (repeat constructor; lia).
  assert (J : increasing [-20; 0; 7; 33; 70]%Z) by (repeat constructor; lia).
  split; [exact I|]. split; [exact J|].
  split; [|split]; left; eexists; (split; [reflexivity|]); unfold tconvert_from; cbn [tc_type tc_extra tc_source tc_target];
    (rewrite exactly; [|unfold timeseries; auto|exact I|exact J|split; [reflexivity|discriminate]|cbn; lia|cbn; lia|discriminate]);
    f_equal.
Qed.
