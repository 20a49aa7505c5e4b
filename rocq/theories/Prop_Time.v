(** C23-C33: conversion of timeseries between time points, and time points themselves.
    Vocabulary: [Spec_Time.v].  [conversion ty ex s v t r] says that [TimeseriesConverter]
    answers [r] when converting values [v] at the time points [s] to the time points [t]. *)
From Coq Require Import String List ZArith Reals Bool Sorted Lia Lra.
From Verif Require Import Base Units TimeModel Calendar Spec_Time TimeProps Examples.
Import ListNotations.
Local Open Scope R_scope.
Local Open Scope list_scope.

(** Unequal periods, used in the instances below. *)
Definition grid : list Z := [0; 10; 25; 45]%Z.
Definition fine : list Z := [0; 4; 10; 25; 30; 45]%Z.
Definition outer : list Z := [-20; 0; 7; 33; 60; 70]%Z.
Lemma grid_up : increasing grid. Proof. repeat constructor; simpl; lia. Qed.
Lemma fine_up : increasing fine. Proof. repeat constructor; simpl; lia. Qed.
Lemma outer_up : increasing outer. Proof. repeat constructor; simpl; lia. Qed.
Ltac converted ty ex s v t I J := let r := fresh "r" in
  assert (exists r, conversion ty ex s v t r) as [r ?] by (eexists; left; eexists; split; reflexivity);
  let w := fresh "w" in destruct (others_succeed ty ex s v t r) as [w ->];
  [unfold timeseries; auto|exact I|exact J|split; [reflexivity|discriminate]|simpl; lia|simpl; lia|discriminate|assumption|].

(** C23: converting averages to the same periods returns them unchanged. *)
Theorem C23_average_identity ex t v :
  increasing t -> belongs AVERAGE_TIMESERIES t v -> (3 <= length v)%nat ->
  exists c, timeseries_converter t t AVERAGE_TIMESERIES ex = Ok c /\
    tconvert_from c v = Ok v /\ tconvert_to c v = Ok v.
Proof. exact (same_grid AVERAGE_TIMESERIES ex t v (or_introl eq_refl)). Qed.
Print Assumptions C23_average_identity.

Example C23_instance : increasing grid /\ belongs AVERAGE_TIMESERIES grid [1; 2; 5] /\ (3 <= length [1; 2; 5])%nat.
Proof. split; [exact grid_up|]. split; [split; [reflexivity|discriminate]|simpl; lia]. Qed.

(** C24: converting points to the same time points returns them unchanged. *)
Theorem C24_point_identity ex t v :
  increasing t -> belongs POINT_TIMESERIES t v -> (3 <= length v)%nat ->
  exists c, timeseries_converter t t POINT_TIMESERIES ex = Ok c /\
    tconvert_from c v = Ok v /\ tconvert_to c v = Ok v.
Proof. exact (same_grid POINT_TIMESERIES ex t v (or_intror eq_refl)). Qed.
Print Assumptions C24_point_identity.

Example C24_instance : increasing grid /\ belongs POINT_TIMESERIES grid [1; 2; 5; 3] /\ (3 <= length [1; 2; 5; 3])%nat.
Proof. split; [exact grid_up|]. split; [split; [reflexivity|discriminate]|simpl; lia]. Qed.

(** C25: between time points with the same first and last element, converting averages
    succeeds and keeps the sum of value times period length. *)
Theorem C25_integral_conserved ex s t v :
  increasing s -> increasing t -> belongs AVERAGE_TIMESERIES s v -> (3 <= length v)%nat ->
  (2 <= length t)%nat -> hd 0%Z s = hd 0%Z t -> last s 0%Z = last t 0%Z ->
  (exists c, timeseries_converter s t AVERAGE_TIMESERIES ex = Ok c) /\
  (exists c, timeseries_converter t s AVERAGE_TIMESERIES ex = Ok c) /\
  forall r, conversion AVERAGE_TIMESERIES ex s v t r ->
    exists w, r = Ok w /\ belongs AVERAGE_TIMESERIES t w /\ integral t w = integral s v.
Proof. exact (conserve ex s t v). Qed.
Print Assumptions C25_integral_conserved.

Example C25_instance : increasing fine /\ increasing grid /\ belongs AVERAGE_TIMESERIES fine [1; 2; 5; 3; 8] /\
  hd 0%Z fine = hd 0%Z grid /\ last fine 0%Z = last grid 0%Z /\ integral fine [1; 2; 5; 3; 8] = 226.
Proof.
  split; [exact fine_up|]. split; [exact grid_up|]. split; [split; [reflexivity|discriminate]|].
  split; [reflexivity|]. split; [reflexivity|]. simpl. lra.
Qed.

(** C26: inside the source range a converted point lies on the straight line between the two
    neighbouring source points ... *)
Theorem C26_interpolant ex s v t w :
  increasing s -> conversion POINT_TIMESERIES ex s v t (Ok w) ->
  forall i j x0 x1 y0 y1 x,
    nth_error s i = Some x0 -> nth_error s (S i) = Some x1 ->
    nth_error v i = Some y0 -> nth_error v (S i) = Some y1 ->
    nth_error t j = Some x -> (x0 <= x <= x1)%Z ->
    nth_error w j = Some (line x0 y0 x1 y1 (IZR x)).
Proof. exact (interpolant ex s v t w). Qed.
Print Assumptions C26_interpolant.

(** ... such neighbours exist, ... *)
Theorem C26_neighbours s x :
  increasing s -> (2 <= length s)%nat -> (hd 0 s <= x <= last s 0)%Z ->
  exists i x0 x1, nth_error s i = Some x0 /\ nth_error s (S i) = Some x1 /\ (x0 <= x <= x1)%Z.
Proof. exact (bracket s x). Qed.
Print Assumptions C26_neighbours.

(** ... that line passes through both points and stays between their values, ... *)
Theorem C26_between x0 y0 x1 y1 x :
  (x0 < x1)%Z -> (x0 <= x <= x1)%Z ->
  line x0 y0 x1 y1 (IZR x0) = y0 /\ line x0 y0 x1 y1 (IZR x1) = y1 /\
  Rmin y0 y1 <= line x0 y0 x1 y1 (IZR x) <= Rmax y0 y1.
Proof. exact (line_facts x0 y0 x1 y1 x). Qed.
Print Assumptions C26_between.

(** ... and data on a straight line stays on it. *)
Theorem C26_linear_data ex s v t w a b :
  increasing s -> conversion POINT_TIMESERIES ex s v t (Ok w) ->
  v = map (fun z => a * IZR z + b) s ->
  forall j x, nth_error t j = Some x -> (hd 0 s <= x <= last s 0)%Z ->
    nth_error w j = Some (a * IZR x + b).
Proof. exact (linear_exact ex s v t w a b). Qed.
Print Assumptions C26_linear_data.

Example C26_instance : exists w, conversion POINT_TIMESERIES XLINEAR grid [1; 2; 5; 3] outer (Ok w) /\
  nth_error w 2 = Some (17 / 10).
Proof.
  converted POINT_TIMESERIES XLINEAR grid [1; 2; 5; 3] outer grid_up outer_up.
  exists w. split; [assumption|].
  rewrite (C26_interpolant _ _ _ _ _ grid_up H 0 2 0%Z 10%Z 1 2 7%Z); try reflexivity; [|lia].
  f_equal. unfold line. simpl. lra.
Qed.

(** C27 does not hold: with LINEAR and CONSTANT the converter cannot even be made if two target
    points precede the source (time.py 176-177), ... *)
Theorem C27_extrapolation_refuted : exists ty ex s t,
  timeseries ty /\ ex <> XNONE /\ increasing s /\ increasing t /\ (2 <= length t)%nat /\ (3 <= length s)%nat /\
  timeseries_converter s t ty ex = Err EInsufficientData.
Proof.
  exists POINT_TIMESERIES, XLINEAR, grid, [-20; -10; 7; 33]%Z. split; [right; reflexivity|]. split; [discriminate|].
  split; [exact grid_up|]. split; [repeat constructor; simpl; lia|].
  split; [simpl; lia|]. split; [simpl; lia|]. reflexivity.
Qed.
Print Assumptions C27_extrapolation_refuted.

(** ... and with NONE, data at [s] covering all of [t] cannot be converted with the
    [convert_to] of a converter between [t] and [s], since making it fails. *)
Theorem C27_none_refuted : exists ty s t,
  timeseries ty /\ increasing s /\ increasing t /\ (3 <= length t)%nat /\
  (forall x, In x t -> hd 0%Z s < x < last s 0%Z)%Z /\
  timeseries_converter t s ty XNONE = Err EInsufficientData.
Proof.
  exists POINT_TIMESERIES, [0; 10; 20; 30; 40]%Z, [15; 25; 35]%Z. split; [right; reflexivity|].
  split; [repeat constructor; simpl; lia|]. split; [repeat constructor; simpl; lia|].
  split; [simpl; lia|]. split; [|reflexivity]. simpl. intros x [<- | [<- | [<- | []]]]; lia.
Qed.
Print Assumptions C27_none_refuted.

(** C27, what holds of converters that can be made: NONE raises InsufficientDataError exactly
    when a target point is outside the source range. *)
Theorem C27_none_partial ty s v t r :
  timeseries ty -> increasing s -> increasing t -> belongs ty s v -> (3 <= length v)%nat ->
  (2 <= length t)%nat -> conversion ty XNONE s v t r ->
  ((exists x, In x t /\ ~ (hd 0 s <= x <= last s 0)%Z) <-> r = Err EInsufficientData) /\
  ((forall x, In x t -> (hd 0 s <= x <= last s 0)%Z) <-> exists w, r = Ok w).
Proof. exact (none_iff ty s v t r). Qed.
Print Assumptions C27_none_partial.

(** NONE, including the making of the converter, for [convert_from]. *)
Theorem C27_none_from ty s v t :
  timeseries ty -> increasing s -> increasing t -> belongs ty s v -> (3 <= length v)%nat -> (2 <= length t)%nat ->
  ((exists x, In x t /\ ~ (hd 0 s <= x <= last s 0)%Z) <->
   rbind (timeseries_converter s t ty XNONE) (fun c => tconvert_from c v) = Err EInsufficientData).
Proof. exact (none_from ty s v t). Qed.
Print Assumptions C27_none_from.

(** CONSTANT and LINEAR never fail once the converter is made; *)
Theorem C27_others_succeed_partial ty ex s v t r :
  timeseries ty -> increasing s -> increasing t -> belongs ty s v -> (3 <= length v)%nat ->
  (2 <= length t)%nat -> ex <> XNONE -> conversion ty ex s v t r -> exists w, r = Ok w.
Proof. exact (others_succeed ty ex s v t r). Qed.
Print Assumptions C27_others_succeed_partial.

(** points outside get the first or last value with CONSTANT, *)
Theorem C27_constant_points s v t w j x :
  increasing s -> conversion POINT_TIMESERIES XCONSTANT s v t (Ok w) -> nth_error t j = Some x ->
  ((x < hd 0 s)%Z -> nth_error w j = Some (hd 0 v)) /\ ((last s 0 < x)%Z -> nth_error w j = Some (last v 0)).
Proof. exact (constant_points s v t w j x). Qed.
Print Assumptions C27_constant_points.

(** and so do periods outside; *)
Theorem C27_constant_averages s v t w j l u :
  increasing s -> conversion AVERAGE_TIMESERIES XCONSTANT s v t (Ok w) ->
  nth_error t j = Some l -> nth_error t (S j) = Some u -> (l < u)%Z ->
  ((u <= hd 0 s)%Z -> nth_error w j = Some (hd 0 v)) /\ ((last s 0 <= l)%Z -> nth_error w j = Some (last v 0)).
Proof. exact (constant_averages s v t w j l u). Qed.
Print Assumptions C27_constant_averages.

(** with LINEAR points outside lie on the line through the first or last two points, *)
Theorem C27_linear_points_left s0 s1 s y0 y1 v t w j x :
  conversion POINT_TIMESERIES XLINEAR (s0 :: s1 :: s) (y0 :: y1 :: v) t (Ok w) ->
  nth_error t j = Some x -> (x <= s1)%Z -> nth_error w j = Some (line s0 y0 s1 y1 (IZR x)).
Proof. exact (linear_points_left s0 s1 s y0 y1 v t w j x). Qed.
Print Assumptions C27_linear_points_left.

Theorem C27_linear_points_right s sp sl v yp yl t w j x :
  increasing (s ++ [sp; sl]) ->
  conversion POINT_TIMESERIES XLINEAR (s ++ [sp; sl]) (v ++ [yp; yl]) t (Ok w) ->
  nth_error t j = Some x -> (sp <= x)%Z -> nth_error w j = Some (line sp yp sl yl (IZR x)).
Proof. exact (linear_points_right s sp sl v yp yl t w j x). Qed.
Print Assumptions C27_linear_points_right.

(** and periods outside have the average of the line that has the first (last) value in the
    middle of the first (last) period and the slope (difference of the first, last, two
    values)/(length of the first, last, period). *)
Theorem C27_linear_averages_left s0 s1 s y0 y1 v t w j l u :
  increasing (s0 :: s1 :: s) ->
  conversion AVERAGE_TIMESERIES XLINEAR (s0 :: s1 :: s) (y0 :: y1 :: v) t (Ok w) ->
  nth_error t j = Some l -> nth_error t (S j) = Some u -> (l < u)%Z -> (u <= s0)%Z ->
  nth_error w j = Some (y0 + (y1 - y0) / IZR (s1 - s0) * ((IZR l + IZR u) / 2 - (IZR s0 + IZR s1) / 2)).
Proof. exact (linear_averages_left s0 s1 s y0 y1 v t w j l u). Qed.
Print Assumptions C27_linear_averages_left.

Theorem C27_linear_averages_right s sp sl v yp yl t w j l u :
  increasing (s ++ [sp; sl]) ->
  conversion AVERAGE_TIMESERIES XLINEAR (s ++ [sp; sl]) (v ++ [yp; yl]) t (Ok w) ->
  nth_error t j = Some l -> nth_error t (S j) = Some u -> (l < u)%Z -> (sl <= l)%Z ->
  nth_error w j = Some (yl + (yl - yp) / IZR (sl - sp) * ((IZR l + IZR u) / 2 - (IZR sp + IZR sl) / 2)).
Proof. exact (linear_averages_right s sp sl v yp yl t w j l u). Qed.
Print Assumptions C27_linear_averages_right.

(** No extrapolation type affects points or periods inside the source range. *)
Theorem C27_inside_points ex ex' s v t w t' w' j j' x :
  increasing s ->
  conversion POINT_TIMESERIES ex s v t (Ok w) -> conversion POINT_TIMESERIES ex' s v t' (Ok w') ->
  nth_error t j = Some x -> nth_error t' j' = Some x -> (hd 0 s <= x <= last s 0)%Z ->
  nth_error w j = nth_error w' j'.
Proof. exact (inside_points ex ex' s v t w t' w' j j' x). Qed.
Print Assumptions C27_inside_points.

Theorem C27_inside_averages ex ex' s v t w t' w' j j' l u :
  increasing s ->
  conversion AVERAGE_TIMESERIES ex s v t (Ok w) -> conversion AVERAGE_TIMESERIES ex' s v t' (Ok w') ->
  nth_error t j = Some l -> nth_error t (S j) = Some u -> nth_error t' j' = Some l -> nth_error t' (S j') = Some u ->
  (l < u)%Z -> (hd 0 s <= l)%Z -> (u <= last s 0)%Z -> nth_error w j = nth_error w' j'.
Proof. exact (inside_averages ex ex' s v t w t' w' j j' l u). Qed.
Print Assumptions C27_inside_averages.

Example C27_instance :
  (exists r, conversion POINT_TIMESERIES XNONE grid [1; 2; 5; 3] fine r) /\
  (exists w, conversion POINT_TIMESERIES XCONSTANT grid [1; 2; 5; 3] [-20; 7; 33; 60; 70]%Z (Ok w)) /\
  (exists w, conversion AVERAGE_TIMESERIES XCONSTANT grid [1; 2; 5] [-20; 0; 33; 60; 70]%Z (Ok w)) /\
  (exists w, conversion AVERAGE_TIMESERIES XLINEAR grid [1; 2; 5] [-20; 0; 33; 60; 70]%Z (Ok w)).
Proof.
  split; [eexists; left; eexists; split; reflexivity|].
  assert (I : increasing [-20; 7; 33; 60; 70]%Z) by (repeat constructor; simpl; lia).
  assert (J : increasing [-20; 0; 33; 60; 70]%Z) by (repeat constructor; simpl; lia).
  split; [converted POINT_TIMESERIES XCONSTANT grid [1; 2; 5; 3] [-20; 7; 33; 60; 70]%Z grid_up I; eauto|].
  split; [converted AVERAGE_TIMESERIES XCONSTANT grid [1; 2; 5] [-20; 0; 33; 60; 70]%Z grid_up J; eauto|].
  converted AVERAGE_TIMESERIES XLINEAR grid [1; 2; 5] [-20; 0; 33; 60; 70]%Z grid_up J; eauto.
Qed.

(** C28: if the target contains all source time points and has the same range, converting
    there and back returns the original values. *)
Theorem C28_refine_lossless ty ex s t v :
  timeseries ty -> increasing s -> increasing t -> belongs ty s v -> (3 <= length v)%nat ->
  hd 0%Z s = hd 0%Z t -> last s 0%Z = last t 0%Z -> (forall x, In x s -> In x t) ->
  exists c w, timeseries_converter s t ty ex = Ok c /\ tconvert_from c v = Ok w /\ tconvert_to c w = Ok v.
Proof. exact (refine ty ex s t v). Qed.
Print Assumptions C28_refine_lossless.

Example C28_instance : increasing grid /\ increasing fine /\ (forall x, In x grid -> In x fine) /\
  hd 0%Z grid = hd 0%Z fine /\ last grid 0%Z = last fine 0%Z /\ belongs AVERAGE_TIMESERIES grid [1; 2; 5].
Proof.
  split; [exact grid_up|]. split; [exact fine_up|].
  split; [simpl; tauto|]. split; [reflexivity|]. split; [reflexivity|]. split; [reflexivity|discriminate].
Qed.

(** C29: a successful conversion has exactly as many values as the target time points define,
    and the converter's declared lengths say so. (Views: C29_read_length.) *)
Theorem C29_converted_length ty ex s v t w :
  conversion ty ex s v t (Ok w) -> belongs ty t w /\ timeseries ty.
Proof. exact (result_length ty ex s v t w). Qed.
Print Assumptions C29_converted_length.

Theorem C29_declared_length ty ex s t c :
  timeseries_converter s t ty ex = Ok c -> timeseries ty ->
  source_length c = Z.of_nat (value_count ty s) /\ target_length c = Z.of_nat (value_count ty t).
Proof. exact (declared_length ty ex s t c). Qed.
Print Assumptions C29_declared_length.

Example C29_instance : exists w, conversion AVERAGE_TIMESERIES XLINEAR grid [1; 2; 5] fine (Ok w) /\ length w = 5%nat.
Proof.
  converted AVERAGE_TIMESERIES XLINEAR grid [1; 2; 5] fine grid_up fine_up.
  exists w. split; auto. apply C29_converted_length in H. apply H.
Qed.

(** C30 does not hold: days 0-3 given in seconds and in days are converted as if different. *)
Theorem C30_resolution_refuted : exists s t v w,
  instants s = instants t /\ increasing (instants s) /\
  tp_conversion POINT_TIMESERIES XLINEAR s v s (Ok v) /\
  tp_conversion POINT_TIMESERIES XLINEAR s v t (Ok w) /\ w <> v.
Proof.
  destruct resolution_matters as (E & I & S & w & T & N).
  exists (mkTP 1 [0; 86400; 172800; 259200]%Z), (mkTP 86400 [0; 1; 2; 3]%Z), [0; 1; 2; 3], w. auto.
Qed.
Print Assumptions C30_resolution_refuted.

(** C30, what holds: if source and target have the same resolution, re-expressing both in
    another common resolution changes nothing.  Missing: source and target of different
    resolutions. *)
Theorem C30_common_resolution_partial ty ex s v t r s' t' :
  increasing (instants s) -> increasing (instants t) -> (0 < tp_res s)%Z -> (0 < tp_res s')%Z ->
  (2 <= length (tp_ticks t))%nat ->
  tp_res s = tp_res t -> tp_res s' = tp_res t' -> instants s = instants s' -> instants t = instants t' ->
  tp_conversion ty ex s v t r -> tp_conversion ty ex s' v t' r.
Proof. exact (same_instants ty ex s v t r s' t'). Qed.
Print Assumptions C30_common_resolution_partial.

Example C30_instance : let s := mkTP 86400 [0; 1; 2; 5]%Z in let t := mkTP 86400 [0; 2; 4]%Z in
  let s' := mkTP 3600 [0; 24; 48; 120]%Z in let t' := mkTP 3600 [0; 48; 96]%Z in
  instants s = instants s' /\ instants t = instants t' /\
  exists r, tp_conversion POINT_TIMESERIES XNONE s [1; 2; 5; 3] t r.
Proof. cbv zeta. split; [reflexivity|]. split; [reflexivity|]. eexists. left. eexists. split; reflexivity. Qed.

(** C31 does not hold: three points from 1970 every 400 ms are all equal. *)
Theorem C31_equidistant_refuted : exists st pd n l i x,
  create_time_points st pd n (AEnum POINT_TIMESERIES) = Ok l /\ nth_error l i = Some x /\
  (x * 1000000000 <> dt_ns st + Z.of_nat i * dt_ns pd)%Z.
Proof.
  exists (mkDT 1000000000 0), (mkDT 1000000 400), 3%Z, [0; 0; 0]%Z, 1%nat, 0%Z.
  split; [exact subsecond|]. split; [reflexivity|]. unfold dt_ns. simpl. lia.
Qed.
Print Assumptions C31_equidistant_refuted.

(** C31, what holds: for starts and periods of whole seconds, as long as all points are within
    2^52 seconds of 1970, the points are exact although computed in floating point. Missing:
    fractions of seconds, calendar units. *)
Theorem C31_equidistant_partial st pd n a ty S P :
  from_timeseries_type a = Ok ty -> dt_ns st = (S * 1000000000)%Z -> dt_ns pd = (P * 1000000000)%Z ->
  let k := match ty with AVERAGE_TIMESERIES => (n + 1)%Z | _ => n end in
  (0 <= k)%Z -> (- 2 ^ 52 < S < 2 ^ 52)%Z -> (- 2 ^ 52 < S + (k - 1) * P < 2 ^ 52)%Z ->
  exists l, create_time_points st pd n a = Ok l /\ Z.of_nat (length l) = k /\
    forall i, (0 <= i < k)%Z -> nth_error l (Z.to_nat i) = Some (S + i * P)%Z.
Proof. exact (create_points st pd n a ty S P). Qed.
Print Assumptions C31_equidistant_partial.

(** 101 points every 7 hours from day 1000. *)
Example C31_instance : let st := mkDT 86400000000000 1000 in let pd := mkDT 3600000000000 7 in
  dt_ns st = (86400000 * 1000000000)%Z /\ dt_ns pd = (25200 * 1000000000)%Z /\
  (- 2 ^ 52 < 86400000 < 2 ^ 52)%Z /\ (- 2 ^ 52 < 86400000 + (101 - 1) * 25200 < 2 ^ 52)%Z.
Proof. cbv zeta. split; [reflexivity|]. split; [reflexivity|]. lia. Qed.

(** C32 does not hold: the float 9999 raises ValueError, the integer 9999 is fine. *)
Theorem C32_last_year_refuted : exists cal y Y,
  calendar cal /\ double y /\ y = IZR Y /\ float_year_to_datetime y = Err EValueError /\
  format_int_years [Y] = [cal Y].
Proof.
  exists np_year_seconds, 9999, 9999%Z. split; [exact calendar_np|]. split; [apply year_9999|].
  split; [reflexivity|]. split; [apply year_9999|reflexivity].
Qed.
Print Assumptions C32_last_year_refuted.

(** C32, what holds: for doubles from 1 to below 9999 the instant lies in the calendar year
    (also after rounding), exactly its start for whole years, ... *)
Theorem C32_in_year_partial cal y :
  calendar cal -> double y -> 1 <= y < 9999 ->
  exists Y sec, IZR Y <= y < IZR (Y + 1) /\ float_year_to_datetime y = Ok sec /\
    (cal Y <= sec < cal (Y + 1))%Z /\ (y = IZR Y -> sec = cal Y).
Proof. exact (float_year cal y). Qed.
Print Assumptions C32_in_year_partial.

(** ... larger floats never map to earlier instants, ... *)
Theorem C32_monotone_partial y y' a b :
  double y -> double y' -> 1 <= y < 9999 -> 1 <= y' < 9999 -> y <= y' ->
  float_year_to_datetime y = Ok a -> float_year_to_datetime y' = Ok b -> (a <= b)%Z.
Proof. exact (float_year_mono y y' a b). Qed.
Print Assumptions C32_monotone_partial.

(** ... and integer years (of any sign) are the starts of the calendar years. *)
Theorem C32_integer_years cal ys : calendar cal -> format_int_years ys = map cal ys.
Proof. exact (int_years cal ys). Qed.
Print Assumptions C32_integer_years.

Example C32_instance : calendar np_year_seconds /\ double 2017 /\ double (4035 / 2).
Proof. split; [exact calendar_np|]. exact two_doubles. Qed.

(** C33: conversion is linear, ... *)
Theorem C33_linear ty ex s x y t p q a b :
  increasing s -> conversion ty ex s x t (Ok p) -> conversion ty ex s y t (Ok q) ->
  conversion ty ex s (lin_comb a x b y) t (Ok (lin_comb a p b q)).
Proof. exact (conversion_linear ty ex s x y t p q a b). Qed.
Print Assumptions C33_linear.

(** ... maps constants to the same constant, ... *)
Theorem C33_constant ty ex s t c n w :
  increasing s -> increasing t -> conversion ty ex s (repeat c n) t (Ok w) -> w = repeat c (length w).
Proof. exact (conversion_constant ty ex s t c n w). Qed.
Print Assumptions C33_constant.

(** ... so converting units first or time first gives the same. *)
Theorem C33_units_commute ty ex s x t p (c : uconv) :
  increasing s -> increasing t -> conversion ty ex s x t (Ok p) ->
  conversion ty ex s (map (uconvert_from c) x) t (Ok (map (uconvert_from c) p)) /\
  conversion ty ex s (map (uconvert_to c) x) t (Ok (map (uconvert_to c) p)).
Proof. exact (units_from ty ex s x t p c). Qed.
Print Assumptions C33_units_commute.

Example C33_instance :
  (exists p, conversion AVERAGE_TIMESERIES XLINEAR grid [1; 2; 5] fine (Ok p)) /\
  (exists p, conversion AVERAGE_TIMESERIES XLINEAR grid (repeat 4 3) fine (Ok p)).
Proof.
  split.
  - converted AVERAGE_TIMESERIES XLINEAR grid [1; 2; 5] fine grid_up fine_up; eauto.
  - converted AVERAGE_TIMESERIES XLINEAR grid (repeat 4 3) fine grid_up fine_up; eauto.
Qed.
