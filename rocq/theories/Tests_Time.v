(** Validation of the model of time conversion: the cases of the repository's own tests, with the
    numbers written there.  These are examples on literals; the theorems are in [Prop_Time.v] and
    [Prop_Exact.v].  /repo/tests/conftest.py 381-486 ([possible_target_values]),
    tests/integration/test_timeseries_conversion.py, tests/unit/test_timeseries_converter.py. *)
From Coq Require Import List ZArith QArith Qreals Reals Bool Lia Sorted.
From Verif Require Import Base TimeModel Calendar CalendarFacts Spec_Time TimeProps Spec_Exact TimeConv ExactProps.
Import ListNotations.
Local Open Scope list_scope.

(** One combination: start and length of a period in days since 2000-01-01, as in conftest.py. *)
Record combination := mkCombo {
  k_source_start : Z; k_source_length : Z; k_target_start : Z; k_target_length : Z;
  k_source : list Q; k_target : list Q; k_type : ptype; k_extra : extrapolation }.
(** conftest.py 379 *)
Definition possible : list Q := [1; 5; 3; 5; 7; 3; 2; 9]%Q.
(** conftest.py 381-486; decimals as written there *)
Definition combos : list combination := [
  mkCombo 0 10 (-5) 5 possible [-1 # 1; 1; 3; 5; 4; 3; 4; 5; 6; 7; 5; 3; 5 # 2; 2; 11 # 2; 9; 25 # 2]%Q POINT_TIMESERIES XLINEAR;
  mkCombo 0 10 (-50) 50 possible [1; 1; 3; 9]%Q POINT_TIMESERIES XCONSTANT;
  mkCombo 0 10 4 7 possible
    [202142857 # 100000000; 537857143 # 100000000; 342857143 # 100000000; 334285714 # 100000000; 51 # 10;
     718571429 # 100000000; 544642857 # 100000000; 249642857 # 100000000; 120714286 # 100000000;
     559285714 # 100000000; 1075 # 100]%Q AVERAGE_TIMESERIES XLINEAR;
  mkCombo 0 10 0 5 possible
    [0; 2; 475 # 100; 525 # 100; 3; 3; 45 # 10; 55 # 10; 725 # 100; 675 # 100; 3625 # 1000; 2375 # 1000; 125 # 100;
     275 # 100; 725 # 100; 1075 # 100]%Q AVERAGE_TIMESERIES XLINEAR;
  mkCombo 3 3 0 5 possible
    [-166666667 # 100000000; 413333333 # 100000000; 413333333 # 100000000; 551666667 # 100000000; 301666667 # 100000000]%Q
    AVERAGE_TIMESERIES XLINEAR ].

(** 2000-01-01 in days and in seconds since 1970 *)
Definition day0 : Z := 10957.
Definition day : Z := 86400.
Definition days (n : Z) : dt64 := mkDT (day * 1000000000) n.
Definition grid_of (start step : Z) (n : nat) (ty : ptype) : list Z :=
  map (fun i => (day0 + start) * day + i * (step * day))%Z (zrange (points_out ty (Z.of_nat n))).
Definition source_grid (k : combination) : list Z := grid_of (k_source_start k) (k_source_length k) (length (k_source k)) (k_type k).
Definition target_grid (k : combination) : list Z := grid_of (k_target_start k) (k_target_length k) (length (k_target k)) (k_type k).

(** conftest.py 503-519: [create_time_points] gives these grids. *)
Example grids : Forall (fun k =>
  create_time_points (days (day0 + k_source_start k)) (days (k_source_length k)) (Z.of_nat (length (k_source k))) (AEnum (k_type k))
    = Ok (source_grid k) /\
  create_time_points (days (day0 + k_target_start k)) (days (k_target_length k)) (Z.of_nat (length (k_target k))) (AEnum (k_type k))
    = Ok (target_grid k)) combos.
Proof.
  unfold combos. repeat (apply Forall_cons; [split|]); [..|apply Forall_nil];
  match goal with |- create_time_points (days ?s) (days ?p) _ (AEnum ?ty) = _ =>
    let ty' := eval cbv in ty in rewrite (create_eq _ _ _ _ ty' (s * day) (p * day)) end; first [reflexivity | vm_compute; reflexivity | vm_compute; congruence].
Qed.

Fixpoint sorted (l : list Z) : bool := match l with a :: ((b :: _) as l') => (a <? b)%Z && sorted l' | _ => true end.
Lemma sorted_increasing l : sorted l = true -> increasing l.
Proof.
  unfold increasing. intros H. apply Sorted.Sorted_StronglySorted. { intros a b c. lia. }
  induction l as [|a [|b l] IH]; [constructor|constructor; constructor|]. cbn [sorted] in H. apply andb_prop in H. destruct H as [A B].
  constructor; [apply IH; exact B|]. constructor. apply Z.ltb_lt. exact A.
Qed.
Definition usable (k : combination) : bool :=
  sorted (source_grid k) && sorted (target_grid k) && (match k_extra k with XNONE => false | _ => true end) &&
  (match k_type k with AVERAGE_TIMESERIES | POINT_TIMESERIES => true | _ => false end) &&
  (length (k_source k) =? value_count (k_type k) (source_grid k))%nat && (3 <=? length (k_source k))%nat && (2 <=? length (target_grid k))%nat.
Lemma combos_usable : forallb usable combos = true.
Proof. vm_compute. reflexivity. Qed.

(** np.testing.assert_allclose: |a - b| <= atol + 1e-7 |b| *)
Definition close (atol : Q) (a b : Q) : bool := Qle_bool (a - b) (atol + (1 # 10000000) * Qabs.Qabs b) && Qle_bool (b - a) (atol + (1 # 10000000) * Qabs.Qabs b).
Fixpoint all_close (atol : Q) (a b : list Q) : bool :=
  match a, b with [], [] => true | x :: a, y :: b => close atol x y && all_close atol a b | _, _ => false end.

Lemma convert_combo k t : In k combos -> increasing t -> (2 <= length t)%nat ->
  convert_R (k_type k) (k_extra k) (map Q2R (k_source k)) (map IZR (source_grid k)) (map IZR t) =
    Ok (map Q2R (exact (k_type k) (k_extra k) (source_grid k) (k_source k) t)).
Proof.
  intros K J L. pose proof (proj1 (forallb_forall _ _) combos_usable k K) as U. unfold usable in U.
  repeat (apply andb_prop in U; let V := fresh "V" in destruct U as [U V]). apply exactly; auto.
  - unfold timeseries. destruct (k_type k); auto; discriminate.
  - apply sorted_increasing; auto.
  - split; [rewrite map_length; apply Nat.eqb_eq; auto|]. intros E. rewrite E in *. apply Nat.leb_le in V0. apply Nat.eqb_eq in V1.
    cbn [value_count length] in V1. destruct (k_type k); cbn in V1; lia.
  - apply Nat.leb_le; auto.
  - destruct (k_extra k); congruence.
Qed.

(** test_timeseries_conversion.py 10-27: conversion to the same time points. *)
Example conversion_to_same_timeseries k : In k combos -> exists c, let s := source_grid k in
  timeseries_converter s s (k_type k) (k_extra k) = Ok c /\
  (exists w, tconvert_from c (map Q2R (k_source k)) = Ok (map Q2R w) /\ all_close 0 w (k_source k) = true) /\
  source_length c = (Z.of_nat (length s) - match k_type k with AVERAGE_TIMESERIES => 1 | _ => 0 end)%Z /\
  target_length c = source_length c.
Proof.
  intros K. pose proof (proj1 (forallb_forall _ _) combos_usable k K) as U. unfold usable in U.
  repeat (apply andb_prop in U; let V := fresh "V" in destruct U as [U V]).
  exists (mkTconv (source_grid k) (source_grid k) (k_type k) (k_extra k)).
  split; [|split; [|split]].
  - cbn in K. destruct K as [<-|[<-|[<-|[<-|[<-|[]]]]]]; reflexivity.
  - eexists. split; [apply convert_combo; [exact K|apply sorted_increasing; exact U|]|].
    + cbn in K. destruct K as [<-|[<-|[<-|[<-|[<-|[]]]]]]; vm_compute; lia.
    + cbn in K. destruct K as [<-|[<-|[<-|[<-|[<-|[]]]]]]; vm_compute; reflexivity.
  - unfold source_length, series_length; cbn. destruct (k_type k); lia.
  - reflexivity.
Qed.

(** test_timeseries_conversion.py 30-38: the target begins 3650 days earlier. *)
Example insufficient_overlap k : In k combos ->
  timeseries_converter (source_grid k) (map (fun t => t - 3650 * day)%Z (target_grid k)) (k_type k) (k_extra k) = Err EInsufficientData.
Proof. intros K. cbn in K. destruct K as [<-|[<-|[<-|[<-|[<-|[]]]]]]; reflexivity. Qed.

(** test_timeseries_conversion.py 41-73: the values of the tables, by [_convert], [convert_from],
    and [convert_to] of the opposite converter.  (The absolute tolerance of the test is added to
    the relative one; 0 suffices.) *)
Example conversion_of_combos k : In k combos -> exists w, all_close 0 w (k_target k) = true /\
  (exists c, timeseries_converter (source_grid k) (target_grid k) (k_type k) (k_extra k) = Ok c /\
     tconvert_from c (map Q2R (k_source k)) = Ok (map Q2R w)) /\
  (exists c, timeseries_converter (target_grid k) (source_grid k) (k_type k) (k_extra k) = Ok c /\
     tconvert_to c (map Q2R (k_source k)) = Ok (map Q2R w)).
Proof.
  intros K. pose proof (proj1 (forallb_forall _ _) combos_usable k K) as U. unfold usable in U.
  repeat (apply andb_prop in U; let V := fresh "V" in destruct U as [U V]).
  pose proof (convert_combo k (target_grid k) K (sorted_increasing _ V4) ltac:(apply Nat.leb_le; exact V)) as C.
  eexists. split; [|split].
  2: { exists (mkTconv (source_grid k) (target_grid k) (k_type k) (k_extra k)). split; [|exact C].
       cbn in K. destruct K as [<-|[<-|[<-|[<-|[<-|[]]]]]]; reflexivity. }
  2: { exists (mkTconv (target_grid k) (source_grid k) (k_type k) (k_extra k)). split; [|exact C].
       cbn in K. destruct K as [<-|[<-|[<-|[<-|[<-|[]]]]]]; reflexivity. }
  cbn in K. destruct K as [<-|[<-|[<-|[<-|[<-|[]]]]]]; vm_compute; reflexivity.
Qed.

(** test_timeseries_converter.py 10-20: fewer than three values. *)
Example short_data k v : In k combos -> In v [[]; [0%R]; [0%R; 1%R]] ->
  convert_R (k_type k) (k_extra k) v (map IZR (source_grid k)) (map IZR (target_grid k)) = Err EInsufficientData.
Proof. intros _ [<-|[<-|[<-|[]]]]; reflexivity. Qed.

(** test_timeseries_converter.py 23-46: one second beyond both ends, without extrapolation. *)
Example none_extrapolation_error k : In k combos ->
  let s := source_grid k in let target := [hd 0 s - 1; hd 0 s; last s 0 + 1]%Z in
  exists c, timeseries_converter s target (k_type k) XNONE = Ok c /\
    tconvert_from c (map Q2R (k_source k)) = Err EInsufficientData.
Proof.
  intros K. cbv zeta. pose proof (proj1 (forallb_forall _ _) combos_usable k K) as U. unfold usable in U.
  repeat (apply andb_prop in U; let V := fresh "V" in destruct U as [U V]). set (s := source_grid k) in *.
  assert (N : s <> []). { cbn in K. destruct K as [<-|[<-|[<-|[<-|[<-|[]]]]]]; discriminate. }
  set (t := [hd 0 s - 1; hd 0 s; last s 0 + 1]%Z).
  assert (C : timeseries_converter s t (k_type k) XNONE = Ok (mkTconv s t (k_type k) XNONE)).
  { cbn in K. destruct K as [<-|[<-|[<-|[<-|[<-|[]]]]]]; reflexivity. }
  eexists. split; [exact C|].
  assert (J : increasing t).
  { apply sorted_increasing. cbn in K. destruct K as [<-|[<-|[<-|[<-|[<-|[]]]]]]; reflexivity. }
  refine (proj1 (proj1 (none_iff (k_type k) s (map Q2R (k_source k)) t _ _ (sorted_increasing _ U) J _ _ _ _)) _).
  - unfold timeseries. destruct (k_type k); auto; discriminate.
  - split; [rewrite map_length; apply Nat.eqb_eq; exact V1|exact N].
  - rewrite map_length. apply Nat.leb_le. exact V0.
  - cbn. lia.
  - left. exists (mkTconv s t (k_type k) XNONE). split; [exact C|reflexivity].
  - exists (hd 0 s - 1)%Z. split; [left; reflexivity|lia].
Qed.
