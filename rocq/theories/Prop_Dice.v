(** C42-C47, C63, C64: the DICE model.  Vocabulary: [Spec_Dice.v]. *)
From Coq Require Import String List ZArith Reals Bool Lra Lia.
From Verif Require Import Base Units TimeModel Calendar Core Spec_Core Adapters Dice Spec_Dice
  DiceProps DiceRepeat DiceEx DiceRunEx.
From Verif Require DiceLateEx.
Import ListNotations.
Local Open Scope string_scope.
Local Open Scope list_scope.

(** A case that meets the hypotheses of the theorems of this file: the user sets start and stop
    time, the carbon pools to their equilibrium, and emissions of [e]; there are five time points;
    all four steps and the run return; all parameters are numbers ([p5]). *)
Example some_run e : exists a1, resets dice_env (a_user e) a1 /\ points a1 = Some 5%Z /\
  (forall k, (k <= 4)%nat -> exists ak, steps dice_env k a1 ak) /\ exists a', runs dice_env (a_user e) a'.
Proof. exact (user_runs e). Qed.
Example some_values e a1 k ak : resets dice_env (a_user e) a1 -> steps dice_env k a1 ak ->
  (forall name, In name scalar_names -> value dice_env ak name = Ok (Some (p5 name))) /\
  setting dice_env ak "period_length" = Ok (GDelta YEAR) /\ setting dice_env ak "original_rounding" = Ok (GBool true) /\
  setting dice_env ak "start_time" = Ok (GTime (mkDT 1000000000 0)) /\
  setting dice_env ak "stop_time" = Ok (GTime (mkDT 1000000000 (4 * year_s))) /\
  setting dice_env ak "forcoth_saturation_time" = Ok (GTime (mkDT day_ns 47482)) /\
  (forall i, (i < 5)%nat -> emission dice_env ak i = Ok (Some (e * 44 / 12)%R)).
Proof. exact (user_reads e a1 k ak). Qed.

(** ** C42 *)

(** After [k] steps from a reset all values computed are within the bounds.  The lower bound of the
    ocean temperature is applied last: its upper bound holds if the bounds are in order (and the
    lower one is not NaN). *)
Theorem C42_bounds env a a1 k ak i : resets env a a1 -> steps env k a1 ak -> (1 <= i <= k)%nat ->
  at_least env ak "mat" i "mat_lower" /\ at_least env ak "ml" i "ml_lower" /\ at_least env ak "mu" i "mu_lower" /\
  at_least env ak "tocean" i "tocean_lower" /\ at_most env ak "tatm" i "tatm_upper" /\
  ((forall lo up, value env ak "tocean_lower" = Ok (Some lo) -> value env ak "tocean_upper" = Ok (Some up) -> (lo <= up)%R) ->
   value env ak "tocean_lower" <> Ok None ->
   at_most env ak "tocean" i "tocean_upper").
Proof.
  intros R S Hi. destruct (steps_after env _ _ _ _ R S) as (w0 & d0 & d & A).
  exact (bounds_at env _ _ _ _ _ _ _ A Hi).
Qed.
Print Assumptions C42_bounds.

(** The same after [run()]. *)
Theorem C42_bounds_of_run env a a' n i : runs env a a' -> points a' = Some n -> (1 <= i)%nat -> (Z.of_nat i < n)%Z ->
  at_least env a' "mat" i "mat_lower" /\ at_least env a' "ml" i "ml_lower" /\ at_least env a' "mu" i "mu_lower" /\
  at_least env a' "tocean" i "tocean_lower" /\ at_most env a' "tatm" i "tatm_upper" /\
  ((forall lo up, value env a' "tocean_lower" = Ok (Some lo) -> value env a' "tocean_upper" = Ok (Some up) -> (lo <= up)%R) ->
   value env a' "tocean_lower" <> Ok None ->
   at_most env a' "tocean" i "tocean_upper").
Proof. exact (C42_run_proof env a a' n i). Qed.
Print Assumptions C42_bounds_of_run.

(** ** C43 *)

(** As long as the pools are above their lower bounds (which is where the bounds do nothing) their
    sum is the initial sum plus what was emitted. *)
Theorem C43_carbon_conserved env a a1 k ak mat mu ml es lo1 lo2 lo3 period rounding :
  resets env a a1 -> steps env k a1 ak ->
  (forall i, (i <= k)%nat -> out env ak "mat" i = Ok (Some (mat i)) /\ out env ak "mu" i = Ok (Some (mu i)) /\
     out env ak "ml" i = Ok (Some (ml i))) ->
  (forall i, (i < k)%nat -> emission env ak i = Ok (Some (es i))) ->
  value env ak "mat_lower" = Ok (Some lo1) -> value env ak "mu_lower" = Ok (Some lo2) ->
  value env ak "ml_lower" = Ok (Some lo3) ->
  (forall i, (1 <= i <= k)%nat -> (lo1 < mat i /\ lo2 < mu i /\ lo3 < ml i)%R) ->
  setting env ak "period_length" = Ok (GDelta period) -> setting env ak "original_rounding" = Ok rounding ->
  forall i, (i <= k)%nat ->
  (mat i + mu i + ml i = mat 0%nat + mu 0%nat + ml 0%nat + sum_to (fun j => carbon_emitted (es j) period rounding) i)%R.
Proof.
  intros R S. destruct (steps_after env _ _ _ _ R S) as (w0 & d0 & d & A).
  exact (C43_proof env _ _ _ _ _ _ mat mu ml es lo1 lo2 lo3 period rounding A).
Qed.
Print Assumptions C43_carbon_conserved.

(** The step from equilibrium with emissions of 10 GtC per year: all pools are above their bounds. *)
Example C43_case : exists a1 ak mat mu ml, resets dice_env (a_user 10) a1 /\ steps dice_env 1 a1 ak /\
  (forall i, (i <= 1)%nat -> out dice_env ak "mat" i = Ok (Some (mat i)) /\
     out dice_env ak "mu" i = Ok (Some (mu i)) /\ out dice_env ak "ml" i = Ok (Some (ml i))) /\
  (forall i, (1 <= i <= 1)%nat -> (10 < mat i /\ 100 < mu i /\ 1000 < ml i)%R) /\
  (mat 0%nat < mat 1%nat)%R.
Proof. exact one_step. Qed.

(** ** C44 *)

(** Started at the equilibrium pools, without emissions, the pools stay there. *)
Theorem C44_equilibrium env a a1 k ak mateq mueq mleq lo1 lo2 lo3 b12 b23 :
  resets env a a1 -> steps env k a1 ak ->
  value env ak "mat0" = Ok (Some mateq) -> value env ak "mateq" = Ok (Some mateq) ->
  value env ak "mu0" = Ok (Some mueq) -> value env ak "mueq" = Ok (Some mueq) ->
  value env ak "ml0" = Ok (Some mleq) -> value env ak "mleq" = Ok (Some mleq) ->
  value env ak "b12" = Ok (Some b12) -> value env ak "b23" = Ok (Some b23) ->
  value env ak "mat_lower" = Ok (Some lo1) -> value env ak "mu_lower" = Ok (Some lo2) ->
  value env ak "ml_lower" = Ok (Some lo3) -> (lo1 <= mateq)%R -> (lo2 <= mueq)%R -> (lo3 <= mleq)%R ->
  (forall i, (i < k)%nat -> emission env ak i = Ok (Some 0%R)) ->
  forall i, (i <= k)%nat ->
  out env ak "mat" i = Ok (Some mateq) /\ out env ak "mu" i = Ok (Some mueq) /\ out env ak "ml" i = Ok (Some mleq).
Proof.
  intros R S. destruct (steps_after env _ _ _ _ R S) as (w0 & d0 & d & A).
  exact (C44_proof env _ _ _ _ _ _ mateq mueq mleq lo1 lo2 lo3 b12 b23 A).
Qed.
Print Assumptions C44_equilibrium.

Example C44_case : exists a1 ak, resets dice_env (a_user 0) a1 /\ steps dice_env 4 a1 ak /\
  value dice_env ak "mat0" = Ok (Some 588%R) /\ value dice_env ak "mateq" = Ok (Some 588%R) /\
  (forall i, (i < 4)%nat -> emission dice_env ak i = Ok (Some 0%R)).
Proof. exact zero_run. Qed.

(** ** C45 *)

(** If reset and all steps to the end return, so does [run()], with the same results; ... *)
Theorem C45_stepping_gives_run env a a1 n a2 : resets env a a1 -> points a1 = Some n ->
  steps env (Z.to_nat (n - 1)) a1 a2 ->
  exists a', runs env a a' /\ same_results env a' a2.
Proof.
  intros R Pn S. destruct (C45_run env a a1 n a2 R Pn S) as (a' & E & As). exists a'.
  exact (conj (conj (proj1 R) E) (as_same env _ _ As)).
Qed.
Print Assumptions C45_stepping_gives_run.

(** ... if [run()] returns, so do reset and all steps to the end, with the same results; ... *)
Theorem C45_run_gives_stepping env a a' : runs env a a' ->
  exists a1 n a2, resets env a a1 /\ points a1 = Some n /\ steps env (Z.to_nat (n - 1)) a1 a2 /\
    same_results env a' a2.
Proof.
  intros R. destruct (C45_stepped env a a' R) as (a1 & n & a2 & R1 & Pn & S & As). exists a1, n, a2.
  exact (conj R1 (conj Pn (conj S (as_same env _ _ As)))).
Qed.
Print Assumptions C45_run_gives_stepping.

(** ... if [run()] raises, reset or one of the steps raises the same exception. *)
Theorem C45_exceptions env a a' e : used env a -> do_call world (dice_hooks env) SRun a = (a', Err e) ->
  (exists a1, do_call world (dice_hooks env) SResetStepping a = (a1, Err e)) \/
  exists a1 n k b b', resets env a a1 /\ points a1 = Some n /\ (k < Z.to_nat (n - 1))%nat /\ steps env k a1 b /\
    do_call world (dice_hooks env) SStep b = (b', Err e).
Proof. exact (C45_error env a a' e). Qed.
Print Assumptions C45_exceptions.

(** ** C46 *)

(** [run()] again on the same adapter, as often as you like, returns, with the same results. *)
Theorem C46_run_again env a a' : runs env a a' ->
  exists a'', do_call world (dice_hooks env) SRun a' = (a'', Ok tt) /\ same_results env a' a''.
Proof. exact (again_proof env a a'). Qed.
Print Assumptions C46_run_again.

Theorem C46_run_many_times env a a' k b : runs env a a' -> run_times env k a' b -> same_results env a' b.
Proof. exact (many_proof env k a a' b). Qed.
Print Assumptions C46_run_many_times.

(** What a run in single steps has left behind, whole or in part, does not matter: [run()] gives
    what it would have given before. *)
Theorem C46_run_after_steps env a a1 k ak a' : resets env a a1 -> steps env k a1 ak -> runs env a a' ->
  exists b, do_call world (dice_hooks env) SRun ak = (b, Ok tt) /\ same_results env a' b.
Proof. exact (after_steps_proof env a a1 k ak a'). Qed.
Print Assumptions C46_run_after_steps.

(** The content of new arrays ([np.empty]) and left-over attributes of the adapter do not matter. *)
Theorem C46_uninitialised env a a' b : runs env a a' -> used env b -> same_start a b ->
  exists b', do_call world (dice_hooks env) SRun b = (b', Ok tt) /\ same_results env a' b'.
Proof. exact (start_proof env a a' b). Qed.
Print Assumptions C46_uninitialised.

(** Cases that meet the hypotheses: the run of [some_run] and four steps; two new adapters that
    differ in the content of memory. *)
Example C46_case : exists a1 ak a', resets dice_env (a_user 10) a1 /\ steps dice_env 4 a1 ak /\ runs dice_env (a_user 10) a'.
Proof.
  destruct (user_runs 10) as (a1 & R & _ & St & a' & Ra). destruct (St 4%nat (le_n 4)) as (ak & S).
  exact (ex_intro _ a1 (ex_intro _ ak (ex_intro _ a' (conj R (conj S Ra))))).
Qed.
Example C46_junk_case : exists a', runs dice_env (a_user 10) a' /\ forall junk,
  used dice_env (new_adapter world (new_world (run_inputs 10) (init_state "World") junk)) /\
  same_start (a_user 10) (new_adapter world (new_world (run_inputs 10) (init_state "World") junk)).
Proof. exact (user_junk 10). Qed.

(** ** C47 *)

(** After [k] steps [current_time] is start + k * period; the step after the last time point raises
    IndexError; the last time point is the last one not after the stop time.  The latter is shown
    for times that are less than 2^53 ticks of their common unit apart (beyond that
    numpy divides the tick counts in floating point and may round up across the stop time). *)
Theorem C47_current_time_partial env a a1 k ak : resets env a a1 -> steps env k a1 ak ->
  exists start stop period n,
    setting env ak "start_time" = Ok (GTime start) /\ setting env ak "stop_time" = Ok (GTime stop) /\
    setting env ak "period_length" = Ok (GDelta period) /\ points ak = Some n /\
    now ak = (dt_ns start + Z.of_nat k * dt_ns period)%Z /\ (Z.of_nat k <= n - 1)%Z /\
    ((1 <= k)%nat -> Z.of_nat k = (n - 1)%Z ->
       exists b, do_call world (dice_hooks env) SStep ak = (b, Err EIndexError)) /\
    (In (dt_unit start) numpy_units -> In (dt_unit stop) numpy_units -> In (dt_unit period) numpy_units ->
     let u := Z.min (dt_unit start) (Z.min (dt_unit stop) (dt_unit period)) in
     (0 < dt_ns period < u * 2 ^ 53)%Z -> (0 <= dt_ns stop - dt_ns start < u * 2 ^ 53)%Z ->
     (dt_ns start + (n - 1) * dt_ns period <= dt_ns stop < dt_ns start + n * dt_ns period)%Z).
Proof. exact (C47_proof env a a1 k ak). Qed.
Print Assumptions C47_current_time_partial.

(** With more ticks the last step can lead past the stop time (here by one nanosecond). *)
Theorem C47_last_point_refuted : exists env a a1 k ak stop,
  resets env a a1 /\ steps env k a1 ak /\ setting env ak "stop_time" = Ok (GTime stop) /\
  (dt_ns stop < now ak)%Z.
Proof.
  destruct DiceLateEx.late_run as (a1 & ak & R & S & E & L).
  exists dice_env, (DiceLateEx.a_user 0), a1, 4%nat, ak, DiceLateEx.late_stop. exact (conj R (conj S (conj E L))).
Qed.
Print Assumptions C47_last_point_refuted.

(** ** C63 *)

(** After a reset that returned, all steps to the end and [run()] return if all parameters can be
    read, those that are divided by or taken the logarithm of are fit for it, and emissions can be
    read for all periods. *)
Theorem C63_progress env a a1 n lower mateq t2xco2 period rounding start saturation :
  resets env a a1 -> points a1 = Some n ->
  (forall name, In name scalar_names -> exists x, value env a1 name = Ok x) ->
  value env a1 "mat_lower" = Ok (Some lower) -> (0 < lower)%R ->
  value env a1 "mateq" = Ok (Some mateq) -> (0 < mateq)%R ->
  value env a1 "t2xco2" = Ok (Some t2xco2) -> t2xco2 <> 0%R ->
  setting env a1 "period_length" = Ok (GDelta period) -> setting env a1 "original_rounding" = Ok rounding ->
  setting env a1 "start_time" = Ok (GTime start) -> setting env a1 "forcoth_saturation_time" = Ok (GTime saturation) ->
  dt_ns (dt_sub saturation start) <> 0%Z ->
  (forall i, (Z.of_nat i < n - 1)%Z -> exists e, emission env a1 i = Ok e) ->
  (forall k, (Z.of_nat k <= n - 1)%Z -> exists ak, steps env k a1 ak) /\ exists a', runs env a a'.
Proof. exact (C63_named env a a1 n lower mateq t2xco2 period rounding start saturation). Qed.
Print Assumptions C63_progress.

(** ** C64 *)

(** The first values. *)
Theorem C64_initial_values env a a1 k ak p : resets env a a1 -> steps env k a1 ak ->
  (forall name, In name scalar_names -> value env ak name = Ok (Some (p name))) ->
  out env ak "mat" 0 = Ok (Some (p "mat0")) /\ out env ak "ml" 0 = Ok (Some (p "ml0")) /\
  out env ak "mu" 0 = Ok (Some (p "mu0")) /\ out env ak "tatm" 0 = Ok (Some (p "tatm0")) /\
  out env ak "tocean" 0 = Ok (Some (p "tocean0")) /\
  out env ak "forc" 0 = Ok (Some (p "fco22x" * (ln (p "mat0" / p "mateq") / ln 2) + p "fex0")%R).
Proof.
  intros R S. destruct (steps_after env _ _ _ _ R S) as (w0 & d0 & d & A).
  exact (C64_initial_proof env _ _ _ _ _ _ p A).
Qed.
Print Assumptions C64_initial_values.

(** Every further value, from the values before: the equations of DICE-2013R. *)
Theorem C64_equations env a a1 k ak i p x e period rounding start saturation :
  resets env a a1 -> steps env k a1 ak -> (i < k)%nat ->
  (forall name, In name scalar_names -> value env ak name = Ok (Some (p name))) ->
  setting env ak "period_length" = Ok (GDelta period) -> setting env ak "original_rounding" = Ok rounding ->
  setting env ak "start_time" = Ok (GTime start) -> setting env ak "forcoth_saturation_time" = Ok (GTime saturation) ->
  (forall name, In name series_names -> out env ak name i = Ok (Some (x name))) ->
  emission env ak i = Ok (Some e) ->
  let b21 := (p "b12" * p "mateq" / p "mueq")%R in
  let b32 := (p "b23" * p "mueq" / p "mleq")%R in
  let mat := Rmax (p "mat_lower") (x "mat" * (1 - p "b12") + x "mu" * b21 + carbon_emitted e period rounding) in
  let ml := Rmax (p "ml_lower") (x "ml" * (1 - b32) + x "mu" * p "b23") in
  let mu := Rmax (p "mu_lower") (x "mat" * p "b12" + x "mu" * (1 - b21 - p "b23") + x "ml" * b32) in
  let tocean := Rmax (p "tocean_lower") (Rmin (p "tocean_upper") (x "tocean" + p "c4" * (x "tatm" - x "tocean"))) in
  let forc := (p "fco22x" * (ln (mat / p "mateq") / ln 2) +
     other_forcing start period saturation (Z.of_nat i + 1) (p "fex0") (p "fex1"))%R in
  let tatm := Rmin (p "tatm_upper") (x "tatm" + p "c1" *
     (forc - p "fco22x" / p "t2xco2" * x "tatm" - p "c3" * (x "tatm" - x "tocean"))) in
  out env ak "mat" (S i) = Ok (Some mat) /\ out env ak "ml" (S i) = Ok (Some ml) /\ out env ak "mu" (S i) = Ok (Some mu) /\
  out env ak "tocean" (S i) = Ok (Some tocean) /\ out env ak "forc" (S i) = Ok (Some forc) /\
  out env ak "tatm" (S i) = Ok (Some tatm).
Proof.
  intros R S. destruct (steps_after env _ _ _ _ R S) as (w0 & d0 & d & A).
  exact (C64_proof env _ _ _ _ _ _ i p x e period rounding start saturation A).
Qed.
Print Assumptions C64_equations.
