(** C90: emissions in a data frame are the emissions DICE works with.  Vocabulary: [Spec_Pipeline.v], [Spec_Store.v],
    [Spec_Dice.v], [Spec_Totals.v], [closed] from [Spec_Interp.v]. *)
From Coq Require Import String List ZArith Reals Lia.
From Verif Require Import Base Units Core Spec_Core Frame FrameStore Spec_Interp Spec_Store Spec_Totals Adapters Dice Spec_Dice DiceEx DiceRunEx
  Spec_Pipeline Pipeline PipelineEx.
Import ListNotations.
Local Open Scope string_scope.
Local Open Scope list_scope.

(** A data frame is stored in an empty parameter set.  An adapter gets it, and the user does anything but write the
    emissions themselves.  After a reset and any number of steps, either no emission can be read (for the same reason),
    or there is one number for each of the [n] periods, and between any two boundaries [x] and [y] that both the data
    frame and DICE know, the mean of the emissions DICE sees is that of the data frame, in the units of both. *)
Theorem C90_emissions env f u xs s a a1 ak k t0 d n rounding :
  good_env env -> storable env f -> has_typed_series f "Emissions|CO2" "World" u "average" (map Some xs) ->
  to_parameterset env f (init_state "World") = (s, Ok tt) -> handed env s a ->
  resets env a a1 -> steps env k a1 ak -> works_with env ak t0 d n ->
  setting env ak "original_rounding" = Ok rounding ->
  (exists e, forall i, emission env ak i = Err e) \/
  exists es, length es = n /\
    (forall i, (i < n)%nat -> emission env ak i = Ok (Some (nth i es 0%R))) /\
    forall x y, (x < y)%Z -> In x (closed (fr_times f)) -> In y (closed (fr_times f)) ->
      In x (periods t0 d n) -> In y (periods t0 d n) ->
      same_quantity env u (mean_between x y (closed (fr_times f)) xs)
        (emissions_unit rounding) (mean_between x y (periods t0 d n) es).
Proof. intros G ST HS TP Ha R S Ww Ro. exact (C90_proof env f u xs s a a1 ak k t0 d n rounding G ST HS TP Ha R S Ww Ro). Qed.
Print Assumptions C90_emissions.

(** If the data frame covers the time of the run exactly, each emission can be read. *)
Theorem C90_readable env f u xs s a a1 ak k t0 d n rounding :
  good_env env -> storable env f -> has_typed_series f "Emissions|CO2" "World" u "average" (map Some xs) ->
  to_parameterset env f (init_state "World") = (s, Ok tt) -> handed env s a ->
  resets env a a1 -> steps env k a1 ak -> works_with env ak t0 d n ->
  setting env ak "original_rounding" = Ok rounding ->
  hd 0%Z (closed (fr_times f)) = t0 -> last (closed (fr_times f)) 0%Z = (t0 + Z.of_nat n * d)%Z ->
  forall i, (i < n)%nat -> exists e, emission env ak i = Ok (Some e).
Proof. intros G ST HS TP Ha R S Ww Ro. exact (C90_readable_proof env f u xs s a a1 ak k t0 d n rounding G ST HS TP Ha R S Ww Ro). Qed.
Print Assumptions C90_readable.

(** If the data frame has the periods of the run, its values are the emissions. *)
Theorem C90_same_periods env f u xs s a a1 ak k t0 d n rounding :
  good_env env -> storable env f -> has_typed_series f "Emissions|CO2" "World" u "average" (map Some xs) ->
  to_parameterset env f (init_state "World") = (s, Ok tt) -> handed env s a ->
  resets env a a1 -> steps env k a1 ak -> works_with env ak t0 d n ->
  setting env ak "original_rounding" = Ok rounding -> closed (fr_times f) = periods t0 d n ->
  forall i, (i < n)%nat -> exists e, emission env ak i = Ok (Some e) /\
    same_quantity env u (nth i xs 0%R) (emissions_unit rounding) e.
Proof. intros G ST HS TP Ha R S Ww Ro. exact (C90_same_proof env f u xs s a a1 ak k t0 d n rounding G ST HS TP Ha R S Ww Ro). Qed.
Print Assumptions C90_same_periods.

(** Emissions of [x0] to [x4] GtC per year in five years; the user sets start and stop.  Each number of steps up to four is reached. *)
Example C90_case x0 x1 x2 x3 x4 :
  good_env dice_env /\ storable dice_env (e_frame x0 x1 x2 x3 x4) /\
  has_typed_series (e_frame x0 x1 x2 x3 x4) "Emissions|CO2" "World" "GtC/a" "average" (map Some [x0; x1; x2; x3; x4]) /\
  to_parameterset dice_env (e_frame x0 x1 x2 x3 x4) (init_state "World") = (e_inputs x0 x1 x2 x3 x4, Ok tt) /\
  handed dice_env (e_inputs x0 x1 x2 x3 x4) (e_user x0 x1 x2 x3 x4) /\
  closed (fr_times (e_frame x0 x1 x2 x3 x4)) = periods 0 year_s 5 /\
  exists a1, resets dice_env (e_user x0 x1 x2 x3 x4) a1 /\
  forall k, (k <= 4)%nat -> exists ak, steps dice_env k a1 ak /\ works_with dice_env ak 0 year_s 5 /\
    setting dice_env ak "original_rounding" = Ok (GBool true).
Proof.
  split; [exact dice_good|]. split; [apply e_storable|]. split; [apply e_series|]. split; [apply e_stored|].
  split; [apply e_handed|]. split; [reflexivity|].
  destruct (e_runs x0 x1 x2 x3 x4) as (a1 & R & _ & Go & _). exists a1. split; [exact R|]. intros k K.
  destruct (Go k K) as (ak & S). exists ak. split; [exact S|]. exact (e_works _ _ _ _ _ _ _ _ R S).
Qed.
