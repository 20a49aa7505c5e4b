(** C92: the carbon of a data frame of emissions is in the pools of DICE.  Vocabulary: [Spec_Pipeline.v], [Spec_Store.v],
    [Spec_Dice.v], [Spec_Totals.v], [closed] from [Spec_Interp.v]. *)
From Coq Require Import String List ZArith Reals Lia.
From Verif Require Import Base Units Core Spec_Core Adapters Dice Spec_Dice DiceEx DiceRunEx.
From Verif Require Import Filters Frame Spec_Frame FrameStore Spec_Interp Spec_Store Spec_Totals PipelineEx PipelineEx2 PipelineEx3 PipelineCarbon Spec_Pipeline.
Import ListNotations.
Local Open Scope string_scope.
Local Open Scope list_scope.

(** A data frame is stored in an empty parameter set; an adapter gets it, is reset and makes [k] steps, and its pools
    stay above their lower bounds.  If the data frame knows the start and the end of the first [i] periods, then the sum
    of the pools has grown by [i] times the carbon of one period with the mean emissions of the data frame in
    that time.  The periods of the data frame and of DICE may be different. *)
Theorem C92_carbon env f u xs s a a1 ak k t0 d n rounding mat mu ml lo1 lo2 lo3 period :
  good_env env -> storable env f -> has_typed_series f "Emissions|CO2" "World" u "average" (map Some xs) ->
  to_parameterset env f (init_state "World") = (s, Ok tt) -> handed env s a ->
  resets env a a1 -> steps env k a1 ak -> works_with env ak t0 d n ->
  setting env ak "original_rounding" = Ok rounding -> setting env ak "period_length" = Ok (GDelta period) ->
  (forall i, (i <= k)%nat -> out env ak "mat" i = Ok (Some (mat i)) /\ out env ak "mu" i = Ok (Some (mu i)) /\
     out env ak "ml" i = Ok (Some (ml i))) ->
  value env ak "mat_lower" = Ok (Some lo1) -> value env ak "mu_lower" = Ok (Some lo2) ->
  value env ak "ml_lower" = Ok (Some lo3) ->
  (forall i, (1 <= i <= k)%nat -> (lo1 < mat i /\ lo2 < mu i /\ lo3 < ml i)%R) ->
  forall i, (1 <= i <= k)%nat -> In t0 (closed (fr_times f)) -> In (t0 + Z.of_nat i * d)%Z (closed (fr_times f)) ->
  exists e, same_quantity env u (mean_between t0 (t0 + Z.of_nat i * d) (closed (fr_times f)) xs) (emissions_unit rounding) e /\
    (mat i + mu i + ml i = mat 0%nat + mu 0%nat + ml 0%nat + INR i * carbon_emitted e period rounding)%R.
Proof.
  intros G ST HS TP Ha R S Ww Ro Pe O V1 V2 V3 B.
  exact (C92_proof env f u xs s a a1 ak k t0 d n rounding mat mu ml lo1 lo2 lo3 period G ST HS TP Ha R S Ww Ro Pe O V1 V2 V3 B).
Qed.
Print Assumptions C92_carbon.

(** The same from data frame to data frame: the pools are those of the data frame [g] of results, the first ones the
    initial values among the parameters that the adapter reads. *)
Theorem C92_frames env q_of f u xs s a a1 ak t0 d n p period rounding start saturation model scenario climate_model s' g mat mu ml :
  good_env env -> storable env f -> has_typed_series f "Emissions|CO2" "World" u "average" (map Some xs) ->
  to_parameterset env f (init_state "World") = (s, Ok tt) -> handed env s a -> w_out (a_world _ a) = init_state "World" ->
  resets env a a1 -> steps env (n - 1) a1 ak -> works_with env ak t0 d n -> (3 <= n)%nat ->
  (forall name, In name scalar_names -> value env ak name = Ok (Some (p name))) ->
  setting env ak "period_length" = Ok (GDelta period) -> setting env ak "original_rounding" = Ok rounding ->
  setting env ak "start_time" = Ok (GTime start) -> setting env ak "forcoth_saturation_time" = Ok (GTime saturation) ->
  convert_openscm_to_scmdataframe env q_of (w_out (a_world _ ak)) (instants t0 d n) model scenario climate_model = (s', Ok g) ->
  has_typed_series g "Pool|CO2|Atmosphere" "World" "GtC" "point" (map Some mat) ->
  has_typed_series g "Pool|CO2|Ocean|shallow" "World" "GtC" "point" (map Some mu) ->
  has_typed_series g "Pool|CO2|Ocean|lower" "World" "GtC" "point" (map Some ml) ->
  (forall i, (1 <= i < n)%nat -> (p "mat_lower" < nth i mat 0 /\ p "mu_lower" < nth i mu 0 /\ p "ml_lower" < nth i ml 0)%R) ->
  forall i, (1 <= i < n)%nat -> In t0 (closed (fr_times f)) -> In (t0 + Z.of_nat i * d)%Z (closed (fr_times f)) ->
  exists e, same_quantity env u (mean_between t0 (t0 + Z.of_nat i * d) (closed (fr_times f)) xs) (emissions_unit rounding) e /\
    (nth i mat 0 + nth i mu 0 + nth i ml 0 = p "mat0" + p "mu0" + p "ml0" + INR i * carbon_emitted e period rounding)%R.
Proof. exact (C92_frame_proof env q_of f u xs s a a1 ak t0 d n p period rounding start saturation model scenario climate_model s' g mat mu ml). Qed.
Print Assumptions C92_frames.

(** The run of C90 with emissions of [x0] to [x4] GtC per year, none of them negative; all boundaries are common. *)
Example C92_case x0 x1 x2 x3 x4 q_of : (0 <= x0)%R -> (0 <= x1)%R -> (0 <= x2)%R -> (0 <= x3)%R -> (0 <= x4)%R ->
  good_env dice_env /\ storable dice_env (e_frame x0 x1 x2 x3 x4) /\
  has_typed_series (e_frame x0 x1 x2 x3 x4) "Emissions|CO2" "World" "GtC/a" "average" (map Some [x0; x1; x2; x3; x4]) /\
  to_parameterset dice_env (e_frame x0 x1 x2 x3 x4) (init_state "World") = (e_inputs x0 x1 x2 x3 x4, Ok tt) /\
  handed dice_env (e_inputs x0 x1 x2 x3 x4) (e_user x0 x1 x2 x3 x4) /\
  w_out (a_world _ (e_user x0 x1 x2 x3 x4)) = init_state "World" /\
  closed (fr_times (e_frame x0 x1 x2 x3 x4)) = periods 0 year_s 5 /\
  exists a1 ak mat mu ml s' g, resets dice_env (e_user x0 x1 x2 x3 x4) a1 /\ steps dice_env 4 a1 ak /\ works_with dice_env ak 0 year_s 5 /\
    (forall name, In name scalar_names -> value dice_env ak name = Ok (Some (e_p x0 x1 x2 x3 x4 name))) /\
    setting dice_env ak "period_length" = Ok (GDelta YEAR) /\ setting dice_env ak "original_rounding" = Ok (GBool true) /\
    setting dice_env ak "start_time" = Ok (GTime (mkDT 1000000000 0)) /\
    setting dice_env ak "forcoth_saturation_time" = Ok (GTime (mkDT day_ns 47482)) /\
    (forall i, (i <= 4)%nat -> out dice_env ak "mat" i = Ok (Some (nth i mat 0%R)) /\ out dice_env ak "mu" i = Ok (Some (nth i mu 0%R)) /\
       out dice_env ak "ml" i = Ok (Some (nth i ml 0%R))) /\
    (forall i, (1 <= i < 5)%nat -> (e_p x0 x1 x2 x3 x4 "mat_lower" < nth i mat 0 /\ e_p x0 x1 x2 x3 x4 "mu_lower" < nth i mu 0 /\
       e_p x0 x1 x2 x3 x4 "ml_lower" < nth i ml 0)%R) /\
    convert_openscm_to_scmdataframe dice_env q_of (w_out (a_world _ ak)) (instants 0 year_s 5) "m" "s" "c" = (s', Ok g) /\
    has_typed_series g "Pool|CO2|Atmosphere" "World" "GtC" "point" (map Some mat) /\
    has_typed_series g "Pool|CO2|Ocean|shallow" "World" "GtC" "point" (map Some mu) /\
    has_typed_series g "Pool|CO2|Ocean|lower" "World" "GtC" "point" (map Some ml).
Proof.
  intros N0 N1 N2 N3 N4.
  split; [exact dice_good|]. split; [apply e_storable|]. split; [apply e_series|]. split; [apply e_stored|].
  split; [apply e_handed|]. split; [apply e_empty|]. split; [reflexivity|]. exact (e_carbon x0 x1 x2 x3 x4 q_of "m" "s" "c" N0 N1 N2 N3 N4).
Qed.
