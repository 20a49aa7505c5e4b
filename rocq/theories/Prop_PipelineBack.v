(** C91: the results of DICE, read as a data frame.  Vocabulary: [Spec_Pipeline.v], [Spec_Store.v], [Spec_Dice.v],
    [Spec_DiceMono.v], [closed] from [Spec_Interp.v]. *)
From Coq Require Import String List ZArith Reals Lia.
From Verif Require Import Base Units Core Spec_Core Adapters Dice Spec_Dice DiceEx DiceRunEx.
From Verif Require Import Filters Frame Spec_Frame FrameStore Spec_Interp Spec_Store PipelineEx PipelineBack PipelineEx2 Spec_Pipeline.
Import ListNotations.
Local Open Scope string_scope.
Local Open Scope list_scope.

(** The adapter writes to an empty parameter set.  After a reset and any number of steps, if the adapter's views show
    numbers, the parameter set can be read as a data frame at the time points of the run.  The data frame has exactly
    six timeseries, all of the region "World", with the variables, units and types of [output_series] and with the
    numbers that the views show, and the metadata asked for.  Reading does not change the parameters. *)
Theorem C91_results env q_of a a1 k ak t0 d n (vals : string -> nat -> R) model scenario climate_model :
  good_env env -> w_out (a_world _ a) = init_state "World" -> resets env a a1 -> steps env k a1 ak ->
  works_with env ak t0 d n -> (3 <= n)%nat ->
  (forall name i, In name series_names -> (i < n)%nat -> out env ak name i = Ok (Some (vals name i))) ->
  exists s' g, convert_openscm_to_scmdataframe env q_of (w_out (a_world _ ak)) (instants t0 d n) model scenario climate_model = (s', Ok g) /\
    st_params s' = st_params (w_out (a_world _ ak)) /\ aligned g /\ fr_times g = instants t0 d n /\ length (fr_data g) = 6%nat /\
    (forall v r u t xs, has_typed_series g v r u t xs <->
       r = "World" /\ exists name, output_series name v u t /\ xs = map (fun i => Some (vals name i)) (seq 0 n)) /\
    (forall l, In l (map fst (fr_data g)) -> meta_of g l "model" (MStr model) /\ meta_of g l "scenario" (MStr scenario) /\
       meta_of g l "climate_model" (MStr climate_model)).
Proof. exact (resets_results env q_of a a1 k ak t0 d n vals model scenario climate_model). Qed.
Print Assumptions C91_results.

(** The same after [run()]. *)
Theorem C91_run env q_of a a' t0 d n (vals : string -> nat -> R) model scenario climate_model :
  good_env env -> w_out (a_world _ a) = init_state "World" -> runs env a a' ->
  works_with env a' t0 d n -> (3 <= n)%nat ->
  (forall name i, In name series_names -> (i < n)%nat -> out env a' name i = Ok (Some (vals name i))) ->
  exists s' g, convert_openscm_to_scmdataframe env q_of (w_out (a_world _ a')) (instants t0 d n) model scenario climate_model = (s', Ok g) /\
    st_params s' = st_params (w_out (a_world _ a')) /\ aligned g /\ fr_times g = instants t0 d n /\ length (fr_data g) = 6%nat /\
    (forall v r u t xs, has_typed_series g v r u t xs <->
       r = "World" /\ exists name, output_series name v u t /\ xs = map (fun i => Some (vals name i)) (seq 0 n)) /\
    (forall l, In l (map fst (fr_data g)) -> meta_of g l "model" (MStr model) /\ meta_of g l "scenario" (MStr scenario) /\
       meta_of g l "climate_model" (MStr climate_model)).
Proof. exact (run_results env q_of a a' t0 d n vals model scenario climate_model). Qed.
Print Assumptions C91_run.

(** ... and however often [run()] is called again. *)
Theorem C91_again env q_of a a' k b t0 d n (vals : string -> nat -> R) model scenario climate_model :
  good_env env -> w_out (a_world _ a) = init_state "World" -> runs env a a' ->
  works_with env a' t0 d n -> (3 <= n)%nat ->
  (forall name i, In name series_names -> (i < n)%nat -> out env a' name i = Ok (Some (vals name i))) ->
  run_times env k a' b ->
  exists s' g, convert_openscm_to_scmdataframe env q_of (w_out (a_world _ b)) (instants t0 d n) model scenario climate_model = (s', Ok g) /\
    st_params s' = st_params (w_out (a_world _ b)) /\ aligned g /\ fr_times g = instants t0 d n /\ length (fr_data g) = 6%nat /\
    (forall v r u t xs, has_typed_series g v r u t xs <->
       r = "World" /\ exists name, output_series name v u t /\ xs = map (fun i => Some (vals name i)) (seq 0 n)) /\
    (forall l, In l (map fst (fr_data g)) -> meta_of g l "model" (MStr model) /\ meta_of g l "scenario" (MStr scenario) /\
       meta_of g l "climate_model" (MStr climate_model)).
Proof. exact (times_back env q_of a a' k b t0 d n vals model scenario climate_model). Qed.
Print Assumptions C91_again.

(** From data frame to data frame: a data frame [f] of emissions is stored, DICE is reset and stepped to the end, and the
    outputs are read at the time points of [f].  The result is the data frame of what the equations of DICE-2013R
    give for the emissions of [f], up to their unit, and for the parameters that the adapter reads. *)
Theorem C91_frame_to_frame env q_of f u xs s a a1 ak t0 d n p period rounding start saturation model scenario climate_model :
  good_env env -> storable env f -> has_typed_series f "Emissions|CO2" "World" u "average" (map Some xs) ->
  to_parameterset env f (init_state "World") = (s, Ok tt) -> handed env s a -> w_out (a_world _ a) = init_state "World" ->
  resets env a a1 -> steps env (n - 1) a1 ak -> works_with env ak t0 d n -> (3 <= n)%nat -> closed (fr_times f) = periods t0 d n ->
  (forall name, In name scalar_names -> value env ak name = Ok (Some (p name))) ->
  setting env ak "period_length" = Ok (GDelta period) -> setting env ak "original_rounding" = Ok rounding ->
  setting env ak "start_time" = Ok (GTime start) -> setting env ak "forcoth_saturation_time" = Ok (GTime saturation) ->
  exists e y s' g,
    (forall i, (i < n)%nat -> same_quantity env u (nth i xs 0%R) (emissions_unit rounding) (e i)) /\
    dice_start p (y 0%nat) /\
    (forall i, (S i < n)%nat -> dice_step p (y i) (y (S i)) (carbon_emitted (e i) period rounding)
       (other_forcing start period saturation (Z.of_nat i + 1) (p "fex0") (p "fex1"))) /\
    convert_openscm_to_scmdataframe env q_of (w_out (a_world _ ak)) (fr_times f) model scenario climate_model = (s', Ok g) /\
    fr_times g = fr_times f /\ length (fr_data g) = 6%nat /\
    forall v r u t vals, has_typed_series g v r u t vals <->
      r = "World" /\ exists name, output_series name v u t /\ vals = map (fun i => Some (y i name)) (seq 0 n).
Proof. exact (frame_to_frame env q_of f u xs s a a1 ak t0 d n p period rounding start saturation model scenario climate_model). Qed.
Print Assumptions C91_frame_to_frame.

(** The run of C90: emissions of [x0] to [x4] GtC per year in five years. *)
Example C91_case x0 x1 x2 x3 x4 :
  good_env dice_env /\ storable dice_env (e_frame x0 x1 x2 x3 x4) /\
  has_typed_series (e_frame x0 x1 x2 x3 x4) "Emissions|CO2" "World" "GtC/a" "average" (map Some [x0; x1; x2; x3; x4]) /\
  to_parameterset dice_env (e_frame x0 x1 x2 x3 x4) (init_state "World") = (e_inputs x0 x1 x2 x3 x4, Ok tt) /\
  handed dice_env (e_inputs x0 x1 x2 x3 x4) (e_user x0 x1 x2 x3 x4) /\
  w_out (a_world _ (e_user x0 x1 x2 x3 x4)) = init_state "World" /\
  closed (fr_times (e_frame x0 x1 x2 x3 x4)) = periods 0 year_s 5 /\
  exists a1 ak vals, resets dice_env (e_user x0 x1 x2 x3 x4) a1 /\ steps dice_env 4 a1 ak /\ works_with dice_env ak 0 year_s 5 /\
    (forall name i, In name series_names -> (i < 5)%nat -> out dice_env ak name i = Ok (Some (vals name i))) /\
    (forall name, In name scalar_names -> value dice_env ak name = Ok (Some (e_p x0 x1 x2 x3 x4 name))) /\
    setting dice_env ak "period_length" = Ok (GDelta YEAR) /\ setting dice_env ak "original_rounding" = Ok (GBool true) /\
    setting dice_env ak "start_time" = Ok (GTime (mkDT 1000000000 0)) /\
    setting dice_env ak "forcoth_saturation_time" = Ok (GTime (mkDT day_ns 47482)) /\
    exists a', runs dice_env (e_user x0 x1 x2 x3 x4) a' /\ works_with dice_env a' 0 year_s 5 /\
      (forall name i, In name series_names -> (i < 5)%nat -> out dice_env a' name i = Ok (Some (vals name i))).
Proof.
  split; [exact dice_good|]. split; [apply e_storable|]. split; [apply e_series|]. split; [apply e_stored|].
  split; [apply e_handed|]. split; [apply e_empty|]. split; [reflexivity|]. apply e_back.
Qed.
