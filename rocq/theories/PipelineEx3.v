(** The run of C90 with emissions that are not negative: the pools stay above their bounds (for C92). *)
From Coq Require Import String List ZArith Reals Bool Arith Lia Lra.
From Verif Require Import Base Units TimeModel Calendar Core CoreNames CoreInv Spec_Core Adapters Dice DiceSim DiceBase Spec_Dice DiceMachine
  DiceUsed DiceProps DiceRepeat Spec_DiceMono DiceEx DiceRunEx.
From Verif Require Import Frame FrameStore Spec_Interp Spec_Store Pipeline PipelineEx PipelineBack PipelineEx2.
From Verif Require Import Spec_Pipeline.
Import ListNotations.
Local Open Scope string_scope.
Local Open Scope list_scope.

Section E.
Context (x0 x1 x2 x3 x4 : R).
Notation user := (e_user x0 x1 x2 x3 x4).
Notation p := (e_p x0 x1 x2 x3 x4).

Ltac num := unfold e_p; ev; unfold pint_to, uconvert_from, uconvert_to; cbn [uc_scaling uc_offset u_scale u_offset]; lra.
Lemma e_p_is : p "mat0" = 830.4%R /\ p "mu0" = 1527%R /\ p "ml0" = 10010%R /\ p "mat_lower" = 10%R /\ p "mu_lower" = 100%R /\ p "ml_lower" = 1000%R /\
  p "b12" = (181 / 10000)%R /\ p "b23" = (71 / 100000)%R /\ p "mateq" = 588%R /\ p "mueq" = 1350%R /\ p "mleq" = 10000%R.
Proof. repeat split; num. Qed.
Lemma pools_above (y : nat -> string -> R) (c o : nat -> R) k : (forall i, (i < k)%nat -> (0 <= c i)%R) -> dice_start p (y 0%nat) ->
  (forall i, (i < k)%nat -> dice_step p (y i) (y (S i)) (c i) (o i)) ->
  forall i, (i <= k)%nat -> (830 * (9 / 10) ^ i <= y i "mat" /\ 1527 * (9 / 10) ^ i <= y i "mu" /\ 10010 * (9 / 10) ^ i <= y i "ml")%R.
Proof.
  destruct e_p_is as (P1 & P2 & P3 & P4 & P5 & P6 & P7 & P8 & P9 & P10 & P11).
  intros C [(D1 & D2 & D3) _ _] Stp. induction i as [|i IH]; intros Hi.
  - rewrite D1, D2, D3, P1, P2, P3. simpl. lra.
  - destruct (IH ltac:(lia)) as (I1 & I2 & I3). destruct (Stp i Hi) as [S1 S2 S3 _ _ _]. specialize (C i Hi).
    rewrite P4, P7, P9, P10 in S1. rewrite P6, P8, P10, P11 in S2. rewrite P5, P7, P8, P9, P10, P11 in S3.
    assert (Pw : (0 < (9 / 10) ^ i)%R) by (apply pow_lt; lra). cbn [pow].
    set (z := ((9 / 10) ^ i)%R) in *. clearbody z. rewrite S1, S2, S3.
    repeat split; (eapply Rle_trans; [|apply Rmax_r]); lra.
Qed.

Lemma e_carbon q_of model scenario climate_model :
  (0 <= x0)%R -> (0 <= x1)%R -> (0 <= x2)%R -> (0 <= x3)%R -> (0 <= x4)%R ->
  exists a1 ak mat mu ml s' g, resets dice_env user a1 /\ steps dice_env 4 a1 ak /\ works_with dice_env ak 0 year_s 5 /\
  (forall name, In name scalar_names -> value dice_env ak name = Ok (Some (p name))) /\
  setting dice_env ak "period_length" = Ok (GDelta YEAR) /\ setting dice_env ak "original_rounding" = Ok (GBool true) /\
  setting dice_env ak "start_time" = Ok (GTime (mkDT 1000000000 0)) /\ setting dice_env ak "forcoth_saturation_time" = Ok (GTime (mkDT day_ns 47482)) /\
  (forall i, (i <= 4)%nat -> out dice_env ak "mat" i = Ok (Some (nth i mat 0%R)) /\ out dice_env ak "mu" i = Ok (Some (nth i mu 0%R)) /\
     out dice_env ak "ml" i = Ok (Some (nth i ml 0%R))) /\
  (forall i, (1 <= i < 5)%nat -> (p "mat_lower" < nth i mat 0 /\ p "mu_lower" < nth i mu 0 /\ p "ml_lower" < nth i ml 0)%R) /\
  convert_openscm_to_scmdataframe dice_env q_of (w_out (a_world _ ak)) (instants 0 year_s 5) model scenario climate_model = (s', Ok g) /\
  has_typed_series g "Pool|CO2|Atmosphere" "World" "GtC" "point" (map Some mat) /\
  has_typed_series g "Pool|CO2|Ocean|shallow" "World" "GtC" "point" (map Some mu) /\
  has_typed_series g "Pool|CO2|Ocean|lower" "World" "GtC" "point" (map Some ml).
Proof.
  intros N0 N1 N2 N3 N4.
  destruct (e_runs x0 x1 x2 x3 x4) as (a1 & R & P5 & Go & _). destruct (Go 4%nat ltac:(lia)) as (ak & S).
  destruct (steps_after _ _ _ _ _ R S) as (w0 & d0 & d & A).
  pose proof (e_works_after _ _ _ _ _ _ _ _ _ _ A) as Ww. destruct (e_settings _ _ _ _ _ _ _ _ _ _ A) as (S1 & S2 & S3 & S4).
  pose proof (PipelineEx2.e_values _ _ _ _ _ _ _ _ _ _ A) as Vl.
  pose proof (C90_same_proof dice_env _ _ _ _ _ _ _ _ 0 year_s 5 (GBool true) dice_good (e_storable x0 x1 x2 x3 x4) (e_series x0 x1 x2 x3 x4)
    (e_stored x0 x1 x2 x3 x4) (e_handed x0 x1 x2 x3 x4) R S Ww S2 eq_refl) as Em.
  set (e := fun i => match emission dice_env ak i with Ok (Some x) => x | _ => 0%R end).
  assert (Rd : reads dice_env ak p e 4 YEAR (GBool true) (mkDT 1000000000 0) (mkDT day_ns 47482)).
  { constructor; auto. intros i Hi. destruct (Em i ltac:(lia)) as (x & Ex & _). unfold e. now rewrite Ex. }
  destruct (trajectory _ _ _ _ _ _ _ _ _ _ _ R S Rd) as (y & Y0 & Ys & Yo).
  assert (Ab : forall i, (i <= 4)%nat -> (830 * (9 / 10) ^ i <= y i "mat" /\ 1527 * (9 / 10) ^ i <= y i "mu" /\ 10010 * (9 / 10) ^ i <= y i "ml")%R).
  { eapply pools_above; [|exact Y0|exact Ys]. intros i Hi. cbv beta. rewrite carbon_is, year_quot. cbn [truthy].
    destruct (Em i ltac:(lia)) as (x & Ex & (ua & ub & E1 & E2 & E3)). unfold e. rewrite Ex.
    assert (Nx : (0 <= nth i (PipelineEx.e_values x0 x1 x2 x3 x4) 0)%R) by (do 4 (destruct i as [|i]; [assumption|]); lia).
    vm_compute in E1, E2. injection E1 as <-. injection E2 as <-. cbn [u_scale u_offset] in E3. lra. }
  destruct (resets_results dice_env q_of _ a1 4 ak 0 year_s 5 (fun name i => y i name) model scenario climate_model dice_good
    (e_empty x0 x1 x2 x3 x4) R S Ww ltac:(lia)) as (s' & g & C & _ & _ & _ & _ & Se & _); [intros name i I Hi; apply Yo; [exact I|lia]|].
  destruct (e_p_is) as (_ & _ & _ & P4 & P5' & P6 & _).
  set (l := fun name => map (fun i => y i name) (seq 0 5)).
  assert (Ln : forall name i, (i <= 4)%nat -> nth i (l name) 0%R = y i name) by (intros name i Hi; do 5 (destruct i as [|i]; [reflexivity|]); lia).
  assert (Ls : forall name v, output_series name v "GtC" "point" -> has_typed_series g v "World" "GtC" "point" (map Some (l name))).
  { intros name v On. apply Se. split; [reflexivity|]. exists name. split; [exact On|]. unfold l. now rewrite map_map. }
  exists a1, ak, (l "mat"), (l "mu"), (l "ml"), s', g.
  split; [exact R|]. split; [exact S|]. split; [exact Ww|]. split; [exact Vl|]. split; [exact S1|]. split; [exact S2|]. split; [exact S3|]. split; [exact S4|].
  split; [intros i Hi; rewrite !Ln by lia; repeat split; apply Yo; auto; unfold series_names; cbn; tauto|].
  split.
  - intros i Hi. destruct (Ab i ltac:(lia)) as (A1 & A2 & A3). rewrite !Ln by lia. rewrite P4, P5', P6. clear - A1 A2 A3 Hi.
    destruct i as [|[|[|[|[|i]]]]]; try lia; cbn [pow] in *; lra.
  - split; [exact C|]. repeat split; apply Ls; unfold output_series; cbn; tauto.
Qed.
End E.
