(** A data frame of emissions of CO2 in five years, given to DICE. *)
From Coq Require Import String List ZArith QArith Qcanon Reals Bool Arith Lia Lra Sorted.
From Verif Require Import Base Units TimeModel Spec_Time TimeProps Calendar CalendarFacts Core Spec_Core CoreTree CoreNames Filters ParameterType Frame Spec_Frame FrameStore
  Spec_Store StorePut StoreProps Adapters Dice Spec_Dice Spec_DiceUnits
  ConvShape DiceSim DiceMachine DiceBase DiceTime DiceUsed DiceProgress DiceProps DiceAgain DiceEx DiceRunEx Spec_Pipeline.
From Verif Require PipelineDice PipelineFrame.
Import ListNotations.
Local Open Scope string_scope.
Local Open Scope list_scope.

Section E.
Variables x0 x1 x2 x3 x4 : R.
Definition e_values : list R := [x0; x1; x2; x3; x4].
Definition e_cols : list string := ["model"; "scenario"; "region"; "variable"; "unit"; "parameter_type"; "climate_model"].
Definition e_row : list mval :=
  [MStr "m"; MStr "s"; MStr "World"; MStr "Emissions|CO2"; MStr "GtC/a"; MStr "average"; MStr "unspecified"].
Definition e_frame : frame := mkFrame tp5 [(7%Z, map Some e_values)] e_cols [(7%Z, e_row)].

Lemma e_meta l c v : meta_of e_frame l c v -> l = 7%Z /\
  (c = "model" /\ v = MStr "m" \/ c = "scenario" /\ v = MStr "s" \/ c = "region" /\ v = MStr "World" \/
   c = "variable" /\ v = MStr "Emissions|CO2" \/ c = "unit" /\ v = MStr "GtC/a" \/
   c = "parameter_type" /\ v = MStr "average" \/ c = "climate_model" /\ v = MStr "unspecified").
Proof.
  intros (row & I & J). cbn [e_frame fr_meta fr_cols] in I, J. destruct I as [I|[]]. injection I as <- <-. split; auto.
  unfold e_row, e_cols in J; cbn [combine In] in J.
  repeat (destruct J as [J|J]; [injection J as <- <-; tauto|]); destruct J.
Qed.
Lemma e_others c : other_column e_frame c -> c = "model" \/ c = "scenario" \/ c = "climate_model".
Proof.
  intros [I N]. cbn [e_frame fr_cols] in I. unfold e_cols in I. cbn [In] in I, N.
  repeat (destruct I as [<-|I]; [tauto|]). destruct I.
Qed.
Ltac lacks := repeat (apply without_cons; split; [discriminate|]); apply without_nil.
Ltac not_under := let H := fresh in let x := fresh in intros [H|(x & H)]; cbn in H; discriminate.
Lemma e_held c n : other_column e_frame c -> held_as c n -> n = c.
Proof.
  intros O [[_ ->]|(u & Q)]; [reflexivity|]. destruct (quantity_ok _ _ _ Q) as (HU & _).
  destruct (e_others _ O) as [-> |[-> | ->]]; vm_compute in HU; discriminate.
Qed.
Lemma e_storable : storable dice_env e_frame.
Proof.
  constructor.
  - split; try reflexivity.
    + cbn. repeat constructor; cbn; intuition discriminate.
    + repeat constructor.
    + repeat constructor.
    + cbn. repeat constructor; cbn; intuition discriminate.
    + intros c H. cbn in *. tauto.
  - discriminate.
  - cbn. repeat constructor; lia.
  - cbn. lia.
  - intros l vals [[= <- <-]|[]]; cbn; intuition discriminate.
  - intros l [<-|[]]. exists "Emissions|CO2", "World", "GtC/a".
    split; [|split; [|split; [|split; [discriminate|split; [reflexivity|now left]]]]]; (eexists; split; [left; reflexivity|cbn; tauto]).
  - exists 7%Z, "World". split; [eexists; split; [left; reflexivity|cbn; tauto]|now left].
  - intros l v M. destruct (e_meta _ _ _ M) as (-> & Y).
      repeat (destruct Y as [[Y1 Y2]|Y]; [try discriminate Y1; subst v; auto|]); destruct Y; discriminate.
  - intros l l' v v' r0 A B _ _ N. destruct (e_meta _ _ _ A) as (-> & _), (e_meta _ _ _ B) as (-> & _). congruence.
  - intros c l l' v v' O A B. destruct (e_meta _ _ _ A) as (_ & Y1), (e_meta _ _ _ B) as (_ & Y2).
    destruct (e_others _ O) as [-> |[-> | ->]];
      repeat (destruct Y1 as [[E1 F1]|Y1]; [try discriminate E1|]); try destruct Y1 as [E1 F1]; try discriminate;
      repeat (destruct Y2 as [[E2 F2]|Y2]; [try discriminate E2|]); try destruct Y2 as [E2 F2]; try discriminate; congruence.
  - intros l v A. destruct (e_meta _ _ _ A) as (_ & Y1).
    repeat (destruct Y1 as [[E1 F1]|Y1]; [first [discriminate E1|exact F1]|]). apply Y1.
  - intros c O. destruct (e_others _ O) as [-> |[-> | ->]]; (split; [discriminate|]); (split; [discriminate|]).
    + exists "model". left. split; [lacks|reflexivity].
    + exists "scenario". left. split; [lacks|reflexivity].
    + exists "climate_model". left. split; [lacks|reflexivity].
  - intros c n u l v O Q A. destruct (quantity_ok _ _ _ Q) as (HU & _). destruct (e_others _ O) as [-> |[-> | ->]]; vm_compute in HU; discriminate HU.
  - intros c c' n n' O O' H H' N. rewrite (e_held _ _ O H), (e_held _ _ O' H').
    destruct (e_others _ O) as [-> |[-> | ->]], (e_others _ O') as [-> |[-> | ->]]; try congruence; not_under.
  - intros c n l v O H A _. rewrite (e_held _ _ O H). destruct (e_meta _ _ _ A) as (_ & Y1).
    assert (v = "Emissions|CO2") by (clear -Y1; repeat (destruct Y1 as [[Y Z]|Y1]; [first [discriminate Y|now injection Z]|]); destruct Y1; discriminate). subst v.
    destruct (e_others _ O) as [-> |[-> | ->]]; split; not_under.
Qed.
Lemma e_series : has_typed_series e_frame "Emissions|CO2" "World" "GtC/a" "average" (map Some e_values).
Proof.
  exists 7%Z. split; [now left|]. repeat split; (eexists; split; [left; reflexivity|cbn; tauto]).
Qed.

Ltac conv6 := match goal with |- context [convert_R ?ty ?ex ?v ?s ?t] =>
  replace (convert_R ty ex v s t) with (Ok v) by
   (symmetry; apply (conv_id ty ex tp6); [left; reflexivity|exact tp6_up|split; [reflexivity|discriminate]|simpl; lia]) end.
Ltac conv5 := match goal with |- context [convert_R ?ty ?ex ?v ?s ?t] =>
  replace (convert_R ty ex v s t) with (Ok v) by
   (symmetry; apply (conv_id ty ex tp5); [right; reflexivity|exact tp5_up|split; [reflexivity|discriminate]|simpl; lia]) end.
Definition e_requested : state := Eval lazy -[Rplus Rmult Rminus Rdiv Rinv Ropp IZR pint_to uconvert_from uconvert_to convert_R] in
  fst (step dice_env (series_request "Emissions|CO2" "GtC/a" tp6 "World" AVERAGE_TIMESERIES) (init_state "World")).
Definition series_sig : {s | put_all_series dice_env e_frame (fr_data e_frame) (init_state "World") = (s, Ok tt)}.
Proof.
  assert (E1 : step dice_env (series_request "Emissions|CO2" "GtC/a" tp6 "World" AVERAGE_TIMESERIES) (init_state "World") = (e_requested, Ok (VView 0)))
    by (ev; reflexivity).
  assert (X : {s | step dice_env (OSetValues 0 (mkArr false (map Some e_values))) e_requested = (s, Ok VUnit)}) by (eexists; ev; conv6; ev; reflexivity).
  destruct X as (s & E2). exists s.
  cbn [fr_data e_frame put_all_series row_at fr_meta Z.eqb Pos.eqb fr_cols fr_times]. unfold put_series.
  change (Frame.cell e_cols e_row "variable") with (MStr "Emissions|CO2"). change (Frame.cell e_cols e_row "region") with (MStr "World").
  change (Frame.cell e_cols e_row "unit") with (MStr "GtC/a"). cbv iota.
  change (row_type dice_env e_cols e_row "Emissions|CO2" "GtC/a") with (Ok AVERAGE_TIMESERIES). cbv iota.
  change (FrameInterp.extended tp5) with (Ok tp6). cbv iota. rewrite E1, E2. reflexivity.
Defined.
Definition e_held_series : state := Eval lazy -[Rplus Rmult Rminus Rdiv Rinv Ropp IZR pint_to uconvert_from uconvert_to] in proj1_sig series_sig.
Definition e_inputs : state := Eval lazy -[Rplus Rmult Rminus Rdiv Rinv Ropp IZR pint_to uconvert_from uconvert_to] in
  fst (put_all_meta dice_env [("model", MStr "m"); ("scenario", MStr "s"); ("climate_model", MStr "unspecified")] e_held_series).
Lemma e_stored : to_parameterset dice_env e_frame (init_state "World") = (e_inputs, Ok tt).
Proof.
  assert (E1 : put_all_series dice_env e_frame (fr_data e_frame) (init_state "World") = (e_held_series, Ok tt)) by exact (proj2_sig series_sig).
  assert (E2 : put_all_meta dice_env [("model", MStr "m"); ("scenario", MStr "s"); ("climate_model", MStr "unspecified")] e_held_series = (e_inputs, Ok tt))
    by (lazy -[Rplus Rmult Rminus Rdiv Rinv Ropp IZR pint_to uconvert_from uconvert_to]; reflexivity).
  unfold to_parameterset.
  change (distinct_rows (map (fun r => map (Frame.cell (fr_cols e_frame) (snd r)) (other_cols (fr_cols e_frame))) (fr_meta e_frame)))
    with [[MStr "m"; MStr "s"; MStr "unspecified"]].
  cbv zeta iota.
  match goal with |- (if ?b then _ else _) = _ => change b with true end. cbv iota.
  rewrite E1.
  change (combine (other_cols (fr_cols e_frame)) [MStr "m"; MStr "s"; MStr "unspecified"])
    with [("model", MStr "m"); ("scenario", MStr "s"); ("climate_model", MStr "unspecified")].
  exact E2.
Qed.

(** The user makes the adapter and then sets start and stop. *)
Definition e_ops : list op :=
  [ OGeneric (HStr "Start Time") World; OSetGeneric 4 (GTime (mkDT 1000000000 0));
    OGeneric (HStr "Stop Time") World; OSetGeneric 5 (GTime (mkDT 1000000000 (4 * year_s))) ].
Definition e_user : adapter world :=
  fold_left (fun a o => user_call dice_env In_ o a) e_ops (new_adapter world (new_world e_inputs no_outputs (fun _ => Some 0%R))).
Definition e_world : world := Eval lazy -[Rplus Rmult Rminus Rdiv Rinv Ropp IZR pint_to uconvert_from uconvert_to] in a_world _ e_user.
Lemma e_user_is : e_user = new_adapter world e_world.
Proof. lazy -[Rplus Rmult Rminus Rdiv Rinv Ropp IZR pint_to uconvert_from uconvert_to]. reflexivity. Qed.
Lemma e_handed : handed dice_env e_inputs e_user.
Proof.
  unfold e_user, e_ops. cbn [fold_left].
  assert (Q : forall a o, handed dice_env e_inputs a ->
    match write_target o with Some vi => exists p v, param_at (w_in (a_world _ a)) ["World"] ["Emissions"; "CO2"] = Some p /\
      nth_error (st_views (w_in (a_world _ a))) vi = Some v /\ v_param v <> p | None => True end -> handed dice_env e_inputs (user_call dice_env In_ o a)).
  { intros a o H X. apply handed_op; [exact H|]. intros _ p Hp (vi & W & v & N & _ & P). rewrite W in X. destruct X as (p' & v' & A & B & C). congruence. }
  apply Q; [apply Q; [apply Q; [apply Q|]|]|].
  2,4: exact Logic.I.
  2,3: cbn [write_target]; eexists _, _; (split; [|split]); lazy -[Rplus Rmult Rminus Rdiv Rinv Ropp IZR pint_to uconvert_from uconvert_to]; try reflexivity; discriminate.
  apply handed_new. exists "World", []. reflexivity.
Qed.

(** ** The reset *)
Definition e_init : world := Eval lazy -[Rplus Rmult Rminus Rdiv Rinv Ropp IZR pint_to uconvert_from uconvert_to] in
  fst (initialize_model dice_env e_world).
Lemma e_init_eq : initialize_model dice_env e_world = (e_init, Ok tt).
Proof. ev. reflexivity. Qed.
Ltac one := eapply bind_step; [ev; reflexivity|].
Definition e_params_sig : {w | initialize_run_parameters dice_env e_init = (w, Ok tt)}.
Proof.
  eexists. unfold initialize_run_parameters.
  one. one. one. one.
  eapply bind_step; [unfold lift_res; f_equal; exact count5|]. one.
  eapply bind_step; [unfold lift_res; f_equal; exact points5|].
  eapply bind_step; [unfold lift_res; f_equal; exact points6|].
  one. ev. reflexivity.
Defined.
Definition e_params : world := Eval lazy -[Rplus Rmult Rminus Rdiv Rinv Ropp IZR pint_to uconvert_from uconvert_to] in proj1_sig e_params_sig.
Lemma e_params_eq : initialize_run_parameters dice_env e_init = (e_params, Ok tt).
Proof. exact (proj2_sig e_params_sig). Qed.
Definition e_start : world := Eval lazy -[Rplus Rmult Rminus Rdiv Rinv Ropp IZR pint_to uconvert_from uconvert_to] in
  fst (start_time dice_env e_params).
Lemma e_start_eq : start_time dice_env e_params = (e_start, Ok tt).
Proof. ev. reflexivity. Qed.
Local Notation Iw := (I dice_env e_start (vi_of e_start)).
Lemma e_used : used dice_env e_user.
Proof. apply (PipelineDice.handed_used dice_env e_inputs). 2: exact e_handed.
  pose proof (PipelineFrame.frame_reachable dice_env e_frame (init_state "World")) as X. rewrite e_stored in X. apply X. exists "World", []. reflexivity. Qed.
Lemma e_prepared : prepared_world dice_env e_user e_start.
Proof.
  rewrite e_user_is. exists (mkAdapter world e_init true [(EvInitializeModel, true)]), e_params.
  split; [|split; [exact e_params_eq|exact e_start_eq]].
  unfold ensure_initialized, new_adapter. cbn [a_initialized]. unfold call. cbn [a_world h_initialize_model dice_hooks].
  rewrite e_init_eq. reflexivity.
Qed.
Lemma e_base : base dice_env e_start (vi_of e_start) (pi_of e_start) /\
  J dice_env e_start (vi_of e_start) (pi_of e_start) (fun _ => None) e_start (d_start e_start).
Proof. apply (prepared_base dice_env e_user); [apply used_wf, e_used|exact e_prepared]. Qed.

Ltac num := unfold pint_to, uconvert_from, uconvert_to; cbn [uc_scaling uc_offset u_scale u_offset]; do 2 f_equal; field.
Ltac rdn := ev; num.
Lemma e_b12 : i_scalar Iw "b12" = Ok (Some (181 / 10000)%R). Proof. rdn. Qed.
Lemma e_b23 : i_scalar Iw "b23" = Ok (Some (71 / 100000)%R). Proof. rdn. Qed.
Lemma e_mateq : i_scalar Iw "mateq" = Ok (Some 588%R). Proof. rdn. Qed.
Lemma e_mueq : i_scalar Iw "mueq" = Ok (Some 1350%R). Proof. rdn. Qed.
Lemma e_mleq : i_scalar Iw "mleq" = Ok (Some 10000%R). Proof. rdn. Qed.
Lemma e_mat0 : i_scalar Iw "mat0" = Ok (Some (8304 / 10)%R). Proof. rdn. Qed.
Lemma e_fco22x : i_scalar Iw "fco22x" = Ok (Some (38 / 10)%R). Proof. rdn. Qed.
Lemma e_fex0 : i_scalar Iw "fex0" = Ok (Some (25 / 100)%R). Proof. rdn. Qed.
Lemma e_mat_lower : i_scalar Iw "mat_lower" = Ok (Some 10%R). Proof. rdn. Qed.
Lemma e_t2xco2 : i_scalar Iw "t2xco2" = Ok (Some (29 / 10)%R). Proof. rdn. Qed.
Definition e_init5 (x : series) : num := Some (match x with Mat => 8304 / 10 | Ml => 10010 | Mu => 1527 | Tatm => 8 / 10
  | Tocean => 68 / 10000 | Forc => 38 / 10 * (ln (8304 / 10 / 588) / ln 2) + 25 / 100 end)%R.
Lemma e_starts5 x : exists l, length l = 5%nat /\ start_of dice_env e_start (vi_of e_start) x l = Ok tt.
Proof.
  exists (repeat (Some 0%R) 5). split; [reflexivity|].
  destruct x; ev; first [conv5|conv6]; reflexivity.
Qed.
Lemma e_resets : exists a1, resets dice_env e_user a1 /\ points a1 = Some 5%Z.
Proof.
  destruct e_base as [B Js].
  destruct (reset_go Iw (d_start e_start) 5 e_init5
    [("b11", minus_ (Some 1%R) (Some (181 / 10000)%R)); ("b21", Some (181 / 10000 * 588 / 1350)%R);
     ("b22", minus_ (minus_ (Some 1%R) (Some (181 / 10000 * 588 / 1350)%R)) (Some (71 / 100000)%R));
     ("b32", Some (71 / 100000 * 1350 / 10000)%R); ("b33", minus_ (Some 1%R) (Some (71 / 100000 * 1350 / 10000)%R))])
    as ([] & d & Pd & _).
  - reflexivity.
  - lia.
  - constructor. eexists _, _, _, _, _, _, _.
    split; [exact e_b12|]. split; [exact e_b23|]. split; [exact e_mateq|]. split; [exact e_mueq|]. split; [exact e_mleq|].
    split; [apply div_num; lra|]. split; [apply div_num; lra|]. repeat split; reflexivity.
  - constructor.
    + intros [] N; try congruence; rdn.
    + eexists _, _, _, _, _, _. split; [exact e_fco22x|]. split; [exact e_mat0|]. split; [exact e_mateq|].
      split; [apply div_num; lra|].
      split; [unfold log2; destruct (Rlt_dec 0 (8304 / 10 / 588)); [reflexivity|lra]|]. split; [exact e_fex0|reflexivity].
  - intros x g Lg. destruct (e_starts5 x) as (l & Ll & S). apply (start_len _ _ _ _ _ l _ B); auto. now rewrite Lg, Ll.
  - pose proof (ref_reset dice_env e_start (vi_of e_start) (pi_of e_start) B e_start (d_start e_start) Js) as R.
    rewrite Pd in R. destruct R as (w' & Re & Jw).
    destruct (reset_stepping_go _ _ _ _ e_prepared Re) as (a1 & E & W & _).
    exists a1. split; [split; [exact e_used|exact E]|].
    unfold points. rewrite W, (j_count _ _ _ _ _ _ _ Jw). reflexivity.
Qed.
Lemma e_after a1 : resets dice_env e_user a1 -> exists d, after_k dice_env e_user 0 a1 e_start d d.
Proof.
  intros R. destruct (resets_after _ _ _ R) as (w0 & d & A). exists d.
  assert (w0 = e_start) by (eapply prepared_det; [exact e_prepared|apply A]). now subst.
Qed.
Lemma e_E : exists l, read_E dice_env e_start = Ok l /\ length l = 5%nat.
Proof. eexists. split; [ev; conv6; reflexivity|reflexivity]. Qed.
Lemma e_runs : exists a1, resets dice_env e_user a1 /\ points a1 = Some 5%Z /\
  (forall k, (k <= 4)%nat -> exists ak, steps dice_env k a1 ak) /\
  exists a', runs dice_env e_user a'.
Proof.
  destruct e_resets as (a1 & R & P5). exists a1. split; auto. split; auto.
  destruct (e_after _ R) as (d & A).
  assert (V : forall n, value dice_env a1 n = i_scalar Iw n) by (intros; apply (ak_value _ _ _ _ _ _ _ A)).
  assert (G : forall n, setting dice_env a1 n = i_generic Iw n) by (intros; apply (ak_setting _ _ _ _ _ _ _ A)).
  destruct (C63_proof dice_env e_user a1 5 10 588 (29 / 10) YEAR (GBool true) (mkDT 1000000000 0) (mkDT day_ns 47482)) as [Go [a' Ra]]; auto.
  - intros name Hn. rewrite V. unfold needed_scalars in Hn. cbn [List.In] in Hn.
    repeat (destruct Hn as [<-|Hn]; [eexists; ev; reflexivity|]). contradiction.
  - rewrite V. exact e_mat_lower.
  - lra.
  - rewrite V. exact e_mateq.
  - lra.
  - rewrite V. exact e_t2xco2.
  - lra.
  - rewrite G. ev. reflexivity.
  - rewrite G. ev. reflexivity.
  - rewrite G. ev. reflexivity.
  - rewrite G. ev. reflexivity.
  - discriminate.
  - intros i Hi. destruct e_E as (l & El & Ll). exists (nth i l None).
    apply (ak_emission _ _ _ _ _ _ _ A _ _ l); [exact El|]. apply at_index_ok. lia.
  - split; [intros k Hk; apply Go; lia|]. exists a'. split; [exact e_used|exact Ra].
Qed.
Lemma e_works a1 k ak : resets dice_env e_user a1 -> steps dice_env k a1 ak ->
  works_with dice_env ak 0 year_s 5 /\ setting dice_env ak "original_rounding" = Ok (GBool true).
Proof.
  intros R S. destruct (steps_after _ _ _ _ _ R S) as (w0 & d0 & d & A).
  assert (w0 = e_start) by (eapply prepared_det; [exact e_prepared|apply A]). subst w0.
  assert (G : forall n, setting dice_env ak n = i_generic Iw n) by (intros; apply (ak_setting _ _ _ _ _ _ _ A)).
  split; [|rewrite G; ev; reflexivity].
  split; [eexists; split; [rewrite G; ev; reflexivity|reflexivity]|].
  split; [eexists; split; [rewrite G; ev; reflexivity|reflexivity]|].
  split; [|repeat split; reflexivity].
  destruct (ak_count _ _ _ _ _ _ _ A) as (m & C & ->). assert (C5 : i_count Iw = Ok 5%Z) by (ev; reflexivity). assert (m = 5%Z) as -> by (rewrite C5 in C; injection C as <-; reflexivity). reflexivity.
Qed.
End E.
