(** A concrete run of the DICE adapter with any emissions, carbon at [m] times its equilibrium, other
    forcing [f] and any temperatures at the beginning: cases of C77-C80. *)
From Coq Require Import String List ZArith Reals Bool Arith Lia Lra.
From Verif Require Import Base Units TimeModel Spec_Time TimeProps Calendar CalendarFacts Core Spec_Core Adapters Dice Spec_Dice
  ConvShape DiceSim DiceMachine DiceBase DiceTime DiceUsed DiceProgress DiceProps DiceAgain DiceEx DiceRunEx Spec_DiceMono.
Import ListNotations.
Local Open Scope string_scope.
Local Open Scope list_scope.

Ltac ev := lazy -[Rplus Rmult Rminus Rdiv Rinv Ropp IZR pint_to uconvert_from uconvert_to convert_R
  timestep_count create_time_points].
Section E.
Variable e : nat -> R.
Variables m f ta to : R.
Hypothesis m_pos : (0 < m)%R.

(** The user sets start, stop, the carbon pools to their equilibrium, and emissions of [e] GtC per year. *)
Definition user_ops : list op :=
  [ OGeneric (HStr "Start Time") World; OSetGeneric 0 (GTime (mkDT 1000000000 0));
    OGeneric (HStr "Stop Time") World; OSetGeneric 1 (GTime (mkDT 1000000000 (4 * year_s)));
    OScalar (HStr "DICE|mat0") "GtC" World; OSetValue 2 (Some (m * 588)%R);
    OScalar (HStr "DICE|mu0") "GtC" World; OSetValue 3 (Some (m * 1350)%R);
    OScalar (HStr "DICE|ml0") "GtC" World; OSetValue 4 (Some (m * 10000)%R);
    OScalar (HStr "DICE|fex0") "W/m^2" World; OSetValue 5 (Some f);
    OScalar (HStr "DICE|fex1") "W/m^2" World; OSetValue 6 (Some f);
    OScalar (HStr "DICE|tatm0") "delta_degC" World; OSetValue 7 (Some ta);
    OScalar (HStr "DICE|tocean0") "delta_degC" World; OSetValue 8 (Some to);
    OTimeseries (HStr "Emissions|CO2") "GtC/a" (mkTP 1 tp6) World (AEnum AVERAGE_TIMESERIES)
      (AEnum ILINEAR) (AEnum XNONE) ].
Definition emissions : arr := mkArr false [Some (e 0%nat); Some (e 1%nat); Some (e 2%nat); Some (e 3%nat); Some (e 4%nat)].
Definition pre : state := Eval lazy -[Rplus Rmult Rminus Rdiv Rinv Ropp IZR pint_to uconvert_from uconvert_to convert_R] in
  run dice_env (init_state "World") user_ops.
Definition run_inputs : state := run dice_env (init_state "World") (user_ops ++ [OSetValues 9 emissions]).
Lemma run_reachable : reachable dice_env run_inputs.
Proof. eexists _, _. reflexivity. Qed.


Ltac conv6 := match goal with |- context [convert_R ?ty ?ex ?v ?s ?t] =>
  replace (convert_R ty ex v s t) with (Ok v) by
   (symmetry; apply (conv_id ty ex tp6); [left; reflexivity|exact tp6_up|split; [reflexivity|discriminate]|simpl; lia]) end.
Ltac conv5 := match goal with |- context [convert_R ?ty ?ex ?v ?s ?t] =>
  replace (convert_R ty ex v s t) with (Ok v) by
   (symmetry; apply (conv_id ty ex tp5); [right; reflexivity|exact tp5_up|split; [reflexivity|discriminate]|simpl; lia]) end.

Definition inputs_sig : {s | run_inputs = s}.
Proof.
  eexists. unfold run_inputs, run. rewrite fold_left_app.
  change (fold_left (fun s o => fst (step dice_env o s)) user_ops (init_state "World")) with pre.
  ev. conv6. lazy beta iota zeta. reflexivity.
Defined.
Definition user_inputs : state := Eval lazy -[Rplus Rmult Rminus Rdiv Rinv Ropp IZR pint_to uconvert_from uconvert_to] in proj1_sig inputs_sig.
Lemma inputs_eq : run_inputs = user_inputs.
Proof. exact (proj2_sig inputs_sig). Qed.

Definition w_user : world := new_world user_inputs no_outputs (fun _ => Some 0%R).
Definition w_init : world := Eval lazy -[Rplus Rmult Rminus Rdiv Rinv Ropp IZR pint_to uconvert_from uconvert_to] in
  fst (initialize_model dice_env w_user).
Lemma init_eq : initialize_model dice_env w_user = (w_init, Ok tt).
Proof. ev. reflexivity. Qed.

Ltac one := eapply bind_step; [ev; reflexivity|].
Definition params_sig : {w | initialize_run_parameters dice_env w_init = (w, Ok tt)}.
Proof.
  eexists. unfold initialize_run_parameters.
  one. one. one. one.
  eapply bind_step; [unfold lift_res; f_equal; exact count5|]. one.
  eapply bind_step; [unfold lift_res; f_equal; exact points5|].
  eapply bind_step; [unfold lift_res; f_equal; exact points6|].
  one. ev. reflexivity.
Defined.
Definition w_params : world := Eval lazy -[Rplus Rmult Rminus Rdiv Rinv Ropp IZR pint_to uconvert_from uconvert_to] in proj1_sig params_sig.
Lemma params_eq : initialize_run_parameters dice_env w_init = (w_params, Ok tt).
Proof. exact (proj2_sig params_sig). Qed.
Definition w_start : world := Eval lazy -[Rplus Rmult Rminus Rdiv Rinv Ropp IZR pint_to uconvert_from uconvert_to] in
  fst (start_time dice_env w_params).
Lemma start_eq : start_time dice_env w_params = (w_start, Ok tt).
Proof. ev. reflexivity. Qed.

(** ** The reset *)
Local Notation Iw := (I dice_env w_start (vi_of w_start)).
Definition warm_user : adapter world := new_adapter world w_user.
Lemma user_used : used dice_env warm_user.
Proof.
  apply used_new; [rewrite <- inputs_eq; exact run_reachable|exists "World", []; reflexivity].
Qed.
Lemma user_prepared : prepared_world dice_env warm_user w_start.
Proof.
  exists (mkAdapter world w_init true [(EvInitializeModel, true)]), w_params.
  split; [|split; [exact params_eq|exact start_eq]].
  unfold ensure_initialized, warm_user, new_adapter. cbn [a_initialized]. unfold call. cbn [a_world h_initialize_model dice_hooks].
  rewrite init_eq. reflexivity.
Qed.

Lemma user_base : base dice_env w_start (vi_of w_start) (pi_of w_start) /\
  J dice_env w_start (vi_of w_start) (pi_of w_start) (fun _ => None) w_start (d_start w_start).
Proof. apply (prepared_base dice_env warm_user); [apply used_wf, user_used|exact user_prepared]. Qed.

Ltac num := unfold pint_to, uconvert_from, uconvert_to; cbn [uc_scaling uc_offset u_scale u_offset]; do 2 f_equal; field.
Ltac rdn := ev; num.
Lemma i_b12 : i_scalar Iw "b12" = Ok (Some (181 / 10000)%R). Proof. rdn. Qed.
Lemma i_b23 : i_scalar Iw "b23" = Ok (Some (71 / 100000)%R). Proof. rdn. Qed.
Lemma i_mateq : i_scalar Iw "mateq" = Ok (Some 588%R). Proof. rdn. Qed.
Lemma i_mueq : i_scalar Iw "mueq" = Ok (Some 1350%R). Proof. rdn. Qed.
Lemma i_mleq : i_scalar Iw "mleq" = Ok (Some 10000%R). Proof. rdn. Qed.
Lemma i_mat0 : i_scalar Iw "mat0" = Ok (Some (m * 588)%R). Proof. rdn. Qed.
Lemma i_fco22x : i_scalar Iw "fco22x" = Ok (Some (38 / 10)%R). Proof. rdn. Qed.
Lemma i_fex0 : i_scalar Iw "fex0" = Ok (Some f). Proof. rdn. Qed.
Lemma i_mat_lower : i_scalar Iw "mat_lower" = Ok (Some 10%R). Proof. rdn. Qed.
Lemma i_t2xco2 : i_scalar Iw "t2xco2" = Ok (Some (29 / 10)%R). Proof. rdn. Qed.
Definition init5 (x : series) : num := Some (match x with Mat => m * 588 | Ml => m * 10000 | Mu => m * 1350 | Tatm => ta
  | Tocean => to | Forc => 38 / 10 * (ln (m * 588 / 588) / ln 2) + f end)%R.
Lemma starts5 x : exists l, length l = 5%nat /\ start_of dice_env w_start (vi_of w_start) x l = Ok tt.
Proof.
  exists (repeat (Some 0%R) 5). split; [reflexivity|].
  destruct x; ev; first [conv5|conv6]; reflexivity.
Qed.
Lemma user_resets : exists a1, resets dice_env warm_user a1 /\ points a1 = Some 5%Z.
Proof.
  destruct user_base as [B Js].
  destruct (reset_go Iw (d_start w_start) 5 init5
    [("b11", minus_ (Some 1%R) (Some (181 / 10000)%R)); ("b21", Some (181 / 10000 * 588 / 1350)%R);
     ("b22", minus_ (minus_ (Some 1%R) (Some (181 / 10000 * 588 / 1350)%R)) (Some (71 / 100000)%R));
     ("b32", Some (71 / 100000 * 1350 / 10000)%R); ("b33", minus_ (Some 1%R) (Some (71 / 100000 * 1350 / 10000)%R))])
    as ([] & d & Pd & _).
  - reflexivity.
  - lia.
  - constructor. eexists _, _, _, _, _, _, _.
    split; [exact i_b12|]. split; [exact i_b23|]. split; [exact i_mateq|]. split; [exact i_mueq|]. split; [exact i_mleq|].
    split; [apply div_num; lra|]. split; [apply div_num; lra|]. repeat split; reflexivity.
  - constructor.
    + intros [] N; try congruence; rdn.
    + eexists _, _, _, _, _, _. split; [exact i_fco22x|]. split; [exact i_mat0|]. split; [exact i_mateq|].
      split; [apply div_num; lra|].
      split; [unfold log2; destruct (Rlt_dec 0 (m * 588 / 588)); [reflexivity|lra]|]. split; [exact i_fex0|reflexivity].
  - intros x g Lg. destruct (starts5 x) as (l & Ll & S). apply (start_len _ _ _ _ _ l _ B); auto. now rewrite Lg, Ll.
  - pose proof (ref_reset dice_env w_start (vi_of w_start) (pi_of w_start) B w_start (d_start w_start) Js) as R.
    rewrite Pd in R. destruct R as (w' & Re & Jw).
    destruct (reset_stepping_go _ _ _ _ user_prepared Re) as (a1 & E & W & _).
    exists a1. split; [split; [exact user_used|exact E]|].
    unfold points. rewrite W, (j_count _ _ _ _ _ _ _ Jw). reflexivity.
Qed.

(** ** The run *)
Lemma user_after a1 : resets dice_env warm_user a1 -> exists d, after_k dice_env warm_user 0 a1 w_start d d.
Proof.
  intros R. destruct (resets_after _ _ _ R) as (w0 & d & A). exists d.
  assert (w0 = w_start) by (eapply prepared_det; [exact user_prepared|apply A]). now subst.
Qed.
Lemma user_E : exists l, read_E dice_env w_start = Ok l /\ length l = 5%nat.
Proof. eexists. split; [ev; conv6; reflexivity|reflexivity]. Qed.

Lemma warm_runs : exists a1, resets dice_env warm_user a1 /\ points a1 = Some 5%Z /\
  (forall k, (k <= 4)%nat -> exists ak, steps dice_env k a1 ak) /\
  exists a', runs dice_env warm_user a'.
Proof.
  destruct user_resets as (a1 & R & P5). exists a1. split; auto. split; auto.
  destruct (user_after _ R) as (d & A).
  assert (V : forall n, value dice_env a1 n = i_scalar Iw n) by (intros; apply (ak_value _ _ _ _ _ _ _ A)).
  assert (G : forall n, setting dice_env a1 n = i_generic Iw n) by (intros; apply (ak_setting _ _ _ _ _ _ _ A)).
  destruct (C63_proof dice_env warm_user a1 5 10 588 (29 / 10) YEAR (GBool true) (mkDT 1000000000 0) (mkDT day_ns 47482)) as [Go [a' Ra]]; auto.
  - intros name Hn. rewrite V. unfold needed_scalars in Hn. cbn [List.In] in Hn.
    repeat (destruct Hn as [<-|Hn]; [eexists; ev; reflexivity|]). contradiction.
  - rewrite V. exact i_mat_lower.
  - lra.
  - rewrite V. exact i_mateq.
  - lra.
  - rewrite V. exact i_t2xco2.
  - lra.
  - rewrite G. ev. reflexivity.
  - rewrite G. ev. reflexivity.
  - rewrite G. ev. reflexivity.
  - rewrite G. ev. reflexivity.
  - discriminate.
  - intros i Hi. destruct user_E as (l & El & Ll). exists (nth i l None).
    apply (ak_emission _ _ _ _ _ _ _ A _ _ l); [exact El|]. apply at_index_ok. lia.
  - split; [intros k Hk; apply Go; lia|]. exists a'. split; [exact user_used|exact Ra].
Qed.

(** ** What the adapter reads *)
Definition pw (name : string) : R :=
  match alookup name
    [("mat0", m * 588); ("mateq", 588); ("mat_lower", 10); ("ml0", m * 10000); ("mleq", 10000); ("ml_lower", 1000);
     ("mu0", m * 1350); ("mueq", 1350); ("mu_lower", 100); ("tatm0", ta); ("tatm_upper", 40); ("tocean0", to);
     ("tocean_lower", -1); ("tocean_upper", 20); ("b12", 181 / 10000); ("b23", 71 / 100000); ("c1", 222 / 10000);
     ("c3", 9175 / 100000); ("c4", 487 / 100000); ("fex0", f); ("fex1", f); ("fco22x", 38 / 10);
     ("t2xco2", 29 / 10)]%R with
  | Some x => x
  | None => 0
  end.
Definition given : list num := map (fun i => Some (e i * 44 / 12)%R) [0; 1; 2; 3; 4]%nat.
Lemma user_emissions : read_E dice_env w_start = Ok given.
Proof.
  ev. conv6. unfold pint_to, uconvert_from, uconvert_to, given. cbn [uc_scaling uc_offset u_scale u_offset List.map].
  f_equal. do 5 (apply f_equal2; [f_equal; field|]). reflexivity.
Qed.
Lemma warm_reads a1 k ak : resets dice_env warm_user a1 -> steps dice_env k a1 ak -> (k <= 4)%nat ->
  reads dice_env ak pw (fun i => e i * 44 / 12)%R k YEAR (GBool true) (mkDT 1000000000 0) (mkDT day_ns 47482).
Proof.
  intros R S L. destruct (steps_after _ _ _ _ _ R S) as (w0 & d0 & d & A).
  assert (w0 = w_start) by (eapply prepared_det; [exact user_prepared|apply A]). subst w0.
  assert (G : forall n, setting dice_env ak n = i_generic Iw n) by (intros; apply (ak_setting _ _ _ _ _ _ _ A)).
  constructor; try (rewrite G; ev; reflexivity).
  - intros name Hn. rewrite (ak_value _ _ _ _ _ _ _ A). unfold scalar_names in Hn. cbn [List.In] in Hn.
    repeat (destruct Hn as [<-|Hn]; [rdn|]). contradiction.
  - intros i Hi. apply (ak_emission _ _ _ _ _ _ _ A _ _ given); [exact user_emissions|].
    rewrite at_index_ok by (unfold given; simpl; lia). f_equal. do 5 (destruct i as [|i]; [reflexivity|]). lia.
Qed.
Definition a_case (k : nat) (ak : adapter world) : Prop := exists a1,
  resets dice_env warm_user a1 /\ steps dice_env k a1 ak /\
  reads dice_env ak pw (fun i => e i * 44 / 12)%R k YEAR (GBool true) (mkDT 1000000000 0) (mkDT day_ns 47482).
Lemma warm_case k : (k <= 4)%nat -> exists ak, a_case k ak.
Proof.
  intros L. destruct warm_runs as (a1 & R & _ & Go & _). destruct (Go k L) as (ak & S).
  exists ak, a1. split; auto. split; auto. exact (warm_reads a1 k ak R S L).
Qed.
End E.
