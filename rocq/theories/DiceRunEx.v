(** A concrete run of the DICE adapter: five time points, one year apart, default parameters. *)
From Coq Require Import String List ZArith Reals Bool Arith Lia Lra.
From Verif Require Import Base Units TimeModel Spec_Time TimeProps Calendar CalendarFacts Core Spec_Core Adapters Dice Spec_Dice
  ConvShape DiceSim DiceMachine DiceBase DiceTime DiceUsed DiceProgress DiceProps DiceAgain DiceEx.
Import ListNotations.
Local Open Scope string_scope.
Local Open Scope list_scope.

Ltac ev := lazy -[Rplus Rmult Rminus Rdiv Rinv Ropp IZR pint_to uconvert_from uconvert_to convert_R
  timestep_count create_time_points].

Definition year_s : Z := 31536000.
Definition tp5 : list Z := map (fun i => i * year_s)%Z [0; 1; 2; 3; 4]%Z.
Definition tp6 : list Z := map (fun i => i * year_s)%Z [0; 1; 2; 3; 4; 5]%Z.
Section E.
Variable e : R.

(** The user sets start, stop, the carbon pools to their equilibrium, and emissions of [e] GtC per year. *)
Definition user_ops : list op :=
  [ OGeneric (HStr "Start Time") World; OSetGeneric 0 (GTime (mkDT 1000000000 0));
    OGeneric (HStr "Stop Time") World; OSetGeneric 1 (GTime (mkDT 1000000000 (4 * year_s)));
    OScalar (HStr "DICE|mat0") "GtC" World; OSetValue 2 (Some 588%R);
    OScalar (HStr "DICE|mu0") "GtC" World; OSetValue 3 (Some 1350%R);
    OScalar (HStr "DICE|ml0") "GtC" World; OSetValue 4 (Some 10000%R);
    OTimeseries (HStr "Emissions|CO2") "GtC/a" (mkTP 1 tp6) World (AEnum AVERAGE_TIMESERIES)
      (AEnum ILINEAR) (AEnum XNONE) ].
Definition emissions : arr := mkArr false [Some e; Some e; Some e; Some e; Some e].
Definition pre : state := Eval lazy -[Rplus Rmult Rminus Rdiv Rinv Ropp IZR pint_to uconvert_from uconvert_to convert_R] in
  run dice_env (init_state "World") user_ops.
Definition run_inputs : state := run dice_env (init_state "World") (user_ops ++ [OSetValues 5 emissions]).
Lemma run_reachable : reachable dice_env run_inputs.
Proof. eexists _, _. reflexivity. Qed.


Lemma conv_id ty ex t v : timeseries ty -> increasing t -> belongs ty t v ->
  (3 <= length v)%nat -> convert_R ty ex v (map IZR t) (map IZR t) = Ok v.
Proof.
  intros T Hi Hb L. destruct (same_grid ty ex t v T Hi Hb L) as (c & Ec & E & _).
  unfold timeseries_converter in Ec. destruct t as [|t0 [|t1 t]]; try discriminate.
  destruct (t0 >? t1)%Z; [discriminate|]. inversion Ec; subst. exact E.
Qed.
Lemma tp6_up : increasing tp6. Proof. repeat constructor; simpl; lia. Qed.
Lemma tp5_up : increasing tp5. Proof. repeat constructor; simpl; lia. Qed.
Ltac conv6 := match goal with |- context [convert_R ?ty ?ex ?v ?s ?t] =>
  replace (convert_R ty ex v s t) with (Ok v) by
   (symmetry; apply (conv_id ty ex tp6); [left; reflexivity|exact tp6_up|split; [reflexivity|discriminate]|simpl; lia]) end.
Ltac conv5 := match goal with |- context [convert_R ?ty ?ex ?v ?s ?t] =>
  replace (convert_R ty ex v s t) with (Ok v) by
   (symmetry; apply (conv_id ty ex tp5); [right; reflexivity|exact tp5_up|split; [reflexivity|discriminate]|simpl; lia]) end.

Lemma count5 : timestep_count (mkDT 1000000000 0) (mkDT 1000000000 126144000) YEAR = Ok 5%Z.
Proof.
  destruct (timestep_count (mkDT 1000000000 0) (mkDT 1000000000 126144000) YEAR) as [n|er] eqn:E.
  - f_equal. apply (count_ticks _ _ _ _ 1000000000 E); try reflexivity;
      try (apply Z.mod_divide; [discriminate|reflexivity]); discriminate.
  - exfalso. unfold timestep_count in E. simpl in E. discriminate.
Qed.
Lemma points5 : create_time_points (mkDT 1000000000 0) YEAR 5 (AEnum POINT_TIMESERIES) = Ok tp5.
Proof. rewrite (create_eq _ _ _ _ POINT_TIMESERIES 0 year_s); first [reflexivity | simpl; unfold year_s; lia]. Qed.
Lemma points6 : create_time_points (mkDT 1000000000 0) YEAR 5 (AEnum AVERAGE_TIMESERIES) = Ok tp6.
Proof. rewrite (create_eq _ _ _ _ AVERAGE_TIMESERIES 0 year_s); first [reflexivity | simpl; unfold year_s; lia]. Qed.

Definition inputs_sig : {s | run_inputs = s}.
Proof.
  eexists. unfold run_inputs, run. rewrite fold_left_app.
  change (fold_left (fun s o => fst (step dice_env o s)) user_ops (init_state "World")) with pre.
  ev. conv6. lazy beta iota zeta. reflexivity.
Defined.
Definition user_inputs : state := Eval lazy -[Rplus Rmult Rminus Rdiv Rinv Ropp IZR pint_to uconvert_from uconvert_to] in proj1_sig inputs_sig.
Lemma inputs_eq : run_inputs = user_inputs.
Proof. exact (proj2_sig inputs_sig). Qed.

Definition w_user : world := new_world user_inputs no_outputs (fun _ => Some 0%R).
Definition w_init : world := Eval lazy -[Rplus Rmult Rminus Rdiv Rinv Ropp IZR pint_to uconvert_from uconvert_to] in
  fst (initialize_model dice_env w_user).
Lemma init_eq : initialize_model dice_env w_user = (w_init, Ok tt).
Proof. ev. reflexivity. Qed.

Lemma bind_step {A B} (m : M A) (f : A -> M B) w w' a r : m w = (w', Ok a) -> f a w' = r -> bind m f w = r.
Proof. unfold bind. now intros ->. Qed.
Ltac one := eapply bind_step; [ev; reflexivity|].
Definition params_sig : {w | initialize_run_parameters dice_env w_init = (w, Ok tt)}.
Proof.
  eexists. unfold initialize_run_parameters.
  one. one. one. one.
  eapply bind_step; [unfold lift_res; f_equal; exact count5|]. one.
  eapply bind_step; [unfold lift_res; f_equal; exact points5|].
  eapply bind_step; [unfold lift_res; f_equal; exact points6|].
  one. ev. reflexivity.
Defined.
Definition w_params : world := Eval lazy -[Rplus Rmult Rminus Rdiv Rinv Ropp IZR pint_to uconvert_from uconvert_to] in proj1_sig params_sig.
Lemma params_eq : initialize_run_parameters dice_env w_init = (w_params, Ok tt).
Proof. exact (proj2_sig params_sig). Qed.
Definition w_start : world := Eval lazy -[Rplus Rmult Rminus Rdiv Rinv Ropp IZR pint_to uconvert_from uconvert_to] in
  fst (start_time dice_env w_params).
Lemma start_eq : start_time dice_env w_params = (w_start, Ok tt).
Proof. ev. reflexivity. Qed.

(** ** The reset *)
Local Notation Iw := (I dice_env w_start (vi_of w_start)).
Definition a_user : adapter world := new_adapter world w_user.
Lemma user_used : used dice_env a_user.
Proof.
  apply used_new; [rewrite <- inputs_eq; exact run_reachable|exists "World", []; reflexivity].
Qed.
Lemma user_prepared : prepared_world dice_env a_user w_start.
Proof.
  exists (mkAdapter world w_init true [(EvInitializeModel, true)]), w_params.
  split; [|split; [exact params_eq|exact start_eq]].
  unfold ensure_initialized, a_user, new_adapter. cbn [a_initialized]. unfold call. cbn [a_world h_initialize_model dice_hooks].
  rewrite init_eq. reflexivity.
Qed.

Lemma user_base : base dice_env w_start (vi_of w_start) (pi_of w_start) /\
  J dice_env w_start (vi_of w_start) (pi_of w_start) (fun _ => None) w_start (d_start w_start).
Proof. apply (prepared_base dice_env a_user); [apply used_wf, user_used|exact user_prepared]. Qed.

Ltac num := unfold pint_to, uconvert_from, uconvert_to; cbn [uc_scaling uc_offset u_scale u_offset]; do 2 f_equal; field.
Ltac rdn := ev; num.
Lemma i_b12 : i_scalar Iw "b12" = Ok (Some (181 / 10000)%R). Proof. rdn. Qed.
Lemma i_b23 : i_scalar Iw "b23" = Ok (Some (71 / 100000)%R). Proof. rdn. Qed.
Lemma i_mateq : i_scalar Iw "mateq" = Ok (Some 588%R). Proof. rdn. Qed.
Lemma i_mueq : i_scalar Iw "mueq" = Ok (Some 1350%R). Proof. rdn. Qed.
Lemma i_mleq : i_scalar Iw "mleq" = Ok (Some 10000%R). Proof. rdn. Qed.
Lemma i_mat0 : i_scalar Iw "mat0" = Ok (Some 588%R). Proof. rdn. Qed.
Lemma i_fco22x : i_scalar Iw "fco22x" = Ok (Some (38 / 10)%R). Proof. rdn. Qed.
Lemma i_fex0 : i_scalar Iw "fex0" = Ok (Some (25 / 100)%R). Proof. rdn. Qed.
Lemma i_mat_lower : i_scalar Iw "mat_lower" = Ok (Some 10%R). Proof. rdn. Qed.
Lemma i_t2xco2 : i_scalar Iw "t2xco2" = Ok (Some (29 / 10)%R). Proof. rdn. Qed.
Definition init5 (x : series) : num := Some (match x with Mat => 588 | Ml => 10000 | Mu => 1350 | Tatm => 8 / 10
  | Tocean => 68 / 10000 | Forc => 38 / 10 * (ln (588 / 588) / ln 2) + 25 / 100 end)%R.
Lemma div_num x y : y <> 0%R -> div_ (Some x) (Some y) = Ok (Some (x / y)%R).
Proof. intros N. unfold div_. destruct (Req_EM_T y 0); [contradiction|reflexivity]. Qed.

Lemma starts5 x : exists l, length l = 5%nat /\ start_of dice_env w_start (vi_of w_start) x l = Ok tt.
Proof.
  exists (repeat (Some 0%R) 5). split; [reflexivity|].
  destruct x; ev; first [conv5|conv6]; reflexivity.
Qed.
Lemma user_resets : exists a1, resets dice_env a_user a1 /\ points a1 = Some 5%Z.
Proof.
  destruct user_base as [B Js].
  destruct (reset_go Iw (d_start w_start) 5 init5
    [("b11", minus_ (Some 1%R) (Some (181 / 10000)%R)); ("b21", Some (181 / 10000 * 588 / 1350)%R);
     ("b22", minus_ (minus_ (Some 1%R) (Some (181 / 10000 * 588 / 1350)%R)) (Some (71 / 100000)%R));
     ("b32", Some (71 / 100000 * 1350 / 10000)%R); ("b33", minus_ (Some 1%R) (Some (71 / 100000 * 1350 / 10000)%R))])
    as ([] & d & Pd & _).
  - reflexivity.
  - lia.
  - constructor. eexists _, _, _, _, _, _, _.
    split; [exact i_b12|]. split; [exact i_b23|]. split; [exact i_mateq|]. split; [exact i_mueq|]. split; [exact i_mleq|].
    split; [apply div_num; lra|]. split; [apply div_num; lra|]. repeat split; reflexivity.
  - constructor.
    + intros [] N; try congruence; rdn.
    + eexists _, _, _, _, _, _. split; [exact i_fco22x|]. split; [exact i_mat0|]. split; [exact i_mateq|].
      split; [apply div_num; lra|].
      split; [unfold log2; destruct (Rlt_dec 0 (588 / 588)); [reflexivity|lra]|]. split; [exact i_fex0|reflexivity].
  - intros x g Lg. destruct (starts5 x) as (l & Ll & S). apply (start_len _ _ _ _ _ l _ B); auto. now rewrite Lg, Ll.
  - pose proof (ref_reset dice_env w_start (vi_of w_start) (pi_of w_start) B w_start (d_start w_start) Js) as R.
    rewrite Pd in R. destruct R as (w' & Re & Jw).
    destruct (reset_stepping_go _ _ _ _ user_prepared Re) as (a1 & E & W & _).
    exists a1. split; [split; [exact user_used|exact E]|].
    unfold points. rewrite W, (j_count _ _ _ _ _ _ _ Jw). reflexivity.
Qed.

(** ** The run *)
Lemma prepared_det env a w w' : prepared_world env a w -> prepared_world env a w' -> w' = w.
Proof. intros (a1 & w1 & E1 & R1 & S1) (a2 & w2 & E2 & R2 & S2). congruence. Qed.
Lemma user_after a1 : resets dice_env a_user a1 -> exists d, after_k dice_env a_user 0 a1 w_start d d.
Proof.
  intros R. destruct (resets_after _ _ _ R) as (w0 & d & A). exists d.
  assert (w0 = w_start) by (eapply prepared_det; [exact user_prepared|apply A]). now subst.
Qed.
Lemma user_E : exists l, read_E dice_env w_start = Ok l /\ length l = 5%nat.
Proof. eexists. split; [ev; conv6; reflexivity|reflexivity]. Qed.

Lemma user_runs : exists a1, resets dice_env a_user a1 /\ points a1 = Some 5%Z /\
  (forall k, (k <= 4)%nat -> exists ak, steps dice_env k a1 ak) /\
  exists a', runs dice_env a_user a'.
Proof.
  destruct user_resets as (a1 & R & P5). exists a1. split; auto. split; auto.
  destruct (user_after _ R) as (d & A).
  assert (V : forall n, value dice_env a1 n = i_scalar Iw n) by (intros; apply (ak_value _ _ _ _ _ _ _ A)).
  assert (G : forall n, setting dice_env a1 n = i_generic Iw n) by (intros; apply (ak_setting _ _ _ _ _ _ _ A)).
  destruct (C63_proof dice_env a_user a1 5 10 588 (29 / 10) YEAR (GBool true) (mkDT 1000000000 0) (mkDT day_ns 47482)) as [Go [a' Ra]]; auto.
  - intros name Hn. rewrite V. unfold needed_scalars in Hn. cbn [List.In] in Hn.
    repeat (destruct Hn as [<-|Hn]; [eexists; ev; reflexivity|]). contradiction.
  - rewrite V. exact i_mat_lower.
  - lra.
  - rewrite V. exact i_mateq.
  - lra.
  - rewrite V. exact i_t2xco2.
  - lra.
  - rewrite G. ev. reflexivity.
  - rewrite G. ev. reflexivity.
  - rewrite G. ev. reflexivity.
  - rewrite G. ev. reflexivity.
  - discriminate.
  - intros i Hi. destruct user_E as (l & El & Ll). exists (nth i l None).
    apply (ak_emission _ _ _ _ _ _ _ A _ _ l); [exact El|]. apply at_index_ok. lia.
  - split; [intros k Hk; apply Go; lia|]. exists a'. split; [exact user_used|exact Ra].
Qed.

(** ** What the adapter reads *)
Definition p5 (name : string) : R :=
  match alookup name
    [("mat0", 588); ("mateq", 588); ("mat_lower", 10); ("ml0", 10000); ("mleq", 10000); ("ml_lower", 1000);
     ("mu0", 1350); ("mueq", 1350); ("mu_lower", 100); ("tatm0", 8 / 10); ("tatm_upper", 40); ("tocean0", 68 / 10000);
     ("tocean_lower", -1); ("tocean_upper", 20); ("b12", 181 / 10000); ("b23", 71 / 100000); ("c1", 222 / 10000);
     ("c3", 9175 / 100000); ("c4", 487 / 100000); ("fex0", 25 / 100); ("fex1", 7 / 10); ("fco22x", 38 / 10);
     ("t2xco2", 29 / 10)]%R with
  | Some x => x
  | None => 0
  end.
Lemma user_emissions : read_E dice_env w_start = Ok (repeat (Some (e * 44 / 12)%R) 5).
Proof.
  ev. conv6. unfold pint_to, uconvert_from, uconvert_to. cbn [uc_scaling uc_offset u_scale u_offset].
  match goal with |- Ok (Some ?x :: _) = _ => replace x with (e * 44 / 12)%R by field end. reflexivity.
Qed.
Lemma user_reads a1 k ak : resets dice_env a_user a1 -> steps dice_env k a1 ak ->
  (forall name, List.In name scalar_names -> value dice_env ak name = Ok (Some (p5 name))) /\
  setting dice_env ak "period_length" = Ok (GDelta YEAR) /\ setting dice_env ak "original_rounding" = Ok (GBool true) /\
  setting dice_env ak "start_time" = Ok (GTime (mkDT 1000000000 0)) /\
  setting dice_env ak "stop_time" = Ok (GTime (mkDT 1000000000 (4 * year_s))) /\
  setting dice_env ak "forcoth_saturation_time" = Ok (GTime (mkDT day_ns 47482)) /\
  (forall i, (i < 5)%nat -> emission dice_env ak i = Ok (Some (e * 44 / 12)%R)).
Proof.
  intros R S. destruct (steps_after _ _ _ _ _ R S) as (w0 & d0 & d & A).
  assert (w0 = w_start) by (eapply prepared_det; [exact user_prepared|apply A]). subst w0.
  assert (G : forall n, setting dice_env ak n = i_generic Iw n) by (intros; apply (ak_setting _ _ _ _ _ _ _ A)).
  split; [|split; [|split; [|split; [|split; [|split]]]]]; try (rewrite G; ev; reflexivity).
  - intros name Hn. rewrite (ak_value _ _ _ _ _ _ _ A). unfold scalar_names in Hn. cbn [List.In] in Hn.
    repeat (destruct Hn as [<-|Hn]; [rdn|]). contradiction.
  - intros i Hi. apply (ak_emission _ _ _ _ _ _ _ A _ _ (repeat (Some (e * 44 / 12)%R) 5)); [exact user_emissions|].
    rewrite at_index_ok by exact Hi. f_equal. do 5 (destruct i as [|i]; [reflexivity|]). lia.
Qed.

Lemma user_junk : exists a', runs dice_env a_user a' /\ forall junk,
  used dice_env (new_adapter world (new_world run_inputs (init_state "World") junk)) /\
  same_start a_user (new_adapter world (new_world run_inputs (init_state "World") junk)).
Proof.
  destruct user_runs as (_ & _ & _ & _ & a' & Ra). exists a'. split; auto. intros junk. split.
  - apply used_new; [exact run_reachable|exists "World", []; reflexivity].
  - unfold a_user, w_user. rewrite inputs_eq. split; [reflexivity|]. split; [reflexivity|]. split; reflexivity.
Qed.
End E.

Lemma year_quot : dt_quot YEAR YEAR = 1%R.
Proof.
  unfold dt_quot. cbn [dt_unit YEAR]. rewrite Z.min_id.
  replace (dt_ns YEAR / day_ns)%Z with 365%Z by reflexivity. rewrite (b64_id_int 365) by lia.
  replace (365 / 365)%R with 1%R by field. apply (b64_id_int 1). lia.
Qed.

Lemma zero_run : exists a1 ak, resets dice_env (a_user 0) a1 /\ steps dice_env 4 a1 ak /\
  value dice_env ak "mat0" = Ok (Some 588%R) /\ value dice_env ak "mateq" = Ok (Some 588%R) /\
  (forall i, (i < 4)%nat -> emission dice_env ak i = Ok (Some 0%R)).
Proof.
  destruct (user_runs 0) as (a1 & R & _ & Go & _). destruct (Go 4%nat) as (ak & S); [lia|].
  destruct (user_reads 0 a1 4 ak R S) as (V & _ & _ & _ & _ & _ & Em).
  exists a1, ak. split; auto. split; auto. split; [apply V; simpl; tauto|]. split; [apply V; simpl; tauto|].
  intros i Hi. rewrite Em by lia. do 2 f_equal. field.
Qed.

Lemma one_step : exists a1 ak mat mu ml, resets dice_env (a_user 10) a1 /\ steps dice_env 1 a1 ak /\
  (forall i, (i <= 1)%nat -> out dice_env ak "mat" i = Ok (Some (mat i)) /\
     out dice_env ak "mu" i = Ok (Some (mu i)) /\ out dice_env ak "ml" i = Ok (Some (ml i))) /\
  (forall i, (1 <= i <= 1)%nat -> (10 < mat i /\ 100 < mu i /\ 1000 < ml i)%R) /\
  (mat 0%nat < mat 1%nat)%R.
Proof.
  destruct (user_runs 10) as (a1 & R & _ & Go & _). destruct (Go 1%nat) as (ak & S); [lia|].
  destruct (user_reads 10 a1 1 ak R S) as (V & G1 & G2 & G3 & _ & G4 & Em).
  destruct (steps_after _ _ _ _ _ R S) as (w0 & d0 & d & A).
  destruct (C64_initial_proof _ _ _ _ _ _ _ p5 A V) as (O1 & O2 & O3 & O4 & O5 & O6).
  pose proof (fun x X => C64_proof _ _ _ _ _ _ _ 0%nat p5 x _ _ _ _ _ A (Nat.lt_0_succ 0) V G1 G2 G3 G4 X (Em 0%nat (Nat.lt_0_succ 4))) as Q.
  cbv zeta in Q.
  destruct (Q (fun name => match alookup name [("mat", 588); ("ml", 10000); ("mu", 1350); ("tatm", 8 / 10); ("tocean", 68 / 10000);
     ("forc", p5 "fco22x" * (ln (p5 "mat0" / p5 "mateq") / ln 2) + p5 "fex0")]%R with Some y => y | None => 0%R end))
    as (N1 & N2 & N3 & _).
  { intros name Hn. unfold series_names in Hn. cbn [List.In] in Hn.
    destruct Hn as [<-|[<-|[<-|[<-|[<-|[<-|[]]]]]]]; assumption. }
  clear Q. cbn [alookup String.eqb Ascii.eqb Bool.eqb p5] in N1, N2, N3.
  rewrite carbon_is in N1. rewrite year_quot in N1. cbn [truthy] in N1.
  rewrite Rmax_right in N1 by (unfold p5; cbn; lra). rewrite Rmax_right in N2 by (unfold p5; cbn; lra).
  rewrite Rmax_right in N3 by (unfold p5; cbn; lra).
  match type of N1 with _ = Ok (Some ?x) => match type of N2 with _ = Ok (Some ?y) => match type of N3 with _ = Ok (Some ?z) =>
    exists a1, ak, (fun i => match i with O => 588 | _ => x end)%R, (fun i => match i with O => 1350 | _ => z end)%R,
      (fun i => match i with O => 10000 | _ => y end)%R end end end.
  split; auto. split; auto. split.
  - intros [|[|i]] Hi; [auto|auto|lia].
  - split; [|unfold p5; cbn; lra]. intros [|[|i]] Hi; try lia. unfold p5; cbn; lra.
Qed.
