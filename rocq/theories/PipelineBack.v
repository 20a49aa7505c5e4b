(** Proof of C91: the results of DICE as a data frame. *)
From Coq Require Import String List ZArith QArith Qcanon Reals Bool Arith Lia Sorted.
From Verif Require Import Base ListFacts Units TimeModel Calendar Core CoreNames
  CoreInv Spec_Core Adapters Dice DiceSim DiceBase Spec_Dice DiceMachine DiceUsed DiceProps DiceRepeat Spec_DiceMono DiceMono.
From Verif Require Import Filters Frame Spec_Frame FrameInterp FrameStore Spec_Interp Spec_Store StoreHolds StoreWalk StoreBack
  PipelineRead PipelineOut Pipeline.
From Verif Require Import Spec_Pipeline.
Import ListNotations.
Local Open Scope string_scope.
Local Open Scope list_scope.

Section B.
Variable env : uenv.

Lemma closed_instants t0 d n : (2 <= n)%nat -> closed (instants t0 d n) = periods t0 d n.
Proof.
  intros L. destruct n as [|[|n]]; try lia. unfold closed, instants, periods.
  rewrite (seq_S (S (S n))), !map_app. cbn [map].
  assert (E : rev (map (fun i => t0 + Z.of_nat i * d)%Z (seq 0 (S (S n)))) =
    (t0 + Z.of_nat (S n) * d)%Z :: (t0 + Z.of_nat n * d)%Z :: rev (map (fun i => t0 + Z.of_nat i * d)%Z (seq 0 n))).
  { rewrite !seq_S, !map_app, !rev_app_distr. cbn [map rev app plus]. reflexivity. }
  rewrite E. do 2 f_equal. lia.
Qed.

Lemma nm_in x : In (nm x) series_names.
Proof. destruct x; cbn; auto 10. Qed.
Lemma nm_of name : In name series_names -> exists x, name = nm x.
Proof. intros I. names I; [exists Mat|exists Ml|exists Mu|exists Tatm|exists Tocean|exists Forc]; reflexivity. Qed.

(** The frame that such a parameter set is read as. *)
Definition frame_of q_of s t0 dd n (vals : string -> nat -> R) model scenario climate_model : Prop :=
  exists s' g, convert_openscm_to_scmdataframe env q_of s (instants t0 dd n) model scenario climate_model = (s', Ok g) /\
    st_params s' = st_params s /\ aligned g /\ fr_times g = instants t0 dd n /\ length (fr_data g) = 6%nat /\
    (forall v r u t xs, has_typed_series g v r u t xs <->
       r = "World" /\ exists name, output_series name v u t /\ xs = map (fun i => Some (vals name i)) (seq 0 n)) /\
    (forall l, In l (map fst (fr_data g)) -> meta_of g l "model" (MStr model) /\ meta_of g l "scenario" (MStr scenario) /\
       meta_of g l "climate_model" (MStr climate_model)).
Definition held t0 dd n (vals : string -> nat -> R) (s : state) : Prop :=
  holds env s (map (fun x => ent (instants t0 dd n) (periods t0 dd n) x (map Some (map (vals (nm x)) (seq 0 n)))) six).

Lemma held_read q_of s t0 dd n vals model scenario climate_model :
  good_env env -> (0 < dd)%Z -> (3 <= n)%nat -> (forall x, In x six -> env (ux x) <> None) -> held t0 dd n vals s ->
  frame_of q_of s t0 dd n vals model scenario climate_model.
Proof.
  intros G D L3 Un Hd. set (ys := fun x => map (vals (nm x)) (seq 0 n)).
  assert (Ly : forall x, length (ys x) = n) by (intros x; unfold ys; now rewrite map_length, seq_length).
  set (EK := map (fun x => (ent (instants t0 dd n) (periods t0 dd n) x (map Some (ys x)),
     KSeries (join "|" (full x)) "World" (ux x) (tyx x) (ys x))) six).
  assert (ME : map fst EK = map (fun x => ent (instants t0 dd n) (periods t0 dd n) x (map Some (ys x))) six) by (unfold EK; now rewrite map_map).
  change (holds env s (map (fun x => ent (instants t0 dd n) (periods t0 dd n) x (map Some (ys x))) six)) in Hd.
  rewrite <- ME in Hd.
  destruct (read_held env q_of s EK (instants t0 dd n) model scenario climate_model G Hd) as (s' & g & C & SP & AG & TG & LG & SG & MG).
  - unfold EK. rewrite map_map. apply FinFun.Injective_map_NoDup.
    + intros x y E. apply full_inj. unfold key in E. cbn in E. congruence.
    + repeat (apply NoDup_cons_iff; split; [cbn; intuition discriminate|]). constructor.
  - now rewrite instants_length.
  - discriminate.
  - intros ek I. apply in_map_iff in I. destruct I as (x & <- & I). cbn [fst snd]. split; [now left|]. split; [|do 5 eexists; reflexivity].
    rewrite closed_instants by lia. cbn [tells]. exists ["World"], (full x).
    assert (TG : match tyx x with POINT_TIMESERIES => instants t0 dd n | _ => periods t0 dd n end = gx (instants t0 dd n) (periods t0 dd n) x)
      by (destruct x; reflexivity).
    rewrite TG. split; [reflexivity|]. split; [reflexivity|]. split; [reflexivity|]. split.
    { now apply Un. }
    split; [apply type_x|]. split; [now apply grid_increasing|]. split; [apply belongs_x; [lia|apply Ly]|]. now rewrite Ly.
  - exists s', g. split; [exact C|]. split; [exact SP|]. split; [exact AG|]. split; [exact TG|]. split; [exact LG|]. split; [|exact MG].
    intros v r u t xs. rewrite SG. split.
    + intros (e & ty & zs & I & -> & ->). apply in_map_iff in I. destruct I as (x & E & I). injection E as <- <- <- <- <- <-.
      split; [reflexivity|]. exists (nm x). split; [destruct x; cbn; auto 10|]. unfold ys. now rewrite map_map.
    + intros (-> & name & O & ->).
      assert (X : exists x, name = nm x /\ v = join "|" (full x) /\ u = ux x /\ t = type_name (tyx x)).
      { unfold output_series in O. cbn [In] in O. 
        destruct O as [O|[O|[O|[O|[O|[O|[]]]]]]]; injection O as <- <- <- <-;
          [exists Mat|exists Ml|exists Mu|exists Tatm|exists Tocean|exists Forc]; repeat split; reflexivity. }
      destruct X as (x & -> & -> & -> & ->). eexists _, (tyx x), (ys x). split; [apply in_map_iff; exists x; split; [reflexivity|destruct x; cbn; auto 10]|].
      split; [reflexivity|]. unfold ys. now rewrite map_map.
Qed.


Lemma results_held a k ak w0 d0 d t0 dd n (vals : string -> nat -> R) :
  good_env env -> used env a -> used env ak -> after_k env a k ak w0 d0 d -> w_out (a_world _ a) = init_state "World" ->
  works_with env ak t0 dd n -> (3 <= n)%nat ->
  (forall name i, In name series_names -> (i < n)%nat -> out env ak name i = Ok (Some (vals name i))) ->
  held t0 dd n vals (w_out (a_world _ ak)) /\ forall x, In x six -> env (ux x) <> None.
Proof.
  intros G Ua Uk A Io Ww L3 Vs.
  set (ys := fun x => map (vals (nm x)) (seq 0 n)).
  assert (Ys : forall x, d_get d x = map Some (ys x) /\ length (ys x) = n).
  { intros x. assert (L : length (ys x) = n) by (unfold ys; now rewrite map_length, seq_length). split; [|exact L].
    destruct (ak_count _ _ _ _ _ _ _ A) as (m & C & P). assert (m = Z.of_nat n) as -> by (destruct Ww as (_ & _ & P' & _); congruence).
    pose proof (ak_len _ _ _ _ _ _ _ A _ x C) as Ld. rewrite Nat2Z.id in Ld.
    apply nth_ext with (d := None) (d' := None); [now rewrite map_length, L|]. intros i Hi. rewrite Ld in Hi.
    destruct (ak_out_inv _ _ _ _ _ _ _ A x i _ (Vs (nm x) i (nm_in x) Hi)) as [E _]. unfold DiceMachine.cell in E. rewrite <- E.
    rewrite nth_indep with (d' := Some 0%R) by (rewrite map_length, L; exact Hi). rewrite map_nth. unfold ys.
    rewrite nth_indep with (d' := vals (nm x) 0%nat) by (rewrite map_length, seq_length; exact Hi). now rewrite map_nth, seq_nth. }
  split; [exact (outputs_held env a k ak w0 d0 d t0 dd n ys G Ua (used_wf env _ Uk) A Io Ww L3 Ys)|].
  pose proof (grids env _ _ _ _ _ _ _ _ _ Ua A Io Ww ltac:(lia)) as [_ Vw].
  intros x I. destruct (Vw x I) as (vi & v & _ & _ & _ & U & _). eapply unit_known; exact U.
Qed.

Lemma results_back q_of a k ak w0 d0 d t0 dd n (vals : string -> nat -> R) model scenario climate_model :
  good_env env -> used env a -> used env ak -> after_k env a k ak w0 d0 d -> w_out (a_world _ a) = init_state "World" ->
  works_with env ak t0 dd n -> (3 <= n)%nat ->
  (forall name i, In name series_names -> (i < n)%nat -> out env ak name i = Ok (Some (vals name i))) ->
  frame_of q_of (w_out (a_world _ ak)) t0 dd n vals model scenario climate_model.
Proof.
  intros G Ua Uk A Io Ww L3 Vs. destruct (results_held a k ak w0 d0 d t0 dd n vals G Ua Uk A Io Ww L3 Vs) as [Hd Un].
  apply held_read; auto. apply Ww.
Qed.

(** Only the content counts. *)
Lemma held_same t0 dd n vals s s' : wf env s' -> same_content s s' -> held t0 dd n vals s -> held t0 dd n vals s'.
Proof.
  intros W [R P] Hd.
  assert (PS : forall p, option_map forget_version (nth_error (st_params s') p) = option_map forget_version (nth_error (st_params s) p)).
  { intros p. now rewrite <- !nth_error_map, P. }
  assert (S : same_shape s s').
  { split; [exact R|]. intros i. specialize (PS i). destruct (nth_error (st_params s') i), (nth_error (st_params s) i); try discriminate; [|reflexivity].
    cbn in PS |- *. injection PS. congruence. }
  constructor.
  - exact W.
  - rewrite (shape_region_at _ _ _ S). apply Hd.
  - intros e I. destruct (h_in _ _ _ Hd e I) as (p & q & Pa & Q & Is). specialize (PS p). rewrite Q in PS.
    destruct (nth_error (st_params s') p) as [q'|] eqn:Q'; [|discriminate]. exists p, q'. rewrite (shape_at _ _ _ _ S). split; [exact Pa|]. split; [exact Q'|].
    cbn in PS. injection PS as E1 E2 E3 E4 E5 E6 E7 E8 E9 E10. unfold is_entry in *. now rewrite E4, E5, E6, E7, E8, E9, E10.
  - intros rs l p X. rewrite (shape_at _ _ _ _ S) in X. exact (h_all _ _ _ Hd _ _ _ X).
  - intros p q Q T. specialize (PS p). rewrite Q in PS. destruct (nth_error (st_params s) p) as [q0|] eqn:Q0; [|discriminate].
    cbn in PS. injection PS as E1 E2 E3 E4 E5 E6 E7 E8 E9 E10. destruct (h_typed _ _ _ Hd p q0 Q0) as (e & I & X); [congruence|].
    exists e. split; [exact I|]. now rewrite (shape_at _ _ _ _ S).
Qed.
Lemma again_back q_of a a' b t0 dd n vals model scenario climate_model :
  good_env env -> w_out (a_world _ a) = init_state "World" -> runs env a a' -> works_with env a' t0 dd n -> (3 <= n)%nat ->
  (forall name i, In name series_names -> (i < n)%nat -> out env a' name i = Ok (Some (vals name i))) ->
  used env b -> same_results env a' b ->
  frame_of q_of (w_out (a_world _ b)) t0 dd n vals model scenario climate_model.
Proof.
  intros G Io Ru Ww L3 Vs Ub [Sc _]. destruct (run_ok env _ _ Ru) as (w0 & d0 & d & m & _ & A). destruct Ru as [Ua C].
  destruct (results_held a _ a' w0 d0 d t0 dd n vals G Ua (used_does env _ _ _ _ Ua C) A Io Ww L3 Vs) as [Hd Un].
  apply held_read; auto; [apply Ww|]. apply (held_same _ _ _ _ (w_out (a_world _ a'))); auto. now apply used_wf.
Qed.
Lemma used_times k : forall a b, used env a -> run_times env k a b -> used env b.
Proof. induction k as [|k IH]; cbn; intros a b U; [now intros ->|]. intros (c & r & E & Rt). apply (IH c b); [exact (used_does env SRun _ _ _ U E)|exact Rt]. Qed.
Lemma times_back q_of a a' k b t0 dd n vals model scenario climate_model :
  good_env env -> w_out (a_world _ a) = init_state "World" -> runs env a a' -> works_with env a' t0 dd n -> (3 <= n)%nat ->
  (forall name i, In name series_names -> (i < n)%nat -> out env a' name i = Ok (Some (vals name i))) ->
  run_times env k a' b ->
  frame_of q_of (w_out (a_world _ b)) t0 dd n vals model scenario climate_model.
Proof.
  intros G Io Ru Ww L3 Vs Rt. apply (again_back q_of a a'); auto; [|exact (many_proof env k _ _ _ Ru Rt)].
  eapply used_times; [|exact Rt]. destruct Ru. eapply used_does; eauto.
Qed.

(** All values of a run are numbers that follow the equations. *)
Lemma trajectory a a1 k ak p e period rounding start saturation : resets env a a1 -> steps env k a1 ak ->
  reads env ak p e k period rounding start saturation ->
  exists y : nat -> string -> R, dice_start p (y 0%nat) /\
    (forall i, (i < k)%nat -> dice_step p (y i) (y (S i)) (carbon_emitted (e i) period rounding)
       (other_forcing start period saturation (Z.of_nat i + 1) (p "fex0") (p "fex1"))) /\
    forall name i, In name series_names -> (i <= k)%nat -> out env ak name i = Ok (Some (y i name)).
Proof.
  intros Re St Rd.
  set (y := nat_rect (fun _ => string -> R) (first p) (fun i x => next p x (carbon_emitted (e i) period rounding)
    (other_forcing start period saturation (Z.of_nat i + 1) (p "fex0") (p "fex1")))).
  exists y. split; [constructor; repeat split; reflexivity|]. split; [intros i _; constructor; reflexivity|].
  intros name i I L. revert name I. change (series_at env ak i (y i)). induction i as [|i IH].
  - exact (starts env _ _ _ _ _ _ _ _ _ _ Re St Rd).
  - exact (proceeds env _ _ _ _ _ _ _ _ _ _ _ _ Re St Rd L (IH ltac:(lia))).
Qed.

Lemma resets_results q_of a a1 k ak t0 dd n (vals : string -> nat -> R) model scenario climate_model :
  good_env env -> w_out (a_world _ a) = init_state "World" -> resets env a a1 -> steps env k a1 ak ->
  works_with env ak t0 dd n -> (3 <= n)%nat ->
  (forall name i, In name series_names -> (i < n)%nat -> out env ak name i = Ok (Some (vals name i))) ->
  exists s' g, convert_openscm_to_scmdataframe env q_of (w_out (a_world _ ak)) (instants t0 dd n) model scenario climate_model = (s', Ok g) /\
    st_params s' = st_params (w_out (a_world _ ak)) /\ aligned g /\ fr_times g = instants t0 dd n /\ length (fr_data g) = 6%nat /\
    (forall v r u t xs, has_typed_series g v r u t xs <->
       r = "World" /\ exists name, output_series name v u t /\ xs = map (fun i => Some (vals name i)) (seq 0 n)) /\
    (forall l, In l (map fst (fr_data g)) -> meta_of g l "model" (MStr model) /\ meta_of g l "scenario" (MStr scenario) /\
       meta_of g l "climate_model" (MStr climate_model)).
Proof.
  intros G Io Re St Ww L3 Vs. destruct (steps_after env _ _ _ _ Re St) as (w0 & d0 & d & A). destruct Re as [Ua C].
  eapply results_back; eauto. eapply used_steps; [|exact St]. eapply used_does; eauto.
Qed.
Lemma run_results q_of a a' t0 dd n (vals : string -> nat -> R) model scenario climate_model :
  good_env env -> w_out (a_world _ a) = init_state "World" -> runs env a a' ->
  works_with env a' t0 dd n -> (3 <= n)%nat ->
  (forall name i, In name series_names -> (i < n)%nat -> out env a' name i = Ok (Some (vals name i))) ->
  exists s' g, convert_openscm_to_scmdataframe env q_of (w_out (a_world _ a')) (instants t0 dd n) model scenario climate_model = (s', Ok g) /\
    st_params s' = st_params (w_out (a_world _ a')) /\ aligned g /\ fr_times g = instants t0 dd n /\ length (fr_data g) = 6%nat /\
    (forall v r u t xs, has_typed_series g v r u t xs <->
       r = "World" /\ exists name, output_series name v u t /\ xs = map (fun i => Some (vals name i)) (seq 0 n)) /\
    (forall l, In l (map fst (fr_data g)) -> meta_of g l "model" (MStr model) /\ meta_of g l "scenario" (MStr scenario) /\
       meta_of g l "climate_model" (MStr climate_model)).
Proof.
  intros G Io Ru Ww L3 Vs. destruct (run_ok env _ _ Ru) as (w0 & d0 & d & m & _ & A). destruct Ru as [Ua C].
  eapply results_back; eauto. eapply used_does; eauto.
Qed.

Lemma instants_of t t0 d n : (3 <= n)%nat -> closed t = periods t0 d n -> t = instants t0 d n.
Proof.
  intros L E. rewrite <- closed_instants in E by lia. revert E. unfold closed at 1. destruct (rev t) as [|b [|a r]] eqn:Rt.
  - intros ->. exfalso. apply (f_equal (@length Z)) in Rt. rewrite rev_length, closed_instants, periods_length in Rt by lia. discriminate.
  - intros ->. exfalso. apply (f_equal (@length Z)) in Rt. rewrite rev_length, closed_instants, periods_length in Rt by lia. cbn in Rt. lia.
  - unfold closed. destruct (rev (instants t0 d n)) as [|b' [|a' r']] eqn:Ri.
    1,2: apply (f_equal (@length Z)) in Ri; rewrite rev_length, instants_length in Ri; cbn in Ri; lia.
    intros E. now apply app_inj_tail in E.
Qed.

Lemma frame_to_frame q_of f u xs s a a1 ak t0 d n p period rounding start saturation model scenario climate_model :
  good_env env -> storable env f -> has_typed_series f "Emissions|CO2" "World" u "average" (map Some xs) ->
  to_parameterset env f (init_state "World") = (s, Ok tt) -> handed env s a -> w_out (a_world _ a) = init_state "World" ->
  resets env a a1 -> steps env (n - 1) a1 ak -> works_with env ak t0 d n -> (3 <= n)%nat -> closed (fr_times f) = periods t0 d n ->
  (forall name, In name scalar_names -> value env ak name = Ok (Some (p name))) ->
  setting env ak "period_length" = Ok (GDelta period) -> setting env ak "original_rounding" = Ok rounding ->
  setting env ak "start_time" = Ok (GTime start) -> setting env ak "forcoth_saturation_time" = Ok (GTime saturation) ->
  exists e y s' g,
    (forall i, (i < n)%nat -> same_quantity env u (nth i xs 0%R) (emissions_unit rounding) (e i)) /\
    dice_start p (y 0%nat) /\
    (forall i, (S i < n)%nat -> dice_step p (y i) (y (S i)) (carbon_emitted (e i) period rounding)
       (other_forcing start period saturation (Z.of_nat i + 1) (p "fex0") (p "fex1"))) /\
    convert_openscm_to_scmdataframe env q_of (w_out (a_world _ ak)) (fr_times f) model scenario climate_model = (s', Ok g) /\
    fr_times g = fr_times f /\ length (fr_data g) = 6%nat /\
    forall v r u t vals, has_typed_series g v r u t vals <->
      r = "World" /\ exists name, output_series name v u t /\ vals = map (fun i => Some (y i name)) (seq 0 n).
Proof.
  intros G ST HS TP Ha Io Re St Ww L3 CF Sc S1 S2 S3 S4.
  pose proof (C90_same_proof env f u xs s a a1 ak (n - 1) t0 d n rounding G ST HS TP Ha Re St Ww S2 CF) as Em.
  set (e := fun i => match emission env ak i with Ok (Some x) => x | _ => 0%R end).
  assert (He : forall i, (i < n)%nat -> emission env ak i = Ok (Some (e i)) /\ same_quantity env u (nth i xs 0%R) (emissions_unit rounding) (e i)).
  { intros i Hi. destruct (Em i Hi) as (x & Ex & Q). unfold e. rewrite Ex. auto. }
  assert (Rd : reads env ak p e (n - 1) period rounding start saturation).
  { constructor; auto. intros i Hi. apply He. lia. }
  destruct (trajectory _ _ _ _ _ _ _ _ _ _ Re St Rd) as (y & Y0 & Y1 & Yo).
  destruct (resets_results q_of a a1 (n - 1) ak t0 d n (fun name i => y i name) model scenario climate_model G Io Re St Ww L3)
    as (s' & g & C & _ & _ & T & L & Se & _); [intros name i I Hi; apply Yo; [exact I|lia]|].
  rewrite <- (instants_of _ _ _ _ L3 CF) in C, T.
  exists e, y, s', g. split; [intros i Hi; now apply He|]. split; [exact Y0|]. split; [intros i Hi; apply Y1; lia|]. auto.
Qed.
End B.
