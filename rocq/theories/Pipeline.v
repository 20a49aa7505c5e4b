(** Proof of C90. *)
From Coq Require Import String List ZArith Reals Bool Arith Lia Sorted.
From Verif Require Import Base ListFacts Units TimeModel Calendar CalendarFacts Core CoreEvo CoreTree CoreNames
  CoreInv CoreStep Spec_Core CoreReq CoreP1 CoreP2 CoreView Adapters Dice DiceInit DiceSim DiceBase Spec_Dice DiceUsed DiceProps
  Spec_DiceUnits Spec_Pipeline.
From Verif Require Import Spec_Time TimeFacts TimeLin TimeConv TimeConv2 TimeConv3 TimeProps Spec_Totals TimeTotals CoreP7 CoreTotals PipelineDice.
From Verif Require Import Spec_Pipeline.
From Verif Require Frame Spec_Frame FrameStore Spec_Interp Spec_Store PipelineFrame.
Import ListNotations.
Local Open Scope string_scope.
Local Open Scope list_scope.

Section P.
Variable env : uenv.

Lemma periods_increasing t0 d n : (0 < d)%Z -> increasing (periods t0 d n).
Proof.
  intros D. unfold periods, increasing. generalize 0%nat at 1. generalize (S n). clear n.
  induction n as [|n IH]; intros k; [constructor|]. cbn [seq map]. constructor; [apply IH|].
  apply Forall_forall. intros x I. apply in_map_iff in I. destruct I as (i & <- & I). apply in_seq in I. nia.
Qed.
Lemma periods_length t0 d n : length (periods t0 d n) = S n.
Proof. unfold periods. now rewrite map_length, seq_length. Qed.

(** What the machine takes as emissions. *)
Lemma emissions_are p q u tps xs a a1 k ak s t0 d n rounding :
  p_written q = true -> p_type q = Some AVERAGE_TIMESERIES -> p_unit q = Some u -> p_time q = Some (mkTP 1 tps) ->
  p_data q = Some (PArr (map Some xs)) -> p_read q = true -> p_children q = [] ->
  reachable env s -> nth_error (st_params s) p = Some q -> param_at s ["World"] EC = Some p ->
  handed env s a -> resets env a a1 -> steps env k a1 ak -> works_with env ak t0 d n ->
  setting env ak "original_rounding" = Ok rounding ->
  exists uc r, unit_converter env (Some u) (Some (emissions_unit rounding)) = Ok uc /\
    conversion AVERAGE_TIMESERIES XNONE tps (map (uconvert_from uc) xs) (periods t0 d n) r /\
    forall i, emission env ak i = match r with Ok ys => at_index (map Some ys) (Z.of_nat i) | Err e => Err e end.
Proof.
  intros Wr Ty Un Tm Dt Rd Ch Re Q At Ha R S Ww Ro.
  pose proof (handed_fixed env p q Wr s a Re Q At Ha) as Fa.
  pose proof (used_sane env a (proj1 R)) as Sa.
  destruct (steps_after env _ _ _ _ R S) as (w0 & d0 & dd & A).
  destruct (ak_prepared _ _ _ _ _ _ _ A) as (a1' & w1 & E & Rp & St).
  pose proof (ensure_fixed env p q Wr a Fa) as F1. rewrite E in F1. cbn [fst] in F1.
  pose proof (ensure_sane env a Sa) as S1. rewrite E in S1. cbn [fst] in S1.
  destruct (params_E env p q Wr u tps xs Ty Un Tm Dt Rd Ch _ _ F1 Rp) as (start & period & n' & rounding' & tpa & G1 & G2 & G3 & C & T & EV).
  pose proof (PipelineDice.keeps_params env p q Wr _ F1) as F2. rewrite Rp in F2. cbn [fst] in F2.
  pose proof (DiceUsed.keeps_params env _ S1) as S2. rewrite Rp in S2. cbn [fst] in S2.
  pose proof (PipelineDice.keeps_start env p q Wr _ F2) as F3. rewrite St in F3. cbn [fst] in F3.
  pose proof (E_view_start env p u tps _ _ _ _ EV St) as EV0.
  assert (W1 : wf env (w_out (a_world _ a1'))) by (apply reachable_wf, S1).
  destruct (initialize_run_parameters_spec env _ _ W1 Rp) as [_ _ _ _ _ _ (o & No & Io) Al _].
  assert (Gn : forall m g, ~ In m ["E"; "mat"; "ml"; "mu"; "tatm"; "tocean"; "forc"] -> snd (generic env m (a_world _ a1')) = Ok g ->
     setting env ak m = Ok g).
  { intros m g Nm Hg. unfold setting. rewrite (running_generic env _ _ _ m (ak_running _ _ _ _ _ _ _ A)). cbn [i_generic DiceSim.I].
    assert (H1 : snd (generic env m w1) = Ok g).
    { apply (generic_request env o m (a_world _ a1') w1 g); auto. apply reachable_wf, S1. }
    unfold start_time in St. apply bind_ok in St. destruct St as (v & w2 & O & St). unfold a_view in O. apply bind_ok in O.
    destruct O as (y & w3 & O & O'). destruct y; try discriminate. inversion O'; subst w3 v0; clear O'. apply op_in in O. destruct O as (I1 & _ & _ & I4 & _).
    apply bind_ok in St. destruct St as (x & w4 & O & St). apply op_in in O. destruct O as (J1 & _ & _ & J4 & _).
    destruct x; try discriminate. destruct g0; try discriminate. unfold bind, as_time, ret, set_time in St. inversion St; subst w0.
    assert (H2 : snd (generic env m w2) = Ok g).
    { apply (generic_request env (OGeneric (HStr "Start Time") World_) m w1 w2 g); auto; [apply reachable_wf, S2|congruence]. }
    apply (generic_of_views env m w4); [reflexivity|reflexivity|].
    apply (generic_request env (OGetGeneric v) m w2 w4 g); auto; [|congruence].
    rewrite I1. apply wf_after, reachable_wf, S2. }
  destruct Ww as ((st & H1 & N1) & (pd & H2 & N2) & P & D & B1 & B2).
  rewrite (Gn "start_time" (GTime start)) in H1 by (auto; simpl; intuition discriminate). injection H1 as ->.
  rewrite (Gn "period_length" (GDelta period)) in H2 by (auto; simpl; intuition discriminate). injection H2 as ->.
  rewrite (Gn "original_rounding" rounding') in Ro by (auto; simpl; intuition discriminate). injection Ro as ->.
  assert (n' = Z.of_nat n).
  { unfold points in P. destruct (ak_running _ _ _ _ _ _ _ A) as [_ _ Jw]. rewrite (j_count _ _ _ _ _ _ _ Jw) in P.
    apply (start_time_spec env) in St. destruct St as (_ & _ & _ & _ & S5 & _). congruence. }
  subst n'.
  assert (tpa = periods t0 d n).
  { rewrite (create_eq _ _ _ _ AVERAGE_TIMESERIES t0 d) in T; auto; cbn [points_out]; try nia.
    injection T as <-. unfold periods, zrange. replace (Z.to_nat (Z.of_nat n + 1)) with (Datatypes.S n) by lia. rewrite map_map. reflexivity. }
  subst tpa.
  destruct (read_E_is env p q Wr u tps xs Dt Ch _ _ _ F3 EV0) as (uc & r & U & Cv & Rr).
  exists uc, r. split; [exact U|]. split; [exact Cv|]. intros i. unfold emission.
  rewrite (running_E env _ _ _ _ (ak_running _ _ _ _ _ _ _ A)). cbn [i_E DiceSim.I]. rewrite Rr. destruct r; reflexivity.
Qed.

Lemma read_at (l : list R) i : (i < length l)%nat -> at_index (map Some l) (Z.of_nat i) = Ok (Some (nth i l 0%R)).
Proof.
  intros L. unfold at_index, pyindex. rewrite map_length. destruct (Z.ltb_spec (Z.of_nat i) 0); [lia|].
  destruct (Z.leb_spec 0 (Z.of_nat i)); [|lia]. destruct (Z.ltb_spec (Z.of_nat i) (Z.of_nat (length l))); [|lia]. cbn [andb].
  rewrite Nat2Z.id. erewrite map_nth_error; [reflexivity|]. now apply nth_error_nth'.
Qed.

Section Given.
Context (f : Frame.frame) (u : string) (xs : list R) (s : state) (a a1 ak : adapter world) (k : nat) (t0 d : Z) (n : nat) (rounding : gval).
Hypothesis (G : good_env env) (ST : Spec_Store.storable env f)
  (HS : Spec_Store.has_typed_series f "Emissions|CO2" "World" u "average" (map Some xs))
  (TP : FrameStore.to_parameterset env f (init_state "World") = (s, Ok tt))
  (Ha : handed env s a) (R : resets env a a1) (S : steps env k a1 ak) (Ww : works_with env ak t0 d n)
  (Ro : setting env ak "original_rounding" = Ok rounding).
Notation grid := (Spec_Interp.closed (Frame.fr_times f)).

Lemma converted : increasing grid /\ length grid = Datatypes.S (length xs) /\ (3 <= length xs)%nat /\
  exists uc r, unit_converter env (Some u) (Some (emissions_unit rounding)) = Ok uc /\
    conversion AVERAGE_TIMESERIES XNONE grid (map (uconvert_from uc) xs) (periods t0 d n) r /\
    forall i, emission env ak i = match r with Ok ys => at_index (map Some ys) (Z.of_nat i) | Err e => Err e end.
Proof.
  destruct (PipelineFrame.series_kept env f G ST _ _ _ _ _ HS TP) as (p & q & PA & Q & TY & QU & QT & QD & RD & WR & CH & W & I & L & L3).
  split; [exact I|]. split; [exact L|]. split; [exact L3|].
  assert (Re : reachable env s).
  { pose proof (PipelineFrame.frame_reachable env f (init_state "World")) as X. rewrite TP in X. apply X. exists "World", []. reflexivity. }
  exact (emissions_are p q u grid xs a a1 k ak s t0 d n rounding WR TY QU QT QD RD CH Re Q PA Ha R S Ww Ro).
Qed.

Lemma result_length uc ys : conversion AVERAGE_TIMESERIES XNONE grid (map (uconvert_from uc) xs) (periods t0 d n) (Ok ys) -> length ys = n.
Proof.
  intros C. apply conversion_eq in C. symmetry in C. apply convert_result in C. destruct C as (_ & _ & _ & ->).
  cbn [sample]. rewrite avgs_len, map_length, periods_length. reflexivity.
Qed.

Lemma C90_proof : (exists e, forall i, emission env ak i = Err e) \/
  exists es, length es = n /\ (forall i, (i < n)%nat -> emission env ak i = Ok (Some (nth i es 0%R))) /\
    forall x y, (x < y)%Z -> In x grid -> In y grid -> In x (periods t0 d n) -> In y (periods t0 d n) ->
      same_quantity env u (mean_between x y grid xs) (emissions_unit rounding) (mean_between x y (periods t0 d n) es).
Proof.
  destruct converted as (I & L & L3 & uc & r & U & C & Em). destruct r as [ys|e]; [right|left; eauto].
  pose proof (result_length _ _ C) as LY. exists ys. split; [exact LY|]. split; [intros i Hi; rewrite Em; apply read_at; lia|].
  intros x y XY X1 Y1 X2 Y2. assert (D : (0 < d)%Z) by apply Ww.
  pose proof (average_totals _ _ _ _ _ x y I (periods_increasing t0 d n D) C ltac:(lia) X1 Y1 X2 Y2) as M.
  rewrite (map_affine _ _ _ _ (convert_from_affine uc)) in M.
  assert (E : mean_between x y (periods t0 d n) ys = uconvert_from uc (mean_between x y grid xs)).
  { rewrite convert_from_affine. rewrite <- (mean_affine _ _ x y grid xs) by auto. unfold mean_between. rewrite M. auto. }
  rewrite E. apply (uconv_phys env _ _ _ G U).
Qed.

(** Same span: the emissions can be read. *)
Lemma C90_readable_proof : hd 0%Z grid = t0 -> last grid 0%Z = (t0 + Z.of_nat n * d)%Z ->
  forall i, (i < n)%nat -> exists e, emission env ak i = Ok (Some e).
Proof.
  intros H E i Hi. destruct converted as (I & L & L3 & uc & r & U & C & Em). assert (D : (0 < d)%Z) by apply Ww.
  destruct (conserve XNONE grid (periods t0 d n) (map (uconvert_from uc) xs)) as (_ & _ & K); auto.
  - now apply periods_increasing.
  - split; [rewrite map_length; cbn [value_count]; lia|]. intros E0. rewrite E0 in L. discriminate.
  - now rewrite map_length.
  - rewrite periods_length. lia.
  - rewrite H. unfold periods. cbn. lia.
  - rewrite E. unfold periods. rewrite seq_S, map_app. cbn [map]. rewrite last_last. lia.
  - destruct (K r C) as (w & -> & B & _). rewrite Em. exists (nth i w 0%R). apply read_at. rewrite (result_length _ _ C). exact Hi.
Qed.

(** Same periods: every value is used as it is, up to units. *)
Lemma C90_same_proof : grid = periods t0 d n ->
  forall i, (i < n)%nat -> exists e, emission env ak i = Ok (Some e) /\ same_quantity env u (nth i xs 0%R) (emissions_unit rounding) e.
Proof.
  intros E i Hi. destruct converted as (I & L & L3 & uc & r & U & C & Em).
  assert (LX : length xs = n) by (rewrite E, periods_length in L; lia).
  assert (r = Ok (map (uconvert_from uc) xs)).
  { assert (B : belongs AVERAGE_TIMESERIES grid (map (uconvert_from uc) xs)).
    { split; [rewrite map_length; cbn [value_count]; lia|]. intros E0. rewrite E0 in L. discriminate. }
    destruct (same_grid AVERAGE_TIMESERIES XNONE grid (map (uconvert_from uc) xs)) as (c & C1 & C2 & C3); auto; [now left|now rewrite map_length|].
    rewrite <- E in C. apply conversion_eq in C. rewrite C. symmetry. apply conversion_eq. left. eauto. }
  subst r. exists (uconvert_from uc (nth i xs 0%R)). split.
  - rewrite Em, read_at by (rewrite map_length; lia). do 2 f_equal. rewrite nth_indep with (d' := uconvert_from uc 0%R) by (rewrite map_length; lia). now rewrite map_nth.
  - apply (uconv_phys env _ _ _ G U).
Qed.
End Given.
End P.
