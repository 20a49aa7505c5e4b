(** A concrete run of the DICE adapter with emissions in the first year only: a case of C83, C84. *)
From Coq Require Import String List ZArith Reals Bool Arith Lia Lra.
From Verif Require Import Base Units TimeModel Calendar Core Spec_Core Adapters Dice Spec_Dice DiceProps DiceEx DiceRunEx
  Spec_DiceMono DiceMono DiceWarm DiceWarmEx Spec_DiceRest DiceRest Spec_DiceWarm.
Import ListNotations.
Local Open Scope string_scope.
Local Open Scope list_scope.
Local Open Scope R_scope.

(** 10 GtC in the first year. *)
Definition pulse (i : nat) : R := match i with O => 10 | S _ => 0 end.
Notation p0 := (pw 1 0 0 0).
Lemma pulse_mixing : mixing p0.
Proof. constructor; unfold pw; cbn [alookup String.eqb Ascii.eqb Bool.eqb]; lra. Qed.
Lemma pulse_thermal : thermal p0.
Proof. constructor; unfold pw; cbn [alookup String.eqb Ascii.eqb Bool.eqb]; lra. Qed.

Lemma pulse_case : exists ak x, a_case pulse 1 0 0 0 4 ak /\
  (forall name, List.In name series_names -> out dice_env ak name 1 = Ok (Some (x name))) /\
  between p0 x 1 2 /\ (1 < level p0 x) /\ admits p0 (warming p0 (level p0 x) 0) /\
  (x "mat" <> level p0 x * p0 "mateq").
Proof.
  destruct (warm_case pulse 1 0 0 0 ltac:(lra) 4 ltac:(lia)) as (ak & a1 & Re & St & Rd).
  pose proof (starts _ _ _ _ _ _ _ _ _ _ _ Re St Rd) as X0.
  pose proof (proceeds _ _ _ _ _ _ _ _ _ _ _ 0 _ Re St Rd ltac:(lia) X0) as X1.
  exists ak. eexists. split; [exists a1; auto|]. split; [exact X1|].
  assert (C : carbon_emitted (pulse 0 * 44 / 12) YEAR (GBool true) = 440 / 12 / (3666 / 1000)).
  { rewrite carbon_is, year_quot. cbn [pulse truthy]. field. }
  set (x := next _ _ _ _).
  assert (Xa : x "mat" = 588 + 440 / 12 / (3666 / 1000)).
  { unfold x, next; cbn [alookup String.eqb Ascii.eqb Bool.eqb]. rewrite C. unfold first, pw; cbn [alookup String.eqb Ascii.eqb Bool.eqb].
    rewrite Rmax_right; lra. }
  assert (Xu : x "mu" = 1350).
  { unfold x, next; cbn [alookup String.eqb Ascii.eqb Bool.eqb]. unfold first, pw; cbn [alookup String.eqb Ascii.eqb Bool.eqb].
    rewrite Rmax_right; lra. }
  assert (Xl : x "ml" = 10000).
  { unfold x, next; cbn [alookup String.eqb Ascii.eqb Bool.eqb]. unfold first, pw; cbn [alookup String.eqb Ascii.eqb Bool.eqb].
    rewrite Rmax_right; lra. }
  assert (B : between p0 x 1 2).
  { constructor; rewrite ?Xa, ?Xu, ?Xl; unfold pw; cbn [alookup String.eqb Ascii.eqb Bool.eqb]; lra. }
  assert (L : 1 < level p0 x).
  { unfold level. rewrite Xa, Xu, Xl. unfold pw; cbn [alookup String.eqb Ascii.eqb Bool.eqb]. lra. }
  split; [exact B|]. split; [exact L|]. split.
  - pose proof (level_between _ _ _ _ pulse_mixing B) as Lv. set (v := level p0 x) in *.
    assert (0 <= ln v) by (rewrite <- ln_1; apply Rlt_le, ln_increasing; lra).
    assert (ln v <= ln 2) by (destruct (Rle_lt_or_eq_dec v 2 (proj2 Lv)) as [Lt| ->]; [apply Rlt_le, ln_increasing; lra|lra]).
    pose proof ln2_pos. assert (0 <= ln v / ln 2 <= 1).
    { split; [apply Rmult_le_pos; [auto|apply Rlt_le, Rinv_0_lt_compat; auto]|].
      apply Rmult_le_reg_r with (ln 2); auto. unfold Rdiv. rewrite Rmult_assoc, Rinv_l by lra. lra. }
    unfold admits, warming, pw; cbn [alookup String.eqb Ascii.eqb Bool.eqb]. lra.
  - unfold level. rewrite Xa, Xu, Xl. unfold pw; cbn [alookup String.eqb Ascii.eqb Bool.eqb]. lra.
Qed.

(** With emissions that are not negative the pools stay off their bounds. *)
Lemma stays_all m f ta to a a1 ak k e : 1 <= m -> resets dice_env a a1 -> steps dice_env k a1 ak ->
  reads dice_env ak (pw m f ta to) e k YEAR (GBool true) (mkDT 1000000000 0) (mkDT day_ns 47482) -> (forall i, e i = 0) ->
  forall i, (i <= k)%nat -> exists x, series_at dice_env ak i x /\ stays (pw m f ta to) x.
Proof.
  intros M Re St Rd E. assert (C : carbon_level (pw m f ta to) m).
  { constructor; unfold pw; cbn [alookup String.eqb Ascii.eqb Bool.eqb]; lra. }
  induction i as [|i IH]; intros K.
  - exists (first (pw m f ta to)). split; [exact (starts _ _ _ _ _ _ _ _ _ _ _ Re St Rd)|repeat split; reflexivity].
  - destruct IH as (x & X & Sx); [lia|]. eexists. split; [exact (proceeds _ _ _ _ _ _ _ _ _ _ _ i x Re St Rd K X)|].
    rewrite E, no_emission. now apply (stays_next _ m).
Qed.
Lemma off_case e m f ta to ak : 1 <= m -> (forall i, 0 <= e i) -> a_case e m f ta to 4 ak ->
  off_bounds dice_env ak (pw m f ta to) 4.
Proof.
  intros M E (a1 & Re & St & Rd).
  destruct (warm_case (fun _ => 0) m f ta to ltac:(lra) 4 ltac:(lia)) as (bk & b1 & Re' & St' & Rd').
  assert (Ph : physical (pw m f ta to)) by (constructor; unfold pw; cbn [alookup String.eqb Ascii.eqb Bool.eqb]; repeat split; lra).
  intros i I. destruct (stays_all m f ta to _ _ _ _ _ M Re' St' Rd' ltac:(intros; cbv beta; lra) i ltac:(lia)) as (x & X & S1 & S2 & S3).
  assert (Q : forall name, List.In name ["mat"; "mu"; "ml"] -> exists y, out dice_env ak name i = Ok (Some y) /\ x name <= y).
  { intros name N. assert (N' : List.In name series_names) by (simpl in N |- *; tauto).
    destruct (C77_proof dice_env _ _ _ _ _ _ _ _ _ _ _ _ _ _ _ Re' St' Re St Rd' Rd Ph) with (name := name) (i := i) as (u & y & U & Y & L); auto.
    - reflexivity.
    - discriminate.
    - intros n Hn. split; [lra|auto].
    - intros j _. specialize (E j). lra.
    - lia.
    - exists y. split; auto. rewrite (X name N') in U. inversion U. subst. exact L. }
  destruct (Q "mat" ltac:(simpl; tauto)) as (y1 & Y1 & L1). destruct (Q "mu" ltac:(simpl; tauto)) as (y2 & Y2 & L2).
  destruct (Q "ml" ltac:(simpl; tauto)) as (y3 & Y3 & L3). exists y1, y2, y3. repeat split; auto;
  [rewrite S1 in L1|rewrite S2 in L2|rewrite S3 in L3]; unfold pw in *; cbn [alookup String.eqb Ascii.eqb Bool.eqb] in *; lra.
Qed.
