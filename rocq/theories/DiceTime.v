(** The number of time points of a DICE run. *)
From Coq Require Import String List ZArith Reals Bool Arith Lia Lra.
From Flocq Require Import Core Relative.
From Verif Require Import Base Calendar CalendarFacts Dice Spec_Dice.
Import ListNotations.
Local Open Scope Z_scope.

Lemma quot_trunc x y : 0 <= x < 2 ^ 53 -> 0 < y < 2 ^ 53 -> Ztrunc (b64 (IZR x / IZR y)) = x / y.
Proof.
  intros Hx Hy. destruct (Z.eq_dec x 0) as [->|Nx].
  { unfold Rdiv. rewrite Rmult_0_l. rewrite (b64_id_int 0) by lia. rewrite Ztrunc_IZR. now rewrite Z.div_0_l by lia. }
  assert (Yp : (0 < IZR y)%R) by (apply IZR_lt; lia).
  pose proof (Z.div_mod x y ltac:(lia)) as Dm. pose proof (Z.mod_pos_bound x y ltac:(lia)) as Mb.
  assert (Qn : 0 <= x / y) by (apply Z.div_pos; lia).
  assert (Ql : x / y <= x). { transitivity (x / 1); [apply Z.div_le_compat_l; lia|rewrite Z.div_1_r; lia]. }
  set (q := x / y) in *.
  assert (Lo : (IZR q <= b64 (IZR x / IZR y))%R).
  { rewrite <- (b64_id_int q) by lia. apply b64_le. apply Rmult_le_reg_r with (IZR y); auto.
    unfold Rdiv. rewrite Rmult_assoc, Rinv_l, Rmult_1_r by lra. rewrite <- mult_IZR. apply IZR_le. lia. }
  assert (Hi : (b64 (IZR x / IZR y) < IZR (q + 1))%R).
  { assert (Xp : (1 <= IZR x)%R) by (apply IZR_le; lia).
    assert (Y53 : (IZR y <= IZR (2 ^ 53))%R) by (apply IZR_le; lia).
    assert (X53 : (IZR x < IZR (2 ^ 53))%R) by (apply IZR_lt; lia).
    assert (Pos : (0 < IZR x / IZR y)%R) by (apply Rdiv_lt_0_compat; lra).
    assert (Small : (bpow radix2 (-1074 + 53 - 1) <= Rabs (IZR x / IZR y))%R).
    { rewrite Rabs_pos_eq by lra. apply Rle_trans with (bpow radix2 (-53)); [apply bpow_le; lia|].
      change (bpow radix2 (-53)) with (/ IZR (2 ^ 53))%R.
      apply Rle_trans with (/ IZR y)%R; [apply Rinv_le_contravar; lra|].
      unfold Rdiv. rewrite <- (Rmult_1_l (/ IZR y)) at 1. apply Rmult_le_compat_r; auto.
      left. apply Rinv_0_lt_compat; auto. }
    pose proof (relative_error_N_FLT radix2 (-1074) 53 ltac:(reflexivity) (fun z => negb (Z.even z)) _ Small) as Er.
    fold b64_exp in Er. change (round radix2 b64_exp (Znearest (fun z => negb (Z.even z))) (IZR x / IZR y)) with (b64 (IZR x / IZR y)) in Er.
    rewrite (Rabs_pos_eq (IZR x / IZR y)) in Er by lra. apply Rabs_le_inv in Er. destruct Er as [_ Er].
    replace (bpow radix2 (- (53) + 1)) with (/ IZR (2 ^ 52))%R in Er by reflexivity.
    assert (E53 : (/ 2 * / IZR (2 ^ 52) = / IZR (2 ^ 53))%R).
    { rewrite <- Rinv_mult. rewrite <- mult_IZR. reflexivity. }
    rewrite E53 in Er.
    assert (Le : (/ IZR (2 ^ 53) * (IZR x / IZR y) < / IZR y)%R).
    { unfold Rdiv. rewrite <- Rmult_assoc. rewrite <- (Rmult_1_l (/ IZR y)) at 2.
      apply Rmult_lt_compat_r; [apply Rinv_0_lt_compat; auto|].
      apply Rmult_lt_reg_l with (IZR (2 ^ 53)); [lra|]. rewrite <- Rmult_assoc, Rinv_r by lra. lra. }
    assert (Fit : (IZR x / IZR y + / IZR y <= IZR (q + 1))%R).
    { apply Rmult_le_reg_r with (IZR y); auto. unfold Rdiv. rewrite Rmult_plus_distr_r, Rmult_assoc, Rinv_l by lra.
      rewrite Rmult_1_r, <- mult_IZR. change 1%R with (IZR 1). rewrite <- plus_IZR. apply IZR_le. lia. }
    lra. }
  rewrite Ztrunc_floor by (apply Rle_trans with (IZR q); auto; apply IZR_le; lia).
  apply Zfloor_imp. auto.
Qed.

(** With whole ticks of a common unit [u]. *)
Lemma count_ticks start stop period n u : timestep_count start stop period = Ok n ->
  0 < u -> u = Z.min (Z.min (dt_unit stop) (dt_unit start)) (dt_unit period) ->
  (u | dt_ns stop) -> (u | dt_ns start) -> (u | dt_ns period) ->
  0 < dt_ns period -> dt_ns start <= dt_ns stop ->
  dt_ns stop - dt_ns start < u * 2 ^ 53 -> dt_ns period < u * 2 ^ 53 ->
  (Z.min (dt_unit stop) (dt_unit start) | dt_ns stop - dt_ns start) ->
  n = (dt_ns stop - dt_ns start) / dt_ns period + 1.
Proof.
  intros E Up Eu D1 D2 D3 Pp Le B1 B2 Dv. unfold timestep_count in E.
  destruct (dt_ns period =? 0) eqn:Z0; [apply Z.eqb_eq in Z0; lia|]. inversion E; clear E. f_equal.
  unfold dt_quot. cbn [dt_sub dt_unit]. set (v := Z.min (dt_unit stop) (dt_unit start)) in *.
  rewrite <- Eu.
  assert (Vp : 0 < v) by lia.
  assert (Es : dt_ns (dt_sub stop start) = dt_ns stop - dt_ns start).
  { unfold dt_ns at 1. cbn [dt_sub dt_unit dt_ticks]. fold v. destruct Dv as (m & ->).
    rewrite Z.div_mul by lia. lia. }
  rewrite Es. destruct D1 as (a & Ea), D2 as (b & Eb), D3 as (c & Ec). rewrite Ea, Eb, Ec in *.
  replace (a * u - b * u) with ((a - b) * u) by lia. rewrite !Z.div_mul by lia.
  assert (0 <= a - b) by nia. assert (0 < c) by nia. assert (a - b < 2 ^ 53) by nia. assert (c < 2 ^ 53) by nia.
  rewrite !b64_id_int by lia. rewrite quot_trunc by lia.
  rewrite Z.div_mul_cancel_r by lia. reflexivity.
Qed.

Lemma units_divide u v : In u numpy_units -> In v numpy_units -> u <= v -> (u | v).
Proof.
  unfold numpy_units. simpl. intros A B L.
  repeat (destruct A as [<-|A]; [repeat (destruct B as [<-|B]; [first [lia | apply Z.mod_divide; [lia|reflexivity]]|]); contradiction|]).
  contradiction.
Qed.
Lemma count_last start stop period n : timestep_count start stop period = Ok n ->
  In (dt_unit start) numpy_units -> In (dt_unit stop) numpy_units -> In (dt_unit period) numpy_units ->
  let u := Z.min (dt_unit start) (Z.min (dt_unit stop) (dt_unit period)) in
  0 < dt_ns period < u * 2 ^ 53 -> 0 <= dt_ns stop - dt_ns start < u * 2 ^ 53 ->
  dt_ns start + (n - 1) * dt_ns period <= dt_ns stop < dt_ns start + n * dt_ns period.
Proof.
  intros E U1 U2 U3 u Hp Hs.
  assert (Pu : forall v, In v numpy_units -> 0 < v) by (unfold numpy_units; simpl; intros v; intuition subst; lia).
  assert (Dn : forall x v, v <= dt_unit x -> In v numpy_units -> In (dt_unit x) numpy_units -> (v | dt_ns x)).
  { intros x v L Iv Ix. unfold dt_ns. apply Z.divide_mul_l. apply units_divide; auto. }
  assert (Iu : In u numpy_units).
  { unfold u. destruct (Z.min_spec (dt_unit stop) (dt_unit period)) as [[_ ->]|[_ ->]];
    match goal with |- In (Z.min ?a ?b) _ => destruct (Z.min_spec a b) as [[_ ->]|[_ ->]] end; auto. }
  assert (Iv : In (Z.min (dt_unit stop) (dt_unit start)) numpy_units)
    by (destruct (Z.min_spec (dt_unit stop) (dt_unit start)) as [[_ ->]|[_ ->]]; auto).
  assert (En : n = (dt_ns stop - dt_ns start) / dt_ns period + 1).
  { apply (count_ticks _ _ _ _ u E); auto; try lia; try (apply Dn; auto; lia).
    apply Z.divide_sub_r; apply Dn; auto; lia. }
  pose proof (Z.div_mod (dt_ns stop - dt_ns start) (dt_ns period) ltac:(lia)).
  pose proof (Z.mod_pos_bound (dt_ns stop - dt_ns start) (dt_ns period) ltac:(lia)). nia.
Qed.
