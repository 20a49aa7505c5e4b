(** Proofs about years, binary64 numbers and [create_time_points]. *)
From Coq Require Import String List ZArith Reals Bool Lia Lra Psatz.
From Flocq Require Import Core.
From Verif Require Import Base TimeModel Calendar.
Import ListNotations.
Local Open Scope Z_scope.

(** ** Years *)
Definition leap_year (y : Z) : bool :=
  (y mod 4 =? 0) && (negb (y mod 100 =? 0) || (y mod 400 =? 0)).
Definition year_length (y : Z) : Z := if leap_year y then 366 else 365.

Lemma days_before_year_succ y : days_before_year (y + 1) = days_before_year y + year_length y.
Proof.
  unfold days_before_year, year_length, leap_year.
  destruct (Z.eqb_spec (y mod 4) 0), (Z.eqb_spec (y mod 100) 0), (Z.eqb_spec (y mod 400) 0); simpl;
    Z.to_euclidean_division_equations; lia.
Qed.
Lemma np_year_days_eq y : np_year_days y = days_before_year y - 719162.
Proof.
  unfold np_year_days, days_before_year.
  destruct (Z.geb_spec ((y - 1970) * 365) 0); Z.to_euclidean_division_equations; lia.
Qed.
Lemma np_year_succ y : np_year_seconds (y + 1) = np_year_seconds y + 86400 * year_length y.
Proof. unfold np_year_seconds. rewrite !np_year_days_eq, days_before_year_succ. lia. Qed.
Lemma np_year_mono y z : y <= z -> np_year_seconds y <= np_year_seconds z.
Proof.
  intros H. replace z with (y + Z.of_nat (Z.to_nat (z - y))) by lia.
  generalize (Z.to_nat (z - y)). intros n. induction n as [|n IH]; [rewrite Z.add_0_r; lia|].
  rewrite Nat2Z.inj_succ. replace (y + Z.succ (Z.of_nat n)) with (y + Z.of_nat n + 1) by lia.
  rewrite np_year_succ. unfold year_length. destruct (leap_year _); lia.
Qed.
Lemma calendar_unique cal : cal 1970 = 0 -> (forall y, cal (y + 1) = cal y + 86400 * year_length y) ->
  forall y, cal y = np_year_seconds y.
Proof.
  intros Z0 H.
  assert (U : forall n, cal (1970 + Z.of_nat n) = np_year_seconds (1970 + Z.of_nat n)).
  { induction n as [|n IH]; [change (cal 1970 = 0); auto|].
    rewrite Nat2Z.inj_succ. replace (1970 + Z.succ (Z.of_nat n)) with (1970 + Z.of_nat n + 1) by lia.
    rewrite H, np_year_succ, IH. auto. }
  assert (D : forall n, cal (1970 - Z.of_nat n) = np_year_seconds (1970 - Z.of_nat n)).
  { induction n as [|n IH]; [change (cal 1970 = 0); auto|].
    rewrite Nat2Z.inj_succ.
    replace (1970 - Z.of_nat n) with (1970 - Z.succ (Z.of_nat n) + 1) in IH by lia.
    rewrite H, np_year_succ in IH. lia. }
  intros y. destruct (Z.le_ge_cases 1970 y).
  - replace y with (1970 + Z.of_nat (Z.to_nat (y - 1970))) by lia. auto.
  - replace y with (1970 - Z.of_nat (Z.to_nat (1970 - y))) by lia. auto.
Qed.

(** ** binary64 *)
#[export] Instance b64_valid : Valid_exp b64_exp.
Proof. unfold b64_exp. apply FLT_exp_valid. unfold Prec_gt_0. lia. Qed.
#[export] Instance b64_prec : Prec_gt_0 53. Proof. unfold Prec_gt_0. lia. Qed.

Lemma b64_format m e : Z.abs m < 2 ^ 53 -> -1074 <= e -> is_b64 (F2R (Float radix2 m e)).
Proof. intros M E. apply generic_format_FLT. exists (Float radix2 m e); auto. Qed.
Lemma b64_int z : Z.abs z < 2 ^ 53 -> is_b64 (IZR z).
Proof. intros H. replace (IZR z) with (F2R (Float radix2 z 0)). apply b64_format; auto; lia.
  unfold F2R. simpl. lra. Qed.
Lemma b64_id x : is_b64 x -> b64 x = x.
Proof. intros H. apply round_generic; auto. apply valid_rnd_N. Qed.
Lemma b64_id_int z : Z.abs z < 2 ^ 53 -> b64 (IZR z) = IZR z.
Proof. intros H. apply b64_id. apply b64_int; auto. Qed.
Lemma b64_le x y : (x <= y -> b64 x <= b64 y)%R.
Proof. intros H. apply round_le; auto. apply b64_valid. apply valid_rnd_N. Qed.

(** A binary64 number [>= 1] is a whole multiple of 2^-52. *)
Lemma b64_scaled y : is_b64 y -> (1 <= y)%R -> exists N, y = (IZR N / IZR (2 ^ 52))%R.
Proof.
  intros F L. apply FLT_format_generic in F; [|apply b64_prec]. destruct F as [[m e] -> M E].
  simpl in M, E. unfold F2R in *. simpl in *.
  destruct (Z.le_gt_cases (-52) e) as [G|G].
  - exists (m * 2 ^ (e + 52)). rewrite mult_IZR.
    replace (IZR (2 ^ (e + 52))) with (bpow radix2 (e + 52)).
    2: { rewrite <- IZR_Zpower by lia. reflexivity. }
    replace (IZR (2 ^ 52)) with (bpow radix2 52) by (rewrite <- IZR_Zpower by lia; reflexivity).
    rewrite bpow_plus. unfold Rdiv. rewrite !Rmult_assoc, Rinv_r, Rmult_1_r; auto.
    apply Rgt_not_eq. apply (bpow_gt_0 radix2 52).
  - exfalso.
    assert (A : (IZR m <= IZR (2 ^ 53 - 1))%R) by (apply IZR_le; lia).
    assert (B : (bpow radix2 e <= bpow radix2 (-53))%R) by (apply bpow_le; lia).
    pose proof (bpow_gt_0 radix2 e) as P.
    assert (C : (IZR m * bpow radix2 e <= IZR (2 ^ 53 - 1) * bpow radix2 (-53))%R).
    { destruct (Rle_dec 0 (IZR m)).
      - apply Rmult_le_compat; auto. lra.
      - apply Rle_trans with 0%R.
        + rewrite <- (Rmult_0_l (bpow radix2 e)). apply Rmult_le_compat_r; lra.
        + apply Rmult_le_pos; [apply IZR_le; lia|apply bpow_ge_0]. }
    change (bpow radix2 (-53)) with (/ IZR (2 ^ 53))%R in C.
    assert (Q : (IZR (2 ^ 53 - 1) * / IZR (2 ^ 53) < 1)%R).
    { apply Rmult_lt_reg_r with (IZR (2 ^ 53)); [apply IZR_lt; lia|].
      rewrite Rmult_assoc, Rinv_l, Rmult_1_r, Rmult_1_l by (apply Rgt_not_eq; apply IZR_lt; lia).
      apply IZR_lt. lia. }
    lra.
Qed.

(** Fractions that occur: multiples of 2^-52 between 0 and 1. *)
Lemma frac_b64 F : 0 <= F < 2 ^ 52 -> is_b64 (IZR F / IZR (2 ^ 52)).
Proof.
  intros H. replace (IZR F / IZR (2 ^ 52))%R with (F2R (Float radix2 F (-52))).
  - apply b64_format; lia.
  - unfold F2R. simpl. lra.
Qed.

Lemma year_frac N Y : IZR Y = IZR (N / 2 ^ 52) ->
  (IZR N / IZR (2 ^ 52) - IZR Y)%R = (IZR (N mod 2 ^ 52) / IZR (2 ^ 52))%R.
Proof.
  intros ->. pose proof (Z.div_mod N (2 ^ 52)) as D.
  assert (E : IZR N = (IZR (2 ^ 52) * IZR (N / 2 ^ 52) + IZR (N mod 2 ^ 52))%R).
  { rewrite <- mult_IZR, <- plus_IZR. f_equal. apply D. lia. }
  rewrite E. field. apply Rgt_not_eq. apply IZR_lt. lia.
Qed.
Lemma Ztrunc_scaled N : 0 <= N -> Ztrunc (IZR N / IZR (2 ^ 52)) = N / 2 ^ 52.
Proof.
  intros H. rewrite Ztrunc_floor.
  - apply Zfloor_div. lia.
  - apply Rmult_le_pos; [apply IZR_le; auto|]. left. apply Rinv_0_lt_compat. apply IZR_lt. lia.
Qed.

Lemma seconds_bound T F : 2 ^ 24 <= T < 2 ^ 25 -> 0 <= F < 2 ^ 52 ->
  0 <= Ztrunc (b64 (IZR T * (IZR F / IZR (2 ^ 52)))) < T.
Proof.
  intros HT HF.
  assert (P52 : (0 < IZR (2 ^ 52))%R) by (apply IZR_lt; lia).
  assert (P : (0 <= IZR T * (IZR F / IZR (2 ^ 52)))%R).
  { apply Rmult_le_pos; [apply IZR_le; lia|]. apply Rmult_le_pos; [apply IZR_le; lia|]. left. apply Rinv_0_lt_compat; auto. }
  assert (Q : (0 <= b64 (IZR T * (IZR F / IZR (2 ^ 52))))%R).
  { rewrite <- (b64_id 0) by apply generic_format_0. apply b64_le; auto. }
  set (top := F2R (Float radix2 (T * 2 ^ 28 - 1) (-28))).
  assert (Ft : is_b64 top). { apply b64_format; try lia. }
  assert (Et : top = (IZR T - / IZR (2 ^ 28))%R).
  { unfold top, F2R. cbn [Fnum Fexp]. rewrite minus_IZR, mult_IZR.
    replace (bpow radix2 (-28)) with (/ IZR (2 ^ 28))%R.
    2: { simpl bpow. f_equal. }
    field. apply Rgt_not_eq. apply IZR_lt. lia. }
  assert (U : (b64 (IZR T * (IZR F / IZR (2 ^ 52))) <= top)%R).
  { rewrite <- (b64_id top) by auto. apply b64_le. rewrite Et.
    assert (E : (IZR T * (IZR F / IZR (2 ^ 52)) <= IZR T * (IZR (2 ^ 52 - 1) / IZR (2 ^ 52)))%R).
    { apply Rmult_le_compat_l; [apply IZR_le; lia|]. apply Rmult_le_compat_r; [left; apply Rinv_0_lt_compat; auto|apply IZR_le; lia]. }
    rewrite minus_IZR in E.
    replace (IZR T * ((IZR (2 ^ 52) - 1) / IZR (2 ^ 52)))%R with (IZR T - IZR T / IZR (2 ^ 52))%R in E by (field; lra).
    assert (G : (/ IZR (2 ^ 28) <= IZR T / IZR (2 ^ 52))%R).
    { apply Rmult_le_reg_r with (IZR (2 ^ 52)); auto. unfold Rdiv. rewrite Rmult_assoc, Rinv_l, Rmult_1_r by lra.
      replace (/ IZR (2 ^ 28) * IZR (2 ^ 52))%R with (IZR (2 ^ 24)).
      - apply IZR_le. lia.
      - replace (2 ^ 52) with (2 ^ 24 * 2 ^ 28) by reflexivity. rewrite mult_IZR. field. apply Rgt_not_eq. apply IZR_lt. lia. }
    lra. }
  assert (V : (top < IZR T)%R).
  { rewrite Et. assert (0 < / IZR (2 ^ 28))%R by (apply Rinv_0_lt_compat; apply IZR_lt; lia). lra. }
  rewrite Ztrunc_floor by auto. split.
  - apply Zfloor_lub. auto.
  - apply lt_IZR. apply Rle_lt_trans with (2 := V). eapply Rle_trans; [apply Zfloor_lb|auto].
Qed.
Lemma seconds_mono T F G : 0 <= T -> F <= G ->
  Ztrunc (b64 (IZR T * (IZR F / IZR (2 ^ 52)))) <= Ztrunc (b64 (IZR T * (IZR G / IZR (2 ^ 52)))).
Proof.
  intros HT H. apply Ztrunc_le. apply b64_le. apply Rmult_le_compat_l; [apply IZR_le; auto|].
  apply Rmult_le_compat_r; [left; apply Rinv_0_lt_compat; apply IZR_lt; lia|apply IZR_le; auto].
Qed.

(** The result of [_float_year_to_datetime] for a year number [N * 2^-52]. *)
Lemma float_year_eq N : 2 ^ 52 <= N < 9999 * 2 ^ 52 ->
  float_year_to_datetime (IZR N / IZR (2 ^ 52)) =
  Ok (np_year_seconds (N / 2 ^ 52) +
      Ztrunc (b64 (IZR (86400 * year_length (N / 2 ^ 52)) * (IZR (N mod 2 ^ 52) / IZR (2 ^ 52))))).
Proof.
  intros H. unfold float_year_to_datetime. rewrite Ztrunc_scaled by lia.
  assert (Y : 1 <= N / 2 ^ 52 < 9999).
  { split; [apply Z.div_le_lower_bound; lia|apply Z.div_lt_upper_bound; lia]. }
  pose proof (Z.mod_pos_bound N (2 ^ 52)) as M.
  rewrite year_frac by auto. rewrite (b64_id (IZR (N mod 2 ^ 52) / IZR (2 ^ 52))) by (apply frac_b64; lia).
  destruct (Z.leb_spec 1 (N / 2 ^ 52)); [|lia]. destruct (Z.leb_spec (N / 2 ^ 52 + 1) 9999); [|lia].
  cbn [andb]. rewrite days_before_year_succ. do 2 f_equal. f_equal. f_equal. f_equal. f_equal. lia.
Qed.
Lemma year_length_T y : 2 ^ 24 <= 86400 * year_length y < 2 ^ 25.
Proof. unfold year_length. destruct (leap_year y); lia. Qed.

(** ** [create_time_points] *)
Lemma linspace_exact S P n i : 0 <= i < n -> Z.abs S < 2 ^ 52 -> Z.abs (S + (n - 1) * P) < 2 ^ 52 ->
  linspace_at (IZR S) (IZR (S + (n - 1) * P)) n i = IZR (S + i * P).
Proof.
  intros H HS HE. unfold linspace_at.
  assert (D : Z.abs ((n - 1) * P) < 2 ^ 53) by lia.
  assert (IP : Z.abs (i * P) <= Z.abs ((n - 1) * P)).
  { rewrite !Z.abs_mul. apply Z.mul_le_mono_nonneg_r; lia. }
  assert (Bt : 0 <= i * P <= (n - 1) * P \/ (n - 1) * P <= i * P <= 0).
  { destruct (Z.le_ge_cases 0 P); [left|right]; nia. }
  assert (ISP : Z.abs (S + i * P) < 2 ^ 53) by lia.
  assert (E : b64 (IZR (S + (n - 1) * P) - IZR S) = IZR ((n - 1) * P)).
  { rewrite <- minus_IZR. replace (S + (n - 1) * P - S) with ((n - 1) * P) by lia. apply b64_id_int; auto. }
  rewrite E. destruct (Z.ltb_spec 0 (n - 1)).
  - destruct (Z.eqb_spec i (n - 1)) as [->|Ni]; auto.
    assert (PP : Z.abs P < 2 ^ 53) by nia.
    assert (St : b64 (IZR ((n - 1) * P) / IZR (n - 1)) = IZR P).
    { rewrite mult_IZR. replace (IZR (n - 1) * IZR P / IZR (n - 1))%R with (IZR P).
      - apply b64_id_int; auto.
      - field. apply Rgt_not_eq. apply IZR_lt. lia. }
    rewrite St. destruct (Req_EM_T (IZR P) 0) as [Z0|Z0].
    + apply eq_IZR in Z0. subst P. rewrite !Z.mul_0_r, Rmult_0_r, (b64_id_int 0), Rplus_0_l, Z.add_0_r by lia.
      apply b64_id_int. lia.
    + rewrite <- mult_IZR, (b64_id_int (i * P)) by lia. rewrite <- plus_IZR.
      replace (i * P + S) with (S + i * P) by lia. apply b64_id_int; auto.
  - assert (i = 0 /\ n = 1) as [-> ->] by lia. simpl. rewrite Rmult_0_l, (b64_id_int 0), Rplus_0_l, Z.add_0_r by lia.
    apply b64_id_int. lia.
Qed.
Lemma zrange_nth n i : 0 <= i < n -> nth_error (zrange n) (Z.to_nat i) = Some i.
Proof.
  intros H. unfold zrange.
  assert (E : nth_error (seq 0 (Z.to_nat n)) (Z.to_nat i) = Some (Z.to_nat i)).
  { rewrite (nth_error_nth' _ 0%nat) by (rewrite seq_length; lia). rewrite seq_nth by lia. auto. }
  rewrite (map_nth_error Z.of_nat _ _ E). f_equal. lia.
Qed.
Lemma zrange_in n i : In i (zrange n) <-> 0 <= i < n.
Proof.
  unfold zrange. rewrite in_map_iff. split.
  - intros (k & <- & K). apply in_seq in K. lia.
  - intros H. exists (Z.to_nat i). rewrite in_seq. lia.
Qed.
Lemma zrange_len n : length (zrange n) = Z.to_nat n.
Proof. unfold zrange. rewrite map_length, seq_length. auto. Qed.

Definition points_out (ty : ptype) (n : Z) : Z := match ty with AVERAGE_TIMESERIES => n + 1 | _ => n end.

Lemma create_eq st pd n a ty S P : from_timeseries_type a = Ok ty ->
  dt_ns st = S * 1000000000 -> dt_ns pd = P * 1000000000 -> 0 <= points_out ty n ->
  Z.abs S < 2 ^ 52 -> Z.abs (S + (points_out ty n - 1) * P) < 2 ^ 52 ->
  create_time_points st pd n a = Ok (map (fun i => S + i * P) (zrange (points_out ty n))).
Proof.
  intros E HS HP N BS BE. unfold create_time_points. rewrite E. cbn [rbind].
  fold (points_out ty n). set (k := points_out ty n) in *. rewrite HS, HP.
  unfold ns_to_s. rewrite Z.div_mul by lia.
  replace (S * 1000000000 + (k - 1) * (P * 1000000000)) with ((S + (k - 1) * P) * 1000000000) by lia.
  rewrite Z.div_mul by lia. rewrite !b64_id_int by lia.
  unfold linspace. destruct (Z.ltb_spec k 0); [lia|]. cbn [rbind]. f_equal. rewrite map_map.
  apply map_ext_in. intros i I. apply zrange_in in I. rewrite linspace_exact by auto. apply Ztrunc_IZR.
Qed.
