(** The DICE model after emissions have ended (C83, C84). *)
From Coq Require Import String List Arith Lia Bool ZArith Reals Lra.
From Flocq Require Import Raux.
From Verif Require Import Base Units TimeModel Calendar CalendarFacts Core Spec_Core Adapters Dice Spec_Dice DiceProps
  Spec_DiceMono DiceMono Spec_DiceWarm DiceWarm Spec_DiceRest.
Import ListNotations.
Local Open Scope string_scope.
Local Open Scope list_scope.
Local Open Scope R_scope.

(** ** The pools mix *)
Definition w21 (p : string -> R) : R := p "b12" * p "mateq" / p "mueq".
Definition w32 (p : string -> R) : R := p "b23" * p "mueq" / p "mleq".
Definition share (p : string -> R) : R := Rmin (p "b12") (Rmin (w32 p) (1 - w21 p - p "b23")).

Lemma share_is p : mixing p -> 0 < share p /\ share p <= p "b12" /\ share p <= w32 p /\ share p <= 1 - w21 p - p "b23".
Proof.
  intros H. destruct (mx_masses _ H) as (M1 & M2 & M3). pose proof (mx_b12 _ H) as B1. pose proof (mx_b23 _ H) as B2.
  pose proof (mx_upper _ H) as U. fold (w21 p) in U.
  assert (W : 0 < w32 p) by (apply Rdiv_lt_0_compat; [apply Rmult_lt_0_compat|]; lra).
  unfold share. split; [repeat apply Rmin_glb_lt; lra|]. split; [apply Rmin_l|].
  split; (eapply Rle_trans; [apply Rmin_r|]); [apply Rmin_l|apply Rmin_r].
Qed.
Lemma w21_pos p : mixing p -> 0 < w21 p.
Proof.
  intros H. destruct (mx_masses _ H) as (M1 & M2 & M3). pose proof (mx_b12 _ H).
  apply Rdiv_lt_0_compat; [apply Rmult_lt_0_compat|]; lra.
Qed.

(** Averaging with a weight of at least [d] for [y] moves the bounds towards [y]. *)
Lemma average d w y v lo hi : 0 < d -> d <= w -> w <= 1 -> lo <= y <= hi -> lo <= v <= hi ->
  (1 - d) * lo + d * y <= (1 - w) * v + w * y <= (1 - d) * hi + d * y.
Proof. intros. split; nra. Qed.
Lemma average3 d w u t x y z lo hi : 0 < d -> d <= w -> 0 <= u -> 0 <= t -> w = 1 - u - t ->
  lo <= x <= hi -> lo <= y <= hi -> lo <= z <= hi ->
  (1 - d) * lo + d * y <= x * u + y * w + z * t <= (1 - d) * hi + d * y.
Proof. intros D W U T -> X Y Z. split; nra. Qed.

Lemma above k lo l v m : 0 < m -> k <= lo * m -> lo <= l -> l <= v -> k <= v * m.
Proof. intros. assert (lo * m <= v * m) by (apply Rmult_le_compat_r; lra). lra. Qed.
Lemma scaled l v h m : 0 < m -> l <= v <= h -> l * m <= v * m <= h * m.
Proof. intros M [A B]. split; apply Rmult_le_compat_r; lra. Qed.
Lemma mixes p x f lo hi : mixing p -> between p x lo hi ->
  exists lo' hi', lo <= lo' /\ hi' - lo' = (1 - share p) * (hi - lo) /\ between p (next p x 0 f) lo' hi' /\
    level p (next p x 0 f) = level p x.
Proof.
  intros H B. destruct (mx_masses _ H) as (M1 & M2 & M3). destruct (share_is p H) as (D0 & D1 & D2 & D3).
  pose proof (w21_pos p H) as W1. pose proof (mx_b12 _ H) as B1. pose proof (mx_b23 _ H) as B2.
  pose proof (mx_lower _ H) as L. fold (w32 p) in L.
  pose proof (bt_mat _ _ _ _ B) as Xa. pose proof (bt_mu _ _ _ _ B) as Xu. pose proof (bt_ml _ _ _ _ B) as Xl.
  destruct (bt_bounds _ _ _ _ B) as (K1 & K2 & K3).
  assert (Q : forall m v, 0 < m -> lo * m <= v <= hi * m -> lo <= v / m <= hi).
  { intros m v Hm [A C]. split; apply Rmult_le_reg_r with m; auto; unfold Rdiv; rewrite Rmult_assoc, Rinv_l by lra; lra. }
  set (a := x "mat" / p "mateq"). set (y := x "mu" / p "mueq"). set (z := x "ml" / p "mleq").
  pose proof (Q _ _ M1 Xa) as Qa. fold a in Qa. pose proof (Q _ _ M2 Xu) as Qy. fold y in Qy. pose proof (Q _ _ M3 Xl) as Qz. fold z in Qz.
  exists ((1 - share p) * lo + share p * y), ((1 - share p) * hi + share p * y).
  assert (Lo : lo <= (1 - share p) * lo + share p * y).
  { assert (0 <= share p * (y - lo)) by (apply Rmult_le_pos; lra). lra. }
  assert (A1 := average (share p) (p "b12") y a lo hi D0 D1 (proj2 B1) Qy Qa).
  assert (A2 := average (share p) (w32 p) y z lo hi D0 D2 L Qy Qz).
  assert (A3 := average3 (share p) (1 - w21 p - p "b23") (w21 p) (p "b23") a y z lo hi D0 D3 (Rlt_le _ _ W1) (Rlt_le _ _ B2) eq_refl Qa Qy Qz).
  set (l' := (1 - share p) * lo + share p * y) in *. set (h' := (1 - share p) * hi + share p * y) in *.
  assert (Ea : x "mat" * (1 - p "b12") + x "mu" * (p "b12" * p "mateq" / p "mueq") + 0 = ((1 - p "b12") * a + p "b12" * y) * p "mateq").
  { unfold a, y. field. lra. }
  assert (El : x "ml" * (1 - p "b23" * p "mueq" / p "mleq") + x "mu" * p "b23" = ((1 - w32 p) * z + w32 p * y) * p "mleq").
  { unfold z, y, w32. field. lra. }
  assert (Eu : x "mat" * p "b12" + x "mu" * (1 - p "b12" * p "mateq" / p "mueq" - p "b23") + x "ml" * (p "b23" * p "mueq" / p "mleq") =
     (a * w21 p + y * (1 - w21 p - p "b23") + z * p "b23") * p "mueq").
  { unfold a, z, y, w21. field. lra. }
  assert (Na : next p x 0 f "mat" = ((1 - p "b12") * a + p "b12" * y) * p "mateq").
  { unfold next; cbn [alookup String.eqb Ascii.eqb Bool.eqb]. rewrite Ea. apply Rmax_right. apply (above _ lo l'); auto; apply A1. }
  assert (Nl : next p x 0 f "ml" = ((1 - w32 p) * z + w32 p * y) * p "mleq").
  { unfold next; cbn [alookup String.eqb Ascii.eqb Bool.eqb]. rewrite El. apply Rmax_right. apply (above _ lo l'); auto; apply A2. }
  assert (Nu : next p x 0 f "mu" = (a * w21 p + y * (1 - w21 p - p "b23") + z * p "b23") * p "mueq").
  { unfold next; cbn [alookup String.eqb Ascii.eqb Bool.eqb]. rewrite Eu. apply Rmax_right. apply (above _ lo l'); auto; apply A3. }
  split; [exact Lo|]. split; [unfold l', h'; ring|]. split.
  - constructor; rewrite ?Na, ?Nl, ?Nu; try (apply scaled; assumption).
    split; [|split]; (eapply Rle_trans; [|apply Rmult_le_compat_r; [apply Rlt_le; eassumption|exact Lo]]); assumption.
  - unfold level. rewrite Na, Nl, Nu. unfold a, y, z, w21, w32. field. lra.
Qed.

(** The level is between the bounds. *)
Lemma level_between p x lo hi : mixing p -> between p x lo hi -> lo <= level p x <= hi.
Proof.
  intros H B. destruct (mx_masses _ H) as (M1 & M2 & M3).
  pose proof (bt_mat _ _ _ _ B). pose proof (bt_mu _ _ _ _ B). pose proof (bt_ml _ _ _ _ B). unfold level.
  split; apply Rmult_le_reg_r with (p "mateq" + p "mueq" + p "mleq"); try lra; unfold Rdiv; rewrite Rmult_assoc, Rinv_l by lra; lra.
Qed.
Lemma abs_between v c lo hi : lo <= v <= hi -> lo <= c <= hi -> Rabs (v - c) <= hi - lo.
Proof. intros. unfold Rabs. destruct (Rcase_abs _); lra. Qed.
Lemma near_level p x lo hi m v : mixing p -> between p x lo hi -> 0 < m -> lo * m <= v <= hi * m ->
  Rabs (v - level p x * m) <= (hi - lo) * m.
Proof.
  intros H B M V. pose proof (level_between p x lo hi H B). replace ((hi - lo) * m) with (hi * m - lo * m) by ring.
  apply abs_between; auto. split; nra.
Qed.

Section S.
Variable env : uenv.

(** What is known at every step from [j] on. *)
Lemma after_end p a a1 ak k e period rounding start saturation j x lo hi : mixing p ->
  resets env a a1 -> steps env k a1 ak -> reads env ak p e k period rounding start saturation ->
  (forall i, (j <= i < k)%nat -> e i = 0) -> series_at env ak j x -> between p x lo hi ->
  forall n, (j + n <= k)%nat -> exists x' lo' hi', series_at env ak (j + n) x' /\ between p x' lo' hi' /\
    lo <= lo' /\ hi' - lo' = (1 - share p) ^ n * (hi - lo) /\ level p x' = level p x.
Proof.
  intros H Re St Rd E X B. induction n as [|n IH]; intros K.
  - rewrite Nat.add_0_r. exists x, lo, hi. cbn [pow]. repeat split; try apply B; auto; lra.
  - destruct IH as (x' & lo' & hi' & X' & B' & L' & W' & V'); [lia|].
    pose proof (proceeds _ _ _ _ _ _ _ _ _ _ _ (j + n) x' Re St Rd ltac:(lia) X') as Q.
    rewrite (E (j + n)%nat), no_emission in Q by lia.
    destruct (mixes p x' (other_forcing start period saturation (Z.of_nat (j + n) + 1) (p "fex0") (p "fex1")) lo' hi' H B')
      as (lo2 & hi2 & L2 & W2 & B2 & V2).
    exists (next p x' 0 (other_forcing start period saturation (Z.of_nat (j + n) + 1) (p "fex0") (p "fex1"))), lo2, hi2.
    split; [rewrite Nat.add_succ_r; exact Q|]. split; [exact B2|]. split; [lra|]. split; [|congruence].
    rewrite W2, W'. cbn [pow]. ring.
Qed.

Lemma C83_proof p : mixing p -> exists r, 0 <= r < 1 /\
  forall a a1 ak k e period rounding start saturation j x lo hi,
  resets env a a1 -> steps env k a1 ak -> reads env ak p e k period rounding start saturation ->
  (forall i, (j <= i < k)%nat -> e i = 0) ->
  (forall name, List.In name series_names -> out env ak name j = Ok (Some (x name))) -> between p x lo hi ->
  forall i, (j <= i <= k)%nat -> exists mat mu ml,
    out env ak "mat" i = Ok (Some mat) /\ out env ak "mu" i = Ok (Some mu) /\ out env ak "ml" i = Ok (Some ml) /\
    Rabs (mat - level p x * p "mateq") <= r ^ (i - j) * (hi - lo) * p "mateq" /\
    Rabs (mu - level p x * p "mueq") <= r ^ (i - j) * (hi - lo) * p "mueq" /\
    Rabs (ml - level p x * p "mleq") <= r ^ (i - j) * (hi - lo) * p "mleq".
Proof.
  intros H. exists (1 - share p). destruct (share_is p H) as (D0 & D1 & _). pose proof (mx_b12 _ H).
  destruct (mx_masses _ H) as (M1 & M2 & M3).
  split; [lra|]. intros a a1 ak k e period rounding start saturation j x lo hi Re St Rd E X B i K.
  destruct (after_end p a a1 ak k e period rounding start saturation j x lo hi H Re St Rd E X B (i - j)) as (x' & lo' & hi' & X' & B' & _ & W & V); [lia|].
  replace (j + (i - j))%nat with i in X' by lia. exists (x' "mat"), (x' "mu"), (x' "ml"). rewrite <- V, <- W.
  split; [apply X'; simpl; tauto|]. split; [apply X'; simpl; tauto|]. split; [apply X'; simpl; tauto|].
  split; [|split]; apply (near_level p x' lo' hi'); auto; apply B'.
Qed.

(** ** The temperatures follow *)
Lemma ln_quot u v : 0 < u -> 0 < v -> ln (u / v) = ln u - ln v.
Proof. intros U V. unfold Rdiv. rewrite ln_mult, ln_Rinv; auto using Rinv_0_lt_compat. Qed.
Lemma ln_near lo x y : 0 < lo -> lo <= x -> lo <= y -> Rabs (ln x - ln y) <= Rabs (x - y) / lo.
Proof.
  intros L X Y.
  assert (P : forall u v, lo <= u -> lo <= v -> v <= u -> ln u - ln v <= (u - v) / lo).
  { intros u v U V O. rewrite <- ln_quot by lra.
    apply Rle_trans with (u / v - 1).
    - pose proof (exp_ineq1_le (ln (u / v))) as I. rewrite exp_ln in I by (apply Rdiv_lt_0_compat; lra). lra.
    - replace (u / v - 1) with ((u - v) / v) by (field; lra). unfold Rdiv. apply Rmult_le_compat_l; [lra|].
      apply Rinv_le_contravar; lra. }
  assert (M : forall u v, lo <= u -> lo <= v -> v <= u -> 0 <= ln u - ln v).
  { intros u v U V O. destruct (Rle_lt_or_eq_dec v u O) as [O1| ->]; [|lra].
    pose proof (ln_increasing v u). lra. }
  destruct (Rle_dec y x) as [O|O].
  - rewrite !Rabs_right; [now apply P|lra|]. pose proof (M x y X Y O). lra.
  - rewrite (Rabs_left1 (ln x - ln y)), (Rabs_left1 (x - y)); [|lra|].
    + replace (- (ln x - ln y)) with (ln y - ln x) by ring. replace (- (x - y)) with (y - x) by ring. apply P; lra.
    + pose proof (M y x Y X). lra.
Qed.
Lemma air_near p g g' t o : 0 <= p "c1" -> Rabs (air p g t o - air p g' t o) <= p "c1" * Rabs (g - g').
Proof.
  intros C. unfold air. eapply Rle_trans; [apply min_near|].
  replace (_ - _) with (p "c1" * (g - g')) by ring. rewrite abs_scale by auto. lra.
Qed.
Lemma ln2_pos : 0 < ln 2.
Proof. pose proof (ln_increasing 1 2) as I. rewrite ln_1 in I. lra. Qed.

Lemma C84_proof p : mixing p -> thermal p -> exists r, 0 <= r < 1 /\ forall lo hi d, 0 < lo -> exists K,
  forall a a1 ak k e period rounding start saturation j x f,
  resets env a a1 -> steps env k a1 ak -> reads env ak p e k period rounding start saturation ->
  (forall i, (j <= i < k)%nat -> e i = 0 /\
     other_forcing start period saturation (Z.of_nat i + 1) (p "fex0") (p "fex1") = f) ->
  (forall name, List.In name series_names -> out env ak name j = Ok (Some (x name))) -> between p x lo hi ->
  admits p (warming p (level p x) f) ->
  Rabs (x "tatm" - warming p (level p x) f) <= d -> Rabs (x "tocean" - warming p (level p x) f) <= d ->
  forall i, (j <= i <= k)%nat -> exists tatm tocean,
    out env ak "tatm" i = Ok (Some tatm) /\ out env ak "tocean" i = Ok (Some tocean) /\
    Rabs (tatm - warming p (level p x) f) <= K * r ^ (i - j) /\
    Rabs (tocean - warming p (level p x) f) <= K * r ^ (i - j).
Proof.
  intros H T. destruct (share_is p H) as (D0 & D1 & _). pose proof (mx_b12 _ H) as B12. destruct (mx_masses _ H) as (M1 & M2 & M3).
  pose proof (rate_is p T) as R1. pose proof (th_c1 _ T) as C1. pose proof (th_forcing _ T) as F2. pose proof ln2_pos as L2.
  set (s := 1 - share p). set (q := (1 + Rmax (rate p) s) / 2).
  assert (Q1 : rate p < q). { unfold q. pose proof (Rmax_l (rate p) s). pose proof (Rmax_lub_lt (rate p) s 1). unfold s in *. lra. }
  assert (Q2 : s <= q). { unfold q. pose proof (Rmax_r (rate p) s). pose proof (Rmax_lub_lt (rate p) s 1). unfold s in *. lra. }
  assert (Q3 : q < 1). { unfold q. pose proof (Rmax_lub_lt (rate p) s 1). unfold s in *. lra. }
  exists q. split; [lra|]. intros lo hi d L0.
  set (c := p "c1" * (p "fco22x" * (Rmax 0 (hi - lo) / lo / ln 2))).
  set (K := Rmax 0 d + c / (q - rate p)). exists (2 * K).
  assert (Cp : 0 <= c).
  { unfold c. apply Rmult_le_pos; [lra|]. apply Rmult_le_pos; [lra|]. unfold Rdiv. repeat apply Rmult_le_pos; [apply Rmax_l| |];
      apply Rlt_le, Rinv_0_lt_compat; lra. }
  assert (Kp : 0 <= c / (q - rate p)) by (apply Rmult_le_pos; [auto|apply Rlt_le, Rinv_0_lt_compat; lra]).
  assert (Kd : Rmax 0 d <= K) by (unfold K; lra).
  assert (K0 : 0 <= K) by (pose proof (Rmax_l 0 d); lra).
  assert (Kc : rate p * K + c <= q * K).
  { unfold K. assert (Ec : c = (q - rate p) * (c / (q - rate p))) by (field; lra). pose proof (Rmax_l 0 d). nra. }
  intros a a1 ak k e period rounding start saturation j x f Re St Rd E X B Ad Da Do.
  set (t := warming p (level p x) f) in *.
  assert (Fx : p "fco22x" * (ln (level p x) / ln 2) + f = lam p * t).
  { unfold t, warming, lam. pose proof (th_sensitivity _ T). field. repeat split; lra. }
  destruct (fixed p _ t T Ad Fx) as (Fa & Fs).
  assert (Qp : forall n, 0 <= q ^ n) by (intros; apply pow_le; lra).
  assert (P : forall n, (j + n <= k)%nat -> exists x' lo' hi', series_at env ak (j + n) x' /\ between p x' lo' hi' /\
    lo <= lo' /\ hi' - lo' = s ^ n * (hi - lo) /\ level p x' = level p x /\ near p (K * q ^ n) (x' "tatm") (x' "tocean") t t).
  { induction n as [|n IH]; intros N.
    - rewrite Nat.add_0_r. exists x, lo, hi. cbn [pow]. split; [exact X|]. split; [exact B|]. split; [lra|]. split; [lra|]. split; [reflexivity|].
      rewrite Rmult_1_r. pose proof (Rmax_r 0 d). pose proof (slack_is p T). split; [lra|]. nra.
    - destruct IH as (x' & lo' & hi' & X' & B' & L' & W' & V' & Nr); [lia|].
      pose proof (proceeds _ _ _ _ _ _ _ _ _ _ _ (j + n) x' Re St Rd ltac:(lia) X') as Q.
      destruct (E (j + n)%nat ltac:(lia)) as (E1 & E2). rewrite E1, no_emission, E2 in Q.
      destruct (mixes p x' f lo' hi' H B') as (lo2 & hi2 & L3 & W2 & B2 & V2).
      exists (next p x' 0 f), lo2, hi2.
      split; [rewrite Nat.add_succ_r; exact Q|]. split; [exact B2|]. split; [lra|].
      split; [rewrite W2, W'; cbn [pow]; unfold s; ring|]. split; [congruence|].
      set (g := p "fco22x" * (ln (next p x' 0 f "mat" / p "mateq") / ln 2) + f).
      assert (Ea : next p x' 0 f "tatm" = air p g (x' "tatm") (x' "tocean")) by reflexivity.
      assert (Eo : next p x' 0 f "tocean" = sea p (x' "tatm") (x' "tocean")) by reflexivity.
      pose proof (contracts p (p "fco22x" * (ln (level p x) / ln 2) + f) _ _ _ _ _ T (Rmult_le_pos _ _ K0 (Qp n)) Nr) as Ct.
      rewrite Fa, Fs in Ct. destruct Ct as [Ct1 Ct2].
      assert (G : p "c1" * Rabs (g - (p "fco22x" * (ln (level p x) / ln 2) + f)) <= c * q ^ n).
      { unfold g, c. replace (_ - _) with (p "fco22x" * ((ln (next p x' 0 f "mat" / p "mateq") - ln (level p x)) * / ln 2)) by (unfold Rdiv; ring).
        rewrite abs_scale by lra. rewrite Rabs_mult, (Rabs_right (/ ln 2)) by (apply Rle_ge, Rlt_le, Rinv_0_lt_compat; lra).
        rewrite !Rmult_assoc. apply Rmult_le_compat_l; [lra|]. apply Rmult_le_compat_l; [lra|].
        assert (V3 : level p (next p x' 0 f) = level p x) by congruence.
        pose proof (level_between p _ _ _ H B2) as Lv. rewrite V3 in Lv.
        assert (Am : lo2 <= next p x' 0 f "mat" / p "mateq" <= hi2).
        { pose proof (bt_mat _ _ _ _ B2). split; apply Rmult_le_reg_r with (p "mateq"); auto; unfold Rdiv; rewrite Rmult_assoc, Rinv_l by lra; lra. }
        pose proof (ln_near lo (next p x' 0 f "mat" / p "mateq") (level p x) L0 ltac:(lra) ltac:(lra)) as Ln.
        pose proof (abs_between _ _ _ _ Am Lv) as Ab.
        assert (Wd : hi2 - lo2 <= q ^ n * Rmax 0 (hi - lo)).
        { rewrite W2, W'. fold s. assert (0 <= hi - lo) by (pose proof (level_between p x lo hi H B); lra).
          rewrite Rmax_right by auto. assert (0 <= s) by (unfold s; lra).
          assert (s ^ n <= q ^ n) by (apply pow_incr; lra). assert (0 <= s ^ n) by (apply pow_le; auto).
          assert (s * (s ^ n * (hi - lo)) <= s ^ n * (hi - lo)) by (assert (0 <= s ^ n * (hi - lo)) by (apply Rmult_le_pos; auto); unfold s in *; nra).
          nra. }
        apply Rle_trans with (Rabs (next p x' 0 f "mat" / p "mateq" - level p x) / lo * / ln 2).
        - apply Rmult_le_compat_r; [apply Rlt_le, Rinv_0_lt_compat; lra|exact Ln].
        - replace (Rmax 0 (hi - lo) / lo / ln 2 * q ^ n) with ((q ^ n * Rmax 0 (hi - lo)) / lo * / ln 2) by (unfold Rdiv; ring).
          apply Rmult_le_compat_r; [apply Rlt_le, Rinv_0_lt_compat; lra|]. unfold Rdiv.
          apply Rmult_le_compat_r; [apply Rlt_le, Rinv_0_lt_compat; lra|]. lra. }
      rewrite Ea, Eo. cbn [pow].
      assert (Bn : rate p * (K * q ^ n) + c * q ^ n <= K * (q * q ^ n)).
      { replace (rate p * (K * q ^ n) + c * q ^ n) with ((rate p * K + c) * q ^ n) by ring.
        replace (K * (q * q ^ n)) with (q * K * q ^ n) by ring. apply Rmult_le_compat_r; auto. }
      split.
      + pose proof (air_near p g (p "fco22x" * (ln (level p x) / ln 2) + f) (x' "tatm") (x' "tocean") ltac:(lra)) as An.
        set (u := air p g (x' "tatm") (x' "tocean")) in *.
        set (v := air p (p "fco22x" * (ln (level p x) / ln 2) + f) (x' "tatm") (x' "tocean")) in *.
        replace (u - t) with ((u - v) + (v - t)) by ring. eapply Rle_trans; [apply Rabs_triang|]. lra.
      + pose proof (slack_is p T). eapply Rle_trans; [exact Ct2|]. apply Rmult_le_compat_l; [lra|].
        assert (0 <= c * q ^ n) by (apply Rmult_le_pos; auto). lra. }
  intros i N. destruct (P (i - j)%nat ltac:(lia)) as (x' & _ & _ & X' & _ & _ & _ & _ & Nr).
  replace (j + (i - j))%nat with i in X' by lia. exists (x' "tatm"), (x' "tocean").
  split; [apply X'; simpl; tauto|]. split; [apply X'; simpl; tauto|].
  destruct (near_weak p _ _ _ _ _ T (Rmult_le_pos _ _ K0 (Qp (i - j)%nat)) Nr). split; lra.
Qed.

(** ** Emissions mixed *)
Lemma off_max lo v : lo < Rmax lo v -> Rmax lo v = v.
Proof. intros H. unfold Rmax in *. destruct (Rle_dec lo v); auto. lra. Qed.
Lemma linear_next p x ce fo : p "mat_lower" < next p x ce fo "mat" -> p "mu_lower" < next p x ce fo "mu" ->
  p "ml_lower" < next p x ce fo "ml" ->
  next p x ce fo "mat" = x "mat" * (1 - p "b12") + x "mu" * (p "b12" * p "mateq" / p "mueq") + ce /\
  next p x ce fo "mu" = x "mat" * p "b12" + x "mu" * (1 - p "b12" * p "mateq" / p "mueq" - p "b23") + x "ml" * (p "b23" * p "mueq" / p "mleq") /\
  next p x ce fo "ml" = x "ml" * (1 - p "b23" * p "mueq" / p "mleq") + x "mu" * p "b23".
Proof.
  unfold next; cbn [alookup String.eqb Ascii.eqb Bool.eqb]. intros A B C.
  split; [exact (off_max _ _ A)|]. split; [exact (off_max _ _ B)|exact (off_max _ _ C)].
Qed.
Lemma off_next a p k n x ce fo : off_bounds env a p k -> (S n <= k)%nat -> series_at env a (S n) (next p x ce fo) ->
  p "mat_lower" < next p x ce fo "mat" /\ p "mu_lower" < next p x ce fo "mu" /\ p "ml_lower" < next p x ce fo "ml".
Proof.
  intros O N X. destruct (O (S n) ltac:(lia)) as (m1 & m2 & m3 & E1 & E2 & E3 & B).
  rewrite (X "mat") in E1 by (simpl; tauto). rewrite (X "mu") in E2 by (simpl; tauto). rewrite (X "ml") in E3 by (simpl; tauto).
  inversion E1. inversion E2. inversion E3. subst. exact B.
Qed.
Lemma emitted_mixed c e e' period rounding :
  carbon_emitted ((1 - c) * e + c * e') period rounding =
  (1 - c) * carbon_emitted e period rounding + c * carbon_emitted e' period rounding.
Proof. unfold carbon_emitted. destruct (truthy rounding); unfold Rdiv; ring. Qed.

Definition mix (c : R) (x y z : string -> R) : Prop :=
  forall name, List.In name ["mat"; "mu"; "ml"] -> z name = (1 - c) * x name + c * y name.
Lemma C85_proof a a1 ak b b1 bk d d1 dk k p q s e f g period rounding start1 saturation1 start2 saturation2 start3 saturation3 c :
  resets env a a1 -> steps env k a1 ak -> resets env b b1 -> steps env k b1 bk -> resets env d d1 -> steps env k d1 dk ->
  reads env ak p e k period rounding start1 saturation1 -> reads env bk q f k period rounding start2 saturation2 ->
  reads env dk s g k period rounding start3 saturation3 ->
  mixed c p q s -> (forall i, (i < k)%nat -> g i = (1 - c) * e i + c * f i) ->
  off_bounds env ak p k -> off_bounds env bk q k -> off_bounds env dk s k ->
  forall name i, List.In name ["mat"; "mu"; "ml"] -> (i <= k)%nat -> exists x y,
    out env ak name i = Ok (Some x) /\ out env bk name i = Ok (Some y) /\
    out env dk name i = Ok (Some ((1 - c) * x + c * y)).
Proof.
  intros Ra Sa Rb Sb Rd Sd Da Db Dd (M1 & M2) G Oa Ob Od.
  assert (P : forall i, (i <= k)%nat -> exists x y z, series_at env ak i x /\ series_at env bk i y /\ series_at env dk i z /\ mix c x y z).
  { induction i as [|i IH]; intros K.
    - exists (first p), (first q), (first s). split; [exact (starts _ _ _ _ _ _ _ _ _ _ _ Ra Sa Da)|].
      split; [exact (starts _ _ _ _ _ _ _ _ _ _ _ Rb Sb Db)|]. split; [exact (starts _ _ _ _ _ _ _ _ _ _ _ Rd Sd Dd)|].
      intros name N. simpl in N. destruct N as [<-|[<-|[<-|[]]]]; unfold first; cbn [alookup String.eqb Ascii.eqb Bool.eqb]; apply M2; simpl; tauto.
    - destruct IH as (x & y & z & X & Y & Z & Mx); [lia|].
      pose proof (proceeds _ _ _ _ _ _ _ _ _ _ _ i x Ra Sa Da K X) as Xn.
      pose proof (proceeds _ _ _ _ _ _ _ _ _ _ _ i y Rb Sb Db K Y) as Yn.
      pose proof (proceeds _ _ _ _ _ _ _ _ _ _ _ i z Rd Sd Dd K Z) as Zn.
      eexists _, _, _. split; [exact Xn|]. split; [exact Yn|]. split; [exact Zn|].
      destruct (off_next _ _ _ _ _ _ _ Oa K Xn) as (A1 & A2 & A3). destruct (linear_next _ _ _ _ A1 A2 A3) as (Xa & Xu & Xl).
      destruct (off_next _ _ _ _ _ _ _ Ob K Yn) as (B1 & B2 & B3). destruct (linear_next _ _ _ _ B1 B2 B3) as (Ya & Yu & Yl).
      destruct (off_next _ _ _ _ _ _ _ Od K Zn) as (D1 & D2 & D3). destruct (linear_next _ _ _ _ D1 D2 D3) as (Za & Zu & Zl).
      pose proof (Mx "mat" ltac:(simpl; tauto)) as Ma. pose proof (Mx "mu" ltac:(simpl; tauto)) as Mu. pose proof (Mx "ml" ltac:(simpl; tauto)) as Ml.
      rewrite (G i K), emitted_mixed in Za.
      destruct (M1 "mateq" ltac:(simpl; tauto)) as (P1 & Q1). destruct (M1 "mueq" ltac:(simpl; tauto)) as (P2 & Q2).
      destruct (M1 "mleq" ltac:(simpl; tauto)) as (P3 & Q3). destruct (M1 "b12" ltac:(simpl; tauto)) as (P4 & Q4).
      destruct (M1 "b23" ltac:(simpl; tauto)) as (P5 & Q5).
      intros name N. simpl in N. destruct N as [<-|[<-|[<-|[]]]].
      + rewrite Xa, Ya. rewrite (G i K), emitted_mixed. rewrite Za, Ma, Mu, P1, P2, P4, Q1, Q2, Q4. ring.
      + rewrite Xu, Yu, Zu, Ma, Mu, Ml, P1, P2, P3, P4, P5, Q1, Q2, Q3, Q4, Q5. ring.
      + rewrite Xl, Yl, Zl, Mu, Ml, P2, P3, P5, Q2, Q3, Q5. ring. }
  intros name i N K. destruct (P i K) as (x & y & z & X & Y & Z & Mx). exists (x name), (y name).
  assert (N' : List.In name series_names) by (simpl in N |- *; tauto).
  split; [now apply X|]. split; [now apply Y|]. rewrite <- (Mx name N). now apply Z.
Qed.
End S.
