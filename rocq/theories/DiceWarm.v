(** The temperatures of the DICE model in the long run (C79, C80). *)
From Coq Require Import String List Arith Lia Bool ZArith Reals Lra.
From Flocq Require Import Raux.
From Verif Require Import Base Units TimeModel Calendar CalendarFacts Core Spec_Core Adapters Dice Spec_Dice DiceProps
  Spec_DiceMono DiceMono Spec_DiceWarm.
Import ListNotations.
Local Open Scope string_scope.
Local Open Scope list_scope.
Local Open Scope R_scope.

(** ** The temperatures contract *)
Definition lam (p : string -> R) : R := p "fco22x" / p "t2xco2".
Definition air (p : string -> R) (g t o : R) : R := Rmin (p "tatm_upper") (t + p "c1" * (g - lam p * t - p "c3" * (t - o))).
Definition sea (p : string -> R) (t o : R) : R := Rmax (p "tocean_lower") (Rmin (p "tocean_upper") (o + p "c4" * (t - o))).

Definition slack (p : string -> R) : R := lam p / (2 * (lam p + p "c3")).
Definition rate (p : string -> R) : R := Rmax (1 - p "c1" * lam p / 2) (1 - p "c4" * slack p / (1 + slack p)).

Lemma lam_pos p : thermal p -> 0 < lam p.
Proof. intros H. apply Rdiv_lt_0_compat; apply H. Qed.
Lemma slack_is p : thermal p -> 0 < slack p <= 1 / 2 /\ p "c3" * slack p <= lam p / 2.
Proof.
  intros H. pose proof (lam_pos p H) as L. pose proof (th_c3 _ H) as C. unfold slack.
  assert (D : 0 < 2 * (lam p + p "c3")) by lra.
  split; [split|].
  - now apply Rdiv_lt_0_compat.
  - apply Rmult_le_reg_r with (2 * (lam p + p "c3")); auto. unfold Rdiv at 1. rewrite Rmult_assoc, Rinv_l by lra. lra.
  - apply Rmult_le_reg_r with (2 * (lam p + p "c3")); auto. unfold Rdiv at 1. rewrite !Rmult_assoc, Rinv_l by lra. nra.
Qed.
Lemma rate_is p : thermal p -> 0 <= rate p < 1.
Proof.
  intros H. pose proof (lam_pos p H) as L. pose proof (th_c3 _ H) as C3. pose proof (th_c1 _ H) as C1. pose proof (th_c4 _ H) as C4.
  pose proof (th_relaxes _ H) as Rx. fold (lam p) in Rx. destruct (slack_is p H) as (S1 & S2). unfold rate.
  assert (P : 0 < p "c1" * lam p) by nra. assert (Q : p "c1" * lam p <= 1) by nra.
  assert (D : 0 < p "c4" * slack p / (1 + slack p)) by (apply Rdiv_lt_0_compat; nra).
  split; [eapply Rle_trans; [|apply Rmax_l]; lra|]. apply Rmax_lub_lt; lra.
Qed.

Lemma min_near b x y : Rabs (Rmin b x - Rmin b y) <= Rabs (x - y).
Proof. unfold Rmin. repeat destruct (Rle_dec _ _); unfold Rabs; repeat destruct (Rcase_abs _); lra. Qed.
Lemma max_near b x y : Rabs (Rmax b x - Rmax b y) <= Rabs (x - y).
Proof. unfold Rmax. repeat destruct (Rle_dec _ _); unfold Rabs; repeat destruct (Rcase_abs _); lra. Qed.
Lemma abs_scale c x : 0 <= c -> Rabs (c * x) = c * Rabs x.
Proof. intros H. rewrite Rabs_mult, (Rabs_right c); lra. Qed.

(** Distance of two pairs of temperatures. *)
Definition near (p : string -> R) (n t o t' o' : R) : Prop :=
  Rabs (t - t') <= n /\ Rabs (o - o') <= (1 + slack p) * n.

Lemma contracts p g n t o t' o' : thermal p -> 0 <= n -> near p n t o t' o' ->
  near p (rate p * n) (air p g t o) (sea p t o) (air p g t' o') (sea p t' o').
Proof.
  intros H N0 [N1 N2]. pose proof (lam_pos p H) as L. pose proof (th_c3 _ H) as C3. pose proof (th_c1 _ H) as C1. pose proof (th_c4 _ H) as C4.
  pose proof (th_relaxes _ H) as Rx. fold (lam p) in Rx. destruct (slack_is p H) as (S1 & S2).
  split.
  - unfold air. eapply Rle_trans; [apply min_near|].
    replace (_ - _) with ((1 - p "c1" * (lam p + p "c3")) * (t - t') + p "c1" * p "c3" * (o - o')) by ring.
    eapply Rle_trans; [apply Rabs_triang|]. rewrite !abs_scale by nra.
    apply Rle_trans with ((1 - p "c1" * (lam p + p "c3")) * n + p "c1" * p "c3" * ((1 + slack p) * n)).
    { apply Rplus_le_compat; apply Rmult_le_compat_l; auto; nra. }
    apply Rle_trans with ((1 - p "c1" * lam p / 2) * n); [|apply Rmult_le_compat_r; auto; apply Rmax_l].
    replace (_ + _) with ((1 - p "c1" * lam p + p "c1" * (p "c3" * slack p)) * n) by ring.
    apply Rmult_le_compat_r; auto. nra.
  - unfold sea. eapply Rle_trans; [apply max_near|]. eapply Rle_trans; [apply min_near|].
    replace (_ - _) with ((1 - p "c4") * (o - o') + p "c4" * (t - t')) by ring.
    eapply Rle_trans; [apply Rabs_triang|]. rewrite !abs_scale by lra.
    apply Rle_trans with ((1 - p "c4") * ((1 + slack p) * n) + p "c4" * n).
    { apply Rplus_le_compat; apply Rmult_le_compat_l; auto; lra. }
    apply Rle_trans with ((1 + slack p) * ((1 - p "c4" * slack p / (1 + slack p)) * n)).
    + right. field. lra.
    + apply Rmult_le_compat_l; [lra|]. apply Rmult_le_compat_r; auto. apply Rmax_r.
Qed.
Lemma near_weak p n t o t' o' : thermal p -> 0 <= n -> near p n t o t' o' ->
  Rabs (t - t') <= 2 * n /\ Rabs (o - o') <= 2 * n.
Proof. intros H N0 [N1 N2]. destruct (slack_is p H) as (S1 & S2). split; nra. Qed.
Lemma near_first p t o t' o' : thermal p ->
  near p (Rmax (Rabs (t - t')) (Rabs (o - o'))) t o t' o'.
Proof.
  intros H. destruct (slack_is p H) as (S1 & S2). split; [apply Rmax_l|].
  pose proof (Rmax_r (Rabs (t - t')) (Rabs (o - o'))). pose proof (Rabs_pos (o - o')). nra.
Qed.

(** ** Constant carbon *)
Lemma fixed p g t : thermal p -> admits p t -> g = lam p * t -> air p g t t = t /\ sea p t t = t.
Proof.
  intros H (A1 & A2 & A3) ->. unfold air, sea. split.
  - replace (t + _) with t by ring. now apply Rmin_right.
  - replace (t + _) with t by ring. rewrite Rmin_right by auto. now apply Rmax_right.
Qed.
Lemma no_emission period rounding : carbon_emitted 0 period rounding = 0.
Proof. unfold carbon_emitted. destruct (truthy rounding); unfold Rdiv; ring. Qed.
Lemma quot_zero u y : dt_quot (mkDT u 0) y = 0.
Proof.
  assert (Z0 : b64 (IZR 0) = IZR 0) by (apply b64_id_int; lia).
  unfold dt_quot, dt_ns. cbn [dt_unit dt_ticks]. rewrite Z.mul_0_r, Zdiv_0_l, Z0. unfold Rdiv. rewrite Rmult_0_l. exact Z0.
Qed.
Lemma constant_forcing start period saturation t f : other_forcing start period saturation t f f = f.
Proof.
  unfold other_forcing. destruct (_ <=? _)%Z; auto.
  replace ((f - f) * IZR (dt_ticks period * t)) with (IZR 0) by (simpl; ring). rewrite Ztrunc_IZR, quot_zero. ring.
Qed.
Lemma log_level p m : carbon_level p m -> ln (p "mat0" / p "mateq") = ln m.
Proof. intros H. destruct (cl_masses _ _ H) as (M & _). rewrite (cl_mat _ _ H). f_equal. field. lra. Qed.

(** The state of the carbon cycle at level [m]. *)
Definition stays (p x : string -> R) : Prop := x "mat" = p "mat0" /\ x "mu" = p "mu0" /\ x "ml" = p "ml0".
Lemma stays_next p m x f : carbon_level p m -> stays p x -> stays p (next p x 0 f) /\
  next p x 0 f "tatm" = air p (p "fco22x" * (ln m / ln 2) + f) (x "tatm") (x "tocean") /\
  next p x 0 f "tocean" = sea p (x "tatm") (x "tocean").
Proof.
  intros H (X1 & X2 & X3). destruct (cl_masses _ _ H) as (M1 & M2 & M3). destruct (cl_bounds _ _ H) as (B1 & B2 & B3).
  pose proof (cl_mat _ _ H) as L1. pose proof (cl_mu _ _ H) as L2. pose proof (cl_ml _ _ H) as L3.
  assert (E : Rmax (p "mat_lower") (x "mat" * (1 - p "b12") + x "mu" * (p "b12" * p "mateq" / p "mueq") + 0) = p "mat0").
  { rewrite X1, X2. replace (_ + _ + _) with (p "mat0"); [now apply Rmax_right|]. rewrite L1, L2. field. lra. }
  unfold stays, next; cbn [alookup String.eqb Ascii.eqb Bool.eqb]. rewrite E, (log_level p m H). repeat split.
  - rewrite X1, X2, X3. replace (_ + _ + _) with (p "mu0"); [now apply Rmax_right|]. rewrite L1, L2, L3. field. lra.
  - rewrite X2, X3. replace (_ + _) with (p "ml0"); [now apply Rmax_right|]. rewrite L2, L3. field. lra.
Qed.

Lemma doubling p : thermal p -> warming p 2 0 = p "t2xco2" /\ warming p 1 0 = 0.
Proof.
  intros H. pose proof (th_forcing _ H). unfold warming. rewrite ln_1.
  assert (L : ln 2 <> 0) by (intros E0; pose proof (ln_increasing 1 2) as I; rewrite ln_1 in I; lra).
  split; field; repeat split; auto; lra.
Qed.

Section S.
Variable env : uenv.

Lemma C79_proof p : thermal p -> exists r, 0 <= r < 1 /\
  forall a a1 ak k e period rounding start saturation m f,
  resets env a a1 -> steps env k a1 ak -> reads env ak p e k period rounding start saturation ->
  carbon_level p m -> (forall i, (i < k)%nat -> e i = 0) -> p "fex0" = f -> p "fex1" = f -> admits p (warming p m f) ->
  forall i, (i <= k)%nat -> exists tatm tocean,
    out env ak "tatm" i = Ok (Some tatm) /\ out env ak "tocean" i = Ok (Some tocean) /\
    Rabs (tatm - warming p m f) <= 2 * (r ^ i * Rmax (Rabs (p "tatm0" - warming p m f)) (Rabs (p "tocean0" - warming p m f))) /\
    Rabs (tocean - warming p m f) <= 2 * (r ^ i * Rmax (Rabs (p "tatm0" - warming p m f)) (Rabs (p "tocean0" - warming p m f))).
Proof.
  intros H. exists (rate p). split; [now apply rate_is|].
  intros a a1 ak k e period rounding start saturation m f Re St Rd C Z0 F0 F1 Ad.
  set (t := warming p m f) in *. set (n := Rmax _ _).
  assert (N0 : 0 <= n) by (unfold n; eapply Rle_trans; [apply Rabs_pos|apply Rmax_l]).
  assert (R0 : forall i, 0 <= rate p ^ i) by (intros; apply pow_le, rate_is; auto).
  assert (Fx : p "fco22x" * (ln m / ln 2) + f = lam p * t).
  { unfold t, warming, lam. pose proof (th_forcing _ H). pose proof (th_sensitivity _ H). field.
    repeat split; try lra. intros E0. pose proof (ln_increasing 1 2) as I. rewrite ln_1 in I. lra. }
  destruct (fixed p _ t H Ad Fx) as (Fa & Fs).
  assert (P : forall i, (i <= k)%nat -> exists x, series_at env ak i x /\ stays p x /\
            near p (rate p ^ i * n) (x "tatm") (x "tocean") t t).
  { induction i as [|i IH]; intros K.
    - exists (first p). split; [exact (starts _ _ _ _ _ _ _ _ _ _ _ Re St Rd)|]. split; [repeat split; reflexivity|].
      cbn [pow]. rewrite Rmult_1_l. apply near_first; auto.
    - destruct IH as (x & X & Sx & Nx); [lia|].
      exists (next p x 0 f). split; [|split].
      + pose proof (proceeds _ _ _ _ _ _ _ _ _ _ _ i x Re St Rd K X) as Q.
        rewrite (Z0 i K), no_emission, F0, F1, constant_forcing in Q. exact Q.
      + now apply (stays_next p m).
      + destruct (stays_next p m x f C Sx) as (_ & -> & ->). cbn [pow]. rewrite Rmult_assoc.
        pose proof (contracts p (p "fco22x" * (ln m / ln 2) + f) _ _ _ _ _ H (Rmult_le_pos _ _ (R0 i) N0) Nx) as Q.
        rewrite Fa, Fs in Q. exact Q. }
  intros i K. destruct (P i K) as (x & X & _ & Nx). exists (x "tatm"), (x "tocean").
  split; [apply X; simpl; tauto|]. split; [apply X; simpl; tauto|]. apply (near_weak p); auto. now apply Rmult_le_pos.
Qed.

(** ** Different temperatures at the beginning *)
Definition same_carbon (x y : string -> R) : Prop := x "mat" = y "mat" /\ x "mu" = y "mu" /\ x "ml" = y "ml" /\ x "forc" = y "forc".

Lemma next_parts p q x y c f : same_but_heat p q -> same_carbon x y ->
  same_carbon (next p x c f) (next q y c f) /\
  exists g, next p x c f "tatm" = air p g (x "tatm") (x "tocean") /\ next q y c f "tatm" = air p g (y "tatm") (y "tocean") /\
    next p x c f "tocean" = sea p (x "tatm") (x "tocean") /\ next q y c f "tocean" = sea p (y "tatm") (y "tocean").
Proof.
  intros E (X1 & X2 & X3 & _). unfold same_carbon, next; cbn [alookup String.eqb Ascii.eqb Bool.eqb].
  rewrite X1, X2, X3.
  assert (Q : forall n, List.In n scalar_names -> n <> "tatm0" -> n <> "tocean0" -> q n = p n) by (intros; symmetry; auto).
  rewrite !Q by (first [discriminate | simpl; tauto]). split; [repeat split; reflexivity|].
  eexists. unfold air, sea, lam. repeat split; reflexivity.
Qed.
Lemma C80_proof p : thermal p -> exists r, 0 <= r < 1 /\
  forall a a1 ak b b1 bk k q e period rounding start saturation,
  resets env a a1 -> steps env k a1 ak -> resets env b b1 -> steps env k b1 bk ->
  reads env ak p e k period rounding start saturation -> reads env bk q e k period rounding start saturation ->
  same_but_heat p q ->
  forall i, (i <= k)%nat ->
  (forall name, List.In name ["mat"; "mu"; "ml"; "forc"] -> exists x, out env ak name i = Ok (Some x) /\ out env bk name i = Ok (Some x)) /\
  (forall name, List.In name ["tatm"; "tocean"] -> exists x y, out env ak name i = Ok (Some x) /\ out env bk name i = Ok (Some y) /\
    Rabs (x - y) <= 2 * (r ^ i * Rmax (Rabs (p "tatm0" - q "tatm0")) (Rabs (p "tocean0" - q "tocean0")))).
Proof.
  intros H. exists (rate p). split; [now apply rate_is|].
  intros a a1 ak b b1 bk k q e period rounding start saturation Ra Sa Rb Sb Da Db E. set (n := Rmax _ _).
  assert (N0 : 0 <= n) by (unfold n; eapply Rle_trans; [apply Rabs_pos|apply Rmax_l]).
  assert (R0 : forall i, 0 <= rate p ^ i) by (intros; apply pow_le, rate_is; auto).
  assert (Q : forall n, List.In n scalar_names -> n <> "tatm0" -> n <> "tocean0" -> q n = p n) by (intros; symmetry; auto).
  assert (P : forall i, (i <= k)%nat -> exists x y, series_at env ak i x /\ series_at env bk i y /\ same_carbon x y /\
            near p (rate p ^ i * n) (x "tatm") (x "tocean") (y "tatm") (y "tocean")).
  { induction i as [|i IH]; intros K.
    - exists (first p), (first q). split; [exact (starts _ _ _ _ _ _ _ _ _ _ _ Ra Sa Da)|].
      split; [exact (starts _ _ _ _ _ _ _ _ _ _ _ Rb Sb Db)|]. split.
      + unfold same_carbon, first; cbn [alookup String.eqb Ascii.eqb Bool.eqb].
        rewrite !Q by (first [discriminate | simpl; tauto]). repeat split; reflexivity.
      + cbn [pow]. rewrite Rmult_1_l. apply near_first; auto.
    - destruct IH as (x & y & X & Y & Sx & Nx); [lia|].
      pose proof (proceeds _ _ _ _ _ _ _ _ _ _ _ i x Ra Sa Da K X) as Xn.
      pose proof (proceeds _ _ _ _ _ _ _ _ _ _ _ i y Rb Sb Db K Y) as Yn.
      rewrite (Q "fex0"), (Q "fex1") in Yn by (first [discriminate | simpl; tauto]).
      destruct (next_parts p q x y (carbon_emitted (e i) period rounding)
        (other_forcing start period saturation (Z.of_nat i + 1) (p "fex0") (p "fex1")) E Sx) as (S1 & g & E1 & E2 & E3 & E4).
      eexists _, _. split; [exact Xn|]. split; [exact Yn|]. split; [exact S1|]. rewrite E1, E2, E3, E4.
      cbn [pow]. rewrite Rmult_assoc. apply contracts; auto. now apply Rmult_le_pos. }
  intros i K. destruct (P i K) as (x & y & X & Y & (C1 & C2 & C3 & C4) & Nx).
  destruct (near_weak p _ _ _ _ _ H (Rmult_le_pos _ _ (R0 i) N0) Nx) as (W1 & W2). split.
  - intros name N. exists (x name). split; [apply X; simpl in N |- *; tauto|].
    replace (x name) with (y name); [apply Y; simpl in N |- *; tauto|].
    simpl in N. destruct N as [<-|[<-|[<-|[<-|[]]]]]; congruence.
  - intros name N. exists (x name), (y name). split; [apply X; simpl in N |- *; tauto|]. split; [apply Y; simpl in N |- *; tauto|].
    simpl in N. destruct N as [<-|[<-|[]]]; assumption.
Qed.
End S.
