(** Two runs of the DICE model compared (C77, C78). *)
From Coq Require Import String List Arith Lia Bool ZArith Reals Lra.
From Verif Require Import Base Units TimeModel Calendar CalendarFacts Core Spec_Core Adapters Dice Spec_Dice DiceProps Spec_DiceMono.
Import ListNotations.
Local Open Scope string_scope.
Local Open Scope list_scope.
Local Open Scope R_scope.

(** ** One step, as numbers *)
Definition next (p : string -> R) (x : string -> R) (ce fo : R) (name : string) : R :=
  let b21 := p "b12" * p "mateq" / p "mueq" in
  let b32 := p "b23" * p "mueq" / p "mleq" in
  let mat := Rmax (p "mat_lower") (x "mat" * (1 - p "b12") + x "mu" * b21 + ce) in
  let ml := Rmax (p "ml_lower") (x "ml" * (1 - b32) + x "mu" * p "b23") in
  let mu := Rmax (p "mu_lower") (x "mat" * p "b12" + x "mu" * (1 - b21 - p "b23") + x "ml" * b32) in
  let tocean := Rmax (p "tocean_lower") (Rmin (p "tocean_upper") (x "tocean" + p "c4" * (x "tatm" - x "tocean"))) in
  let forc := p "fco22x" * (ln (mat / p "mateq") / ln 2) + fo in
  let tatm := Rmin (p "tatm_upper") (x "tatm" + p "c1" *
     (forc - p "fco22x" / p "t2xco2" * x "tatm" - p "c3" * (x "tatm" - x "tocean"))) in
  match alookup name [("mat", mat); ("ml", ml); ("mu", mu); ("tatm", tatm); ("tocean", tocean); ("forc", forc)] with
  | Some r => r | None => 0 end.
Definition first (p : string -> R) (name : string) : R :=
  match alookup name [("mat", p "mat0"); ("ml", p "ml0"); ("mu", p "mu0"); ("tatm", p "tatm0"); ("tocean", p "tocean0");
    ("forc", p "fco22x" * (ln (p "mat0" / p "mateq") / ln 2) + p "fex0")] with
  | Some r => r | None => 0 end.

Ltac names H := unfold series_names in H; cbn [List.In] in H; destruct H as [<-|[<-|[<-|[<-|[<-|[<-|[]]]]]]].

Section S.
Variable env : uenv.
Definition series_at (a : adapter world) (i : nat) (x : string -> R) : Prop :=
  forall name, List.In name series_names -> out env a name i = Ok (Some (x name)).

Lemma starts a a1 k ak p e period rounding start saturation : resets env a a1 -> steps env k a1 ak ->
  reads env ak p e k period rounding start saturation -> series_at ak 0 (first p).
Proof.
  intros R S D. destruct (steps_after env _ _ _ _ R S) as (w0 & d0 & d & A).
  destruct (C64_initial_proof env _ _ _ _ _ _ p A (rd_numbers _ _ _ _ _ _ _ _ _ D)) as (O1 & O2 & O3 & O4 & O5 & O6).
  intros name N. names N; assumption.
Qed.
Lemma proceeds a a1 k ak p e period rounding start saturation i x : resets env a a1 -> steps env k a1 ak ->
  reads env ak p e k period rounding start saturation -> (i < k)%nat -> series_at ak i x ->
  series_at ak (S i) (next p x (carbon_emitted (e i) period rounding)
    (other_forcing start period saturation (Z.of_nat i + 1) (p "fex0") (p "fex1"))).
Proof.
  intros R Q D K X. destruct (steps_after env _ _ _ _ R Q) as (w0 & d0 & d & A).
  destruct (C64_proof env _ _ _ _ _ _ i p x (e i) period rounding start saturation A K) as (O1 & O2 & O3 & O4 & O5 & O6);
    try apply D; auto.
  intros name N. names N; assumption.
Qed.

(** ** More emissions *)
Lemma quot_pos period : (0 < dt_unit period)%Z -> (0 <= dt_ticks period)%Z ->
  0 <= dt_quot period (mkDT (24 * 60 * 60 * 1000000000) 365).
Proof.
  intros U T. unfold dt_quot. cbn [dt_unit]. set (u := Z.min _ _).
  assert (P : (0 < u)%Z) by (unfold u; lia).
  assert (Z0 : b64 (IZR 0) = IZR 0) by (apply b64_id_int; lia).
  assert (N : forall z, (0 <= z)%Z -> 0 <= b64 (IZR (z / u))).
  { intros z L. rewrite <- Z0 at 1. apply b64_le, IZR_le, Z.div_pos; auto. }
  rewrite <- Z0 at 1. apply b64_le.
  assert (A : 0 <= b64 (IZR (dt_ns period / u))) by (apply N; unfold dt_ns; nia).
  assert (B : 0 <= b64 (IZR (dt_ns (mkDT (24 * 60 * 60 * 1000000000) 365) / u))) by (apply N; unfold dt_ns; simpl; lia).
  destruct B as [B|B].
  - apply Rmult_le_pos; auto. left. now apply Rinv_0_lt_compat.
  - rewrite <- B. unfold Rdiv. rewrite Rinv_0. lra.
Qed.
Lemma emitted_le e f period rounding : (0 < dt_unit period)%Z -> (0 <= dt_ticks period)%Z -> e <= f ->
  carbon_emitted e period rounding <= carbon_emitted f period rounding.
Proof.
  intros U T L. unfold carbon_emitted. pose proof (quot_pos period U T) as Q.
  apply Rmult_le_compat_r; [|now apply Rmult_le_compat_r]. left. apply Rinv_0_lt_compat. destruct (truthy rounding); lra.
Qed.
Lemma log_le x y : 0 < x -> x <= y -> ln x / ln 2 <= ln y / ln 2.
Proof.
  intros P L. apply Rmult_le_compat_r.
  - left. apply Rinv_0_lt_compat. rewrite <- ln_1. apply ln_increasing; lra.
  - destruct L as [L|L]; [left; now apply ln_increasing|subst; lra].
Qed.
Lemma forcing_le p m m' fo : physical p -> 0 < m -> m <= m' ->
  p "fco22x" * (ln (m / p "mateq") / ln 2) + fo <= p "fco22x" * (ln (m' / p "mateq") / ln 2) + fo.
Proof.
  intros H P L. pose proof (ph_masses _ H) as (M & _). apply Rplus_le_compat_r, Rmult_le_compat_l; [apply H|].
  apply log_le; [now apply Rdiv_lt_0_compat|]. apply Rmult_le_compat_r; auto. left. now apply Rinv_0_lt_compat.
Qed.
Definition below (x y : string -> R) : Prop := forall name, List.In name series_names -> x name <= y name.

Lemma max_le b x y : x <= y -> Rmax b x <= Rmax b y.
Proof. intros L. unfold Rmax. repeat destruct (Rle_dec _ _); lra. Qed.
Lemma min_le b x y : x <= y -> Rmin b x <= Rmin b y.
Proof. intros L. unfold Rmin. repeat destruct (Rle_dec _ _); lra. Qed.

Lemma next_le p x y c d fo : physical p -> below x y -> c <= d -> below (next p x c fo) (next p y d fo).
Proof.
  intros H B L.
  assert (Ma : x "mat" <= y "mat") by (apply B; simpl; tauto). assert (Ml : x "ml" <= y "ml") by (apply B; simpl; tauto).
  assert (Mu : x "mu" <= y "mu") by (apply B; simpl; tauto). assert (Ta : x "tatm" <= y "tatm") by (apply B; simpl; tauto).
  assert (To : x "tocean" <= y "tocean") by (apply B; simpl; tauto). clear B.
  pose proof (ph_masses _ H) as (P1 & P2 & P3 & P4 & P5). pose proof (ph_b12 _ H). pose proof (ph_b23 _ H).
  pose proof (ph_upper _ H) as Up. pose proof (ph_lower _ H) as Lo.
  assert (B21 : 0 <= p "b12" * p "mateq" / p "mueq").
  { apply Rmult_le_pos; [apply Rmult_le_pos; lra|]. left. now apply Rinv_0_lt_compat. }
  assert (B32 : 0 <= p "b23" * p "mueq" / p "mleq").
  { apply Rmult_le_pos; [apply Rmult_le_pos; lra|]. left. now apply Rinv_0_lt_compat. }
  unfold next. set (b21 := p "b12" * p "mateq" / p "mueq") in *. set (b32 := p "b23" * p "mueq" / p "mleq") in *.
  assert (E1 : x "mat" * (1 - p "b12") + x "mu" * b21 + c <= y "mat" * (1 - p "b12") + y "mu" * b21 + d).
  { repeat apply Rplus_le_compat; auto; apply Rmult_le_compat_r; lra. }
  pose proof (max_le (p "mat_lower") _ _ E1) as M1.
  assert (M0 : 0 < Rmax (p "mat_lower") (x "mat" * (1 - p "b12") + x "mu" * b21 + c)).
  { eapply Rlt_le_trans; [exact P5|apply Rmax_l]. }
  set (m := Rmax (p "mat_lower") (x "mat" * _ + _ + _)) in *. set (m' := Rmax (p "mat_lower") (y "mat" * _ + _ + _)) in *.
  pose proof (forcing_le p m m' fo H M0 M1) as F.
  set (g := p "fco22x" * (ln (m / _) / ln 2) + fo) in *. set (g' := p "fco22x" * (ln (m' / _) / ln 2) + fo) in *.
  intros name N. names N; cbn [alookup String.eqb Ascii.eqb Bool.eqb].
  - exact M1.
  - apply max_le. apply Rplus_le_compat; apply Rmult_le_compat_r; lra.
  - apply max_le. repeat apply Rplus_le_compat; apply Rmult_le_compat_r; lra.
  - apply min_le. pose proof (ph_c1 _ H) as C1. pose proof (ph_c3 _ H) as C3. pose proof (ph_relaxes _ H) as Rx.
    set (la := p "fco22x" / p "t2xco2") in *.
    assert (E : forall t o f, t + p "c1" * (f - la * t - p "c3" * (t - o)) =
      t * (1 - p "c1" * (la + p "c3")) + p "c1" * f + p "c1" * p "c3" * o) by (intros; ring).
    rewrite !E. repeat apply Rplus_le_compat.
    + apply Rmult_le_compat_r; lra.
    + now apply Rmult_le_compat_l.
    + apply Rmult_le_compat_l; auto. now apply Rmult_le_pos.
  - apply max_le, min_le. pose proof (ph_c4 _ H) as C4.
    assert (E : forall t o, o + p "c4" * (t - o) = o * (1 - p "c4") + p "c4" * t) by (intros; ring).
    rewrite !E. apply Rplus_le_compat; [apply Rmult_le_compat_r|apply Rmult_le_compat_l]; lra.
  - exact F.
Qed.

(** Only the numbers that are read matter. *)
Lemma next_same p q x c fo name : (forall n, List.In n scalar_names -> ~ List.In n initial_names -> p n = q n) ->
  next p x c fo name = next q x c fo name.
Proof.
  intros E. unfold next. rewrite !E; [reflexivity|..];
    first [simpl; tauto | intros I; simpl in I; repeat (destruct I as [I|I]; [discriminate|]); exact I].
Qed.
Lemma next_ext p x y c fo name : (forall n, List.In n series_names -> x n = y n) -> next p x c fo name = next p y c fo name.
Proof. intros E. unfold next. rewrite !E; [reflexivity|..]; simpl; tauto. Qed.

Lemma first_le p q : physical p -> no_less p q -> below (first p) (first q).
Proof.
  intros H L name N.
  assert (I0 : forall n, List.In n scalar_names -> p n <= q n) by (intros; now apply L).
  assert (S0 : forall n, List.In n scalar_names -> ~ List.In n initial_names -> p n = q n) by (intros; now apply L).
  names N; unfold first; cbn [alookup String.eqb Ascii.eqb Bool.eqb];
    try (apply I0; simpl; tauto).
  rewrite <- (S0 "fco22x"), <- (S0 "mateq"), <- (S0 "fex0");
    try (simpl; tauto); try (intros I; simpl in I; repeat (destruct I as [I|I]; [discriminate|]); exact I).
  apply forcing_le; auto; [apply H|apply I0; simpl; tauto].
Qed.

Lemma C77_proof a a1 ak b b1 bk k p q e f period rounding start saturation :
  resets env a a1 -> steps env k a1 ak -> resets env b b1 -> steps env k b1 bk ->
  reads env ak p e k period rounding start saturation -> reads env bk q f k period rounding start saturation ->
  physical p -> (0 < dt_unit period)%Z -> (0 <= dt_ticks period)%Z -> no_less p q -> (forall i, (i < k)%nat -> e i <= f i) ->
  forall name i, List.In name series_names -> (i <= k)%nat ->
  exists x y, out env ak name i = Ok (Some x) /\ out env bk name i = Ok (Some y) /\ x <= y.
Proof.
  intros Ra Sa Rb Sb Da Db H U T L E.
  assert (S0 : forall n, List.In n scalar_names -> ~ List.In n initial_names -> p n = q n) by (intros; now apply L).
  assert (P : forall i, (i <= k)%nat -> exists x y, series_at ak i x /\ series_at bk i y /\ below x y).
  { induction i as [|i IH]; intros K.
    - exists (first p), (first q). split; [exact (starts _ _ _ _ _ _ _ _ _ _ Ra Sa Da)|]. split; [exact (starts _ _ _ _ _ _ _ _ _ _ Rb Sb Db)|]. now apply first_le.
    - destruct IH as (x & y & X & Y & B); [lia|].
      exists (next p x (carbon_emitted (e i) period rounding) (other_forcing start period saturation (Z.of_nat i + 1) (p "fex0") (p "fex1"))),
        (next q y (carbon_emitted (f i) period rounding) (other_forcing start period saturation (Z.of_nat i + 1) (q "fex0") (q "fex1"))).
      split; [exact (proceeds _ _ _ _ _ _ _ _ _ _ i x Ra Sa Da K X)|]. split; [exact (proceeds _ _ _ _ _ _ _ _ _ _ i y Rb Sb Db K Y)|].
      rewrite <- (S0 "fex0"), <- (S0 "fex1"); try (simpl; tauto);
        try (intros I; simpl in I; repeat (destruct I as [I|I]; [discriminate|]); exact I).
      intros n N. rewrite <- (next_same p q y _ _ n S0). apply next_le; auto. apply emitted_le; auto. }
  intros name i N K. destruct (P i K) as (x & y & X & Y & B). exists (x name), (y name). auto.
Qed.

(** ** Later emissions *)
Lemma C78_proof a a1 ak b b1 bk k l p e f period rounding start saturation i :
  resets env a a1 -> steps env k a1 ak -> resets env b b1 -> steps env l b1 bk ->
  reads env ak p e k period rounding start saturation -> reads env bk p f l period rounding start saturation ->
  (i <= k)%nat -> (i <= l)%nat -> (forall j, (j < i)%nat -> e j = f j) ->
  forall name j, List.In name series_names -> (j <= i)%nat ->
  exists x, out env ak name j = Ok (Some x) /\ out env bk name j = Ok (Some x).
Proof.
  intros Ra Sa Rb Sb Da Db Ik Il E.
  assert (P : forall j, (j <= i)%nat -> exists x, series_at ak j x /\ series_at bk j x).
  { induction j as [|j IH]; intros K.
    - exists (first p). split; [exact (starts _ _ _ _ _ _ _ _ _ _ Ra Sa Da)|exact (starts _ _ _ _ _ _ _ _ _ _ Rb Sb Db)].
    - destruct IH as (x & X & Y); [lia|]. assert (Jk : (j < k)%nat) by lia. assert (Jl : (j < l)%nat) by lia.
      eexists. split; [exact (proceeds _ _ _ _ _ _ _ _ _ _ j x Ra Sa Da Jk X)|].
      rewrite E by lia. exact (proceeds _ _ _ _ _ _ _ _ _ _ j x Rb Sb Db Jl Y). }
  intros name j N J. destruct (P j J) as (x & X & Y). exists (x name). auto.
Qed.
End S.
