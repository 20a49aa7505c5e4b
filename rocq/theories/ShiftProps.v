(** Proofs that the origin of time does not matter (C102). *)
From Coq Require Import String Ascii List ZArith Reals Lia Lra Bool.
From Coquelicot Require Import Coquelicot.
From Verif Require Import Base Units TimeModel Core Filters Civil Offsets ParameterType Frame FrameInterp Spec_Shift Spec_Combined CombinedProps.
Import ListNotations.
Local Open Scope R_scope.

Section Shift.
Variable d : R.
Definition sh (x : R) : R := x + d.
Definition shk (p : R * R) : R * R := (sh (fst p), snd p).

Lemma sh_le x y : sh x <= sh y <-> x <= y.
Proof. unfold sh. lra. Qed.
Lemma sh_lt x y : sh x < sh y <-> x < y.
Proof. unfold sh. lra. Qed.
Lemma sh_Rle {A} x y (a b : A) : (if Rle_dec (sh x) (sh y) then a else b) = (if Rle_dec x y then a else b).
Proof. destruct (Rle_dec (sh x) (sh y)) as [C|C], (Rle_dec x y) as [D|D]; auto; rewrite sh_le in C; tauto. Qed.
Lemma sh_Rlt {A} x y (a b : A) : (if Rlt_dec (sh x) (sh y) then a else b) = (if Rlt_dec x y then a else b).
Proof. destruct (Rlt_dec (sh x) (sh y)) as [C|C], (Rlt_dec x y) as [D|D]; auto; rewrite sh_lt in C; tauto. Qed.

Lemma sh_lin x0 y0 x1 y1 x : lin (sh x0) y0 (sh x1) y1 (sh x) = lin x0 y0 x1 y1 x.
Proof. unfold lin, sh. replace (x1 + d - (x0 + d)) with (x1 - x0) by ring. replace (x + d - (x0 + d)) with (x - x0) by ring. reflexivity. Qed.
Lemma sh_seg rest : forall x0 y0 x, seg_eval (sh x0) y0 (map shk rest) (sh x) = seg_eval x0 y0 rest x.
Proof.
  induction rest as [|[x1 y1] rest IH]; intros x0 y0 x; [reflexivity|]. cbn [map shk seg_eval fst snd].
  destruct rest as [|[x2 y2] rest]; [apply sh_lin|]. cbn [map]. change (shk (x2, y2) :: map shk rest) with (map shk ((x2, y2) :: rest)).
  rewrite sh_Rle, sh_lin, IH. reflexivity.
Qed.
Lemma sh_pl ks x : pl_eval (map shk ks) (sh x) = pl_eval ks x.
Proof. destruct ks as [|[x0 y0] ks]; [reflexivity|]. apply sh_seg. Qed.
Lemma sh_combine s : forall v : list R, combine (map sh s) v = map shk (combine s v).
Proof. induction s as [|a s IH]; intros [|b v]; auto. cbn. now rewrite IH. Qed.
Lemma sh_midpoints s : midpoints (map sh s) = map sh (midpoints s).
Proof.
  induction s as [|a [|b s] IH]; auto.
  change ((sh b + sh a) / 2 :: midpoints (map sh (b :: s)) = sh ((b + a) / 2) :: map sh (midpoints (b :: s))).
  rewrite IH. f_equal. unfold sh. lra.
Qed.
Lemma sh_interleave a : forall b, interleave (map sh a) (map sh b) = map sh (interleave a b).
Proof. induction a as [|x a IH]; intros [|y b]; auto. cbn. now rewrite IH. Qed.
Lemma sh_points s : linearization_points (map sh s) = map sh (linearization_points s).
Proof. unfold linearization_points. now rewrite sh_midpoints, sh_interleave. Qed.

(** The continuous representation. *)
Definition ships (f : interp) : interp := mkInterp (map shk (ip_knots f)) (ip_extra f) (ip_fill f).
Lemma sh_repr ty ex s v : continuous_representation ty ex (map sh s) v =
  match continuous_representation ty ex s v with Ok f => Ok (ships f) | Err e => Err e end.
Proof.
  unfold continuous_representation. destruct ty; try reflexivity.
  - rewrite sh_points, map_length. destruct (_ =? _)%nat; [|reflexivity]. unfold ships. cbn. now rewrite sh_combine.
  - rewrite map_length. destruct (_ =? _)%nat; [|reflexivity]. unfold ships. cbn. now rewrite sh_combine.
Qed.
Lemma sh_lo f : ip_knots f <> [] -> ip_lo (ships f) = sh (ip_lo f).
Proof. unfold ip_lo, ships. cbn. destruct (ip_knots f) as [|[x y] ks]; [congruence|reflexivity]. Qed.
Lemma sh_hi f : ip_knots f <> [] -> ip_hi (ships f) = sh (ip_hi f).
Proof.
  unfold ip_hi, ships. cbn. intros N. destruct (exists_last N) as (l & [x y] & ->). rewrite map_app. cbn [map]. now rewrite !last_last.
Qed.
Lemma sh_val f x : ip_knots f <> [] -> ip_val (ships f) (sh x) = ip_val f x.
Proof.
  intros N. unfold ip_val. rewrite (sh_lo f N), (sh_hi f N), !sh_Rlt. cbn [ip_knots ip_extra ip_fill ships]. now rewrite sh_pl.
Qed.
Lemma sh_ok f l u : ip_knots f <> [] -> ip_ok (ships f) (sh l) (sh u) = ip_ok f l u.
Proof. intros N. unfold ip_ok. rewrite (sh_lo f N), (sh_hi f N), !sh_Rle. reflexivity. Qed.

Lemma sh_one x : 1 * x + d = sh x.
Proof. unfold sh. ring. Qed.
Lemma back_one x : 1 * sh x + - d = x.
Proof. unfold sh. ring. Qed.
Lemma sh_RInt (g h : R -> R) l u : (forall x, h (sh x) = g x) -> RInt h (sh l) (sh u) = RInt g l u.
Proof.
  intros E. unfold RInt. apply eq_close. apply (@close_iota R_CompleteNormedModule). intros y. split; intros I.
  - apply (is_RInt_ext (fun x => scal 1 (h (1 * x + d)))).
    + intros x _. replace (1 * x + d) with (sh x) by (unfold sh; ring). rewrite E. exact (scal_one (g x)).
    + apply (is_RInt_comp_lin h 1 d l u y). rewrite !sh_one. exact I.
  - apply (is_RInt_ext (fun x => scal 1 (g (1 * x + - d)))).
    + intros x _. rewrite <- E. unfold sh. replace (1 * x + - d + d) with x by ring. exact (scal_one (h x)).
    + apply (is_RInt_comp_lin g 1 (- d) (sh l) (sh u) y). rewrite !back_one. exact I.
Qed.
Lemma sh_averages f t : ip_knots f <> [] -> interval_averages (ships f) (map sh t) = interval_averages f t.
Proof.
  intros N. induction t as [|l [|u t] IH]; [reflexivity|reflexivity|].
  cbn [map] in *. cbn [interval_averages] in *. rewrite (sh_ok f l u N), IH, (sh_RInt (ip_val f) (ip_val (ships f)) l u (fun x => sh_val f x N)).
  replace (sh u - sh l) with (u - l) by (unfold sh; ring). reflexivity.
Qed.
Lemma sh_evals f t : ip_knots f <> [] -> rmap (ip_eval (ships f)) (map sh t) = rmap (ip_eval f) t.
Proof.
  intros N. induction t as [|x t IH]; [reflexivity|]. cbn [map rmap]. rewrite IH. unfold ip_eval. now rewrite (sh_ok f x x N), (sh_val f x N).
Qed.

Lemma sh_convert ty ex v s t : convert_R ty ex v (map sh s) (map sh t) = convert_R ty ex v s t.
Proof.
  unfold convert_R. destruct (Nat.ltb_spec (length v) 3) as [L|L]; [reflexivity|].
  assert (E : convert_unsafe ty ex v (map sh s) (map sh t) = convert_unsafe ty ex v s t); [|now rewrite E].
  assert (K : forall f, continuous_representation ty ex s v = Ok f -> ip_knots f <> []).
  { intros f. unfold continuous_representation. destruct ty; try discriminate.
    - destruct (Nat.eqb_spec (length (linearization_points s)) (length (linearization_values v))) as [Q|]; [|discriminate]. intros [= <-]. cbn [ip_knots].
      assert (P : (1 <= length (linearization_values v))%nat) by (unfold linearization_values; rewrite app_length; cbn; lia).
      destruct (linearization_points s); cbn in Q; [lia|]. destruct (linearization_values v); [cbn in P; lia|discriminate].
    - destruct (Nat.eqb_spec (length s) (length v)) as [Q|]; [|discriminate]. intros [= <-]. cbn [ip_knots].
      destruct s; cbn in Q; [lia|]. destruct v; [cbn in L; lia|discriminate]. }
  unfold convert_unsafe. destruct ty; try reflexivity; rewrite sh_repr;
    (destruct (continuous_representation _ ex s v) as [f|e] eqn:F; [|reflexivity]); cbn [rbind].
  - apply sh_averages. now apply K.
  - apply sh_evals. now apply K.
Qed.
End Shift.

Lemma shifted_IZR d t : map IZR (shifted d t) = map (sh (IZR d)) (map IZR t).
Proof. unfold shifted. rewrite !map_map. apply map_ext. intros x. unfold sh. now rewrite plus_IZR. Qed.

Definition later_conv (d : Z) (c : tconv) : tconv := mkTconv (shifted d (tc_source c)) (shifted d (tc_target c)) (tc_type c) (tc_extra c).
Lemma converter_shift d s t p ex : timeseries_converter (shifted d s) (shifted d t) p ex =
  match timeseries_converter s t p ex with Ok c => Ok (later_conv d c) | Err e => Err e end.
Proof.
  unfold timeseries_converter. destruct s as [|s0 s]; [reflexivity|]. destruct t as [|t0 [|t1 t]]; [reflexivity|reflexivity|].
  cbn [shifted map]. destruct (Z.gtb_spec (s0 + d) (t1 + d)), (Z.gtb_spec s0 t1); try lia; reflexivity.
Qed.
Lemma from_shift d c xs : tconvert_from (later_conv d c) xs = tconvert_from c xs.
Proof. unfold tconvert_from, later_conv. cbn [tc_source tc_target tc_type tc_extra]. rewrite !shifted_IZR. apply sh_convert. Qed.
Lemma to_shift d c xs : tconvert_to (later_conv d c) xs = tconvert_to c xs.
Proof. unfold tconvert_to, later_conv. cbn [tc_source tc_target tc_type tc_extra]. rewrite !shifted_IZR. apply sh_convert. Qed.
Lemma convert_shift d s t p ex xs :
  rbind (timeseries_converter (shifted d s) (shifted d t) p ex) (fun c => tconvert_from c xs) =
    rbind (timeseries_converter s t p ex) (fun c => tconvert_from c xs) /\
  rbind (timeseries_converter (shifted d s) (shifted d t) p ex) (fun c => tconvert_to c xs) =
    rbind (timeseries_converter s t p ex) (fun c => tconvert_to c xs).
Proof. rewrite converter_shift. destruct (timeseries_converter s t p ex) as [c|e]; [|auto]. cbn [rbind]. split; [apply from_shift|apply to_shift]. Qed.

(** ** Frames *)
Lemma rmap_same {A B} (f g : A -> res B) l : (forall a, f a = g a) -> rmap f l = rmap g l.
Proof. intros H. induction l as [|a l IH]; cbn; auto. now rewrite H, IH. Qed.
Lemma extended_shift d t : extended (shifted d t) = match extended t with Ok u => Ok (shifted d u) | Err e => Err e end.
Proof.
  unfold extended, shifted. rewrite <- map_rev. destruct (rev t) as [|b [|a r]]; [reflexivity|reflexivity|].
  cbn [map]. rewrite map_app. cbn [map]. replace (b + d + (b + d - (a + d)))%Z with (b + (b - a) + d)%Z by lia. reflexivity.
Qed.
Lemma with_type_shift d f : with_type (later d f) = later d (with_type f).
Proof. unfold with_type. cbn [fr_cols later]. destruct (mem _ _); reflexivity. Qed.
Lemma guess_shift env shared d f : guess_all env shared (later d f) = later_result d (guess_all env shared f).
Proof. unfold guess_all, later_result. cbn [fr_cols fr_meta fr_data fr_times later]. destruct (rmap _ _); reflexivity. Qed.
Lemma groups_shift d f0 ex n types : forall targets data meta,
  interp_groups (later d f0) ex n types (shifted d targets) data meta = interp_groups f0 ex n types targets data meta.
Proof.
  induction types as [|ty types IH]; intros targets data meta; [reflexivity|]. cbn [interp_groups].
  destruct (from_timeseries_type (AStr ty)) as [p|e]; [|reflexivity]. cbn [rbind].
  assert (E : match p with AVERAGE_TIMESERIES => rbind (extended (shifted d targets)) (fun tgt => rbind (extended (fr_times (later d f0))) (fun src => Ok (tgt, src))) | _ => Ok (shifted d targets, fr_times (later d f0)) end =
    match match p with AVERAGE_TIMESERIES => rbind (extended targets) (fun tgt => rbind (extended (fr_times f0)) (fun src => Ok (tgt, src))) | _ => Ok (targets, fr_times f0) end with
    | Ok (a, b) => Ok (shifted d a, shifted d b) | Err e => Err e end).
  { cbn [fr_times later]. destruct p; try reflexivity. rewrite !extended_shift.
    destruct (extended targets) as [a|e]; [|reflexivity]. cbn [rbind]. destruct (extended (fr_times f0)); reflexivity. }
  rewrite E. clear E. destruct (match p with AVERAGE_TIMESERIES => _ | _ => _ end) as [[tg src]|e]; [|reflexivity]. cbn [rbind].
  rewrite converter_shift. destruct (timeseries_converter src tg p ex) as [c|e]; [|reflexivity]. cbn [rbind].
  change (type_labels (later d f0) ty) with (type_labels f0 ty). cbn [fr_data fr_cols later].
  rewrite (rmap_same _ (fun col => if has_label (fst col) (type_labels f0 ty) then rbind (interp_column c n (snd col)) (fun w => Ok (Some (fst col, w))) else Ok None)).
  2: { intros col. unfold interp_column. destruct (has_label _ _); [|reflexivity]. destruct (all_present (snd col)) as [xs|e]; [|reflexivity]. cbn [rbind]. now rewrite from_shift. }
  destruct (rmap _ (fr_data f0)) as [new|e]; [|reflexivity]. cbn [rbind]. apply IH.
Qed.
Lemma interpolate_shift env shared d targets ex f :
  interpolate env shared (shifted d targets) ex (later d f) = later_result d (interpolate env shared targets ex f).
Proof.
  unfold interpolate. rewrite with_type_shift, guess_shift. destruct (guess_all env shared (with_type f)) as [f0|e]; [|reflexivity]. cbn [later_result rbind].
  change (type_keys (later d f0)) with (type_keys f0). destruct (type_keys f0) as [types|e]; [|reflexivity]. cbn [rbind].
  replace (length (shifted d targets)) with (length targets) by (symmetry; apply map_length).
  cbn [fr_data fr_meta later]. rewrite groups_shift. destruct (interp_groups _ _ _ _ _ _ _) as [r|e]; reflexivity.
Qed.

(** ** Rules that are multiples of seconds *)
Lemma iterate_shift d z fuel : forall a b, iterate fuel (OTick z) (a + d) (b + d) =
  match iterate fuel (OTick z) a b with Ok l => Ok (shifted d l) | Err e => Err e end.
Proof.
  induction fuel as [|fuel IH]; intros a b; [reflexivity|]. cbn [iterate apply].
  destruct (Z.leb_spec (a + d) (b + d)), (Z.leb_spec a b); try lia; [|reflexivity].
  destruct (Z.leb_spec (a + d + z) (a + d)), (Z.leb_spec (a + z) a); try lia; [reflexivity|].
  replace (a + d + z)%Z with (a + z + d)%Z by lia. rewrite IH. destruct (iterate fuel (OTick z) (a + z) b) as [l|e]; reflexivity.
Qed.
Lemma range_shift d z a b : generate_range (a + d) (b + d) (OTick z) =
  match generate_range a b (OTick z) with Ok l => Ok (shifted d l) | Err e => Err e end.
Proof.
  unfold generate_range, rollback, rollforward. cbn [on_offset]. rewrite iterate_shift.
  replace (b + d - (a + d))%Z with (b - a)%Z by lia. reflexivity.
Qed.
Lemma last_shift d t t0 : last (shifted d t) (t0 + d)%Z = (last t t0 + d)%Z.
Proof. induction t as [|a [|b t] IH]; [reflexivity|reflexivity|]. exact IH. Qed.
Lemma resample_shift env shared d rule z ex f : says_signed rule z ->
  resample env shared rule ex (later d f) = later_result d (resample env shared rule ex f).
Proof.
  intros H. unfold resample. cbn [fr_times later]. destruct (fr_times f) as [|t0 ts] eqn:T; [reflexivity|].
  cbn [shifted map]. rewrite (signed_ok rule z H). cbn [rbind].
  change ((t0 + d)%Z :: map (fun t => (t + d)%Z) ts) with (shifted d (t0 :: ts)). rewrite last_shift, range_shift.
  destruct (generate_range t0 (last (t0 :: ts) t0) (OTick z)) as [l|e]; [|reflexivity]. cbn [rbind].
  exact (interpolate_shift env shared d l ex f).
Qed.
