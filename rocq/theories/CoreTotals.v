(** Proofs of C73 and C74: what is written through one view and read through another. *)
From Coq Require Import String List Arith Lia Bool ZArith Reals Lra Sorted.
From Verif Require Import Base ListFacts Units TimeModel Core CoreEvo CoreTree CoreNames CoreInv
  CoreStep Spec_Core CoreReq CoreP1 CoreP2 CoreLeaves CoreP3 CoreP4 CoreView CoreErase Spec_View CoreP5 CoreP6.
From Verif Require Import TimeFacts TimeLin TimeConv TimeConv2 TimeConv3 Spec_Time TimeProps CoreP7 Spec_Totals TimeTotals.
Import ListNotations.

Section P.
Variable env : uenv.

Lemma conversion_chain root h1 a h2 p v0 w uv uw ty tv tp tw xs :
  let s3 := run env (after env (OSetValues v0 a) (run env (init_state root) h1)) h2 in
  good_env env -> written_by env root h1 a h2 p v0 -> a_val a = map Some xs ->
  view_at s3 v0 uv tv -> kept_at s3 p ty tp -> ts_view s3 w p -> view_at s3 w uw tw -> w <> v0 ->
  is_ts ty /\
  exists pu uc uc' ex ex' l r, unit_converter env (Some pu) (Some uv) = Ok uc /\ unit_converter env (Some pu) (Some uw) = Ok uc' /\
    conversion ty ex tv (map (uconvert_to uc) xs) tp (Ok l) /\
    conversion ty ex' tp (map (uconvert_from uc') l) tw r /\
    answer env (OGetValues w) s3 = match r with Ok ys => Ok (VArr (map Some ys)) | Err e => Err e end.
Proof.
  intros s3 G (T & V & St & N & L) Ax (v & V3 & Uv & Tv) (q & t & Q3 & Pty & Pt & Tt) Vw (wv & Wv & Uw & Tw) Nw.
  assert (Wt : write_target (OSetValues v0 a) = Some v0) by auto.
  destruct (C14_proof env root h1 (OSetValues v0 a) h2 p v0 T V Wt St N L) as (xs' & l & q' & vv & V' & Q' & Ha & Kp & An & Ot).
  fold s3 in V', Q', An, Ot. assert (vv = v) by congruence. assert (q' = q) by congruence. subst vv q'.
  rewrite (Ha a eq_refl), Ax in Kp.
  destruct (Ot w wv Wv Vw Nw) as (r & Sh & Ar).
  assert (W3 : wf env s3). { unfold s3. apply wf_run', wf_after, wf_reachable. }
  destruct Vw as (wv' & Wv' & Pbw & Vpw & Kw). assert (wv' = wv) by congruence; subst wv'.
  destruct V as (v1 & V1 & Pb1 & Vp1 & K1). set (s1 := run env (init_state root) h1) in *.
  assert (Ev : evo s1 s3). { eapply evo_trans; [apply (evo_step env _ _ _ _ (after_eq env (OSetValues v0 a) s1))|apply evo_run]. }
  destruct (ev_views _ _ Ev _ _ V1) as (v' & V'' & E). assert (v' = v) by congruence; subst v'.
  assert (Pv : v_public v = true) by (rewrite (ve_public _ _ E); auto).
  assert (Kv : v_kind v = KTimeseries) by (rewrite (ve_kind _ _ E); auto).
  assert (Pp : v_param v = p) by (rewrite (ve_param _ _ E); auto).
  destruct (view_cell _ _ _ _ W3 V3) as (q1 & Q1 & I1). assert (q1 = q) by congruence; subst q1.
  destruct (view_cell _ _ _ _ W3 Wv) as (q1 & Q2 & I2). assert (q1 = q) by congruence; subst q1.
  assert (Ety : tc_type (v_tconv v) = ty /\ tc_type (v_tconv wv) = ty).
  { destruct (vi_public _ _ _ _ _ I1 Pv) as (_ & T1 & _). destruct (vi_public _ _ _ _ _ I2 Pbw) as (_ & T2 & _).
    unfold vtype in *. rewrite Kv in T1. rewrite Kw in T2. split; congruence. }
  destruct Ety as [Ev1 Ev2].
  split; [rewrite <- Ev1; exact (vi_ktype _ _ _ _ _ I1 Kv)|].
  destruct Kp as (uc & tp1 & tc & U & T1 & Tc & R). destruct Sh as (uc' & tp2 & tc' & U' & T2 & Tc' & R').
  assert (tp1 = t) by congruence. assert (tp2 = t) by congruence. subst tp1 tp2.
  destruct (p_unit q) as [pu|]; [|discriminate].
  rewrite map_map in R. simpl in R. rewrite <- (map_map (uconvert_to uc) Some) in R.
  symmetry in R. apply nconvert_some in R.
  destruct (tconvert_to tc (map (uconvert_to uc) xs)) as [zs|] eqn:C; [|discriminate]. inversion R; subst l. clear R.
  rewrite map_map in R'. simpl in R'. rewrite <- (map_map (uconvert_from uc') Some) in R'.
  symmetry in R'. apply nconvert_some in R'.
  exists pu, uc, uc', (tc_extra (v_tconv v)), (tc_extra (v_tconv wv)), zs, (tconvert_from tc' (map (uconvert_from uc') zs)).
  rewrite Uv in U. rewrite Uw in U'. split; [exact U|]. split; [exact U'|].
  rewrite Tt, Tv, Ev1 in Tc. rewrite Tt, Tw, Ev2 in Tc'.
  split; [right; exists tc; auto|]. split; [left; exists tc'; auto|].
  rewrite Ar, R'. destruct (tconvert_from tc' _); auto.
Qed.

(** Conversion of units is an affine map. *)
Lemma convert_to_affine c x : uconvert_to c x = (/ uc_scaling c * x + - (uc_offset c / uc_scaling c))%R.
Proof. unfold uconvert_to, Rdiv. ring. Qed.
Lemma convert_from_affine c x : uconvert_from c x = (uc_scaling c * x + uc_offset c)%R.
Proof. unfold uconvert_from. ring. Qed.
Lemma map_affine (f : R -> R) a b l : (forall x, f x = (a * x + b)%R) -> map f l = map (fun x => (a * x + b)%R) l.
Proof. intros H. apply map_ext. auto. Qed.
Lemma mean_affine a b x y t v : increasing t -> length t = S (length v) -> (x < y)%Z -> In x t -> In y t ->
  mean_between x y t (map (fun z => (a * z + b)%R) v) = (a * mean_between x y t v + b)%R.
Proof.
  intros I L XY X Y. unfold mean_between. rewrite total_affine by (auto; lia). field.
  apply not_0_IZR. lia.
Qed.

Lemma C73_proof root h1 a h2 p v0 w uv uw tv tp tw xs zs x y :
  let s3 := run env (after env (OSetValues v0 a) (run env (init_state root) h1)) h2 in
  good_env env -> written_by env root h1 a h2 p v0 -> a_val a = map Some xs ->
  view_at s3 v0 uv tv -> kept_at s3 p AVERAGE_TIMESERIES tp -> ts_view s3 w p -> view_at s3 w uw tw ->
  increasing tv -> increasing tp -> increasing tw ->
  answer env (OGetValues w) s3 = Ok (VArr (map Some zs)) ->
  (x < y)%Z -> In x tv -> In y tv -> In x tp -> In y tp -> In x tw -> In y tw ->
  same_quantity env uv (mean_between x y tv xs) uw (mean_between x y tw zs).
Proof.
  intros s3 G Wb Ax Va Ka Tw Wa Iv Ip Iw An XY X1 Y1 X2 Y2 X3 Y3.
  assert (Inj : forall l m : list R, map Some l = map Some m -> l = m).
  { induction l as [|c l IH]; intros [|d m] H; try discriminate; auto. inversion H. f_equal; auto. }
  destruct (Nat.eq_dec w v0) as [->|Nw].
  - destruct Wb as (T & V & St & N & L).
    assert (Wt : write_target (OSetValues v0 a) = Some v0) by auto.
    destruct (C14_proof env root h1 (OSetValues v0 a) h2 p v0 T V Wt St N L) as (xs' & l & q' & vv & V' & Q' & Ha & Kp & An' & _).
    fold s3 in An', V'. rewrite (Ha a eq_refl), Ax, An in An'. inversion An' as [E]. apply Inj in E. subst zs.
    destruct Va as (v & V1 & <- & <-). destruct Wa as (v2 & V2 & <- & <-). assert (v2 = v) by congruence. subst v2.
    assert (vv = v) by congruence. subst vv.
    destruct Kp as (uc & tp1 & tc & U & _). destruct (p_unit q') as [pu|]; [|discriminate].
    destruct (uconv_phys env _ _ _ G U 0%R) as [(ua & ub & A & B & _) _].
    exists ub, ub. auto.
  - destruct (conversion_chain root h1 a h2 p v0 w uv uw AVERAGE_TIMESERIES tv tp tw xs G Wb Ax Va Ka Tw Wa Nw)
      as (_ & pu & uc & uc' & ex & ex' & l & r & U & U' & C & C' & Ar).
    fold s3 in Ar. rewrite Ar in An. destruct r as [ys|]; [|discriminate]. inversion An as [E]. apply Inj in E. subst ys.
    pose proof (average_totals _ _ _ _ _ x y Iv Ip C ltac:(lia) X1 Y1 X2 Y2) as M1.
    pose proof (average_totals _ _ _ _ _ x y Ip Iw C' ltac:(lia) X2 Y2 X3 Y3) as M2.
    pose proof (conversion_facts _ _ _ _ _ _ C) as (_ & F1 & _). simpl in F1. rewrite !map_length in F1.
    pose proof (conversion_facts _ _ _ _ _ _ C') as (_ & F2 & _). simpl in F2. rewrite !map_length in F2.
    rewrite (map_affine _ _ _ _ (convert_to_affine uc)) in M1. rewrite (map_affine _ _ _ _ (convert_from_affine uc')) in M2.
    assert (E1 : mean_between x y tp l = uconvert_to uc (mean_between x y tv xs)).
    { rewrite convert_to_affine. rewrite <- (mean_affine _ _ x y tv xs) by auto. unfold mean_between. rewrite M1. auto. }
    assert (E2 : mean_between x y tw zs = uconvert_from uc' (mean_between x y tp l)).
    { rewrite convert_from_affine. rewrite <- (mean_affine _ _ x y tp l) by auto. unfold mean_between. rewrite M2. auto. }
    rewrite E2, E1.
    destruct (uconv_phys env _ _ _ G U (mean_between x y tv xs)) as [_ A].
    destruct (uconv_phys env _ _ _ G U' (uconvert_to uc (mean_between x y tv xs))) as [B _].
    eapply same_quantity_trans; eauto.
Qed.

(** With the same first and last time points such a read succeeds. *)
Lemma C73_reads_proof root h1 a h2 p v0 w uv uw tv tp tw xs :
  let s3 := run env (after env (OSetValues v0 a) (run env (init_state root) h1)) h2 in
  good_env env -> written_by env root h1 a h2 p v0 -> a_val a = map Some xs ->
  view_at s3 v0 uv tv -> kept_at s3 p AVERAGE_TIMESERIES tp -> ts_view s3 w p -> view_at s3 w uw tw ->
  increasing tp -> increasing tw -> (4 <= length tp)%nat -> (2 <= length tw)%nat ->
  hd 0%Z tp = hd 0%Z tw -> last tp 0%Z = last tw 0%Z ->
  exists zs, answer env (OGetValues w) s3 = Ok (VArr (map Some zs)).
Proof.
  intros s3 G Wb Ax Va Ka Tw Wa Ip Iw Lp Lw H E.
  destruct (Nat.eq_dec w v0) as [->|Nw].
  - destruct Wb as (T & V & St & N & L).
    assert (Wt : write_target (OSetValues v0 a) = Some v0) by auto.
    destruct (C14_proof env root h1 (OSetValues v0 a) h2 p v0 T V Wt St N L) as (xs' & l & q' & vv & V' & Q' & Ha & Kp & An' & _).
    exists xs. fold s3 in An'. rewrite (Ha a eq_refl), Ax in An'. auto.
  - destruct (conversion_chain root h1 a h2 p v0 w uv uw AVERAGE_TIMESERIES tv tp tw xs G Wb Ax Va Ka Tw Wa Nw)
      as (_ & pu & uc & uc' & ex & ex' & l & r & U & U' & C & C' & Ar).
    assert (Ll : length tp = S (length l)).
    { pose proof C' as Cc. apply conversion_eq in Cc. pose proof C as C1. apply conversion_eq in C1. symmetry in C1.
      apply convert_result in C1. destruct C1 as (_ & _ & _ & ->). cbn [sample]. rewrite avgs_len, map_length.
      destruct tp; simpl in *; lia. }
    destruct (conserve ex' tp tw (map (uconvert_from uc') l)) as (_ & _ & K); auto.
    { split; [rewrite map_length; simpl; lia|intros ->; simpl in Lp; lia]. }
    { rewrite map_length. lia. }
    destruct (K r C') as (zs & -> & _). exists zs. auto.
Qed.

(** ** Points *)
Lemma line_affine a b x0 y0 x1 y1 x : (x0 < x1)%Z ->
  line x0 (a * y0 + b) x1 (a * y1 + b) x = (a * line x0 y0 x1 y1 x + b)%R.
Proof. intros L. unfold line. assert (IZR (x1 - x0) <> 0%R) by (apply not_0_IZR; lia). field. auto. Qed.
Lemma line_of_line x0 y0 x1 y1 a b x : (x0 < x1)%Z -> (a < b)%Z ->
  line a (line x0 y0 x1 y1 (IZR a)) b (line x0 y0 x1 y1 (IZR b)) x = line x0 y0 x1 y1 x.
Proof.
  intros L M. unfold line. assert (IZR (x1 - x0) <> 0%R) by (apply not_0_IZR; lia).
  assert (IZR (b - a) <> 0%R) by (apply not_0_IZR; lia). rewrite (minus_IZR b a) in *. field. auto.
Qed.
Lemma nth_lt t i j x y : increasing t -> nth_error t i = Some x -> nth_error t j = Some y -> (x < y)%Z -> (i < j)%nat.
Proof.
  intros I X Y L. destruct (Nat.lt_trichotomy i j) as [?|[->|Q]]; auto; [assert (x = y) by congruence; lia|].
  exfalso. revert i j X Y Q. induction t as [|a t IH]; intros [|i] [|j] X Y Q; try discriminate; try lia.
  - simpl in *. apply StronglySorted_inv in I. destruct I as [_ I]. rewrite Forall_forall in I.
    inversion Y; subst. apply nth_error_In in X. specialize (I x X). lia.
  - simpl in *. apply StronglySorted_inv in I. destruct I as [I _]. apply (IH I i j); auto. lia.
Qed.
Lemma nth_ord t i x y : increasing t -> nth_error t i = Some x -> nth_error t (S i) = Some y -> (x < y)%Z.
Proof.
  intros I X Y. destruct (Z.lt_trichotomy x y) as [?|[->|Q]]; auto.
  - exfalso. clear - I X Y. revert i X Y. induction t as [|a t IH]; intros [|i] X Y; try discriminate.
    + simpl in *. apply StronglySorted_inv in I. destruct I as [_ I]. inversion X; subst. destruct t; [discriminate|].
      inversion Y; subst. inversion I; lia.
    + simpl in *. apply StronglySorted_inv in I. destruct I as [I _]. apply (IH I i); auto.
  - pose proof (nth_lt t (S i) i y x I Y X Q). lia.
Qed.

(** Interpolating in two steps, the intermediate time points containing the first ones. *)
Lemma two_steps ex ex' s v t l u w i x0 x1 y0 y1 k x a b : increasing s -> increasing t ->
  conversion POINT_TIMESERIES ex s v t (Ok l) -> conversion POINT_TIMESERIES ex' t (map (fun z => (a * z + b)%R) l) u (Ok w) ->
  incl s t -> nth_error s i = Some x0 -> nth_error s (S i) = Some x1 -> nth_error v i = Some y0 -> nth_error v (S i) = Some y1 ->
  nth_error u k = Some x -> (x0 <= x <= x1)%Z -> nth_error w k = Some (a * line x0 y0 x1 y1 (IZR x) + b)%R.
Proof.
  intros I J C D S X0 X1 Y0 Y1 X B.
  assert (L01 : (x0 < x1)%Z) by (apply (nth_ord s i); auto).
  assert (In0 : In x0 t) by (apply S; eapply nth_error_In; eauto).
  assert (In1 : In x1 t) by (apply S; eapply nth_error_In; eauto).
  (* neighbours of x in t, inside [x0, x1] *)
  assert (N : exists j p q, nth_error t j = Some p /\ nth_error t (Datatypes.S j) = Some q /\ (p <= x <= q)%Z /\ (x0 <= p)%Z /\ (q <= x1)%Z).
  { clear - J L01 In0 In1 B. induction t as [|c t IH]; [contradiction|].
    pose proof (StronglySorted_inv J) as [J' Jc]. rewrite Forall_forall in Jc.
    destruct In0 as [->|In0].
    - destruct In1 as [->|In1]; [lia|].
      clear IH. revert x0 J J' Jc L01 B In1. induction t as [|d t IH]; intros x0 J J' Jc L01 B In1; [contradiction|].
      destruct (Z.le_gt_cases x d).
      + exists 0%nat, x0, d. simpl. repeat split; auto; try lia.
        destruct In1 as [->|In1]; [lia|]. apply StronglySorted_inv in J'. destruct J' as [_ J']. rewrite Forall_forall in J'.
        specialize (J' x1 In1). lia.
      + destruct In1 as [->|In1]; [lia|].
        pose proof (StronglySorted_inv J') as [J2 Jd]. rewrite Forall_forall in Jd.
        destruct (IH d J' J2 Jd (Jd _ In1) ltac:(lia) In1) as (j & p & q & P1 & P2 & P3 & P4 & P5).
        exists (Datatypes.S j), p, q. simpl. repeat split; auto; try lia. specialize (Jc d (or_introl eq_refl)). lia.
    - destruct In1 as [->|In1]; [specialize (Jc x0 In0); lia|].
      destruct (IH J' In0 In1) as (j & p & q & P). exists (Datatypes.S j), p, q. exact P. }
  destruct N as (j & p & q & P & Q & Bx & Bp & Bq).
  assert (Lpq : (p < q)%Z) by (apply (nth_ord t j); auto).
  pose proof (interpolant ex s v t l I C i j x0 x1 y0 y1 p X0 X1 Y0 Y1 P ltac:(lia)) as V1.
  pose proof (interpolant ex s v t l I C i (Datatypes.S j) x0 x1 y0 y1 q X0 X1 Y0 Y1 Q ltac:(lia)) as V2.
  rewrite (interpolant ex' t _ u w J D j k p q (a * line x0 y0 x1 y1 (IZR p) + b) (a * line x0 y0 x1 y1 (IZR q) + b) x); auto;
    [|apply (map_nth_error (fun z => (a * z + b)%R)); auto..].
  rewrite line_affine, line_of_line by auto. auto.
Qed.

Lemma C74_proof root h1 a h2 p v0 w uv uw tv tp tw xs zs i k x0 x1 y0 y1 x :
  let s3 := run env (after env (OSetValues v0 a) (run env (init_state root) h1)) h2 in
  good_env env -> written_by env root h1 a h2 p v0 -> a_val a = map Some xs ->
  view_at s3 v0 uv tv -> kept_at s3 p POINT_TIMESERIES tp -> ts_view s3 w p -> view_at s3 w uw tw ->
  increasing tv -> increasing tp -> incl tv tp ->
  answer env (OGetValues w) s3 = Ok (VArr (map Some zs)) ->
  nth_error tv i = Some x0 -> nth_error tv (S i) = Some x1 -> nth_error xs i = Some y0 -> nth_error xs (S i) = Some y1 ->
  nth_error tw k = Some x -> (x0 <= x <= x1)%Z ->
  exists z, nth_error zs k = Some z /\ same_quantity env uv (line x0 y0 x1 y1 (IZR x)) uw z.
Proof.
  intros s3 G Wb Ax Va Ka Tw Wa Iv Ip Sub An X0 X1 Y0 Y1 X B.
  assert (L01 : (x0 < x1)%Z) by (apply (nth_ord tv i); auto).
  assert (Inj : forall l m : list R, map Some l = map Some m -> l = m).
  { induction l as [|c l IH]; intros [|d m] H; try discriminate; auto. inversion H. f_equal; auto. }
  destruct (Nat.eq_dec w v0) as [->|Nw].
  - destruct Wb as (T & V & St & N & L).
    assert (Wt : write_target (OSetValues v0 a) = Some v0) by auto.
    destruct (C14_proof env root h1 (OSetValues v0 a) h2 p v0 T V Wt St N L) as (xs' & l & q' & vv & V' & Q' & Ha & Kp & An' & _).
    fold s3 in An', V'. rewrite (Ha a eq_refl), Ax, An in An'. inversion An' as [E]. apply Inj in E. subst zs.
    destruct Va as (v & V1 & <- & Ev). destruct Wa as (v2 & V2 & <- & Ew). assert (v2 = v) by congruence. subst v2.
    assert (vv = v) by congruence. subst vv. assert (X' : nth_error tv k = Some x) by congruence. clear X. rename X' into X.
    destruct Kp as (uc & tp1 & tc & U & _). destruct (p_unit q') as [pu|]; [|discriminate].
    destruct (uconv_phys env _ _ _ G U 0%R) as [(ua & ub & A & B' & _) _].
    assert (Q : x = x0 \/ x = x1).
    { destruct (Z.eq_dec x x0); auto. destruct (Z.eq_dec x x1); auto. exfalso.
      pose proof (nth_lt tv i k x0 x Iv X0 X ltac:(lia)). pose proof (nth_lt tv k (S i) x x1 Iv X X1 ltac:(lia)). lia. }
    destruct (line_facts x0 y0 x1 y1 x L01 B) as (E0 & E1 & _).
    assert (Ki : forall j y, nth_error tv j = Some y -> x = y -> k = j).
    { intros j y Hj <-. destruct (Nat.lt_trichotomy k j) as [M|[M|M]]; auto; exfalso.
      - clear - Iv X Hj M. revert k j X Hj M. induction tv as [|c tv IH]; intros [|k] [|j] X Hj M; try discriminate; try lia.
        + simpl in *. apply StronglySorted_inv in Iv. destruct Iv as [_ I]. rewrite Forall_forall in I. inversion X; subst.
          apply nth_error_In in Hj. specialize (I x Hj). lia.
        + simpl in *. apply StronglySorted_inv in Iv. destruct Iv as [I _]. apply (IH I k j); auto. lia.
      - clear - Iv X Hj M. revert k j X Hj M. induction tv as [|c tv IH]; intros [|k] [|j] X Hj M; try discriminate; try lia.
        + simpl in *. apply StronglySorted_inv in Iv. destruct Iv as [_ I]. rewrite Forall_forall in I. inversion Hj; subst.
          apply nth_error_In in X. specialize (I x X). lia.
        + simpl in *. apply StronglySorted_inv in Iv. destruct Iv as [I _]. apply (IH I k j); auto. lia. }
    destruct Q as [Q|Q].
    + rewrite (Ki i x0 X0 Q). exists y0. split; auto. rewrite Q, E0. exists ub, ub. auto.
    + rewrite (Ki (S i) x1 X1 Q). exists y1. split; auto. rewrite Q, E1. exists ub, ub. auto.
  - destruct (conversion_chain root h1 a h2 p v0 w uv uw POINT_TIMESERIES tv tp tw xs G Wb Ax Va Ka Tw Wa Nw)
      as (_ & pu & uc & uc' & ex & ex' & l & r & U & U' & C & C' & Ar).
    fold s3 in Ar. rewrite Ar in An. destruct r as [ys|]; [|discriminate]. inversion An as [E]. apply Inj in E. subst ys.
    rewrite (map_affine _ _ _ _ (convert_from_affine uc')) in C'.
    pose proof (two_steps ex ex' tv _ tp l tw zs i x0 x1 (uconvert_to uc y0) (uconvert_to uc y1) k x _ _ Iv Ip C C' Sub X0 X1
      (map_nth_error _ _ _ Y0) (map_nth_error _ _ _ Y1) X B) as Z.
    rewrite !convert_to_affine, line_affine, <- convert_to_affine, <- convert_from_affine in Z by auto.
    eexists. split; [exact Z|].
    destruct (uconv_phys env _ _ _ G U (line x0 y0 x1 y1 (IZR x))) as [_ A].
    destruct (uconv_phys env _ _ _ G U' (uconvert_to uc (line x0 y0 x1 y1 (IZR x)))) as [B' _].
    eapply same_quantity_trans; eauto.
Qed.
End P.
