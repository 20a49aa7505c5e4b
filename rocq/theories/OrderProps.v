(** Proofs that interpolating points respects the order of values (C103). *)
From Coq Require Import List ZArith Reals Lra Lia Bool.
From Verif Require Import Base TimeModel Spec_Time TimeFacts TimeConv TimeProps Spec_Order.
Import ListNotations.
Local Open Scope R_scope.

Lemma lin_weights x0 y0 x1 y1 x : x0 < x1 -> lin x0 y0 x1 y1 x = (1 - (x - x0) / (x1 - x0)) * y0 + (x - x0) / (x1 - x0) * y1.
Proof. intros H. unfold lin. field. lra. Qed.
Lemma weight x0 x1 x : x0 < x1 -> x0 <= x <= x1 -> 0 <= (x - x0) / (x1 - x0) <= 1.
Proof.
  intros H B. split.
  - apply Rmult_le_pos; [lra|]. left. apply Rinv_0_lt_compat. lra.
  - apply Rmult_le_reg_r with (x1 - x0); [lra|]. unfold Rdiv. rewrite Rmult_assoc, Rinv_l by lra. lra.
Qed.
Lemma lin_mono x0 y0 z0 x1 y1 z1 x : x0 < x1 -> x0 <= x <= x1 -> y0 <= z0 -> y1 <= z1 -> lin x0 y0 x1 y1 x <= lin x0 z0 x1 z1 x.
Proof.
  intros H B L0 L1. rewrite !lin_weights by auto. pose proof (weight x0 x1 x H B) as W. revert W. generalize ((x - x0) / (x1 - x0)). intros w W.
  apply Rplus_le_compat; apply Rmult_le_compat_l; lra.
Qed.
Lemma seg_mono xs : forall x0 y0 z0 ys zs x, incr (x0 :: xs) -> y0 <= z0 -> Forall2 Rle ys zs -> length xs = length ys ->
  x0 <= x <= last (x0 :: xs) 0 -> seg_eval x0 y0 (combine xs ys) x <= seg_eval x0 z0 (combine xs zs) x.
Proof.
  induction xs as [|x1 xs IH]; intros x0 y0 z0 ys zs x I L0 F N B; [exact L0|].
  destruct F as [|y1 z1 ys zs L1 F]; [discriminate|]. apply incr_cons in I as [H I]. cbn [combine seg_eval].
  destruct xs as [|x2 xs].
  - cbn [combine]. cbn [last] in B. apply lin_mono; auto.
  - destruct F as [|y2 z2 ys zs L2 F]; [discriminate|].
    cbn [combine]. destruct (Rle_dec x x1) as [C|C]; [apply lin_mono; auto; lra|].
    change ((x2, y2) :: combine xs ys) with (combine (x2 :: xs) (y2 :: ys)). change ((x2, z2) :: combine xs zs) with (combine (x2 :: xs) (z2 :: zs)).
    apply IH; auto. split; [lra|]. exact (proj2 B).
Qed.
Lemma pl_mono s v w x : incr s -> below v w -> length s = length v -> hd 0 s <= x <= last s 0 ->
  pl_eval (combine s v) x <= pl_eval (combine s w) x.
Proof.
  intros I F N B. destruct s as [|x0 xs]; [cbn; lra|]. destruct F as [|y0 z0 ys zs L F]; [discriminate|].
  cbn [combine pl_eval]. apply seg_mono; auto.
Qed.

Lemma last_combine (s : list R) : forall v : list R, length s = length v -> s <> [] -> fst (last (combine s v) (0, 0)) = last s 0.
Proof.
  induction s as [|a s IH]; intros [|b v] N E; try discriminate; [congruence|]. destruct s as [|a' s], v as [|b' v]; try discriminate; [reflexivity|].
  cbn [combine] in *. change (fst (last ((a', b') :: combine s v) (0, 0)) = last (a' :: s) 0). apply (IH (b' :: v)); [cbn in *; lia|discriminate].
Qed.
Lemma lo_points s v ex : length s = length v -> ip_lo (mkInterp (combine s v) ex (fill_of v)) = hd 0 s.
Proof. destruct s, v; try discriminate; reflexivity. Qed.
Lemma hi_points s v ex : length s = length v -> s <> [] -> ip_hi (mkInterp (combine s v) ex (fill_of v)) = last s 0.
Proof. intros N E. unfold ip_hi. cbn [ip_knots]. rewrite <- (last_combine s v N E). now destruct (last (combine s v) (0, 0)). Qed.
Lemma below_last v w : below v w -> last_val v <= last_val w.
Proof. unfold last_val. intros F. induction F as [|a b v w L F IH]; [cbn; lra|]. destruct F; [exact L|exact IH]. Qed.
Lemma below_length v w : below v w -> length v = length w.
Proof. induction 1; cbn; auto. Qed.
Lemma below_first v w : below v w -> first_val v <= first_val w.
Proof. intros []; cbn; lra. Qed.

Lemma val_mono ex s v w x : incr s -> below v w -> length s = length v -> s <> [] ->
  (ex = XCONSTANT \/ hd 0 s <= x <= last s 0) ->
  ip_val (mkInterp (combine s v) ex (fill_of v)) x <= ip_val (mkInterp (combine s w) ex (fill_of w)) x.
Proof.
  intros I F N E B. assert (M : length s = length w) by (rewrite N; now apply below_length).
  unfold ip_val. rewrite !lo_points, !hi_points by auto. cbn [ip_extra ip_knots ip_fill].
  destruct ex; try (destruct B as [B|B]; [discriminate|]; apply pl_mono; auto).
  destruct (Rlt_dec x (hd 0 s)) as [C|C]; [now apply below_first|].
  destruct (Rlt_dec (last s 0) x) as [D|D]; [now apply below_last|]. apply pl_mono; auto. lra.
Qed.

(** A successful conversion of points. *)
Lemma points_conv ex s v t w : convert_R POINT_TIMESERIES ex v s t = Ok w -> length s = length v /\ (3 <= length v)%nat /\
  w = map (ip_val (mkInterp (combine s v) ex (fill_of v))) t /\ (ex = XNONE -> forall x, In x t -> hd 0 s <= x <= last s 0).
Proof.
  unfold convert_R. destruct (Nat.ltb_spec (length v) 3) as [|L]; [discriminate|]. unfold convert_unsafe, continuous_representation.
  destruct (Nat.eqb_spec (length s) (length v)) as [N|]; [|discriminate]. cbn [rbind]. intros H. split; [exact N|]. split; [exact L|].
  assert (E : s <> []) by (intros ->; cbn in N; lia).
  set (f := mkInterp (combine s v) ex (fill_of v)) in *.
  assert (R : rmap (ip_eval f) t = Ok w) by (destruct (rmap (ip_eval f) t) as [w'|[]]; congruence). clear H.
  assert (O : forall x, ip_ok f x x = true -> ex = XNONE -> hd 0 s <= x <= last s 0).
  { intros x H ->. unfold ip_ok in H. unfold f in H. rewrite lo_points, hi_points in H by auto. cbn [ip_extra] in H.
    destruct (Rle_dec (hd 0 s) x); [|discriminate]. destruct (Rle_dec x (last s 0)); [auto|discriminate]. }
  revert w R. induction t as [|x t IH]; intros w R; [injection R as <-; split; [reflexivity|intros _ x []]|].
  cbn [rmap] in R. unfold ip_eval in R at 1. destruct (ip_ok f x x) eqn:K; [|discriminate]. cbn [rbind] in R.
  destruct (rmap (ip_eval f) t) as [w'|e]; [|discriminate]. injection R as <-.
  destruct (IH w' eq_refl) as [-> B]. split; [reflexivity|]. intros X y [<-|Y]; [now apply O|now apply B].
Qed.
Lemma hd_IZR s : hd 0 (map IZR s) = IZR (hd 0%Z s).
Proof. destruct s; reflexivity. Qed.
Lemma last_IZR s : last (map IZR s) 0 = IZR (last s 0%Z).
Proof. induction s as [|a [|b s] IH]; [reflexivity|reflexivity|exact IH]. Qed.
Lemma map_below {A} (f g : A -> R) l : (forall a, In a l -> f a <= g a) -> below (map f l) (map g l).
Proof. intros H. induction l as [|a l IH]; cbn; constructor; [apply H; now left|apply IH; intros b B; apply H; now right]. Qed.

Lemma needed ex s v t w : conversion POINT_TIMESERIES ex s v t (Ok w) -> tame ex s t ->
  forall x, In x (map IZR t) -> ex = XCONSTANT \/ hd 0 (map IZR s) <= x <= last (map IZR s) 0.
Proof.
  intros C T x X. apply conversion_eq in C. symmetry in C. destruct (points_conv _ _ _ _ _ C) as (_ & _ & _ & B).
  destruct ex; [right; now apply B|now left|]. right. destruct T as [T|T]; [congruence|].
  apply in_map_iff in X as (z & <- & Z). rewrite hd_IZR, last_IZR. destruct (T z Z). split; now apply IZR_le.
Qed.
Lemma order_ok ex s v v' t w w' : increasing s -> tame ex s t -> below v v' ->
  conversion POINT_TIMESERIES ex s v t (Ok w) -> conversion POINT_TIMESERIES ex s v' t (Ok w') -> below w w'.
Proof.
  intros I T F C C'. pose proof (needed _ _ _ _ _ C T) as B. apply conversion_eq in C, C'. symmetry in C, C'.
  destruct (points_conv _ _ _ _ _ C) as (N & L & -> & _). destruct (points_conv _ _ _ _ _ C') as (_ & _ & -> & _).
  apply map_below. intros x X. apply val_mono; auto.
  - now apply incr_IZR.
  - intros E. rewrite E in N. cbn in N. lia.
Qed.

Lemma seg_const c xs : forall x0 x, seg_eval x0 c (combine xs (repeat c (length xs))) x = c.
Proof.
  assert (K : forall x0 x1 x, lin x0 c x1 c x = c) by (intros; unfold lin; replace (c - c) with 0 by ring; unfold Rdiv; rewrite !Rmult_0_l; ring).
  induction xs as [|x1 xs IH]; intros x0 x; [reflexivity|]. cbn [length repeat combine seg_eval].
  destruct (combine xs (repeat c (length xs))) as [|p l] eqn:E; [apply K|]. destruct (Rle_dec x x1); [apply K|]. apply IH.
Qed.
Lemma val_const ex c s x : s <> [] -> ip_val (mkInterp (combine s (repeat c (length s))) ex (fill_of (repeat c (length s)))) x = c.
Proof.
  intros E. assert (P : forall x, pl_eval (combine s (repeat c (length s))) x = c).
  { intros y. destruct s as [|x0 xs]; [congruence|]. cbn [length repeat combine pl_eval]. apply seg_const. }
  unfold ip_val. cbn [ip_extra ip_knots ip_fill]. rewrite P. destruct ex; auto.
  destruct (Rlt_dec _ _); [|destruct (Rlt_dec _ _); [|reflexivity]]; unfold fill_of; cbn [fst snd]; destruct s as [|x0 xs]; try congruence; [reflexivity|].
  unfold last_val. clear. cbn [length repeat]. induction xs as [|a xs IH]; [reflexivity|]. exact IH.
Qed.
Lemma below_repeat c v : Forall (fun y => c <= y) v -> below (repeat c (length v)) v.
Proof. induction 1; cbn; constructor; auto. Qed.
Lemma above_repeat c v : Forall (fun y => y <= c) v -> below v (repeat c (length v)).
Proof. induction 1; cbn; constructor; auto. Qed.
Lemma within_ok ex s v t w lo hi : increasing s -> tame ex s t -> Forall (fun y => lo <= y <= hi) v ->
  conversion POINT_TIMESERIES ex s v t (Ok w) -> Forall (fun y => lo <= y <= hi) w.
Proof.
  intros I T F C. pose proof (needed _ _ _ _ _ C T) as B. apply conversion_eq in C. symmetry in C.
  destruct (points_conv _ _ _ _ _ C) as (N & L & -> & _). apply Forall_forall. intros y Y. apply in_map_iff in Y as (x & <- & X).
  assert (E : map IZR s <> []) by (intros E; rewrite E in N; cbn in N; lia).
  pose proof (incr_IZR _ I) as I'. split.
  - rewrite <- (val_const ex lo (map IZR s) x E), N. apply val_mono; auto; [|now rewrite repeat_length].
    apply below_repeat. eapply Forall_impl; [|exact F]. intros a A. apply A.
  - rewrite <- (val_const ex hi (map IZR s) x E), N. apply val_mono; auto.
    apply above_repeat. eapply Forall_impl; [|exact F]. intros a A. apply A.
Qed.
