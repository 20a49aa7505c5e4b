(** The conversion of rational values is rational, and what [Spec_Exact] computes. *)
From Coq Require Import List ZArith QArith Qreals Reals Lra Lia Bool.
From Coquelicot Require Import Coquelicot.
From Verif Require Import Base ListFacts TimeModel TimeFacts TimeLin TimeConv TimeConv2 TimeConv3 Spec_Time TimeProps Spec_Exact.
Import ListNotations.
Local Open Scope R_scope.

(** ** Integrals of polylines *)
Lemma lin_trapezoid x0 y0 x1 y1 a b : x0 <> x1 ->
  is_RInt (lin x0 y0 x1 y1) a b ((b - a) * (lin x0 y0 x1 y1 a + lin x0 y0 x1 y1 b) / 2).
Proof.
  intros N.
  set (F := fun x => y0 * x + (y1 - y0) / (x1 - x0) * ((x - x0) ^ 2 / 2)).
  replace ((b - a) * (lin x0 y0 x1 y1 a + lin x0 y0 x1 y1 b) / 2) with (minus (F b) (F a)).
  - apply (is_RInt_derive (V := R_CompleteNormedModule)).
    + intros x _. unfold F, lin. auto_derive; auto. field. lra.
    + intros x _. apply lin_continuous.
  - unfold F, lin, minus, plus, opp. simpl. field. lra.
Qed.
Lemma is_RInt_on (f g : R -> R) a b l : a <= b -> (forall x, a < x < b -> f x = g x) -> is_RInt g a b l -> is_RInt f a b l.
Proof.
  intros L E H. eapply is_RInt_ext; [|exact H]. intros x. rewrite Rmin_left, Rmax_right by lra.
  intros X. symmetry. auto.
Qed.
Lemma is_RInt_join (f : R -> R) a b c l m : is_RInt f a b l -> is_RInt f b c m -> is_RInt f a c (l + m).
Proof. intros H K. exact (is_RInt_Chasles (V := R_NormedModule) f a b c l m H K). Qed.
Lemma is_RInt_flat (c : R) a b : is_RInt (fun _ => c) a b (c * (b - a)).
Proof.
  pose proof (is_RInt_const (V := R_NormedModule) a b c) as H.
  replace (c * (b - a)) with (scal (b - a) c); auto. unfold scal. simpl. unfold mult. simpl. ring.
Qed.

(** ** Rational numbers as real ones *)
Lemma q_red x : Q2R (Qred x) = Q2R x.
Proof. apply Qeq_eqR, Qred_correct. Qed.
Lemma q_div x y : Q2R (x / y) = Q2R x / Q2R y.
Proof.
  destruct (Qeq_dec y 0) as [E|N]; [|apply Q2R_div; auto].
  unfold Rdiv. rewrite (Qeq_eqR y 0 E). replace (Q2R 0) with 0 by (unfold Q2R; simpl; lra).
  rewrite Rinv_0, Rmult_0_r. rewrite <- (Qeq_eqR 0 (x / y)); [unfold Q2R; simpl; lra|].
  unfold Qdiv. rewrite E. unfold Qinv. simpl. ring.
Qed.
Lemma q_2 : Q2R 2 = 2.
Proof. unfold Q2R. simpl. lra. Qed.
Lemma q_0 : Q2R 0 = 0.
Proof. unfold Q2R. simpl. lra. Qed.
Lemma q_Z z : Q2R (inject_Z z) = IZR z.
Proof. unfold Q2R, inject_Z. simpl. rewrite Rinv_1, Rmult_1_r. reflexivity. Qed.
#[local] Hint Rewrite q_red q_div q_2 q_0 q_Z Q2R_plus Q2R_minus Q2R_mult Q2R_opp : q2r.
Ltac q2r := autorewrite with q2r.
Lemma q_le x y : Qle_bool x y = true <-> Q2R x <= Q2R y.
Proof. rewrite Qle_bool_iff. split; [apply Qle_Rle|apply Rle_Qle]. Qed.
Lemma q_le_false x y : Qle_bool x y = false -> Q2R y < Q2R x.
Proof. intros H. destruct (Rlt_dec (Q2R y) (Q2R x)); auto. exfalso. rewrite (proj2 (q_le x y)) in H; [discriminate|lra]. Qed.
Ltac qle x y := let E := fresh "E" in destruct (Qle_bool x y) eqn:E; [apply q_le in E|apply q_le_false in E].

Definition q2 (p : Q * Q) : R * R := (Q2R (fst p), Q2R (snd p)).
Lemma along_spec p q x : Q2R (along p q x) = lin (Q2R (fst p)) (Q2R (snd p)) (Q2R (fst q)) (Q2R (snd q)) (Q2R x).
Proof. unfold along, lin. q2r. reflexivity. Qed.
Lemma height_spec rest : forall p x, Q2R (height p rest x) = seg_eval (Q2R (fst p)) (Q2R (snd p)) (map q2 rest) (Q2R x).
Proof.
  induction rest as [|q [|r rest] IH]; intros p x; [reflexivity|apply along_spec|].
  change (height p (q :: r :: rest) x) with (if Qle_bool x (fst q) then along p q x else height q (r :: rest) x).
  cbn [map seg_eval q2]. destruct (Rle_dec (Q2R x) (Q2R (fst q))); qle x (fst q); try lra.
  - apply along_spec.
  - rewrite IH. reflexivity.
Qed.
Lemma trapezoid_spec p q a b : Q2R (fst p) < Q2R (fst q) ->
  is_RInt (lin (Q2R (fst p)) (Q2R (snd p)) (Q2R (fst q)) (Q2R (snd q))) (Q2R a) (Q2R b) (Q2R (trapezoid p q a b)).
Proof.
  intros L. unfold trapezoid. q2r. rewrite !along_spec. apply lin_trapezoid. lra.
Qed.
Lemma area_spec rest : forall p a b, incr (map fst (map q2 (p :: rest))) -> Q2R a <= Q2R b ->
  is_RInt (seg_eval (Q2R (fst p)) (Q2R (snd p)) (map q2 rest)) (Q2R a) (Q2R b) (Q2R (area p rest a b)).
Proof.
  induction rest as [|q [|r rest] IH]; intros p a b I L.
  - cbn [map seg_eval area]. q2r. rewrite Rmult_comm. apply is_RInt_flat.
  - cbn [map seg_eval area q2]. apply trapezoid_spec. cbn in I. tauto.
  - change (area p (q :: r :: rest) a b) with
      (if Qle_bool b (fst q) then trapezoid p q a b else if Qle_bool (fst q) a then area q (r :: rest) a b
       else Qred (trapezoid p q a (fst q) + area q (r :: rest) (fst q) b)).
    change (map fst (map q2 (p :: q :: r :: rest))) with (Q2R (fst p) :: Q2R (fst q) :: map fst (map q2 (r :: rest))) in I.
    apply incr_cons in I. destruct I as [Lt I].
    set (f := seg_eval _ _ _).
    assert (Fl : forall x, x <= Q2R (fst q) -> f x = lin (Q2R (fst p)) (Q2R (snd p)) (Q2R (fst q)) (Q2R (snd q)) x).
    { intros x X. unfold f. cbn [map seg_eval q2]. destruct (Rle_dec x (Q2R (fst q))); [reflexivity|contradiction]. }
    assert (Fr : forall x, Q2R (fst q) < x -> f x = seg_eval (Q2R (fst q)) (Q2R (snd q)) (map q2 (r :: rest)) x).
    { intros x X. unfold f. cbn [map seg_eval q2]. destruct (Rle_dec x (Q2R (fst q))); [lra|reflexivity]. }
    qle b (fst q); [|qle (fst q) a].
    + eapply is_RInt_on; [exact L| |apply trapezoid_spec; exact Lt]. intros x X. apply Fl. lra.
    + eapply is_RInt_on; [exact L| |apply IH; [exact I|exact L]]. intros x X. apply Fr. lra.
    + rewrite q_red, Q2R_plus. apply is_RInt_join with (b := Q2R (fst q)).
      * eapply is_RInt_on; [lra| |apply trapezoid_spec; exact Lt]. intros x X. apply Fl. lra.
      * eapply is_RInt_on; [lra| |apply IH; [exact I|lra]]. intros x X. apply Fr. lra.
Qed.

(** ** Curves and interpolation objects *)
Lemma smaller_spec x y : Q2R (smaller x y) = Rmin (Q2R x) (Q2R y).
Proof. unfold smaller. qle x y; [rewrite Rmin_left|rewrite Rmin_right]; lra. Qed.
Lemma larger_spec x y : Q2R (larger x y) = Rmax (Q2R x) (Q2R y).
Proof. unfold larger. qle x y; [rewrite Rmax_right|rewrite Rmax_left]; lra. Qed.

Definition hold_of (ex : extrapolation) : bool := match ex with XCONSTANT => true | _ => false end.
Lemma last_q2 ps : forall p, fst (last (map q2 ps) (q2 p)) = Q2R (fst (last ps p)).
Proof. induction ps as [|q [|r ps] IH]; intros p; auto. exact (IH p). Qed.
Lemma hd_q v : hd 0 (map Q2R v) = Q2R (hd 0%Q v).
Proof. destruct v; simpl; auto. symmetry. apply q_0. Qed.
Lemma last_q v : last (map Q2R v) 0 = Q2R (last v 0%Q).
Proof. induction v as [|x [|y v] IH]; [symmetry; apply q_0|reflexivity|exact IH]. Qed.

Section Curve.
Variables (ex : extrapolation) (v : list Q) (ps : list (Q * Q)).
Hypothesis N : ps <> [].
Hypothesis I : incr (map fst (map q2 ps)).
Let f := mkInterp (map q2 ps) ex (fill_of (map Q2R v)).
Let c := curve_of (hold_of ex) v ps.

Lemma lo_q : ip_lo f = Q2R (c_lo c).
Proof. unfold f, c. destruct ps; [contradiction|reflexivity]. Qed.
Lemma hi_q : ip_hi f = Q2R (c_hi c).
Proof.
  unfold f, c, ip_hi, c_hi. destruct ps as [|p r]; [contradiction|]. cbn [ip_knots curve_of c_rest c_first hd tl].
  replace (last (map q2 (p :: r)) (0, 0)) with (last (map q2 r) (q2 p)).
  - rewrite <- last_q2. destruct (last (map q2 r) (q2 p)); reflexivity.
  - clear. revert p. induction r as [|q r IH]; intros p; [reflexivity|]. destruct r; [reflexivity|].
    change (last (map q2 (q :: p0 :: r)) (q2 p)) with (last (map q2 (p0 :: r)) (q2 p)).
    change (last (map q2 (p :: q :: p0 :: r)) (0, 0)) with (last (map q2 (q :: p0 :: r)) (0, 0)).
    rewrite <- IH. clear. generalize (q2 p) (q2 q). induction r as [|x r IH] in p0 |- *; intros; auto.
    apply (IH x).
Qed.
Lemma pl_q x : pl_eval (ip_knots f) (Q2R x) = Q2R (height (c_first c) (c_rest c) x).
Proof. unfold f, c. destruct ps as [|p r]; [contradiction|]. rewrite height_spec. reflexivity. Qed.
Lemma value_spec x : ip_val f (Q2R x) = Q2R (value_at c x).
Proof.
  unfold ip_val, value_at. rewrite pl_q, lo_q, hi_q. unfold f, c, curve_of. cbn [ip_extra ip_fill c_held].
  destruct ex; cbn [hold_of]; auto. fold c.
  unfold fill_of, first_val, last_val. cbn [fst snd]. rewrite hd_q, last_q.
  change (mkCurve _ _ _) with c.
  destruct (Rlt_dec (Q2R x) (Q2R (c_lo c))), (Rlt_dec (Q2R (c_hi c)) (Q2R x)); qle (c_lo c) x; try lra; qle x (c_hi c); try lra; auto.
Qed.

Lemma pl_area a b : Q2R a <= Q2R b -> is_RInt (pl_eval (ip_knots f)) (Q2R a) (Q2R b) (Q2R (area (c_first c) (c_rest c) a b)).
Proof.
  intros L. pose proof I as I'. unfold f, c in *. destruct ps as [|p r]; [contradiction|].
  exact (area_spec r p a b I' L).
Qed.
Lemma lo_hi : Q2R (c_lo c) <= Q2R (c_hi c).
Proof.
  rewrite <- lo_q, <- hi_q. unfold f, ip_lo, ip_hi. cbn [ip_knots]. pose proof I as I'.
  destruct ps as [|p r]; [contradiction|]. cbn [map] in *. pose proof (incr_last _ _ I') as H.
  replace (last (fst (q2 p) :: map fst (map q2 r)) 0) with (fst (last (q2 p :: map q2 r) (0, 0))) in H.
  - destruct (q2 p), (last _ (0, 0)). exact H.
  - clear. change (fst (q2 p) :: map fst (map q2 r)) with (map fst (q2 p :: map q2 r)).
    generalize (q2 p :: map q2 r). induction l as [|x [|y l] IH]; auto.
Qed.
Lemma area_point a : Q2R (area (c_first c) (c_rest c) a a) = 0.
Proof.
  pose proof (pl_area a a ltac:(lra)) as H. rewrite <- (is_RInt_unique _ _ _ _ H). exact (RInt_point (V := R_CompleteNormedModule) _ _).
Qed.
Lemma area_same a a' b b' : Q2R a <= Q2R b -> Q2R a = Q2R a' -> Q2R b = Q2R b' ->
  Q2R (area (c_first c) (c_rest c) a b) = Q2R (area (c_first c) (c_rest c) a' b').
Proof.
  intros L A B. pose proof (pl_area a b L) as H. rewrite A, B in H.
  pose proof (pl_area a' b' ltac:(lra)) as K. rewrite <- (is_RInt_unique _ _ _ _ H), <- (is_RInt_unique _ _ _ _ K). auto.
Qed.
Lemma held_area a b l r : ex = XCONSTANT -> l = Q2R (hd 0%Q v) -> r = Q2R (last v 0%Q) -> Q2R a <= Q2R b ->
  let lo := Q2R (c_lo c) in let hi := Q2R (c_hi c) in
  let into x := larger (c_lo c) (smaller x (c_hi c)) in
  is_RInt (ip_val f) (Q2R a) (Q2R b)
    (l * (Rmin (Q2R b) lo - Rmin (Q2R a) lo) + Q2R (area (c_first c) (c_rest c) (into a) (into b)) +
     r * (Rmax (Q2R b) hi - Rmax (Q2R a) hi)).
Proof.
  intros X -> -> L lo hi into. pose proof lo_hi as LH. fold lo hi in LH.
  assert (V : forall x, ip_val f x = if Rlt_dec x lo then Q2R (hd 0%Q v) else if Rlt_dec hi x then Q2R (last v 0%Q) else pl_eval (ip_knots f) x).
  { intros x. unfold ip_val. rewrite lo_q, hi_q. unfold f at 1. cbn [ip_extra]. rewrite X.
    unfold f at 1 2. cbn [ip_fill]. unfold fill_of, first_val, last_val. cbn [fst snd]. rewrite hd_q, last_q. reflexivity. }
  assert (Below : forall x y, x <= y -> y <= lo -> is_RInt (ip_val f) x y (Q2R (hd 0%Q v) * (y - x))).
  { intros x y A B. eapply is_RInt_on; [exact A| |apply is_RInt_flat]. intros z Z. rewrite V. destruct (Rlt_dec z lo); [auto|lra]. }
  assert (Above : forall x y, x <= y -> hi <= x -> is_RInt (ip_val f) x y (Q2R (last v 0%Q) * (y - x))).
  { intros x y A B. eapply is_RInt_on; [exact A| |apply is_RInt_flat]. intros z Z. rewrite V.
    destruct (Rlt_dec z lo); [lra|]. destruct (Rlt_dec hi z); [auto|lra]. }
  assert (Inside : forall x y, lo <= Q2R x -> Q2R x <= Q2R y -> Q2R y <= hi ->
    is_RInt (ip_val f) (Q2R x) (Q2R y) (Q2R (area (c_first c) (c_rest c) x y))).
  { intros x y A B C. eapply is_RInt_on; [exact B| |apply pl_area; exact B]. intros z Z. rewrite V.
    destruct (Rlt_dec z lo); [lra|]. destruct (Rlt_dec hi z); [lra|auto]. }
  assert (Into : forall x, Q2R (into x) = Rmax lo (Rmin (Q2R x) hi)).
  { intros x. unfold into. rewrite larger_spec, smaller_spec. reflexivity. }
  assert (In1 : forall x, lo <= Q2R (into x) <= hi).
  { intros x. rewrite Into. unfold Rmax, Rmin. destruct (Rle_dec (Q2R x) hi); destruct (Rle_dec lo _); lra. }
  assert (In2 : Q2R (into a) <= Q2R (into b)).
  { rewrite !Into. unfold Rmax, Rmin. destruct (Rle_dec (Q2R a) hi), (Rle_dec (Q2R b) hi); destruct (Rle_dec lo (Q2R a)), (Rle_dec lo (Q2R b)), (Rle_dec lo hi); lra. }
  pose proof (Inside (into a) (into b) (proj1 (In1 a)) In2 (proj2 (In1 b))) as M.
  destruct (Rle_dec (Q2R b) lo) as [B|B].
  { (* entirely below *)
    rewrite (Rmin_left (Q2R b)), (Rmin_left (Q2R a)), (Rmax_right (Q2R b)), (Rmax_right (Q2R a)) by lra.
    assert (Z : Q2R (area (c_first c) (c_rest c) (into a) (into b)) = 0).
    { rewrite <- (area_point (into a)). apply area_same; [exact In2|reflexivity|]. rewrite !Into.
      rewrite (Rmin_left (Q2R b)), (Rmin_left (Q2R a)), !Rmax_left by lra. reflexivity. }
    rewrite Z. replace (_ + 0 + _) with (Q2R (hd 0%Q v) * (Q2R b - Q2R a)) by ring. apply Below; lra. }
  destruct (Rle_dec hi (Q2R a)) as [A|A].
  { (* entirely above *)
    rewrite (Rmin_right (Q2R b)), (Rmin_right (Q2R a)), (Rmax_left (Q2R b)), (Rmax_left (Q2R a)) by lra.
    assert (Z : Q2R (area (c_first c) (c_rest c) (into a) (into b)) = 0).
    { rewrite <- (area_point (into a)). apply area_same; [exact In2|reflexivity|]. rewrite !Into.
      rewrite (Rmin_right (Q2R b)), (Rmin_right (Q2R a)) by lra. reflexivity. }
    rewrite Z. replace (_ + 0 + _) with (Q2R (last v 0%Q) * (Q2R b - Q2R a)) by ring. apply Above; lra. }
  rewrite (Rmin_right (Q2R b) lo), (Rmax_right (Q2R a) hi) by lra.
  assert (M1 : is_RInt (ip_val f) (Q2R a) (Q2R (into a)) (Q2R (hd 0%Q v) * (lo - Rmin (Q2R a) lo))).
  { rewrite Into, (Rmin_left (Q2R a) hi) by lra. destruct (Rle_dec (Q2R a) lo) as [Y|Y].
    - rewrite Rmax_left, Rmin_left by lra. apply Below; lra.
    - rewrite Rmax_right, Rmin_right by lra. replace (_ * (lo - lo)) with (zero : R) by (unfold zero; simpl; ring).
      apply (is_RInt_point (V := R_NormedModule)). }
  assert (M2 : is_RInt (ip_val f) (Q2R (into b)) (Q2R b) (Q2R (last v 0%Q) * (Rmax (Q2R b) hi - hi))).
  { rewrite Into. destruct (Rle_dec (Q2R b) hi) as [Y|Y].
    - rewrite Rmin_left, Rmax_right, Rmax_right by lra. replace (_ * (hi - hi)) with (zero : R) by (unfold zero; simpl; ring).
      apply (is_RInt_point (V := R_NormedModule)).
    - rewrite Rmin_right, Rmax_right, Rmax_left by lra. apply Above; lra. }
  exact (is_RInt_join _ _ _ _ _ _ (is_RInt_join _ _ _ _ _ _ M1 M) M2).
Qed.
Lemma area_under_spec a b : Q2R a <= Q2R b -> is_RInt (ip_val f) (Q2R a) (Q2R b) (Q2R (area_under c a b)).
Proof.
  intros L. unfold area_under. assert (D : ex = XCONSTANT \/ ex <> XCONSTANT) by (destruct ex; auto; right; discriminate).
  destruct D as [D|D].
  - pose proof (held_area a b _ _ D eq_refl eq_refl L) as H. cbv zeta in H.
    replace (c_held c) with (Some (hd 0%Q v, last v 0%Q)) by (unfold c, curve_of; rewrite D; reflexivity).
    q2r. rewrite !smaller_spec, !larger_spec. exact H.
  - replace (c_held c) with (@None (Q * Q)) by (unfold c, curve_of; destruct ex; try reflexivity; contradiction).
    eapply is_RInt_on; [exact L| |apply pl_area; exact L]. intros x _. unfold ip_val, f. cbn [ip_extra ip_knots].
    destruct ex; try reflexivity; contradiction.
Qed.
Lemma averages_spec t : incr (map Q2R t) -> avgs (ip_val f) (map Q2R t) = map Q2R (averages c t).
Proof.
  induction t as [|a [|b t] IH]; intros J; [reflexivity..|].
  change (avgs (ip_val f) (map Q2R (a :: b :: t)))
    with (RInt (ip_val f) (Q2R a) (Q2R b) / (Q2R b - Q2R a) :: avgs (ip_val f) (map Q2R (b :: t))).
  change (map Q2R (averages c (a :: b :: t))) with (Q2R (Qred (area_under c a b / (b - a))) :: map Q2R (averages c (b :: t))).
  change (map Q2R (a :: b :: t)) with (Q2R a :: Q2R b :: map Q2R t) in J. apply incr_cons in J. destruct J as [Lt J].
  rewrite IH by exact J. q2r. rewrite (is_RInt_unique _ _ _ _ (area_under_spec a b ltac:(lra))). reflexivity.
Qed.
End Curve.

(** ** The corners of averages *)
Definition edgesR (v : list R) : list R :=
  (2 * hd 0 v - hd 0 (edge_values v)) :: edge_values v ++ [2 * last v 0 - last (edge_values v) 0].
Lemma linearization_edges v : (2 <= length v)%nat ->
  exists m, lin_ok v (edgesR v) m /\ linearization_values v = interleave (edgesR v) m.
Proof.
  destruct v as [|v0 [|v1 w]]; simpl length; try lia. intros _.
  pose proof (lin_ok_inner w v1 ((v1 + v0) / 2)) as H. cbv zeta in H.
  set (es := (v1 + v0) / 2 :: edge_values (v1 :: w)) in *.
  assert (E : edgesR (v0 :: v1 :: w) = (2 * v0 - (v1 + v0) / 2) :: es ++ [2 * last (v1 :: w) 0 - last es 0]) by reflexivity.
  rewrite E.
  exists (v0 :: middle_values (removelast (v1 :: w)) es ++ [last (v1 :: w) 0]).
  split.
  - change (es ++ [2 * last (v1 :: w) 0 - last es 0])
      with ((v1 + v0) / 2 :: edge_values (v1 :: w) ++ [2 * last (v1 :: w) 0 - last es 0]) at 1.
    cbn [lin_ok]. split; [lra|]. exact H.
  - unfold linearization_values.
    change (edge_values (v0 :: v1 :: w)) with es.
    change (tl (v0 :: v1 :: w)) with (v1 :: w).
    unfold first_val, last_val. change (hd 0 (v0 :: v1 :: w)) with v0.
    change (last (v0 :: v1 :: w) 0) with (last (v1 :: w) 0).
    change (hd 0 es) with ((v1 + v0) / 2).
    rewrite interleave_snoc; auto.
    apply lin_ok_len in H. destruct H as [Ha Hb].
    cbn [length]. rewrite Hb. unfold es. cbn [length]. rewrite edge_values_len. auto.
Qed.
Lemma joints_spec v : map Q2R (joints v) = edge_values (map Q2R v).
Proof.
  induction v as [|x [|y v] IH]; [reflexivity..|].
  change (joints (x :: y :: v)) with (Qred ((x + y) / 2) :: joints (y :: v)).
  change (edge_values (map Q2R (x :: y :: v))) with ((Q2R y + Q2R x) / 2 :: edge_values (map Q2R (y :: v))).
  cbn [map] in *. rewrite IH. f_equal. q2r. f_equal. ring.
Qed.
Lemma joints_last v : forall x y, last (joints (x :: y :: v)) 0%Q = Qred ((last (removelast (x :: y :: v)) 0 + last (x :: y :: v) 0) / 2)%Q.
Proof.
  induction v as [|z v IH]; intros x y; [reflexivity|].
  change (joints (x :: y :: z :: v)) with (Qred ((x + y) / 2) :: joints (y :: z :: v)).
  change (last (Qred ((x + y) / 2) :: joints (y :: z :: v)) 0%Q) with (last (joints (y :: z :: v)) 0%Q).
  rewrite IH. reflexivity.
Qed.
Lemma heights_spec v : (2 <= length v)%nat -> map Q2R (heights v) = edgesR (map Q2R v).
Proof.
  destruct v as [|x [|y v]]; cbn [length]; try lia. intros _. unfold heights, edgesR.
  set (w := x :: y :: v). cbn [map]. rewrite map_app, joints_spec. cbn [map].
  rewrite hd_q, last_q, <- joints_spec, last_q. rewrite (joints_last v x y : last (joints w) 0%Q = _). fold w.
  replace (hd 0 (map Q2R (joints w))) with ((Q2R x + Q2R y) / 2) by (unfold w; cbn [joints map hd]; q2r; reflexivity).
  change (hd 0%Q w) with x. q2r. f_equal; [lra|]. f_equal. f_equal. lra.
Qed.
Lemma corners_spec t : forall v e m, length t = S (length v) -> lin_ok (map Q2R v) (map Q2R e) m ->
  map q2 (corners t v e) = lknots (map Q2R t) (map Q2R e) m.
Proof.
  induction t as [|a t IH]; intros v e m L H; [discriminate|].
  destruct v as [|x v].
  - destruct t; [|discriminate]. destruct e as [|c [|d e]], m; cbn in H; try contradiction. reflexivity.
  - destruct t as [|b t]; [discriminate|].
    destruct e as [|c [|d e]], m as [|m0 m]; cbn [map lin_ok] in H; try tauto. destruct H as [E H].
    change (corners (a :: b :: t) (x :: v) (c :: d :: e))
      with ((a, c) :: (Qred ((a + b) / 2), Qred (2 * x - (c + d) / 2)) :: corners (b :: t) v (d :: e)).
    cbn [map]. rewrite lknots_cons. change (Q2R b :: map Q2R t) with (map Q2R (b :: t)).
    change (Q2R d :: map Q2R e) with (map Q2R (d :: e)). rewrite <- (IH v (d :: e) m) by (auto; cbn in L |- *; lia).
    unfold q2 at 1 2. cbn [fst snd]. q2r. f_equal. f_equal. f_equal; lra.
Qed.
Lemma corners_knots t v : length t = S (length v) -> (2 <= length v)%nat ->
  combine (linearization_points (map Q2R t)) (linearization_values (map Q2R v)) = map q2 (corners t v (heights v)).
Proof.
  intros L M. destruct (linearization_edges (map Q2R v)) as (m & H & E); [rewrite map_length; auto|].
  rewrite <- heights_spec in H, E by auto. rewrite (corners_spec _ _ _ m) by auto. rewrite E.
  destruct (lin_ok_len _ _ _ H) as [La Lb]. rewrite !map_length in La. rewrite !map_length in Lb.
  unfold linearization_points, lknots. apply combine_interleave; rewrite ?midpoints_len, !map_length; lia.
Qed.
Lemma combine_q t : forall v, combine (map Q2R t) (map Q2R v) = map q2 (combine t v).
Proof. induction t as [|a t IH]; intros [|x v]; cbn [map combine]; auto. rewrite IH. reflexivity. Qed.

(** ** Conversion *)
Lemma Z_q t : map IZR t = map Q2R (map inject_Z t).
Proof. rewrite map_map. apply map_ext. intros. symmetry. apply q_Z. Qed.
Lemma exact_points ex s v t w : incr (map IZR s) -> convert_R POINT_TIMESERIES ex (map Q2R v) (map IZR s) (map IZR t) = Ok w ->
  w = map Q2R (map (value_at (of_points (hold_of ex) s v)) (map inject_Z t)).
Proof.
  intros I H. destruct (convert_result _ _ _ _ _ _ H) as (T & F & L & ->).
  destruct (rep_spec _ ex _ _ T F L I) as (_ & Ik & _ & _ & _).
  unfold rep_of in *. cbn [ip_knots sample fits] in *. rewrite !Z_q in *. rewrite combine_q in *. rewrite !map_length in F. rewrite !map_length in L.
  unfold of_points. generalize (map inject_Z t). intros u.
  induction u as [|x u IH]; [reflexivity|]. cbn [map]. f_equal; [|exact IH].
  apply value_spec; auto. destruct s, v; simpl in *; try lia; discriminate.
Qed.
Lemma exact_averages ex s v t w : incr (map IZR s) -> incr (map IZR t) ->
  convert_R AVERAGE_TIMESERIES ex (map Q2R v) (map IZR s) (map IZR t) = Ok w ->
  w = map Q2R (averages (of_averages (hold_of ex) s v) (map inject_Z t)).
Proof.
  intros I J H. destruct (convert_result _ _ _ _ _ _ H) as (T & F & L & ->).
  destruct (rep_spec _ ex _ _ T F L I) as (_ & Ik & _ & _ & _).
  unfold rep_of in *. cbn [ip_knots sample fits] in *. rewrite !Z_q in *. rewrite !map_length in F. rewrite !map_length in L.
  assert (K : combine (linearization_points (map Q2R (map inject_Z s))) (linearization_values (map Q2R v)) =
    map q2 (corners (map inject_Z s) v (heights v))) by (apply corners_knots; rewrite ?map_length; lia).
  rewrite K in *. unfold of_averages. apply averages_spec; auto.
  destruct s as [|a [|b s]], v as [|x [|y v]]; simpl in *; try lia; discriminate.
Qed.

(** Converters that can be made, with an extrapolation type other than NONE. *)
Definition exact (ty : ptype) (ex : extrapolation) (s : list Z) (v : list Q) (t : list Z) : list Q :=
  match ty with
  | AVERAGE_TIMESERIES => averages (of_averages (hold_of ex) s v) (map inject_Z t)
  | _ => map (value_at (of_points (hold_of ex) s v)) (map inject_Z t)
  end.
Lemma exactly ty ex s v t : timeseries ty -> increasing s -> increasing t -> belongs ty s (map Q2R v) -> (3 <= length v)%nat ->
  (2 <= length t)%nat -> ex <> XNONE ->
  convert_R ty ex (map Q2R v) (map IZR s) (map IZR t) = Ok (map Q2R (exact ty ex s v t)).
Proof.
  intros T I J B L M X. pose proof (incr_IZR s I) as Is. pose proof (incr_IZR t J) as It.
  assert (F : fits ty (map IZR s) (map Q2R v)).
  { destruct B as [B N]. unfold fits, value_count in *. rewrite map_length in B. destruct ty; rewrite !map_length; auto.
    destruct s; [contradiction|]. simpl in *. lia. }
  pose proof (convert_ok ty ex (map IZR s) (map IZR t) (map Q2R v) T F ltac:(rewrite map_length; exact L) Is It
    ltac:(intros; contradiction)) as H. rewrite H. f_equal.
  destruct T as [-> | ->]; [apply exact_averages|apply exact_points]; auto.
Qed.
