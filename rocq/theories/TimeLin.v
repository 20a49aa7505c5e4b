(** The linearization of an average timeseries preserves the integral over every period. *)
From Coq Require Import List Arith Lia Bool ZArith Reals Lra.
From Coquelicot Require Import Coquelicot.
From Verif Require Import Base ListFacts TimeModel TimeFacts.
Import ListNotations.
Local Open Scope R_scope.

(** Values [v], edges [e] and middles [m] of the periods fit together. *)
Fixpoint lin_ok (v e m : list R) : Prop :=
  match v, e, m with
  | [], [_], [] => True
  | x :: v', a :: ((b :: _) as e'), c :: m' => 4 * x = a + 2 * c + b /\ lin_ok v' e' m'
  | _, _, _ => False
  end.
Lemma lin_ok_len v : forall e m, lin_ok v e m -> length e = S (length v) /\ length m = length v.
Proof.
  induction v as [|x v IH]; intros e m H.
  - destruct e as [|a [|b e]], m as [|c m]; simpl in H; try tauto. auto.
  - destruct e as [|a [|b e]], m as [|c m]; cbn [lin_ok] in H; try tauto.
    destruct H as [_ H]. apply IH in H. simpl in *. lia.
Qed.

Lemma edge_values_len w : forall x, length (edge_values (x :: w)) = length w.
Proof. induction w as [|y w IH]; intros x; auto. simpl in *. rewrite IH. auto. Qed.

Lemma lin_ok_inner w : forall x e0, let es := edge_values (x :: w) in
  lin_ok (x :: w) ((e0 :: es) ++ [2 * last (x :: w) 0 - last (e0 :: es) 0])
         (middle_values (removelast (x :: w)) (e0 :: es) ++ [last (x :: w) 0]).
Proof.
  induction w as [|y w IH]; intros x e0 es.
  - unfold es. simpl. split; auto. lra.
  - unfold es. specialize (IH y ((y + x) / 2)). cbv zeta in IH.
    change (edge_values (x :: y :: w)) with ((y + x) / 2 :: edge_values (y :: w)).
    change (removelast (x :: y :: w)) with (x :: removelast (y :: w)).
    change (last (x :: y :: w) 0) with (last (y :: w) 0).
    change (last (e0 :: (y + x) / 2 :: edge_values (y :: w)) 0) with (last ((y + x) / 2 :: edge_values (y :: w)) 0).
    change (middle_values (x :: removelast (y :: w)) (e0 :: (y + x) / 2 :: edge_values (y :: w)))
      with ((4 * x - e0 - (y + x) / 2) / 2 :: middle_values (removelast (y :: w)) ((y + x) / 2 :: edge_values (y :: w))).
    cbn [app lin_ok]. split; [lra|]. exact IH.
Qed.

Lemma interleave_snoc {A} (a b : list A) x : length a = length b -> interleave a b ++ [x] = interleave (a ++ [x]) b.
Proof.
  revert b. induction a as [|y a IH]; intros [|z b] H; simpl in *; auto; try discriminate.
  rewrite IH; auto.
Qed.

(** The knots of the linearization. *)
Definition lknots (t e m : list R) : list (R * R) := interleave (combine t e) (combine (midpoints t) m).

Lemma midpoints_len t : length (midpoints t) = pred (length t).
Proof. induction t as [|a [|b t] IH]; auto. simpl in *. rewrite IH. auto. Qed.

Lemma combine_interleave (a c b d : list R) : length a = length c -> length b = length d ->
  combine (interleave a b) (interleave c d) = interleave (combine a c) (combine b d).
Proof.
  revert c b d. induction a as [|x a IH]; intros [|y c] [|z b] [|w d] H K; simpl in *; try discriminate; auto.
  f_equal. f_equal. apply IH; lia.
Qed.
Lemma interleave_len {A} (a b : list A) : length (interleave a b) = (length a + length b)%nat.
Proof. revert b. induction a as [|x a IH]; intros [|y b]; simpl; auto; rewrite ?IH; lia. Qed.

Lemma linearization_spec v : (2 <= length v)%nat ->
  exists e m, lin_ok v e m /\ linearization_values v = interleave e m.
Proof.
  destruct v as [|v0 [|v1 w]]; simpl length; try lia. intros _.
  pose proof (lin_ok_inner w v1 ((v1 + v0) / 2)) as H. cbv zeta in H.
  set (es := (v1 + v0) / 2 :: edge_values (v1 :: w)) in *.
  exists ((2 * v0 - (v1 + v0) / 2) :: es ++ [2 * last (v1 :: w) 0 - last es 0]).
  exists (v0 :: middle_values (removelast (v1 :: w)) es ++ [last (v1 :: w) 0]).
  split.
  - change (es ++ [2 * last (v1 :: w) 0 - last es 0])
      with ((v1 + v0) / 2 :: edge_values (v1 :: w) ++ [2 * last (v1 :: w) 0 - last es 0]) at 1.
    cbn [lin_ok]. split; [lra|]. exact H.
  - unfold linearization_values.
    change (edge_values (v0 :: v1 :: w)) with es.
    change (tl (v0 :: v1 :: w)) with (v1 :: w).
    unfold first_val, last_val. change (hd 0 (v0 :: v1 :: w)) with v0.
    change (last (v0 :: v1 :: w) 0) with (last (v1 :: w) 0).
    change (hd 0 es) with ((v1 + v0) / 2).
    rewrite interleave_snoc; auto.
    apply lin_ok_len in H. destruct H as [Ha Hb].
    cbn [length]. rewrite Hb. unfold es. cbn [length]. rewrite edge_values_len. auto.
Qed.

Lemma average_knots t v : length t = S (length v) -> (2 <= length v)%nat ->
  exists e m, lin_ok v e m /\ length e = length t /\
    combine (linearization_points t) (linearization_values v) = lknots t e m /\
    length (linearization_points t) = length (linearization_values v).
Proof.
  intros H K. destruct (linearization_spec v K) as (e & m & L & E). exists e, m.
  destruct (lin_ok_len _ _ _ L) as [La Lb].
  split; auto. split; [lia|]. rewrite E. unfold linearization_points, lknots.
  rewrite combine_interleave by (rewrite ?midpoints_len; lia).
  split; auto. rewrite !interleave_len, midpoints_len. lia.
Qed.

Lemma lknots_cons t0 t1 t e0 e m0 m :
  lknots (t0 :: t1 :: t) (e0 :: e) (m0 :: m) = (t0, e0) :: ((t1 + t0) / 2, m0) :: lknots (t1 :: t) e m.
Proof. reflexivity. Qed.
Lemma lknots_hd t0 t e0 e m : exists l, lknots (t0 :: t) (e0 :: e) m = (t0, e0) :: l.
Proof. unfold lknots. simpl. destruct (combine _ m); eauto. Qed.

(** Periods with their values. *)
Fixpoint periods (t v : list R) : list (R * R * R) :=
  match t, v with
  | a :: ((b :: _) as t'), x :: v' => (a, b, x) :: periods t' v'
  | _, _ => []
  end.

Lemma lknots_incr t : forall v e m, lin_ok v e m -> length e = length t -> incr t -> incr (map fst (lknots t e m)).
Proof.
  induction t as [|t0 t IH]; intros v e m L E I; [exact Logic.I|].
  destruct v as [|x v].
  - destruct e as [|a [|b e]], m as [|c m]; cbn [lin_ok] in L; try tauto.
    destruct t; [|discriminate]. simpl. auto.
  - destruct e as [|a [|b e]], m as [|c m]; cbn [lin_ok] in L; try tauto.
    destruct t as [|t1 t]; [discriminate|]. apply incr_cons in I. destruct I as [Lt I].
    rewrite lknots_cons. destruct (lknots_hd t1 t b e m) as (l & El).
    specialize (IH v (b :: e) m (proj2 L)). rewrite El in *. cbn [map fst] in *.
    apply incr_cons. split; [lra|]. apply incr_cons. split; [lra|]. apply IH; simpl in *; auto.
Qed.

Lemma lknots_period t : forall v e m a b x, lin_ok v e m -> length e = length t ->
  In (a, b, x) (periods t v) ->
  exists pre ya ym yb post, lknots t e m = pre ++ (a, ya) :: ((b + a) / 2, ym) :: (b, yb) :: post /\
    4 * x = ya + 2 * ym + yb.
Proof.
  induction t as [|t0 t IH]; intros v e m a b x L E I; [destruct I|].
  destruct t as [|t1 t]; [destruct I|]. destruct v as [|x0 v]; [destruct I|].
  destruct e as [|e0 [|e1 e]], m as [|m0 m]; cbn [lin_ok] in L; try tauto.
  rewrite lknots_cons. destruct I as [I|I].
  - inversion I; subst. destruct (lknots_hd b t e1 e m) as (l & El). rewrite El.
    exists [], e0, m0, e1, l. split; auto. tauto.
  - destruct (IH v (e1 :: e) m a b x (proj2 L)) as (pre & ya & ym & yb & post & K & Q); auto.
    exists ((t0, e0) :: ((t1 + t0) / 2, m0) :: pre), ya, ym, yb, post. split; auto. rewrite K. auto.
Qed.

(** Integral over a period. *)
Lemma lknots_RInt t v e m a b x : lin_ok v e m -> length e = length t -> incr t ->
  In (a, b, x) (periods t v) -> is_RInt (pl_eval (lknots t e m)) a b (x * (b - a)).
Proof.
  intros L E I P. pose proof (lknots_incr t v e m L E I) as K.
  destruct (lknots_period t v e m a b x L E P) as (pre & ya & ym & yb & post & Q & F).
  rewrite Q in *.
  pose proof (pl_segment_RInt pre a ya ((b + a) / 2) ym ((b, yb) :: post) K) as A.
  assert (Q2 : pre ++ (a, ya) :: ((b + a) / 2, ym) :: (b, yb) :: post =
               (pre ++ [(a, ya)]) ++ ((b + a) / 2, ym) :: (b, yb) :: post) by (rewrite <- app_assoc; auto).
  rewrite Q2 in K. pose proof (pl_segment_RInt _ _ _ _ _ _ K) as B. rewrite <- Q2 in B.
  replace (x * (b - a)) with (plus ((ya + ym) / 2 * ((b + a) / 2 - a)) ((ym + yb) / 2 * (b - (b + a) / 2))).
  - apply (is_RInt_Chasles (V := R_NormedModule)) with ((b + a) / 2); auto.
  - unfold plus. simpl. replace x with ((ya + 2 * ym + yb) / 4) by lra. field.
Qed.

Lemma lknots_lo t0 t e m : length e = S (length t) -> exists y l, lknots (t0 :: t) e m = (t0, y) :: l.
Proof.
  destruct e as [|e0 e]; intros H; [discriminate|]. destruct (lknots_hd t0 t e0 e m) as (l & E). eauto.
Qed.
Lemma lknots_hi t : forall v e m t0, lin_ok v e m -> length e = S (length t) ->
  fst (last (lknots (t0 :: t) e m) (0, 0)) = last (t0 :: t) 0.
Proof.
  induction t as [|t1 t IH]; intros v e m t0 L E.
  - destruct e as [|e0 [|e1 e]]; simpl in E; try discriminate.
    destruct v, m; cbn [lin_ok] in L; try tauto.
  - destruct v as [|x v]; destruct e as [|e0 [|e1 e]], m as [|m0 m]; cbn [lin_ok] in L; try tauto; try discriminate.
    rewrite lknots_cons. specialize (IH v (e1 :: e) m t1 (proj2 L)). 
    destruct (lknots_hd t1 t e1 e m) as (l & El). rewrite El in *.
    change (fst (last ((t1, e1) :: l) (0, 0)) = last (t1 :: t) 0). apply IH. simpl in *. lia.
Qed.
