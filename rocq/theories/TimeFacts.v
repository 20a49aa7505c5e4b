(** Piecewise linear functions and their integrals. *)
From Coq Require Import List Arith Lia Bool ZArith Reals Lra.
From Coquelicot Require Import Coquelicot.
From Verif Require Import Base ListFacts TimeModel.
Import ListNotations.
Local Open Scope R_scope.

(** Strictly increasing lists. *)
Fixpoint incr (l : list R) : Prop :=
  match l with
  | a :: ((b :: _) as l') => a < b /\ incr l'
  | _ => True
  end.

Lemma incr_cons a b l : incr (a :: b :: l) <-> a < b /\ incr (b :: l).
Proof. reflexivity. Qed.
Lemma incr_tl a l : incr (a :: l) -> incr l.
Proof. destruct l; simpl; tauto. Qed.
Lemma incr_lt a l x : incr (a :: l) -> In x l -> a < x.
Proof.
  revert a. induction l as [|b l IH]; intros a H I; [destruct I|].
  apply incr_cons in H. destruct H as [L H]. destruct I as [->|I]; auto.
  specialize (IH b H I). lra.
Qed.
Lemma incr_app l1 l2 : incr (l1 ++ l2) -> incr l1 /\ incr l2.
Proof.
  induction l1 as [|a l1 IH]; simpl; auto. intros H.
  destruct l1 as [|b l1]; simpl in *.
  - destruct l2; simpl in *; tauto.
  - destruct H as [L H]. apply IH in H. tauto.
Qed.
Lemma incr_app_lt l1 l2 x y : incr (l1 ++ l2) -> In x l1 -> In y l2 -> x < y.
Proof.
  induction l1 as [|a l1 IH]; simpl; intros H I J; [tauto|].
  destruct I as [->|I].
  - eapply incr_lt; eauto. apply in_app_iff; auto.
  - apply IH; auto. eapply incr_tl; eauto.
Qed.

(** ** Gluing continuous functions *)
Lemma Rmin_alt x c : Rmin x c = (x + c - Rabs (x - c)) / 2.
Proof. unfold Rmin, Rabs. destruct (Rle_dec x c), (Rcase_abs (x - c)); lra. Qed.
Lemma Rmax_alt x c : Rmax x c = (x + c + Rabs (x - c)) / 2.
Proof. unfold Rmax, Rabs. destruct (Rle_dec x c), (Rcase_abs (x - c)); lra. Qed.
Lemma continuous_Rmin c x : continuous (fun x => Rmin x c) x.
Proof.
  apply continuous_ext with (fun x => (x + c - Rabs (x - c)) * / 2).
  { intros y. rewrite Rmin_alt. reflexivity. }
  apply (continuous_mult (K := R_AbsRing)); [|apply continuous_const].
  apply (continuous_minus (V := R_NormedModule)).
  - apply (continuous_plus (V := R_NormedModule)); [apply continuous_id|apply continuous_const].
  - apply continuous_comp with (f := fun x => x - c); [|apply continuous_Rabs].
    apply (continuous_minus (V := R_NormedModule)); [apply continuous_id|apply continuous_const].
Qed.
Lemma continuous_Rmax c x : continuous (fun x => Rmax x c) x.
Proof.
  apply continuous_ext with (fun x => (x + c + Rabs (x - c)) * / 2).
  { intros y. rewrite Rmax_alt. reflexivity. }
  apply (continuous_mult (K := R_AbsRing)); [|apply continuous_const].
  apply (continuous_plus (V := R_NormedModule)).
  - apply (continuous_plus (V := R_NormedModule)); [apply continuous_id|apply continuous_const].
  - apply continuous_comp with (f := fun x => x - c); [|apply continuous_Rabs].
    apply (continuous_minus (V := R_NormedModule)); [apply continuous_id|apply continuous_const].
Qed.
Lemma continuous_glue (f g : R -> R) c : (forall x, continuous f x) -> (forall x, continuous g x) ->
  f c = g c -> forall x, continuous (fun x => if Rle_dec x c then f x else g x) x.
Proof.
  intros F G E x.
  apply continuous_ext with (fun x => f (Rmin x c) + g (Rmax x c) - f c).
  { intros y. unfold Rmin, Rmax. destruct (Rle_dec y c); lra. }
  apply (continuous_minus (V := R_NormedModule)); [|apply continuous_const].
  apply (continuous_plus (V := R_NormedModule)).
  - apply continuous_comp; [apply continuous_Rmin|apply F].
  - apply continuous_comp; [apply continuous_Rmax|apply G].
Qed.

(** ** Lines *)
Lemma lin_l x0 y0 x1 y1 : lin x0 y0 x1 y1 x0 = y0.
Proof. unfold lin. unfold Rminus at 3. rewrite Rplus_opp_r. lra. Qed.
Lemma lin_r x0 y0 x1 y1 : x0 <> x1 -> lin x0 y0 x1 y1 x1 = y1.
Proof. intros H. unfold lin. field. lra. Qed.
Lemma lin_continuous x0 y0 x1 y1 x : continuous (lin x0 y0 x1 y1) x.
Proof.
  unfold lin. apply (continuous_plus (V := R_NormedModule)); [apply continuous_const|].
  apply (continuous_mult (K := R_AbsRing)); [apply continuous_const|].
  apply (continuous_minus (V := R_NormedModule)); [apply continuous_id|apply continuous_const].
Qed.
Lemma lin_RInt x0 y0 x1 y1 : x0 <> x1 -> is_RInt (lin x0 y0 x1 y1) x0 x1 ((y0 + y1) / 2 * (x1 - x0)).
Proof.
  intros N.
  set (F := fun x => y0 * x + (y1 - y0) / (x1 - x0) * ((x - x0) ^ 2 / 2)).
  replace ((y0 + y1) / 2 * (x1 - x0)) with (minus (F x1) (F x0)).
  - apply (is_RInt_derive (V := R_CompleteNormedModule)).
    + intros x _. unfold F, lin. auto_derive; auto. field. lra.
    + intros x _. apply lin_continuous.
  - unfold F, minus, plus, opp. simpl. field. lra.
Qed.

(** ** Piecewise linear functions *)
Lemma seg_eval_start x0 y0 rest : seg_eval x0 y0 rest x0 = y0 \/ exists x1, In x1 (map fst rest) /\ x1 < x0.
Proof.
  destruct rest as [|[x1 y1] [|[x2 y2] rest]]; simpl; auto.
  - left. apply lin_l.
  - destruct (Rle_dec x0 x1); [left; apply lin_l|]. right. exists x1. split; auto. lra.
Qed.
Lemma seg_eval_at x0 y0 rest : incr (x0 :: map fst rest) -> seg_eval x0 y0 rest x0 = y0.
Proof.
  intros H. destruct (seg_eval_start x0 y0 rest) as [E|(x1 & I & L)]; auto.
  pose proof (incr_lt _ _ _ H I). lra.
Qed.

Lemma seg_eval_continuous rest : forall x0 y0, incr (x0 :: map fst rest) ->
  forall x, continuous (seg_eval x0 y0 rest) x.
Proof.
  induction rest as [|[x1 y1] rest IH]; intros x0 y0 H x.
  - simpl. apply continuous_const.
  - simpl in H. apply incr_cons in H. destruct H as [L H].
    destruct rest as [|p rest]; [apply lin_continuous|].
    change (continuous (fun x => if Rle_dec x x1 then lin x0 y0 x1 y1 x else seg_eval x1 y1 (p :: rest) x) x).
    apply continuous_glue.
    + intros; apply lin_continuous.
    + apply IH; auto.
    + rewrite lin_r by lra. rewrite seg_eval_at; auto.
Qed.
Lemma pl_continuous ks : incr (map fst ks) -> forall x, continuous (pl_eval ks) x.
Proof.
  destruct ks as [|[x0 y0] rest]; intros H x; simpl.
  - apply continuous_const.
  - apply seg_eval_continuous; auto.
Qed.
Lemma pl_ex_RInt ks a b : incr (map fst ks) -> ex_RInt (pl_eval ks) a b.
Proof. intros H. apply (ex_RInt_continuous (V := R_CompleteNormedModule)). intros; apply pl_continuous; auto. Qed.

(** On a segment the function is the line through its ends. *)
Lemma pl_segment pre x0 y0 x1 y1 post x :
  incr (map fst (pre ++ (x0, y0) :: (x1, y1) :: post)) -> x0 <= x <= x1 ->
  pl_eval (pre ++ (x0, y0) :: (x1, y1) :: post) x = lin x0 y0 x1 y1 x.
Proof.
  intros H B.
  assert (S : forall pre a b, incr (map fst ((a, b) :: pre ++ (x0, y0) :: (x1, y1) :: post)) ->
    seg_eval a b (pre ++ (x0, y0) :: (x1, y1) :: post) x = lin x0 y0 x1 y1 x).
  { clear H. intros pr; induction pr as [|[c d] pre' IH]; intros a b H.
    - simpl in H. destruct H as (L & L2 & H). cbn [app seg_eval].
      destruct (Rle_dec x x0) as [Le|Le].
      + assert (x = x0) by lra; subst x. rewrite lin_r by lra. rewrite lin_l. auto.
      + destruct post; auto. destruct (Rle_dec x x1); auto. lra.
    - change (map fst ((a, b) :: ((c, d) :: pre') ++ (x0, y0) :: (x1, y1) :: post))
        with (a :: map fst ((c, d) :: pre' ++ (x0, y0) :: (x1, y1) :: post)) in H.
      assert (L : c < x0).
      { apply incr_tl in H. simpl in H. eapply incr_lt; eauto. rewrite map_app. apply in_app_iff. simpl. auto. }
      assert (H' : incr (map fst ((c, d) :: pre' ++ (x0, y0) :: (x1, y1) :: post))) by (eapply incr_tl; eauto).
      specialize (IH c d H').
      cbn [app seg_eval].
      destruct (pre' ++ (x0, y0) :: (x1, y1) :: post) as [|p l] eqn:E.
      { destruct pre'; discriminate. }
      destruct (Rle_dec x c); [lra|]. auto. }
  destruct pre as [|[a b] pre].
  - simpl in H. destruct H as (L & H). cbn [app pl_eval seg_eval].
    destruct post; auto. destruct (Rle_dec x x1); auto. lra.
  - cbn [app pl_eval]. apply S. exact H.
Qed.
Lemma pl_segment_RInt pre x0 y0 x1 y1 post :
  incr (map fst (pre ++ (x0, y0) :: (x1, y1) :: post)) ->
  is_RInt (pl_eval (pre ++ (x0, y0) :: (x1, y1) :: post)) x0 x1 ((y0 + y1) / 2 * (x1 - x0)).
Proof.
  intros H.
  assert (L : x0 < x1).
  { rewrite map_app in H. apply incr_app in H. destruct H as [_ H]. simpl in H. tauto. }
  apply is_RInt_ext with (lin x0 y0 x1 y1).
  - intros x. rewrite Rmin_left, Rmax_right by lra. intros B. symmetry. apply pl_segment; auto. lra.
  - apply lin_RInt. lra.
Qed.

(** Value at a knot. *)
Lemma pl_at_knot ks x y : incr (map fst ks) -> In (x, y) ks -> pl_eval ks x = y.
Proof.
  intros H I. apply in_split in I. destruct I as (pre & post & ->).
  destruct post as [|[x1 y1] post].
  - destruct pre as [|p pre] using rev_ind; [reflexivity|]. clear IHpre. destruct p as [x0 y0].
    rewrite <- app_assoc in *. simpl in *. rewrite pl_segment; auto.
    + apply lin_r. rewrite map_app in H. apply incr_app in H. simpl in H. lra.
    + rewrite map_app in H. apply incr_app in H. simpl in H. lra.
  - rewrite pl_segment; auto.
    + apply lin_l.
    + rewrite map_app in H. apply incr_app in H. simpl in H. lra.
Qed.

(** Left of the first and right of the last knot: the first and last segment continued. *)
Lemma pl_left x0 y0 x1 y1 rest x : x <= x1 -> pl_eval ((x0, y0) :: (x1, y1) :: rest) x = lin x0 y0 x1 y1 x.
Proof. intros H. simpl. destruct rest; auto. destruct (Rle_dec x x1); auto. lra. Qed.
Lemma pl_right pre x0 y0 x1 y1 x : incr (map fst (pre ++ [(x0, y0); (x1, y1)])) -> x0 <= x ->
  pl_eval (pre ++ [(x0, y0); (x1, y1)]) x = lin x0 y0 x1 y1 x.
Proof.
  intros H B.
  assert (S : forall pre a b, incr (map fst ((a, b) :: pre ++ [(x0, y0); (x1, y1)])) ->
    seg_eval a b (pre ++ [(x0, y0); (x1, y1)]) x = lin x0 y0 x1 y1 x).
  { clear H. intros pr; induction pr as [|[c d] pre' IH]; intros a b H.
    - simpl in H. destruct H as (L & L2 & H). cbn [app seg_eval].
      destruct (Rle_dec x x0) as [Le|Le]; auto.
      assert (x = x0) by lra; subst x. rewrite lin_r by lra. rewrite lin_l. auto.
    - change (map fst ((a, b) :: ((c, d) :: pre') ++ [(x0, y0); (x1, y1)]))
        with (a :: map fst ((c, d) :: pre' ++ [(x0, y0); (x1, y1)])) in H.
      assert (L : c < x0).
      { apply incr_tl in H. simpl in H. eapply incr_lt; eauto. rewrite map_app. apply in_app_iff. simpl. auto. }
      assert (H' : incr (map fst ((c, d) :: pre' ++ [(x0, y0); (x1, y1)]))) by (eapply incr_tl; eauto).
      specialize (IH c d H').
      cbn [app seg_eval].
      destruct (pre' ++ [(x0, y0); (x1, y1)]) as [|p l] eqn:E.
      { destruct pre'; discriminate. }
      destruct (Rle_dec x c); [lra|]. auto. }
  destruct pre as [|[a b] pre].
  - reflexivity.
  - cbn [app pl_eval]. apply S. exact H.
Qed.
