(** Conversions: identity, conservation of the integral, refinement. *)
From Coq Require Import List Arith Lia Bool ZArith Reals Lra Sorted.
From Coquelicot Require Import Coquelicot.
From Verif Require Import Base ListFacts TimeModel TimeFacts TimeLin.
Import ListNotations.
Local Open Scope R_scope.

(** ** Time points *)
Lemma incr_IZR t : StronglySorted Z.lt t -> incr (map IZR t).
Proof.
  induction t as [|a t IH]; intros H; [exact I|]. apply StronglySorted_inv in H. destruct H as [S F].
  destruct t as [|b t]; [exact I|]. simpl map in *. apply incr_cons. split; auto.
  apply IZR_lt. inversion F; auto.
Qed.
Lemma last_IZR t : t <> [] -> last (map IZR t) 0 = IZR (last t 0%Z).
Proof. induction t as [|a [|b t] IH]; intros H; [congruence|reflexivity|]. apply IH. discriminate. Qed.
Lemma last_In {A} (d : A) l : l <> [] -> In (last l d) l.
Proof.
  induction l as [|a [|b l] IH]; intros H; [congruence|left; reflexivity|].
  right. apply IH. discriminate.
Qed.
Lemma incr_last a l : incr (a :: l) -> a <= last (a :: l) 0.
Proof.
  intros H. destruct l as [|b l]; [simpl; lra|]. left. eapply incr_lt; eauto.
  apply (last_In 0 (b :: l)). discriminate.
Qed.
Lemma incr_in_last a l x : incr (a :: l) -> In x (a :: l) -> a <= x <= last (a :: l) 0.
Proof.
  revert a. induction l as [|b l IH]; intros a H I.
  - destruct I as [->|[]]. simpl. lra.
  - apply incr_cons in H. destruct H as [L H]. change (last (a :: b :: l) 0) with (last (b :: l) 0).
    pose proof (incr_last _ _ H).
    destruct I as [->|I]; [lra|]. specialize (IH b H I). lra.
Qed.

(** ** Averages of a function *)
Fixpoint avgs (g : R -> R) (t : list R) : list R :=
  match t with
  | l :: ((u :: _) as t') => RInt g l u / (u - l) :: avgs g t'
  | _ => []
  end.
Lemma avgs_len g t : length (avgs g t) = pred (length t).
Proof. induction t as [|a [|b t] IH]; auto. simpl in *. rewrite IH. auto. Qed.

Fixpoint Rintegral (t v : list R) : R :=
  match t, v with
  | a :: ((b :: _) as t'), x :: v' => x * (b - a) + Rintegral t' v'
  | _, _ => 0
  end.

Section Avg.
Variable g : R -> R.
Hypothesis G : forall a b, ex_RInt g a b.

Lemma avgs_integral t0 t : incr (t0 :: t) ->
  Rintegral (t0 :: t) (avgs g (t0 :: t)) = RInt g t0 (last (t0 :: t) 0).
Proof.
  revert t0. induction t as [|t1 t IH]; intros t0 I.
  - simpl. rewrite RInt_point. reflexivity.
  - apply incr_cons in I. destruct I as [L I].
    change (Rintegral (t0 :: t1 :: t) (avgs g (t0 :: t1 :: t)))
      with (RInt g t0 t1 / (t1 - t0) * (t1 - t0) + Rintegral (t1 :: t) (avgs g (t1 :: t))).
    rewrite IH by auto. change (last (t0 :: t1 :: t) 0) with (last (t1 :: t) 0).
    rewrite <- (RInt_Chasles g t0 t1 (last (t1 :: t) 0)) by auto.
    unfold plus. simpl. field. lra.
Qed.
Lemma avgs_periods t : forall v, incr t -> length t = S (length v) ->
  (forall a b x, In (a, b, x) (periods t v) -> RInt g a b = x * (b - a)) -> avgs g t = v.
Proof.
  induction t as [|t0 [|t1 t] IH]; intros v I L P.
  - discriminate.
  - destruct v; [reflexivity|discriminate].
  - destruct v as [|x v]; [discriminate|]. apply incr_cons in I. destruct I as [Lt I].
    change (avgs g (t0 :: t1 :: t)) with (RInt g t0 t1 / (t1 - t0) :: avgs g (t1 :: t)).
    f_equal.
    + rewrite (P t0 t1 x) by (left; auto). field. lra.
    + apply IH; [auto|simpl in *; lia|]. intros; apply P. right. auto.
Qed.
End Avg.

Lemma periods_avgs g t : forall a b x, incr t -> In (a, b, x) (periods t (avgs g t)) -> RInt g a b = x * (b - a).
Proof.
  induction t as [|t0 [|t1 t] IH]; intros a b x I P; try destruct P.
  - inversion H; subst. apply incr_cons in I. destruct I as [I _]. symmetry. unfold Rdiv. rewrite Rmult_assoc, Rinv_l; [apply Rmult_1_r|lra].
  - apply IH; auto. eapply incr_tl; eauto.
Qed.

(** Two functions with the same integral over all periods have it between any two points. *)
Lemma same_RInt_from (g h : R -> R) t : forall t0 v, (forall a b, ex_RInt g a b) -> (forall a b, ex_RInt h a b) ->
  length v = length t ->
  (forall a b x, In (a, b, x) (periods (t0 :: t) v) -> RInt g a b = RInt h a b) ->
  forall y, In y (t0 :: t) -> RInt g t0 y = RInt h t0 y.
Proof.
  induction t as [|t1 t IH]; intros t0 v G H L P y I.
  - destruct I as [->|[]]. rewrite !RInt_point. auto.
  - destruct v as [|x v]; [discriminate|]. destruct I as [->|I]; [rewrite !RInt_point; auto|].
    rewrite <- (RInt_Chasles g t0 t1 y), <- (RInt_Chasles h t0 t1 y) by auto.
    f_equal; [apply (P t0 t1 x); left; auto|].
    apply (IH t1 v); auto. intros a b z Q. apply (P a b z). right. auto.
Qed.
Lemma same_RInt (g h : R -> R) t0 t v x y : (forall a b, ex_RInt g a b) -> (forall a b, ex_RInt h a b) ->
  length v = length t ->
  (forall a b x, In (a, b, x) (periods (t0 :: t) v) -> RInt g a b = RInt h a b) ->
  In x (t0 :: t) -> In y (t0 :: t) -> RInt g x y = RInt h x y.
Proof.
  intros G H L P I J.
  pose proof (same_RInt_from g h t t0 v G H L P x I) as A.
  pose proof (same_RInt_from g h t t0 v G H L P y J) as B.
  rewrite <- (RInt_Chasles g t0 x y), <- (RInt_Chasles h t0 x y) in B by auto.
  unfold plus in B. simpl in B. lra.
Qed.
Lemma avgs_same (g h : R -> R) s : (forall x y, In x s -> In y s -> RInt g x y = RInt h x y) -> avgs g s = avgs h s.
Proof.
  induction s as [|a [|b s] IH]; intros H; auto.
  change (RInt g a b / (b - a) :: avgs g (b :: s) = RInt h a b / (b - a) :: avgs h (b :: s)).
  f_equal; [rewrite (H a b); simpl; auto|]. apply IH. intros; apply H; simpl in *; tauto.
Qed.

(** ** Interpolation objects *)
Lemma ip_inside f x : ip_lo f <= x <= ip_hi f -> ip_val f x = pl_eval (ip_knots f) x.
Proof.
  intros H. unfold ip_val. destruct (ip_extra f); auto.
  destruct (Rlt_dec x (ip_lo f)); [lra|]. destruct (Rlt_dec (ip_hi f) x); [lra|]. auto.
Qed.
Lemma ip_ok_inside f l u : ip_lo f <= l -> u <= ip_hi f -> ip_ok f l u = true.
Proof.
  intros. unfold ip_ok. destruct (ip_extra f); auto.
  destruct (Rle_dec (ip_lo f) l); [|lra]. destruct (Rle_dec u (ip_hi f)); [auto|lra].
Qed.
Lemma ip_RInt_inside f l u : ip_lo f <= l <= u -> u <= ip_hi f -> RInt (ip_val f) l u = RInt (pl_eval (ip_knots f)) l u.
Proof.
  intros H K. apply RInt_ext. intros x. rewrite Rmin_left, Rmax_right by lra. intros B.
  apply ip_inside. lra.
Qed.

Lemma interval_averages_cons f l u t : interval_averages f (l :: u :: t) =
  if ip_ok f l u then match interval_averages f (u :: t) with
                      | Ok r => Ok (RInt (ip_val f) l u / (u - l) :: r) | Err e => Err e end
  else Err EValueError.
Proof. reflexivity. Qed.

Lemma ia_inside f t : incr t -> (forall x, In x t -> ip_lo f <= x <= ip_hi f) ->
  interval_averages f t = Ok (avgs (pl_eval (ip_knots f)) t).
Proof.
  induction t as [|l [|u t] IH]; intros I B; auto.
  pose proof (B l (or_introl eq_refl)). pose proof (B u (or_intror (or_introl eq_refl))).
  rewrite interval_averages_cons, ip_ok_inside by lra. apply incr_cons in I. destruct I as [L I].
  rewrite IH; auto. 2: intros; apply B; right; auto.
  rewrite ip_RInt_inside by lra. reflexivity.
Qed.
Lemma rmap_inside f t : (forall x, In x t -> ip_lo f <= x <= ip_hi f) ->
  rmap (ip_eval f) t = Ok (map (pl_eval (ip_knots f)) t).
Proof.
  induction t as [|x t IH]; intros B; auto. simpl.
  pose proof (B x (or_introl eq_refl)).
  unfold ip_eval at 1. rewrite ip_ok_inside, ip_inside by lra. simpl.
  rewrite IH; auto. intros; apply B; right; auto.
Qed.

(** The representation of an average timeseries. *)
Lemma average_rep ex s0 s v : length s = length v -> (2 <= length v)%nat -> incr (s0 :: s) ->
  exists f, continuous_representation AVERAGE_TIMESERIES ex (s0 :: s) v = Ok f /\
    ip_extra f = ex /\ ip_fill f = fill_of v /\
    ip_lo f = s0 /\ ip_hi f = last (s0 :: s) 0 /\ incr (map fst (ip_knots f)) /\
    (forall a b x, In (a, b, x) (periods (s0 :: s) v) -> RInt (pl_eval (ip_knots f)) a b = x * (b - a)).
Proof.
  intros L K I. destruct (average_knots (s0 :: s) v) as (e & m & Q & Le & C & Ll); [simpl; auto|auto|].
  unfold continuous_representation. rewrite Ll, Nat.eqb_refl. rewrite C. eexists. split; [reflexivity|].
  cbn [ip_knots ip_extra ip_fill]. split; auto. split; auto. split; [|split; [|split]].
  - unfold ip_lo. cbn [ip_knots]. destruct (lknots_lo s0 s e m Le) as (y & l & E). rewrite E. auto.
  - unfold ip_hi. cbn [ip_knots]. rewrite <- (lknots_hi s v e m s0 Q Le). destruct (last _ _); auto.
  - eapply lknots_incr; eauto.
  - intros a b x P. apply is_RInt_unique. eapply lknots_RInt; eauto.
Qed.

Lemma map_fst_combine {A B} (a : list A) (b : list B) : length a = length b -> map fst (combine a b) = a.
Proof. revert b. induction a as [|x a IH]; intros [|y b] H; simpl in *; auto; try discriminate. rewrite IH; auto. Qed.
Lemma last_combine a : forall b (d : R * R), length a = length b -> a <> [] -> fst (last (combine a b) d) = last a 0.
Proof.
  induction a as [|x [|x' a] IH]; intros [|y b] d L H; simpl in L; try discriminate; try congruence.
  - destruct b; [reflexivity|discriminate].
  - destruct b as [|y' b]; [discriminate|]. apply (IH (y' :: b) d); [simpl in *; lia|discriminate].
Qed.
Lemma point_rep ex s0 s v : length v = S (length s) -> incr (s0 :: s) ->
  exists f, continuous_representation POINT_TIMESERIES ex (s0 :: s) v = Ok f /\
    ip_extra f = ex /\ ip_fill f = fill_of v /\
    ip_lo f = s0 /\ ip_hi f = last (s0 :: s) 0 /\ incr (map fst (ip_knots f)) /\
    ip_knots f = combine (s0 :: s) v.
Proof.
  intros L I. unfold continuous_representation. cbn [length]. rewrite L, Nat.eqb_refl.
  eexists. split; [reflexivity|]. cbn [ip_knots ip_extra ip_fill].
  split; auto. split; auto. split; [|split; [|split]]; auto.
  - unfold ip_lo. cbn [ip_knots]. destruct v; [discriminate|]. auto.
  - unfold ip_hi. cbn [ip_knots]. rewrite <- (last_combine (s0 :: s) v (0, 0)); [|simpl; auto|discriminate].
    destruct (last _ _); auto.
  - rewrite map_fst_combine; auto.
Qed.

(** ** Conversions between real time points *)
Definition within (s0 : R) (s t : list R) : Prop := forall x, In x t -> s0 <= x <= last (s0 :: s) 0.

Lemma average_inside ex s0 s t v : length s = length v -> (3 <= length v)%nat -> incr (s0 :: s) -> incr t ->
  within s0 s t ->
  exists g, (forall a b, ex_RInt g a b) /\
    (forall a b x, In (a, b, x) (periods (s0 :: s) v) -> RInt g a b = x * (b - a)) /\
    convert_R AVERAGE_TIMESERIES ex v (s0 :: s) t = Ok (avgs g t).
Proof.
  intros L K I J W. destruct (average_rep ex s0 s v L) as (f & E & _ & _ & Lo & Hi & Ik & P); auto; [lia|].
  exists (pl_eval (ip_knots f)). split; [|split]; auto.
  - intros; apply pl_ex_RInt; auto.
  - unfold convert_R, convert_unsafe. destruct (Nat.ltb_spec (length v) 3); [lia|].
    rewrite E. simpl rbind. rewrite ia_inside; auto. rewrite Lo, Hi. auto.
Qed.
Lemma point_inside ex s0 s t v : length v = S (length s) -> (3 <= length v)%nat -> incr (s0 :: s) ->
  within s0 s t ->
  convert_R POINT_TIMESERIES ex v (s0 :: s) t = Ok (map (pl_eval (combine (s0 :: s) v)) t).
Proof.
  intros L K I W. destruct (point_rep ex s0 s v L) as (f & E & _ & _ & Lo & Hi & Ik & P); auto.
  unfold convert_R, convert_unsafe. destruct (Nat.ltb_spec (length v) 3); [lia|].
  rewrite E. simpl rbind. rewrite rmap_inside; auto. { rewrite P; auto. } rewrite Lo, Hi. auto.
Qed.

Lemma within_self s0 s : incr (s0 :: s) -> within s0 s (s0 :: s).
Proof. intros I x J. apply incr_in_last; auto. Qed.

Lemma avg_id ex s v : length s = S (length v) -> (3 <= length v)%nat -> incr s ->
  convert_R AVERAGE_TIMESERIES ex v s s = Ok v.
Proof.
  intros L K I. destruct s as [|s0 s]; [discriminate|].
  destruct (average_inside ex s0 s (s0 :: s) v) as (g & G & P & E); auto. { apply within_self; auto. }
  rewrite E. f_equal. apply avgs_periods; auto.
Qed.

Lemma knots_combine {A B} (s : list A) : forall (v : list B) i x y, nth_error s i = Some x -> nth_error v i = Some y -> In (x, y) (combine s v).
Proof.
  induction s as [|a s IH]; intros [|b v] [|i] x y H K; simpl in *; try discriminate.
  - inversion H; inversion K; auto.
  - right. eapply IH; eauto.
Qed.
Lemma map_pl_knots ks : incr (map fst ks) -> map (pl_eval ks) (map fst ks) = map snd ks.
Proof.
  intros I. rewrite map_map. apply map_ext_in. intros [x y] J. simpl. apply pl_at_knot; auto.
Qed.
Lemma map_snd_combine {A B} (a : list A) (b : list B) : length a = length b -> map snd (combine a b) = b.
Proof. revert b. induction a as [|x a IH]; intros [|y b] H; simpl in *; auto; try discriminate. rewrite IH; auto. Qed.

Lemma point_id ex s v : length s = length v -> (3 <= length v)%nat -> incr s ->
  convert_R POINT_TIMESERIES ex v s s = Ok v.
Proof.
  intros L K I. destruct s as [|s0 s]; [simpl in *; lia|].
  rewrite point_inside; auto. 2: apply within_self; auto. f_equal.
  pose proof (map_pl_knots (combine (s0 :: s) v)) as M. rewrite map_fst_combine, map_snd_combine in M; auto.
Qed.

(** Conservation of the integral. *)
Lemma avg_integral ex s0 s t v : length s = length v -> (3 <= length v)%nat -> incr (s0 :: s) ->
  incr (s0 :: t) -> last (s0 :: t) 0 = last (s0 :: s) 0 ->
  exists w, convert_R AVERAGE_TIMESERIES ex v (s0 :: s) (s0 :: t) = Ok w /\
            Rintegral (s0 :: t) w = Rintegral (s0 :: s) v /\ length w = length t.
Proof.
  intros L K I J E.
  destruct (average_inside ex s0 s (s0 :: t) v) as (g & G & P & C); auto.
  { intros x H. rewrite <- E. apply incr_in_last; auto. }
  exists (avgs g (s0 :: t)). split; auto. split; [|rewrite avgs_len; auto].
  rewrite avgs_integral, E; auto. rewrite <- avgs_integral; auto. f_equal.
  apply avgs_periods; simpl; auto.
Qed.

(** Refining and coming back. *)
Lemma avg_refine ex s0 s t v : length s = length v -> (3 <= length v)%nat -> incr (s0 :: s) ->
  incr (s0 :: t) -> last (s0 :: t) 0 = last (s0 :: s) 0 -> incl (s0 :: s) (s0 :: t) ->
  exists w, convert_R AVERAGE_TIMESERIES ex v (s0 :: s) (s0 :: t) = Ok w /\
            convert_R AVERAGE_TIMESERIES ex w (s0 :: t) (s0 :: s) = Ok v.
Proof.
  intros L K I J E S.
  destruct (average_inside ex s0 s (s0 :: t) v) as (g & G & P & C); auto.
  { intros x H. rewrite <- E. apply incr_in_last; auto. }
  exists (avgs g (s0 :: t)). split; auto.
  assert (Lw : length (avgs g (s0 :: t)) = length t) by (rewrite avgs_len; auto).
  assert (Len : (length (s0 :: s) <= length (s0 :: t))%nat).
  { apply NoDup_incl_length; auto. clear - I. revert s0 I. induction s as [|a s IH]; intros s0 I.
    - constructor; [intros []|constructor].
    - pose proof I as I'. apply incr_tl in I'. constructor; auto.
      intros H. pose proof (incr_lt _ _ _ I H). lra. }
  simpl in Len.
  destruct (average_inside ex s0 t (s0 :: s) (avgs g (s0 :: t))) as (h & H & Q & D); auto; try lia.
  { intros x Hx. rewrite E. apply incr_in_last; auto. }
  rewrite D. f_equal. transitivity (avgs g (s0 :: s)).
  - apply avgs_same. intros x y X Y. apply (same_RInt h g s0 t (avgs g (s0 :: t))); auto.
    intros a b z Z. rewrite (Q a b z Z). symmetry. apply (periods_avgs g (s0 :: t)); auto.
  - apply avgs_periods; auto. simpl; auto.
Qed.

Lemma combine_map {A B} (f : A -> B) l : combine l (map f l) = map (fun x => (x, f x)) l.
Proof. induction l; simpl; congruence. Qed.

Lemma point_refine ex s0 s t v : length v = S (length s) -> (3 <= length v)%nat -> incr (s0 :: s) ->
  incr (s0 :: t) -> last (s0 :: t) 0 = last (s0 :: s) 0 -> incl (s0 :: s) (s0 :: t) ->
  exists w, convert_R POINT_TIMESERIES ex v (s0 :: s) (s0 :: t) = Ok w /\
            convert_R POINT_TIMESERIES ex w (s0 :: t) (s0 :: s) = Ok v.
Proof.
  intros L K I J E S.
  assert (Len : (length (s0 :: s) <= length (s0 :: t))%nat).
  { apply NoDup_incl_length; auto. clear - I. revert s0 I. induction s as [|a s IH]; intros s0 I.
    - constructor; [intros []|constructor].
    - pose proof I as I'. apply incr_tl in I'. constructor; auto.
      intros H. pose proof (incr_lt _ _ _ I H). lra. }
  cbn [length] in Len.
  set (g := pl_eval (combine (s0 :: s) v)).
  exists (map g (s0 :: t)). split.
  - apply point_inside; auto. intros x H. rewrite <- E. apply incr_in_last; auto.
  - rewrite point_inside; auto.
    + f_equal. transitivity (map g (s0 :: s)).
      * apply map_ext_in. intros x X. apply pl_at_knot.
        -- rewrite map_fst_combine; [auto|rewrite map_length; auto].
        -- rewrite combine_map. apply in_map_iff. exists x. auto.
      * pose proof (map_pl_knots (combine (s0 :: s) v)) as M. rewrite map_fst_combine, map_snd_combine in M; auto.
    + rewrite map_length. auto.
    + rewrite map_length. cbn [length]. lia.
    + intros x Hx. rewrite E. apply incr_in_last; auto.
Qed.
