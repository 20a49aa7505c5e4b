(** Conversions: successful results, extrapolation, rescaling of time. *)
From Coq Require Import List Arith Lia Bool ZArith Reals Lra Sorted.
From Coquelicot Require Import Coquelicot.
From Verif Require Import Base ListFacts TimeModel TimeFacts TimeLin TimeConv TimeConv2.
Import ListNotations.
Local Open Scope R_scope.

(** ** What a successful conversion returned *)
Lemma rmap_eval f t : forall w, rmap (ip_eval f) t = Ok w -> w = map (ip_val f) t.
Proof.
  induction t as [|x t IH]; intros w H; simpl in H; [inversion H; auto|].
  unfold ip_eval at 1 in H. destruct (ip_ok f x x); try discriminate.
  destruct (rmap (ip_eval f) t) as [r|] eqn:E; try discriminate. inversion H; subst. simpl. rewrite (IH r); auto.
Qed.
Lemma ia_eval f t : forall w, interval_averages f t = Ok w -> w = avgs (ip_val f) t.
Proof.
  induction t as [|l [|u t] IH]; intros w H; [inversion H; auto|inversion H; auto|].
  rewrite interval_averages_cons in H. destruct (ip_ok f l u); try discriminate.
  destruct (interval_averages f (u :: t)) as [r|] eqn:E; try discriminate. inversion H; subst.
  rewrite (IH r); auto.
Qed.
Lemma linearization_len v : (2 <= length v)%nat -> length (linearization_values v) = S (2 * length v).
Proof.
  intros H. destruct (linearization_spec v H) as (e & m & L & ->). apply lin_ok_len in L.
  rewrite interleave_len. lia.
Qed.
Lemma points_len s : length (linearization_points s) = (length s + pred (length s))%nat.
Proof. unfold linearization_points. rewrite interleave_len, midpoints_len. auto. Qed.

Lemma convert_result ty ex v s t w : convert_R ty ex v s t = Ok w ->
  ts_type ty /\ fits ty s v /\ (3 <= length v)%nat /\ w = sample ty (ip_val (rep_of ty ex s v)) t.
Proof.
  unfold convert_R, convert_unsafe, continuous_representation. intros H.
  destruct (Nat.ltb_spec (length v) 3); try discriminate.
  destruct ty; try discriminate.
  - destruct (Nat.eqb_spec (length (linearization_points s)) (length (linearization_values v))) as [E|E]; try discriminate.
    simpl rbind in H.
    destruct (interval_averages _ t) as [r|e] eqn:Q; [|destruct e; discriminate]. inversion H; subst.
    split; [left; auto|]. split.
    + rewrite linearization_len, points_len in E by lia. simpl. lia.
    + split; auto. apply ia_eval in Q. exact Q.
  - destruct (Nat.eqb_spec (length s) (length v)) as [E|E]; try discriminate.
    simpl rbind in H.
    destruct (rmap _ t) as [r|e] eqn:Q; [|destruct e; discriminate]. inversion H; subst.
    split; [right; auto|]. split; [exact E|]. split; auto. apply rmap_eval in Q. exact Q.
Qed.

(** ** Success does not depend on the values *)
Lemma convert_success ty ex s t v v' w : incr s -> convert_R ty ex v s t = Ok w -> length v' = length v ->
  convert_R ty ex v' s t = Ok (sample ty (ip_val (rep_of ty ex s v')) t).
Proof.
  intros I C Ll. destruct (convert_result _ _ _ _ _ _ C) as (T & F & L & _).
  assert (F' : fits ty s v') by (eapply fits_len; [|exact F]; auto).
  assert (S : exists r, convert_R ty ex v' s t = Ok r).
  { revert C.
    destruct (rep_spec ty ex s v T F L I) as (R1 & _ & Lo & Hi & _).
    destruct (rep_spec ty ex s v' T F' ltac:(lia) I) as (R2 & _ & Lo2 & Hi2 & _).
    unfold convert_R. destruct (Nat.ltb_spec (length v) 3); [lia|]. destruct (Nat.ltb_spec (length v') 3); [lia|].
    unfold convert_unsafe. rewrite R1, R2.
    assert (Ok_same : forall l u, ip_ok (rep_of ty ex s v') l u = ip_ok (rep_of ty ex s v) l u).
    { intros l u. unfold ip_ok. rewrite Lo, Hi, Lo2, Hi2. auto. }
    assert (A : forall l p, interval_averages (rep_of ty ex s v) l = Ok p ->
      exists r, interval_averages (rep_of ty ex s v') l = Ok r).
    { clear - Ok_same. intros t. induction t as [|l [|u t] IH]; intros p H; try (simpl; eauto; fail).
      rewrite interval_averages_cons in *. rewrite Ok_same. destruct (ip_ok _ l u); try discriminate.
      destruct (interval_averages (rep_of ty ex s v) (u :: t)) as [p'|]; try discriminate.
      destruct (IH p' eq_refl) as (r & ->). eauto. }
    assert (B : forall l p, rmap (ip_eval (rep_of ty ex s v)) l = Ok p ->
      exists r, rmap (ip_eval (rep_of ty ex s v')) l = Ok r).
    { clear - Ok_same. induction l as [|z l IH]; intros p H; simpl in *; eauto.
      unfold ip_eval at 1 in H. unfold ip_eval at 1. rewrite Ok_same. destruct (ip_ok _ z z); try discriminate.
      destruct (rmap (ip_eval (rep_of ty ex s v)) l) as [p'|]; try discriminate. destruct (IH p' eq_refl) as (r & ->). eauto. }
    destruct T as [-> | ->]; simpl rbind; intros C.
    - destruct (interval_averages (rep_of AVERAGE_TIMESERIES ex s v) t) as [p'|e] eqn:Q;
        [|destruct e; discriminate]. destruct (A _ _ Q) as (r & ->). eauto.
    - destruct (rmap (ip_eval (rep_of POINT_TIMESERIES ex s v)) t) as [p'|e] eqn:Q;
        [|destruct e; discriminate]. destruct (B _ _ Q) as (r & ->). eauto. }
  destruct S as (r & S). rewrite S. destruct (convert_result _ _ _ _ _ _ S) as (_ & _ & _ & ->). auto.
Qed.

(** ** Neighbouring points *)
Lemma nth_two {A} (l : list A) i a b : nth_error l i = Some a -> nth_error l (S i) = Some b ->
  exists pre post, l = pre ++ a :: b :: post.
Proof.
  revert i. induction l as [|x l IH]; intros [|i] H K; try discriminate.
  - destruct l as [|y l]; try discriminate. inversion H; inversion K; subst. exists [], l. auto.
  - destruct (IH i H K) as (pre & post & ->). exists (x :: pre), post. auto.
Qed.
Lemma nth_combine {A B} (l : list A) : forall (m : list B) i a b, nth_error l i = Some a -> nth_error m i = Some b ->
  nth_error (combine l m) i = Some (a, b).
Proof.
  induction l as [|x l IH]; intros [|y m] [|i] a b H K; try discriminate; simpl in *.
  - inversion H; inversion K; auto.
  - eauto.
Qed.
Lemma point_line ex s v i x0 x1 y0 y1 x : length s = length v -> (3 <= length v)%nat -> incr s ->
  nth_error s i = Some x0 -> nth_error s (S i) = Some x1 ->
  nth_error v i = Some y0 -> nth_error v (S i) = Some y1 -> x0 <= x <= x1 ->
  ip_val (rep_of POINT_TIMESERIES ex s v) x = lin x0 y0 x1 y1 x.
Proof.
  intros L M I A B C D X.
  destruct (rep_spec POINT_TIMESERIES ex s v (or_intror eq_refl) L M I) as (_ & Ik & Lo & Hi & _).
  rewrite ip_inside.
  - cbn [rep_of ip_knots] in *.
    destruct (nth_two (combine s v) i (x0, y0) (x1, y1)) as (pre & post & E); try (apply nth_combine; auto).
    rewrite E in *. apply pl_segment; auto.
  - rewrite Lo, Hi. destruct s as [|s0 s]; [destruct i; discriminate|].
    pose proof (incr_in_last s0 s x0 I (nth_error_In _ _ A)).
    pose proof (incr_in_last s0 s x1 I (nth_error_In _ _ B)). simpl hd. lra.
Qed.
Lemma nth_map {A B} (f : A -> B) l i y : nth_error (map f l) i = Some y -> exists x, nth_error l i = Some x /\ y = f x.
Proof.
  revert i. induction l as [|a l IH]; intros [|i] H; try discriminate; simpl in *.
  - inversion H. eauto.
  - auto.
Qed.
Lemma nth_avgs g t : forall i y, nth_error (avgs g t) i = Some y ->
  exists l u, nth_error t i = Some l /\ nth_error t (S i) = Some u /\ y = RInt g l u / (u - l).
Proof.
  induction t as [|l [|u t] IH]; intros [|i] y H; try discriminate.
  - inversion H. exists l, u. auto.
  - apply (IH i). exact H.
Qed.

(** ** Outside the range *)
Lemma const_left ty s v x : ts_type ty -> fits ty s v -> (3 <= length v)%nat -> incr s ->
  x < hd 0 s -> ip_val (rep_of ty XCONSTANT s v) x = hd 0 v.
Proof.
  intros T F M I X. destruct (rep_spec ty XCONSTANT s v T F M I) as (_ & _ & Lo & _ & _).
  unfold ip_val. rewrite Lo. cbn [ip_extra rep_of ip_fill fill_of fst]. destruct (Rlt_dec x (hd 0 s)); auto. lra.
Qed.
Lemma const_right ty s v x : ts_type ty -> fits ty s v -> (3 <= length v)%nat -> incr s ->
  last s 0 < x -> ip_val (rep_of ty XCONSTANT s v) x = last v 0.
Proof.
  intros T F M I X. destruct (rep_spec ty XCONSTANT s v T F M I) as (_ & _ & Lo & Hi & Le).
  unfold ip_val. rewrite Lo, Hi in *. cbn [ip_extra rep_of ip_fill fill_of snd].
  destruct (Rlt_dec x (hd 0 s)); [lra|]. destruct (Rlt_dec (last s 0) x); auto. lra.
Qed.
Lemma avg_const_on g l u c : l < u -> (forall x, l < x < u -> g x = c) -> RInt g l u / (u - l) = c.
Proof.
  intros L G. rewrite (RInt_ext _ (fun _ => c)).
  - rewrite RInt_const. unfold scal. simpl. unfold mult. simpl. field. lra.
  - intros x. rewrite Rmin_left, Rmax_right by lra. auto.
Qed.
Lemma avg_lin_on g l u x0 y0 x1 y1 : l < u -> x0 <> x1 -> (forall x, l < x < u -> g x = lin x0 y0 x1 y1 x) ->
  RInt g l u / (u - l) = lin x0 y0 x1 y1 ((l + u) / 2).
Proof.
  intros L N G. rewrite (RInt_ext _ (lin x0 y0 x1 y1)).
  2: { intros x. rewrite Rmin_left, Rmax_right by lra. auto. }
  set (F := fun x => y0 * x + (y1 - y0) / (x1 - x0) * ((x - x0) ^ 2 / 2)).
  assert (E : is_RInt (lin x0 y0 x1 y1) l u (minus (F u) (F l))).
  { apply (is_RInt_derive (V := R_CompleteNormedModule)).
    - intros x _. unfold F, lin. auto_derive; auto. field. lra.
    - intros x _. apply lin_continuous. }
  rewrite (is_RInt_unique _ _ _ _ E). unfold F, minus, plus, opp, lin. simpl. field. lra.
Qed.

Lemma point_linear_left s0 s1 s y0 y1 v x : x <= s1 ->
  ip_val (rep_of POINT_TIMESERIES XLINEAR (s0 :: s1 :: s) (y0 :: y1 :: v)) x = lin s0 y0 s1 y1 x.
Proof. intros X. unfold ip_val. cbn [rep_of ip_extra ip_knots combine]. apply pl_left; auto. Qed.
Lemma point_linear_right s v sp sl yp yl x : length s = length v -> incr (s ++ [sp; sl]) -> sp <= x ->
  ip_val (rep_of POINT_TIMESERIES XLINEAR (s ++ [sp; sl]) (v ++ [yp; yl])) x = lin sp yp sl yl x.
Proof.
  intros L I X. unfold ip_val. cbn [rep_of ip_extra ip_knots].
  assert (E : combine (s ++ [sp; sl]) (v ++ [yp; yl]) = combine s v ++ [(sp, yp); (sl, yl)]).
  { clear I. revert v L. induction s as [|a s IH]; intros [|b v] L; simpl in L; try discriminate; auto.
    simpl. rewrite IH; auto. }
  rewrite E. apply pl_right; auto. rewrite <- E, map_fst_combine; auto. rewrite !app_length; simpl; lia.
Qed.

(** Averages: the ends of the linearization. *)
Lemma avg_linear_left s0 s1 s y0 y1 v x : s0 < s1 -> x <= (s1 + s0) / 2 ->
  ip_val (rep_of AVERAGE_TIMESERIES XLINEAR (s0 :: s1 :: s) (y0 :: y1 :: v)) x =
  lin s0 ((3 * y0 - y1) / 2) ((s1 + s0) / 2) y0 x.
Proof.
  intros L X. unfold ip_val. cbn [rep_of ip_extra ip_knots].
  assert (E : exists a b, combine (linearization_points (s0 :: s1 :: s)) (linearization_values (y0 :: y1 :: v)) =
    (s0, 2 * y0 - (y1 + y0) / 2) :: ((s1 + s0) / 2, y0) :: combine a b).
  { eexists; eexists. reflexivity. }
  destruct E as (a & b & ->). rewrite pl_left by auto. f_equal. lra.
Qed.
Lemma interleave_snoc2 {A} (a b : list A) y : length a = S (length b) -> interleave a (b ++ [y]) = interleave a b ++ [y].
Proof.
  revert b. induction a as [|x a IH]; intros [|z b] H; simpl in H; try discriminate.
  - destruct a; [reflexivity|discriminate].
  - simpl. rewrite IH; auto.
Qed.
Lemma points_snoc s sp sl : exists X, linearization_points (s ++ [sp; sl]) = X ++ [(sl + sp) / 2; sl].
Proof.
  unfold linearization_points. induction s as [|a s (X & IH)].
  - exists [sp]. reflexivity.
  - destruct s as [|b s].
    + exists [a; (sp + a) / 2; sp]. reflexivity.
    + exists (a :: (b + a) / 2 :: X). 
      change (interleave ((a :: b :: s) ++ [sp; sl]) (midpoints ((a :: b :: s) ++ [sp; sl])))
        with (a :: (b + a) / 2 :: interleave ((b :: s) ++ [sp; sl]) (midpoints ((b :: s) ++ [sp; sl]))).
      rewrite IH. reflexivity.
Qed.
Lemma edges_snoc v yp yl : exists E, edge_values (v ++ [yp; yl]) = E ++ [(yl + yp) / 2].
Proof.
  induction v as [|a v (E & IH)].
  - exists []. reflexivity.
  - destruct v as [|b v].
    + exists [(yp + a) / 2]. reflexivity.
    + exists ((b + a) / 2 :: E).
      change (edge_values ((a :: b :: v) ++ [yp; yl])) with ((b + a) / 2 :: edge_values ((b :: v) ++ [yp; yl])).
      rewrite IH. reflexivity.
Qed.
Lemma last_snoc2 (v : list R) yp yl : last (v ++ [yp; yl]) 0 = yl.
Proof. induction v as [|a v IH]; auto. destruct v; auto. Qed.
Lemma values_snoc v yp yl : exists Y, linearization_values (v ++ [yp; yl]) = Y ++ [yl; (3 * yl - yp) / 2].
Proof.
  assert (L2 : (2 <= length (v ++ [yp; yl]))%nat) by (rewrite app_length; simpl; lia).
  destruct (edges_snoc v yp yl) as (E & HE).
  unfold linearization_values, first_val, last_val. rewrite last_snoc2.
  set (mids := middle_values _ _).
  assert (LM : length (edge_values (v ++ [yp; yl])) = S (length mids)).
  { pose proof (linearization_len _ L2) as Q. unfold linearization_values in Q. rewrite app_length, interleave_len in Q.
    cbn [length] in Q. rewrite app_length in Q. fold mids in Q. cbn [length] in Q.
    assert (LE : length (edge_values (v ++ [yp; yl])) = pred (length (v ++ [yp; yl]))).
    { destruct (v ++ [yp; yl]); [simpl in L2; lia|]. rewrite edge_values_len. auto. }
    lia. }
  assert (LL : last (edge_values (v ++ [yp; yl])) 0 = (yl + yp) / 2).
  { rewrite HE. clear. induction E as [|a E IH]; auto. simpl. destruct (E ++ [(yl + yp) / 2]) eqn:Q; auto. destruct E; discriminate. }
  rewrite LL.
  change (hd 0 (v ++ [yp; yl]) :: mids ++ [yl]) with ((hd 0 (v ++ [yp; yl]) :: mids) ++ [yl]).
  rewrite interleave_snoc2 by (cbn [length]; rewrite LM; auto).
  rewrite <- app_assoc. eexists. cbn [app]. f_equal. f_equal. f_equal. lra.
Qed.
Lemma combine_snoc2 (a b : list R) x y p q : length a = length b ->
  combine (a ++ [x; y]) (b ++ [p; q]) = combine a b ++ [(x, p); (y, q)].
Proof.
  revert b. induction a as [|u a IH]; intros [|z b] H; simpl in H; try discriminate; auto.
  simpl. rewrite IH; auto.
Qed.
Lemma avg_linear_right s v sp sl yp yl x : length s = S (length v) -> incr (s ++ [sp; sl]) ->
  (sl + sp) / 2 <= x ->
  ip_val (rep_of AVERAGE_TIMESERIES XLINEAR (s ++ [sp; sl]) (v ++ [yp; yl])) x =
  lin ((sl + sp) / 2) yl sl ((3 * yl - yp) / 2) x.
Proof.
  intros L I X.
  assert (Fi : length (s ++ [sp; sl]) = S (length (v ++ [yp; yl]))) by (rewrite !app_length; simpl; lia).
  assert (L2 : (2 <= length (v ++ [yp; yl]))%nat) by (rewrite app_length; simpl; lia).
  destruct (average_knots (s ++ [sp; sl]) (v ++ [yp; yl]) Fi L2) as (e & m & Q & Le & C & Ll).
  pose proof (lknots_incr _ _ _ _ Q Le I) as Ik. rewrite <- C in Ik.
  unfold ip_val. cbn [rep_of ip_extra ip_knots].
  destruct (points_snoc s sp sl) as (P & EP). destruct (values_snoc v yp yl) as (Y & EY).
  rewrite EP, EY in *. assert (LPY : length P = length Y) by (rewrite !app_length in Ll; simpl in Ll; lia).
  rewrite combine_snoc2 in Ik by auto. rewrite combine_snoc2 by auto.
  apply pl_right; auto.
Qed.

(** ** Rescaling time *)
Section Scale.
Variable k : R.
Hypothesis K : 0 < k.
Definition sc (x : R) : R := k * x.

Lemma sc_incr t : incr t -> incr (map sc t).
Proof.
  induction t as [|a [|b t] IH]; intros I; try exact Logic.I. apply incr_cons in I. destruct I as [L I].
  simpl map. apply incr_cons. split; [apply Rmult_lt_compat_l; auto|]. apply IH. auto.
Qed.
Lemma sc_lin x0 y0 x1 y1 x : x0 < x1 -> lin (sc x0) y0 (sc x1) y1 (sc x) = lin x0 y0 x1 y1 x.
Proof. intros H. unfold lin, sc. assert (k * x1 - k * x0 <> 0) by nra. field. split; auto; lra. Qed.
Definition sck (p : R * R) : R * R := (sc (fst p), snd p).
Lemma sc_seg rest : forall x0 y0 x, incr (x0 :: map fst rest) ->
  seg_eval (sc x0) y0 (map sck rest) (sc x) = seg_eval x0 y0 rest x.
Proof.
  induction rest as [|[x1 y1] rest IH]; intros x0 y0 x I; auto.
  simpl in I. destruct I as [L I]. cbn [map sck seg_eval fst snd].
  destruct rest as [|[x2 y2] rest].
  - simpl. apply sc_lin; auto.
  - cbn [map sck fst snd] in *. rewrite sc_lin by auto.
    destruct (Rle_dec (sc x) (sc x1)) as [C|C], (Rle_dec x x1) as [D|D]; auto.
    + exfalso. unfold sc in C. apply D. apply Rmult_le_reg_l with k; auto.
    + exfalso. apply C. unfold sc. apply Rmult_le_compat_l; lra.
Qed.
Lemma sc_pl ks x : incr (map fst ks) -> pl_eval (map sck ks) (sc x) = pl_eval ks x.
Proof. destruct ks as [|[x0 y0] ks]; intros I; auto. simpl. apply sc_seg; auto. Qed.
Lemma sc_combine s : forall v : list R, combine (map sc s) v = map sck (combine s v).
Proof. induction s as [|a s IH]; intros [|b v]; auto. simpl. rewrite IH. auto. Qed.
Lemma sc_midpoints s : midpoints (map sc s) = map sc (midpoints s).
Proof.
  induction s as [|a [|b s] IH]; auto.
  change ((sc b + sc a) / 2 :: midpoints (map sc (b :: s)) = sc ((b + a) / 2) :: map sc (midpoints (b :: s))).
  rewrite IH. f_equal. unfold sc. lra.
Qed.
Lemma sc_interleave a : forall b, interleave (map sc a) (map sc b) = map sc (interleave a b).
Proof. induction a as [|x a IH]; intros [|y b]; auto. simpl. rewrite IH. auto. Qed.
Lemma sc_points s : linearization_points (map sc s) = map sc (linearization_points s).
Proof. unfold linearization_points. rewrite sc_midpoints, sc_interleave. auto. Qed.
Lemma sc_knots ty ex s v : ip_knots (rep_of ty ex (map sc s) v) = map sck (ip_knots (rep_of ty ex s v)).
Proof. cbn [rep_of ip_knots]. destruct ty; rewrite ?sc_points; apply sc_combine. Qed.
Lemma sc_hd s : hd 0 (map sc s) = sc (hd 0 s).
Proof. destruct s; simpl; auto. unfold sc. lra. Qed.
Lemma sc_last s : last (map sc s) 0 = sc (last s 0).
Proof. induction s as [|a [|b s] IH]; auto. simpl. unfold sc. lra. Qed.
Lemma sc_ip ty ex s v x : ts_type ty -> fits ty s v -> (3 <= length v)%nat -> incr s ->
  ip_val (rep_of ty ex (map sc s) v) (sc x) = ip_val (rep_of ty ex s v) x.
Proof.
  intros T F L I.
  assert (F' : fits ty (map sc s) v) by (unfold fits in *; rewrite map_length; auto).
  destruct (rep_spec ty ex s v T F L I) as (_ & Ik & Lo & Hi & _).
  destruct (rep_spec ty ex (map sc s) v T F' L (sc_incr s I)) as (_ & _ & Lo' & Hi' & _).
  unfold ip_val. rewrite Lo, Hi, Lo', Hi', sc_knots, sc_pl, sc_hd, sc_last by auto.
  change (ip_extra (rep_of ty ex (map sc s) v)) with ex. change (ip_extra (rep_of ty ex s v)) with ex.
  destruct ex; auto.
  assert (A : forall p q, sc p < sc q <-> p < q).
  { intros p q. unfold sc. split; intros; nra. }
  destruct (Rlt_dec (sc x) (sc (hd 0 s))) as [C|C], (Rlt_dec x (hd 0 s)) as [D|D]; auto; rewrite A in C; try tauto.
  destruct (Rlt_dec (sc (last s 0)) (sc x)) as [C'|C'], (Rlt_dec (last s 0) x) as [D'|D']; auto; rewrite A in C'; tauto.
Qed.
Lemma sc_avgs g h t : (forall a b, ex_RInt h a b) -> (forall x, h (sc x) = g x) -> incr t -> avgs h (map sc t) = avgs g t.
Proof.
  intros H E I. induction t as [|l [|u t] IH]; auto. apply incr_cons in I. destruct I as [L I].
  change (RInt h (sc l) (sc u) / (sc u - sc l) :: avgs h (map sc (u :: t)) = RInt g l u / (u - l) :: avgs g (u :: t)).
  rewrite IH by auto. f_equal.
  assert (Q : RInt h (sc l) (sc u) = k * RInt g l u).
  { pose proof (RInt_comp_lin h k 0 l u) as R. rewrite !Rplus_0_r in R. unfold sc. rewrite <- R by auto.
    change (k * RInt g l u) with (scal k (RInt (V := R_CompleteNormedModule) g l u)).
    rewrite <- (RInt_scal (V := R_CompleteNormedModule) g l u k).
    - apply RInt_ext. intros x _. rewrite Rplus_0_r. fold (sc x). rewrite E. reflexivity.
    - apply ex_RInt_ext with (fun x => scal (/ k) (scal k (h (k * x + 0)))).
      + intros x _. rewrite Rplus_0_r. fold (sc x). rewrite E. unfold scal. simpl. unfold mult. simpl. field. lra.
      + apply (ex_RInt_scal (V := R_NormedModule)). apply (ex_RInt_comp_lin h k 0). auto. }
  rewrite Q. unfold sc.
  replace (k * u - k * l) with (k * (u - l)) by ring. unfold Rdiv. rewrite Rinv_mult_distr by lra.
  generalize (RInt g l u : R). intros z. change (k * z * (/ k * / (u - l)) = z * / (u - l)). field. lra.
Qed.
Lemma sc_sample ty ex s t v : ts_type ty -> fits ty s v -> (3 <= length v)%nat -> incr s -> incr t ->
  sample ty (ip_val (rep_of ty ex (map sc s) v)) (map sc t) = sample ty (ip_val (rep_of ty ex s v)) t.
Proof.
  intros T F L I J.
  assert (F' : fits ty (map sc s) v) by (unfold fits in *; rewrite map_length; auto).
  destruct (rep_spec ty ex (map sc s) v T F' L (sc_incr s I)) as (_ & Ik & _ & _ & Le).
  assert (E : forall x, ip_val (rep_of ty ex (map sc s) v) (sc x) = ip_val (rep_of ty ex s v) x)
    by (intros; apply sc_ip; auto).
  destruct T as [-> | ->]; cbn [sample].
  - apply sc_avgs; auto. apply ip_ex_RInt; auto.
  - rewrite map_map. apply map_ext. auto.
Qed.
Lemma convert_badlen ty ex s t v : ~ (ts_type ty /\ fits ty s v /\ (3 <= length v)%nat) ->
  exists e, convert_R ty ex v s t = Err e /\ forall s' t', length s' = length s -> convert_R ty ex v s' t' = Err e.
Proof.
  intros N.
  unfold convert_R, convert_unsafe, continuous_representation, ts_type in *.
  destruct (Nat.ltb_spec (length v) 3); [eauto|].
  destruct ty; try (eexists; split; [reflexivity|]; intros; reflexivity).
  - destruct (Nat.eqb_spec (length (linearization_points s)) (length (linearization_values v))) as [E|E].
    + exfalso. apply N. split; auto. split; auto. rewrite linearization_len, points_len in E by lia. simpl. lia.
    + eexists. split; [reflexivity|]. intros s' t' L.
      destruct (Nat.eqb_spec (length (linearization_points s')) (length (linearization_values v))) as [E'|E']; auto.
      exfalso. apply E. rewrite points_len in *. rewrite <- L. auto.
  - destruct (Nat.eqb_spec (length s) (length v)) as [E|E].
    + exfalso. apply N. split; auto.
    + eexists. split; [reflexivity|]. intros s' t' L. rewrite L. destruct (Nat.eqb_spec (length s) (length v)); auto. tauto.
Qed.
Lemma convert_scale ty ex s t v : incr s -> incr t -> (2 <= length t)%nat ->
  convert_R ty ex v (map sc s) (map sc t) = convert_R ty ex v s t.
Proof.
  intros I J M.
  assert (D : (ts_type ty /\ fits ty s v /\ (3 <= length v)%nat) \/ ~ (ts_type ty /\ fits ty s v /\ (3 <= length v)%nat)).
  { unfold ts_type, fits. destruct ty; (destruct (le_lt_dec 3 (length v)); [|right; lia]).
    - right. intros ([|] & _); discriminate.
    - destruct (Nat.eq_dec (length s) (S (length v))); [left; auto|right; tauto].
    - destruct (Nat.eq_dec (length s) (length v)); [left; auto|right; tauto].
    - right. intros ([|] & _); discriminate. }
  destruct D as [(T & F & L)|N].
  - assert (F' : fits ty (map sc s) v) by (unfold fits in *; rewrite map_length; auto).
    pose proof (sc_incr s I) as I'. pose proof (sc_incr t J) as J'.
    destruct (convert_general ty ex s t v T F L I J M) as [(X & (x & Xt & B) & C)|(B & C)].
    + rewrite C by auto. apply (convert_bad _ _ _ _ _ (sc x)); auto.
      * rewrite map_length. auto.
      * apply in_map. auto.
      * rewrite sc_hd, sc_last. unfold sc. intros [P Q]. apply B. split; apply Rmult_le_reg_l with k; auto.
    + rewrite C by auto. rewrite convert_ok; auto.
      * rewrite sc_sample; auto.
      * intros X x H. apply in_map_iff in H. destruct H as (y & <- & Y). rewrite sc_hd, sc_last.
        specialize (B X y Y). unfold sc. split; apply Rmult_le_compat_l; lra.
  - destruct (convert_badlen ty ex s t v N) as (e & E & G). rewrite E. apply G. apply map_length.
Qed.
End Scale.
