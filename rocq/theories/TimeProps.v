(** The properties of time conversion for [TimeseriesConverter] objects. *)
From Coq Require Import String List Arith Lia Bool ZArith Reals Lra Sorted.
From Flocq Require Import Core.
From Coquelicot Require Import Coquelicot.
From Verif Require Import Base ListFacts Units TimeModel Calendar CalendarFacts TimeFacts TimeLin TimeConv TimeConv2
  TimeConv3 Spec_Time.
Import ListNotations.
Local Open Scope R_scope.

Lemma belongs_fits ty t v : timeseries ty -> belongs ty t v -> fits ty (map IZR t) v.
Proof.
  intros T [L N]. unfold fits. rewrite map_length. destruct t; [congruence|].
  destruct T as [-> | ->]; simpl in *; lia.
Qed.
Lemma converter_eq s t ty ex c : timeseries_converter s t ty ex = Ok c -> c = mkTconv s t ty ex /\ (2 <= length t)%nat /\ s <> [].
Proof.
  unfold timeseries_converter. destruct s as [|s0 s]; try discriminate. destruct t as [|t0 [|t1 t]]; try discriminate.
  destruct (s0 >? t1)%Z; try discriminate. intros H; inversion H. split; auto. split; [simpl; lia|discriminate].
Qed.
Lemma conversion_eq ty ex s v t r : conversion ty ex s v t r -> r = convert_R ty ex v (map IZR s) (map IZR t).
Proof.
  intros [(c & C & E)|(c & C & E)]; apply converter_eq in C; destruct C as (-> & _); subst r; reflexivity.
Qed.
Lemma conversion_other ty ex s v v' t r : conversion ty ex s v t r ->
  conversion ty ex s v' t (convert_R ty ex v' (map IZR s) (map IZR t)).
Proof.
  intros [(c & C & E)|(c & C & E)]; [left|right]; exists c; split; auto; apply converter_eq in C;
    destruct C as (-> & _); reflexivity.
Qed.
Lemma conversion_lens ty ex s v t r : conversion ty ex s v t r -> s <> [] /\ t <> [].
Proof.
  intros [(c & C & E)|(c & C & E)]; apply converter_eq in C; destruct C as (_ & L & N); split; auto.
  - destruct t; [simpl in L; lia|discriminate].
  - destruct s; [simpl in L; lia|discriminate].
Qed.
Lemma incr_len2 (s0 : R) s v : (3 <= length v)%nat -> (fits AVERAGE_TIMESERIES (s0 :: s) v \/ fits POINT_TIMESERIES (s0 :: s) v) ->
  (2 <= length (s0 :: s))%nat.
Proof. unfold fits. intros L [H|H]; lia. Qed.

Lemma make_converter s t ty ex s0 t0 t1 t' : s = s0 :: t' \/ True -> forall s', s = s0 :: s' ->
  forall t'', t = t0 :: t1 :: t'' -> (s0 <= t1)%Z -> timeseries_converter s t ty ex = Ok (mkTconv s t ty ex).
Proof.
  intros _ s' -> t'' -> L. simpl. destruct (Z.gtb_spec s0 t1); [lia|]. auto.
Qed.
Lemma make_converter_start s t ty ex : increasing t -> s <> [] -> (2 <= length t)%nat -> (hd 0 s <= hd 0 t)%Z ->
  timeseries_converter s t ty ex = Ok (mkTconv s t ty ex).
Proof.
  intros I N L H. destruct s as [|s0 s]; [congruence|]. destruct t as [|t0 [|t1 t]]; simpl in L; try lia.
  apply StronglySorted_inv in I. destruct I as [_ I]. inversion I; subst. simpl in H.
  simpl. destruct (Z.gtb_spec s0 t1); [lia|]. auto.
Qed.

Lemma same_grid ty ex t v : timeseries ty -> increasing t -> belongs ty t v -> (3 <= length v)%nat ->
  exists c, timeseries_converter t t ty ex = Ok c /\ tconvert_from c v = Ok v /\ tconvert_to c v = Ok v.
Proof.
  intros T I B L. pose proof (belongs_fits ty t v T B) as F.
  exists (mkTconv t t ty ex). split.
  - apply make_converter_start; auto; [apply B| |lia]. destruct B as [B N]. destruct t; [congruence|].
    destruct T as [-> | ->]; simpl in *; lia.
  - unfold tconvert_from, tconvert_to. cbn [tc_type tc_extra tc_source tc_target].
    pose proof (incr_IZR t I) as J.
    assert (E : convert_R ty ex v (map IZR t) (map IZR t) = Ok v).
    { destruct T as [-> | ->]; simpl in F; [apply avg_id|apply point_id]; auto. }
    auto.
Qed.

Lemma integral_eq t : forall v, integral t v = Rintegral (map IZR t) v.
Proof.
  induction t as [|a [|b t] IH]; intros v; auto. destruct v as [|x v]; auto.
  change (x * IZR (b - a) + integral (b :: t) v = x * (IZR b - IZR a) + Rintegral (map IZR (b :: t)) v).
  rewrite IH, minus_IZR. auto.
Qed.

(** Same first and last element. *)
Lemma ends_shape s t : s <> [] -> t <> [] -> hd 0%Z s = hd 0%Z t -> last s 0%Z = last t 0%Z ->
  exists s0 s' t', s = s0 :: s' /\ t = s0 :: t' /\ last (IZR s0 :: map IZR s') 0 = last (IZR s0 :: map IZR t') 0.
Proof.
  intros S T H L. destruct s as [|s0 s]; [congruence|]. destruct t as [|t0 t]; [congruence|].
  simpl in H. subst t0. exists s0, s, t. split; auto. split; auto.
  pose proof (last_IZR (s0 :: s) S) as A. pose proof (last_IZR (s0 :: t) T) as B. simpl map in *.
  rewrite A, B, L. auto.
Qed.

Lemma conserve ex s t v : increasing s -> increasing t -> belongs AVERAGE_TIMESERIES s v -> (3 <= length v)%nat ->
  (2 <= length t)%nat -> hd 0%Z s = hd 0%Z t -> last s 0%Z = last t 0%Z ->
  (exists c, timeseries_converter s t AVERAGE_TIMESERIES ex = Ok c) /\
  (exists c, timeseries_converter t s AVERAGE_TIMESERIES ex = Ok c) /\
  forall r, conversion AVERAGE_TIMESERIES ex s v t r ->
    exists w, r = Ok w /\ belongs AVERAGE_TIMESERIES t w /\ integral t w = integral s v.
Proof.
  intros I J B L M H E.
  assert (N : s <> []) by apply B.
  assert (N' : t <> []) by (destruct t; [simpl in M; lia|discriminate]).
  destruct (ends_shape s t N N' H E) as (s0 & s' & t' & -> & -> & En).
  assert (Ls : (2 <= length (s0 :: s'))%nat). { destruct B as [B _]. simpl in *. lia. }
  split; [eexists; apply make_converter_start; auto; simpl; lia|].
  split; [eexists; apply make_converter_start; auto; simpl; lia|].
  intros r C. apply conversion_eq in C. pose proof (incr_IZR _ I) as I'. pose proof (incr_IZR _ J) as J'.
  simpl map in *.
  destruct (avg_integral ex (IZR s0) (map IZR s') (map IZR t') v) as (w & W & Q & Lw); auto.
  { rewrite map_length. destruct B as [B _]. simpl in B. lia. }
  exists w. split; [congruence|]. split; [|rewrite !integral_eq; exact Q].
  split; [|discriminate]. rewrite Lw, map_length. simpl. lia.
Qed.

Lemma refine ty ex s t v : timeseries ty -> increasing s -> increasing t -> belongs ty s v -> (3 <= length v)%nat ->
  hd 0%Z s = hd 0%Z t -> last s 0%Z = last t 0%Z -> incl s t ->
  exists c w, timeseries_converter s t ty ex = Ok c /\ tconvert_from c v = Ok w /\ tconvert_to c w = Ok v.
Proof.
  intros T I J B L H E S.
  assert (F : fits ty (map IZR s) v) by (apply belongs_fits; auto).
  assert (N : s <> []) by apply B.
  assert (N' : t <> []). { intros ->. destruct s as [|a s]; [congruence|]. apply (S a). left. auto. }
  destruct (ends_shape s t N N' H E) as (s0 & s' & t' & -> & -> & En).
  pose proof (incr_IZR _ I) as I'. pose proof (incr_IZR _ J) as J'.
  assert (Sub : incl (IZR s0 :: map IZR s') (IZR s0 :: map IZR t')).
  { intros x X. change (IZR s0 :: map IZR s') with (map IZR (s0 :: s')) in X.
    change (IZR s0 :: map IZR t') with (map IZR (s0 :: t')). apply in_map_iff in X. destruct X as (z & <- & Z).
    apply in_map. apply S. auto. }
  assert (Lt : (2 <= length (s0 :: t'))%nat).
  { destruct s' as [|s1 s']. { destruct T as [-> | ->]; unfold fits in F; simpl in F; lia. }
    destruct t'; simpl; [|lia]. exfalso. apply StronglySorted_inv in I. destruct I as [_ I]. inversion I; subst.
    destruct (S s1) as [Q|[]]; [right; left; auto|]. lia. }
  exists (mkTconv (s0 :: s') (s0 :: t') ty ex).
  assert (C : exists w, convert_R ty ex v (map IZR (s0 :: s')) (map IZR (s0 :: t')) = Ok w /\
                        convert_R ty ex w (map IZR (s0 :: t')) (map IZR (s0 :: s')) = Ok v).
  { simpl map in *. symmetry in En. destruct T as [-> | ->].
    - apply avg_refine; auto.
    - apply point_refine; auto. }
  destruct C as (w & C & D). exists w. split; [apply make_converter_start; auto; simpl; lia|]. auto.
Qed.

(** ** Points *)
Lemma nth_IZR t i z : nth_error t i = Some z -> nth_error (map IZR t) i = Some (IZR z).
Proof. intros H. apply map_nth_error. auto. Qed.
Lemma line_lin x0 y0 x1 y1 x : line x0 y0 x1 y1 x = lin (IZR x0) y0 (IZR x1) y1 x.
Proof. unfold line, lin. rewrite minus_IZR. unfold Rdiv. ring. Qed.

Lemma point_value ex s v t w j x : conversion POINT_TIMESERIES ex s v t (Ok w) -> nth_error t j = Some x ->
  nth_error w j = Some (ip_val (rep_of POINT_TIMESERIES ex (map IZR s) v) (IZR x)).
Proof.
  intros C X. apply conversion_eq in C. symmetry in C. apply convert_result in C. destruct C as (_ & _ & _ & ->).
  cbn [sample]. apply map_nth_error. apply nth_IZR. auto.
Qed.
Lemma avg_value ex s v t w j x x' : conversion AVERAGE_TIMESERIES ex s v t (Ok w) -> nth_error t j = Some x ->
  nth_error t (S j) = Some x' ->
  nth_error w j = Some (RInt (ip_val (rep_of AVERAGE_TIMESERIES ex (map IZR s) v)) (IZR x) (IZR x') / (IZR x' - IZR x)).
Proof.
  intros C X Y. apply conversion_eq in C. symmetry in C. apply convert_result in C. destruct C as (_ & _ & _ & ->).
  cbn [sample]. apply nth_IZR in X. apply nth_IZR in Y. revert j X Y. generalize (map IZR t) (IZR x) (IZR x'). clear.
  induction l as [|a l IH]; intros r r0 j X Y; [destruct j; discriminate|].
  destruct l as [|b l]; [destruct j; simpl in Y; [discriminate|destruct j; discriminate]|].
  destruct j as [|j].
  - inversion X; inversion Y; subst. reflexivity.
  - apply (IH r r0 j X Y).
Qed.
Lemma conversion_facts ty ex s v t w : conversion ty ex s v t (Ok w) ->
  ts_type ty /\ fits ty (map IZR s) v /\ (3 <= length v)%nat.
Proof. intros C. apply conversion_eq in C. symmetry in C. apply convert_result in C. tauto. Qed.

Lemma interpolant ex s v t w : increasing s -> conversion POINT_TIMESERIES ex s v t (Ok w) ->
  forall i j x0 x1 y0 y1 x, nth_error s i = Some x0 -> nth_error s (S i) = Some x1 ->
    nth_error v i = Some y0 -> nth_error v (S i) = Some y1 -> nth_error t j = Some x -> (x0 <= x <= x1)%Z ->
    nth_error w j = Some (line x0 y0 x1 y1 (IZR x)).
Proof.
  intros I C i j x0 x1 y0 y1 x A B P Q X H. rewrite (point_value ex s v t w j x C X).
  destruct (conversion_facts _ _ _ _ _ _ C) as (_ & F & L). f_equal. rewrite line_lin.
  apply point_line with i; auto.
  - apply incr_IZR; auto.
  - apply nth_IZR; auto.
  - apply nth_IZR; auto.
  - destruct H. split; apply IZR_le; auto.
Qed.
Lemma line_between x0 y0 x1 y1 x : (x0 < x1)%Z -> (x0 <= x <= x1)%Z ->
  Rmin y0 y1 <= line x0 y0 x1 y1 (IZR x) <= Rmax y0 y1.
Proof.
  intros L H. unfold line. set (a := (IZR x - IZR x0) / IZR (x1 - x0)).
  assert (A : 0 <= a <= 1).
  { unfold a. rewrite <- minus_IZR. assert (0 < IZR (x1 - x0)) by (apply IZR_lt; lia). split.
    - apply Rmult_le_pos; [apply IZR_le; lia|]. left. apply Rinv_0_lt_compat; auto.
    - apply Rmult_le_reg_r with (IZR (x1 - x0)); auto. unfold Rdiv. rewrite Rmult_assoc, Rinv_l, Rmult_1_r, Rmult_1_l by lra.
      apply IZR_le. lia. }
  replace (y0 + (y1 - y0) * (IZR x - IZR x0) / IZR (x1 - x0)) with (y0 + (y1 - y0) * a) by (unfold a, Rdiv; ring).
  unfold Rmin, Rmax. destruct (Rle_dec y0 y1); nra.
Qed.
Lemma nth_last {A} (l : list A) d : l <> [] -> nth_error l (length l - 1) = Some (last l d).
Proof.
  induction l as [|a [|b l] IH]; intros H; [congruence|reflexivity|].
  change (nth_error (a :: b :: l) (length (b :: l)) = Some (last (b :: l) d)).
  rewrite <- IH by discriminate. simpl. rewrite Nat.sub_0_r. auto.
Qed.

(** Every point of the range lies between two successive source points. *)
Lemma bracket s : forall x, increasing s -> (2 <= length s)%nat -> (hd 0 s <= x <= last s 0)%Z ->
  exists i x0 x1, nth_error s i = Some x0 /\ nth_error s (S i) = Some x1 /\ (x0 <= x <= x1)%Z.
Proof.
  induction s as [|a [|b s] IH]; intros x I L H; simpl in L; try lia.
  destruct (Z.le_gt_cases x b).
  - exists 0%nat, a, b. simpl in H. split; auto. split; auto. lia.
  - destruct s as [|c s]. { simpl in H. lia. }
    destruct (IH x) as (i & x0 & x1 & A & B & C).
    + apply StronglySorted_inv in I. tauto.
    + simpl. lia.
    + change (last (a :: b :: c :: s) 0%Z) with (last (b :: c :: s) 0%Z) in H. simpl hd in *. lia.
    + exists (S i), x0, x1. auto.
Qed.
Lemma increasing_nth s i x0 x1 : increasing s -> nth_error s i = Some x0 -> nth_error s (S i) = Some x1 -> (x0 < x1)%Z.
Proof.
  revert i. induction s as [|a s IH]; intros [|i] I A B; try discriminate.
  - inversion A; subst. apply StronglySorted_inv in I. destruct I as [_ I].
    rewrite Forall_forall in I. apply I. apply (nth_error_In s 0). exact B.
  - apply StronglySorted_inv in I. destruct I as [I _]. apply (IH i); auto.
Qed.
Lemma linear_exact ex s v t w a b : increasing s -> conversion POINT_TIMESERIES ex s v t (Ok w) ->
  v = map (fun z => a * IZR z + b) s ->
  forall j x, nth_error t j = Some x -> (hd 0 s <= x <= last s 0)%Z -> nth_error w j = Some (a * IZR x + b).
Proof.
  intros I C E j x X H.
  destruct (conversion_facts _ _ _ _ _ _ C) as (_ & F & L).
  unfold fits in F. rewrite map_length in F.
  destruct (bracket s x I ltac:(lia) H) as (i & x0 & x1 & A & B & K).
  rewrite (interpolant ex s v t w I C i j x0 x1 (a * IZR x0 + b) (a * IZR x1 + b) x); auto.
  - f_equal. unfold line. rewrite minus_IZR. field.
    pose proof (increasing_nth s i x0 x1 I A B) as Q. apply IZR_lt in Q. lra.
  - subst v. apply (map_nth_error (fun z => a * IZR z + b)). auto.
  - subst v. apply (map_nth_error (fun z => a * IZR z + b)). auto.
Qed.

(** ** Extrapolation *)
Lemma hd_IZR s : s <> [] -> hd 0 (map IZR s) = IZR (hd 0%Z s).
Proof. destruct s; [congruence|auto]. Qed.

Lemma none_iff ty s v t r : timeseries ty -> increasing s -> increasing t -> belongs ty s v -> (3 <= length v)%nat ->
  (2 <= length t)%nat -> conversion ty XNONE s v t r ->
  ((exists x, In x t /\ ~ (hd 0 s <= x <= last s 0)%Z) <-> r = Err EInsufficientData) /\
  ((forall x, In x t -> (hd 0 s <= x <= last s 0)%Z) <-> exists w, r = Ok w).
Proof.
  intros T I J B L M C. pose proof (belongs_fits ty s v T B) as F.
  pose proof (conversion_eq _ _ _ _ _ _ C) as E.
  pose proof (incr_IZR _ I) as I'. pose proof (incr_IZR _ J) as J'.
  assert (M' : (2 <= length (map IZR t))%nat) by (rewrite map_length; auto).
  assert (N : s <> []) by apply B.
  assert (Eq : forall x, hd 0 (map IZR s) <= IZR x <= last (map IZR s) 0 <-> (hd 0 s <= x <= last s 0)%Z).
  { intros x. rewrite hd_IZR, last_IZR by auto. split; intros []; split; try (apply le_IZR; auto); apply IZR_le; auto. }
  destruct (convert_general ty XNONE _ _ v T F L I' J' M') as [(_ & (x & X & Bd) & Q)|(Bd & Q)];
    rewrite Q in E by auto; subst r.
  - apply in_map_iff in X. destruct X as (z & <- & Z). rewrite Eq in Bd. split.
    + split; auto. intros _. exists z. auto.
    + split; [intros H; exfalso; auto|]. intros (w & W). discriminate.
  - split.
    + split; [|discriminate]. intros (x & X & Nx). exfalso. apply Nx. apply Eq. apply Bd; auto. apply in_map; auto.
    + split; eauto. intros _ x X. apply Eq. apply Bd; auto. apply in_map; auto.
Qed.
Lemma others_succeed ty ex s v t r : timeseries ty -> increasing s -> increasing t -> belongs ty s v -> (3 <= length v)%nat ->
  (2 <= length t)%nat -> ex <> XNONE -> conversion ty ex s v t r -> exists w, r = Ok w.
Proof.
  intros T I J B L M X C. pose proof (belongs_fits ty s v T B) as F.
  pose proof (conversion_eq _ _ _ _ _ _ C) as E.
  pose proof (incr_IZR _ I) as I'. pose proof (incr_IZR _ J) as J'.
  assert (M' : (2 <= length (map IZR t))%nat) by (rewrite map_length; auto).
  destruct (convert_general ty ex _ _ v T F L I' J' M') as [(N & _)|(Bd & Q)]; [tauto|].
  rewrite Q in E by auto. eauto.
Qed.

(** Inside the range the extrapolation type does not matter. *)
Lemma inside_ex ty s v ex ex' : ts_type ty -> fits ty s v -> (3 <= length v)%nat -> incr s ->
  forall x, hd 0 s <= x <= last s 0 -> ip_val (rep_of ty ex s v) x = ip_val (rep_of ty ex' s v) x.
Proof.
  intros T F L I x H.
  destruct (rep_spec ty ex s v T F L I) as (_ & _ & Lo & Hi & _).
  destruct (rep_spec ty ex' s v T F L I) as (_ & _ & Lo' & Hi' & _).
  rewrite !ip_inside; auto. { rewrite Lo', Hi'; auto. } rewrite Lo, Hi; auto.
Qed.
Lemma inside_points ex ex' s v t w t' w' j j' x : increasing s ->
  conversion POINT_TIMESERIES ex s v t (Ok w) -> conversion POINT_TIMESERIES ex' s v t' (Ok w') ->
  nth_error t j = Some x -> nth_error t' j' = Some x -> (hd 0 s <= x <= last s 0)%Z -> nth_error w j = nth_error w' j'.
Proof.
  intros I C C' X X' H. destruct (conversion_facts _ _ _ _ _ _ C) as (T & F & L).
  rewrite (point_value _ _ _ _ _ _ _ C X), (point_value _ _ _ _ _ _ _ C' X'). f_equal.
  destruct (conversion_lens _ _ _ _ _ _ C) as [N _].
  apply inside_ex; auto. { apply incr_IZR; auto. } rewrite hd_IZR, last_IZR by auto. destruct H; split; apply IZR_le; auto.
Qed.
Lemma inside_averages ex ex' s v t w t' w' j j' l u : increasing s ->
  conversion AVERAGE_TIMESERIES ex s v t (Ok w) -> conversion AVERAGE_TIMESERIES ex' s v t' (Ok w') ->
  nth_error t j = Some l -> nth_error t (S j) = Some u -> nth_error t' j' = Some l -> nth_error t' (S j') = Some u ->
  (l < u)%Z -> (hd 0 s <= l)%Z -> (u <= last s 0)%Z -> nth_error w j = nth_error w' j'.
Proof.
  intros I C C' A B A' B' LU HL HU. destruct (conversion_facts _ _ _ _ _ _ C) as (T & F & L).
  rewrite (avg_value _ _ _ _ _ _ _ _ C A B), (avg_value _ _ _ _ _ _ _ _ C' A' B'). do 2 f_equal.
  destruct (conversion_lens _ _ _ _ _ _ C) as [N _].
  apply IZR_lt in LU. apply IZR_le in HL. apply IZR_le in HU.
  apply RInt_ext. intros x. rewrite Rmin_left, Rmax_right by lra. intros X.
  apply inside_ex; auto. { apply incr_IZR; auto. } rewrite hd_IZR, last_IZR by auto. lra.
Qed.

(** CONSTANT *)
Lemma constant_points s v t w j x : increasing s -> conversion POINT_TIMESERIES XCONSTANT s v t (Ok w) ->
  nth_error t j = Some x ->
  ((x < hd 0 s)%Z -> nth_error w j = Some (hd 0 v)) /\ ((last s 0 < x)%Z -> nth_error w j = Some (last v 0)).
Proof.
  intros I C X. destruct (conversion_facts _ _ _ _ _ _ C) as (T & F & L). destruct (conversion_lens _ _ _ _ _ _ C) as [N _].
  pose proof (incr_IZR _ I) as I'. rewrite (point_value _ _ _ _ _ _ _ C X). split; intros H; apply IZR_lt in H; f_equal.
  - apply const_left; auto. rewrite hd_IZR; auto.
  - apply const_right; auto. rewrite last_IZR; auto.
Qed.
Lemma constant_averages s v t w j l u : increasing s -> conversion AVERAGE_TIMESERIES XCONSTANT s v t (Ok w) ->
  nth_error t j = Some l -> nth_error t (S j) = Some u -> (l < u)%Z ->
  ((u <= hd 0 s)%Z -> nth_error w j = Some (hd 0 v)) /\ ((last s 0 <= l)%Z -> nth_error w j = Some (last v 0)).
Proof.
  intros I C A B LU. destruct (conversion_facts _ _ _ _ _ _ C) as (T & F & L). destruct (conversion_lens _ _ _ _ _ _ C) as [N _].
  pose proof (incr_IZR _ I) as I'. rewrite (avg_value _ _ _ _ _ _ _ _ C A B).
  apply IZR_lt in LU. split; intros H; apply IZR_le in H; f_equal; apply avg_const_on; auto; intros x X.
  - apply const_left; auto. rewrite hd_IZR by auto. lra.
  - apply const_right; auto. rewrite last_IZR by auto. lra.
Qed.
(** LINEAR *)
Lemma linear_points_left s0 s1 s y0 y1 v t w j x :
  conversion POINT_TIMESERIES XLINEAR (s0 :: s1 :: s) (y0 :: y1 :: v) t (Ok w) ->
  nth_error t j = Some x -> (x <= s1)%Z -> nth_error w j = Some (line s0 y0 s1 y1 (IZR x)).
Proof.
  intros C X H. rewrite (point_value _ _ _ _ _ _ _ C X). f_equal. rewrite line_lin. simpl map.
  apply point_linear_left. apply IZR_le; auto.
Qed.
Lemma linear_points_right s sp sl v yp yl t w j x : increasing (s ++ [sp; sl]) ->
  conversion POINT_TIMESERIES XLINEAR (s ++ [sp; sl]) (v ++ [yp; yl]) t (Ok w) ->
  nth_error t j = Some x -> (sp <= x)%Z -> nth_error w j = Some (line sp yp sl yl (IZR x)).
Proof.
  intros I C X H. destruct (conversion_facts _ _ _ _ _ _ C) as (T & F & L).
  rewrite (point_value _ _ _ _ _ _ _ C X). f_equal. rewrite line_lin.
  pose proof (incr_IZR _ I) as I'. rewrite map_app in *. apply point_linear_right; auto.
  - unfold fits in F. rewrite !app_length, map_length in F. rewrite map_length. simpl in F. lia.
  - apply IZR_le; auto.
Qed.
Lemma linear_averages_left s0 s1 s y0 y1 v t w j l u : increasing (s0 :: s1 :: s) ->
  conversion AVERAGE_TIMESERIES XLINEAR (s0 :: s1 :: s) (y0 :: y1 :: v) t (Ok w) ->
  nth_error t j = Some l -> nth_error t (S j) = Some u -> (l < u)%Z -> (u <= s0)%Z ->
  nth_error w j = Some (y0 + (y1 - y0) / IZR (s1 - s0) * ((IZR l + IZR u) / 2 - (IZR s0 + IZR s1) / 2)).
Proof.
  intros I C A B LU H. rewrite (avg_value _ _ _ _ _ _ _ _ C A B). f_equal.
  pose proof (incr_IZR _ I) as I'. simpl map in *. apply incr_cons in I'. destruct I' as [S01 _].
  apply IZR_lt in LU. apply IZR_le in H.
  rewrite (avg_lin_on _ _ _ (IZR s0) ((3 * y0 - y1) / 2) ((IZR s1 + IZR s0) / 2) y0); auto; try lra.
  - unfold lin. rewrite minus_IZR. field. lra.
  - intros x X. apply avg_linear_left; lra.
Qed.
Lemma linear_averages_right s sp sl v yp yl t w j l u : increasing (s ++ [sp; sl]) ->
  conversion AVERAGE_TIMESERIES XLINEAR (s ++ [sp; sl]) (v ++ [yp; yl]) t (Ok w) ->
  nth_error t j = Some l -> nth_error t (S j) = Some u -> (l < u)%Z -> (sl <= l)%Z ->
  nth_error w j = Some (yl + (yl - yp) / IZR (sl - sp) * ((IZR l + IZR u) / 2 - (IZR sp + IZR sl) / 2)).
Proof.
  intros I C A B LU H. rewrite (avg_value _ _ _ _ _ _ _ _ C A B). f_equal.
  destruct (conversion_facts _ _ _ _ _ _ C) as (T & F & L).
  pose proof (incr_IZR _ I) as I'. rewrite map_app in *. simpl map in *.
  pose proof (incr_app _ _ I') as [_ I2]. apply incr_cons in I2. destruct I2 as [S01 _].
  apply IZR_lt in LU. apply IZR_le in H.
  rewrite (avg_lin_on _ _ _ ((IZR sl + IZR sp) / 2) yl (IZR sl) ((3 * yl - yp) / 2)); auto; try lra.
  - unfold lin. rewrite minus_IZR. field. lra.
  - intros x X. apply avg_linear_right; auto; try lra.
    unfold fits in F. rewrite !app_length, map_length in F. rewrite map_length. simpl in F. lia.
Qed.

(** ** Lengths *)
Lemma result_length ty ex s v t w : conversion ty ex s v t (Ok w) -> belongs ty t w /\ timeseries ty.
Proof.
  intros C. destruct (conversion_lens _ _ _ _ _ _ C) as [_ N]. apply conversion_eq in C. symmetry in C.
  apply convert_len in C. rewrite map_length in C. unfold belongs, timeseries.
  destruct C as [[-> H]|[-> H]]; simpl; split; auto; split; auto; lia.
Qed.
Lemma declared_length ty ex s t c : timeseries_converter s t ty ex = Ok c -> timeseries ty ->
  source_length c = Z.of_nat (value_count ty s) /\ target_length c = Z.of_nat (value_count ty t).
Proof.
  intros C T. apply converter_eq in C. destruct C as (-> & L & N). unfold source_length, target_length, series_length.
  cbn [tc_type tc_source tc_target]. assert (length s <> 0)%nat by (destruct s; [congruence|discriminate]). destruct T as [-> | ->]; cbn [value_count]; split; lia.
Qed.

(** ** Linearity *)
Lemma lin_comb_lcomb a x b y : lin_comb a x b y = lcomb a b x y.
Proof. reflexivity. Qed.
Lemma lcomb_len a b x y : length x = length y -> length (lcomb a b x y) = length x.
Proof. intros Len. pose proof (LC_lcomb a b x y Len) as Q. apply LC_len in Q. tauto. Qed.
Lemma conversion_linear ty ex s x y t p q a b : increasing s ->
  conversion ty ex s x t (Ok p) -> conversion ty ex s y t (Ok q) ->
  conversion ty ex s (lin_comb a x b y) t (Ok (lin_comb a p b q)).
Proof.
  intros I C D.
  destruct (conversion_facts _ _ _ _ _ _ C) as (T & F & L). destruct (conversion_facts _ _ _ _ _ _ D) as (_ & F' & L').
  pose proof (conversion_other _ _ _ _ (lin_comb a x b y) _ _ C) as E.
  apply conversion_eq in C. apply conversion_eq in D. symmetry in C, D.
  assert (Len : length x = length y) by (unfold fits in *; destruct ty; lia).
  pose proof (incr_IZR _ I) as I'.
  rewrite (convert_success _ _ _ _ x _ p) in E; auto. 2: { rewrite lin_comb_lcomb. apply lcomb_len; auto. }
  rewrite !lin_comb_lcomb in *. rewrite sample_LC in E; auto.
  destruct (convert_result _ _ _ _ _ _ C) as (_ & _ & _ & ->). destruct (convert_result _ _ _ _ _ _ D) as (_ & _ & _ & ->).
  exact E.
Qed.
Lemma sample_one ty ex s t n : ts_type ty -> s <> [] -> (2 <= n)%nat -> incr t ->
  forall c, sample ty (ip_val (rep_of ty ex s (repeat c n))) t = repeat c (length (sample ty (ip_val (rep_of ty ex s (repeat c n))) t)).
Proof.
  intros T S N J c.
  assert (P : forall x, ip_val (rep_of ty ex s (repeat c n)) x = c) by (intros; apply rep_const; auto).
  destruct T as [-> | ->]; cbn [sample].
  - rewrite avgs_len. apply avgs_const; auto.
  - rewrite map_length. apply map_const; auto.
Qed.
Lemma fits_nonempty ty s v : ts_type ty -> fits ty s v -> (3 <= length v)%nat -> s <> [].
Proof. intros T F L E. subst. unfold fits in F. destruct T as [-> | ->]; simpl in F; lia. Qed.
Lemma conversion_constant ty ex s t c n w : increasing s -> increasing t -> conversion ty ex s (repeat c n) t (Ok w) ->
  w = repeat c (length w).
Proof.
  intros I J C. destruct (conversion_facts _ _ _ _ _ _ C) as (T & F & L). pose proof (fits_nonempty _ _ _ T F L) as S.
  rewrite repeat_length in L.
  apply conversion_eq in C. symmetry in C. destruct (convert_result _ _ _ _ _ _ C) as (_ & _ & _ & ->).
  pose proof (incr_IZR _ J) as J'. apply sample_one; auto. lia.
Qed.
Lemma lcomb_ones a b x : lcomb a b x (repeat 1 (length x)) = map (fun z => a * z + b) x.
Proof. induction x as [|z x IH]; auto. unfold lcomb in *. simpl. rewrite IH. f_equal. ring. Qed.
Lemma sample_len ty g h t : length (sample ty g t) = length (sample ty h t).
Proof. destruct ty; cbn [sample]; rewrite ?map_length, ?avgs_len; auto. Qed.
Lemma conversion_affine ty ex s x t p a b : increasing s -> increasing t -> conversion ty ex s x t (Ok p) ->
  conversion ty ex s (map (fun z => a * z + b) x) t (Ok (map (fun z => a * z + b) p)).
Proof.
  intros I J C. destruct (conversion_facts _ _ _ _ _ _ C) as (T & F & L). pose proof (fits_nonempty _ _ _ T F L) as S.
  pose proof (incr_IZR _ I) as I'. pose proof (incr_IZR _ J) as J'.
  pose proof (conversion_other _ _ _ _ (repeat 1 (length x)) _ _ C) as E.
  rewrite (convert_success _ _ _ _ x _ p) in E; auto. 3: apply repeat_length.
  2: { apply conversion_eq in C. auto. }
  rewrite sample_one in E by (auto; lia).
  assert (Lp : length p = length (sample ty (ip_val (rep_of ty ex (map IZR s) (repeat 1 (length x)))) (map IZR t))).
  { apply conversion_eq in C. symmetry in C. destruct (convert_result _ _ _ _ _ _ C) as (_ & _ & _ & ->). apply sample_len. }
  rewrite <- Lp in E.
  pose proof (conversion_linear ty ex s x _ t p _ a b I C E) as Q.
  rewrite !lin_comb_lcomb, !lcomb_ones in Q. exact Q.
Qed.

(** ** Resolution *)
Lemma increasing_scale k t : (0 < k)%Z -> increasing (map (Z.mul k) t) -> increasing t.
Proof.
  intros K. induction t as [|a t IH]; intros H; [constructor|]. simpl in H. apply StronglySorted_inv in H. destruct H as [H F].
  apply SSorted_cons; [exact (IH H)|]. rewrite Forall_forall in *. intros x X. specialize (F (k * x)%Z (in_map (Z.mul k) _ _ X)). nia.
Qed.
Lemma map_sc k t : map IZR (map (Z.mul k) t) = map (sc (IZR k)) (map IZR t).
Proof. rewrite !map_map. apply map_ext. intros x. unfold sc. apply mult_IZR. Qed.
Lemma scaled_conversion ty ex k s v t r : (0 < k)%Z -> increasing s -> increasing t -> (2 <= length t)%nat ->
  conversion ty ex s v t r -> conversion ty ex (map (Z.mul k) s) v (map (Z.mul k) t) r.
Proof.
  intros K I J M C. pose proof (conversion_eq _ _ _ _ _ _ C) as E.
  pose proof (incr_IZR _ I) as I'. pose proof (incr_IZR _ J) as J'.
  assert (Q : convert_R ty ex v (map IZR (map (Z.mul k) s)) (map IZR (map (Z.mul k) t)) = r).
  { subst r. rewrite !map_sc. apply convert_scale; auto. { apply IZR_lt; auto. } rewrite map_length. auto. }
  assert (W : forall s t c, timeseries_converter s t ty ex = Ok c ->
    timeseries_converter (map (Z.mul k) s) (map (Z.mul k) t) ty ex = Ok (mkTconv (map (Z.mul k) s) (map (Z.mul k) t) ty ex)).
  { clear - K. intros s t c. unfold timeseries_converter. destruct s as [|s0 s]; try discriminate.
    destruct t as [|t0 [|t1 t]]; try discriminate. simpl. destruct (Z.gtb_spec s0 t1); try discriminate. intros _.
    destruct (Z.gtb_spec (k * s0) (k * t1)); auto. nia. }
  destruct C as [(c & Cc & _)|(c & Cc & _)]; [left|right]; eexists; split; try (eapply W; eauto); auto.
Qed.
Lemma same_instants ty ex s v t r s' t' : increasing (instants s) -> increasing (instants t) -> (0 < tp_res s)%Z ->
  (0 < tp_res s')%Z -> (2 <= length (tp_ticks t))%nat ->
  tp_res s = tp_res t -> tp_res s' = tp_res t' -> instants s = instants s' -> instants t = instants t' ->
  tp_conversion ty ex s v t r -> tp_conversion ty ex s' v t' r.
Proof.
  unfold tp_conversion, instants. intros I J K K' M R R' S T C.
  assert (Up : conversion ty ex (map (Z.mul (tp_res s)) (tp_ticks s)) v (map (Z.mul (tp_res s)) (tp_ticks t)) r).
  { rewrite <- R in J. apply scaled_conversion; auto; apply (increasing_scale (tp_res s)); auto. }
  rewrite <- R in T. rewrite S, T, <- R' in Up.
  (* back from instants to the ticks of the other resolution *)
  pose proof (conversion_eq _ _ _ _ _ _ Up) as E.
  assert (I' : increasing (tp_ticks s')) by (eapply increasing_scale; [exact K'|]; rewrite <- S; auto).
  assert (J' : increasing (tp_ticks t')) by (eapply increasing_scale; [exact K'|]; rewrite R', <- T, R; auto).
  assert (M' : (2 <= length (tp_ticks t'))%nat).
  { assert (Q : length (map (Z.mul (tp_res s)) (tp_ticks t)) = length (map (Z.mul (tp_res t')) (tp_ticks t'))) by congruence.
    rewrite !map_length in Q. lia. }
  assert (Q : convert_R ty ex v (map IZR (tp_ticks s')) (map IZR (tp_ticks t')) = r).
  { rewrite E, !map_sc. symmetry. apply convert_scale.
    - apply IZR_lt; auto.
    - apply incr_IZR; auto.
    - apply incr_IZR; auto.
    - rewrite map_length. auto. }
  assert (W : forall s t c, timeseries_converter (map (Z.mul (tp_res s')) s) (map (Z.mul (tp_res s')) t) ty ex = Ok c ->
    timeseries_converter s t ty ex = Ok (mkTconv s t ty ex)).
  { clear - K'. intros s t c. unfold timeseries_converter. destruct s as [|s0 s]; try discriminate.
    destruct t as [|t0 [|t1 t]]; try discriminate. simpl. destruct (Z.gtb_spec (tp_res s' * s0) (tp_res s' * t1)); try discriminate. intros _.
    destruct (Z.gtb_spec s0 t1); auto. nia. }
  destruct Up as [(c & Cc & _)|(c & Cc & _)]; [left|right]; eexists; split; try (eapply W; eauto); auto.
Qed.

(** ** Years *)
Lemma leap_iff y : is_leap y <-> leap_year y = true.
Proof.
  unfold is_leap, leap_year.
  assert (D : forall k, (0 < k)%Z -> Z.divide k y <-> (y mod k =? 0)%Z = true).
  { intros k K. rewrite Z.eqb_eq. split; [intros H; apply Z.mod_divide; auto; lia|intros H; apply Z.mod_divide; auto; lia]. }
  rewrite (D 4%Z), (D 100%Z), (D 400%Z) by lia.
  destruct (Z.eqb_spec (y mod 4) 0), (Z.eqb_spec (y mod 100) 0), (Z.eqb_spec (y mod 400) 0); simpl;
    intuition; try discriminate; exfalso; Z.to_euclidean_division_equations; lia.
Qed.
Lemma calendar_eq cal : calendar cal -> forall y, cal y = np_year_seconds y.
Proof.
  intros [Z0 H]. apply calendar_unique; auto. intros y. destruct (H y) as [A B]. unfold year_length.
  destruct (leap_year y) eqn:E.
  - rewrite A by (apply leap_iff; auto). lia.
  - rewrite B; [lia|]. intros Q. apply leap_iff in Q. congruence.
Qed.
Lemma calendar_np : calendar np_year_seconds.
Proof.
  split; [reflexivity|]. intros y. rewrite np_year_succ. unfold year_length. split; intros H.
  - apply leap_iff in H. rewrite H. lia.
  - destruct (leap_year y) eqn:E; [|lia]. exfalso. apply H. apply leap_iff; auto.
Qed.
Lemma double_scaled y : double y -> 1 <= y < 9999 -> exists N, y = IZR N / IZR (2 ^ 52) /\ (2 ^ 52 <= N < 9999 * 2 ^ 52)%Z.
Proof.
  intros D B. apply generic_format_FLT in D. destruct (b64_scaled y D (proj1 B)) as (N & E). exists N. split; auto.
  assert (P : 0 < IZR (2 ^ 52)) by (apply IZR_lt; lia).
  assert (Q : IZR N = y * IZR (2 ^ 52)) by (rewrite E; field; lra).
  split.
  - apply le_IZR. rewrite Q. nra.
  - apply lt_IZR. rewrite Q, mult_IZR. nra.
Qed.
Lemma float_year cal y : calendar cal -> double y -> 1 <= y < 9999 ->
  exists Y sec, IZR Y <= y < IZR (Y + 1) /\ float_year_to_datetime y = Ok sec /\ (cal Y <= sec < cal (Y + 1))%Z /\
    (y = IZR Y -> sec = cal Y).
Proof.
  intros C D B. destruct (double_scaled y D B) as (N & E & HN). 
  pose proof (calendar_eq cal C) as Cal. pose proof (float_year_eq N HN) as F. rewrite <- E in F.
  pose proof (Z.mod_pos_bound N (2 ^ 52) ltac:(lia)) as M. pose proof (Z.div_mod N (2 ^ 52) ltac:(lia)) as DM.
  assert (P : 0 < IZR (2 ^ 52)) by (apply IZR_lt; lia).
  pose proof (seconds_bound _ _ (year_length_T (N / 2 ^ 52)) M) as SB.
  exists (N / 2 ^ 52)%Z. eexists. split; [|split; [exact F|split]].
  - rewrite E. split.
    + apply Rmult_le_reg_r with (IZR (2 ^ 52)); auto. unfold Rdiv. rewrite Rmult_assoc, Rinv_l, Rmult_1_r by lra.
      rewrite <- mult_IZR. apply IZR_le. lia.
    + apply Rmult_lt_reg_r with (IZR (2 ^ 52)); auto. unfold Rdiv. rewrite Rmult_assoc, Rinv_l, Rmult_1_r by lra.
      rewrite <- mult_IZR. apply IZR_lt. lia.
  - rewrite !Cal, np_year_succ. lia.
  - intros Ey. rewrite Cal.
    assert (Z0 : (N mod 2 ^ 52 = 0)%Z).
    { assert (Q : IZR N = IZR (N / 2 ^ 52 * 2 ^ 52)). { rewrite mult_IZR, <- Ey, E. field. lra. }
      apply eq_IZR in Q. lia. }
    rewrite Z0. unfold Rdiv. rewrite Rmult_0_l, Rmult_0_r, (b64_id_int 0) by lia. rewrite Ztrunc_IZR. lia.
Qed.
Lemma float_year_mono y y' a b : double y -> double y' -> 1 <= y < 9999 -> 1 <= y' < 9999 -> y <= y' ->
  float_year_to_datetime y = Ok a -> float_year_to_datetime y' = Ok b -> (a <= b)%Z.
Proof.
  intros D D' B B' L A A'.
  assert (Ok_inj : forall p q : Z, Ok p = Ok q -> p = q) by congruence.
  destruct (double_scaled y D B) as (N & E & HN). destruct (double_scaled y' D' B') as (N' & E' & HN').
  pose proof (float_year_eq N HN) as F. rewrite <- E, A in F. apply Ok_inj in F. rename F into Fa.
  pose proof (float_year_eq N' HN') as F. rewrite <- E', A' in F. apply Ok_inj in F. rename F into Fb.
  assert (P : 0 < IZR (2 ^ 52)) by (apply IZR_lt; lia).
  assert (NN : (N <= N')%Z).
  { apply le_IZR. apply Rmult_le_reg_r with (/ IZR (2 ^ 52)); [apply Rinv_0_lt_compat; auto|].
    fold (IZR N / IZR (2 ^ 52)) (IZR N' / IZR (2 ^ 52)). lra. }
  pose proof (Z.mod_pos_bound N (2 ^ 52) ltac:(lia)) as M. pose proof (Z.div_mod N (2 ^ 52) ltac:(lia)) as DM.
  pose proof (Z.mod_pos_bound N' (2 ^ 52) ltac:(lia)) as M'. pose proof (Z.div_mod N' (2 ^ 52) ltac:(lia)) as DM'.
  pose proof (seconds_bound _ _ (year_length_T (N / 2 ^ 52)) M) as SB.
  pose proof (seconds_bound _ _ (year_length_T (N' / 2 ^ 52)) M') as SB'.
  assert (Q : (N / 2 ^ 52 <= N' / 2 ^ 52)%Z) by (apply Z.div_le_mono; lia).
  destruct (Z.eq_dec (N / 2 ^ 52) (N' / 2 ^ 52)) as [Eq|Ne].
  - rewrite Eq in *. assert (R : (N mod 2 ^ 52 <= N' mod 2 ^ 52)%Z) by lia.
    pose proof (seconds_mono (86400 * year_length (N' / 2 ^ 52)) _ _ ltac:(pose proof (year_length_T (N' / 2 ^ 52)); lia) R) as SM.
    rewrite Fa, Fb. lia.
  - pose proof (np_year_mono (N / 2 ^ 52 + 1) (N' / 2 ^ 52) ltac:(lia)) as G. rewrite np_year_succ in G. lia.
Qed.
Lemma create_points st pd n a ty S P : from_timeseries_type a = Ok ty -> dt_ns st = (S * 1000000000)%Z ->
  dt_ns pd = (P * 1000000000)%Z ->
  let k := match ty with AVERAGE_TIMESERIES => (n + 1)%Z | _ => n end in
  (0 <= k)%Z -> (- 2 ^ 52 < S < 2 ^ 52)%Z -> (- 2 ^ 52 < S + (k - 1) * P < 2 ^ 52)%Z ->
  exists l, create_time_points st pd n a = Ok l /\ Z.of_nat (length l) = k /\
    forall i, (0 <= i < k)%Z -> nth_error l (Z.to_nat i) = Some (S + i * P)%Z.
Proof.
  intros E HS HP k K BS BE.
  change (match ty with AVERAGE_TIMESERIES => (n + 1)%Z | _ => n end) with (points_out ty n) in k.
  exists (map (fun i => (S + i * P)%Z) (zrange k)). split; [|split].
  - apply create_eq; auto; fold k; lia.
  - rewrite map_length, zrange_len. lia.
  - intros i I. apply (map_nth_error (fun i => (S + i * P)%Z)). apply zrange_nth. auto.
Qed.

(** ** Units *)
Lemma units_from ty ex s x t p (c : uconv) : increasing s -> increasing t -> conversion ty ex s x t (Ok p) ->
  conversion ty ex s (map (uconvert_from c) x) t (Ok (map (uconvert_from c) p)) /\
  conversion ty ex s (map (uconvert_to c) x) t (Ok (map (uconvert_to c) p)).
Proof.
  intros I J C. split.
  - rewrite !(map_ext (uconvert_from c) (fun z => uc_scaling c * z + uc_offset c)) by (intros; unfold uconvert_from; ring).
    apply conversion_affine; auto.
  - rewrite !(map_ext (uconvert_to c) (fun z => / uc_scaling c * z + - (uc_offset c / uc_scaling c)))
      by (intros; unfold uconvert_to, Rdiv; ring).
    apply conversion_affine; auto.
Qed.

(** ** Counterexamples *)
Lemma resolution_matters : let s := mkTP 1 [0; 86400; 172800; 259200]%Z in let t := mkTP 86400 [0; 1; 2; 3]%Z in
  let v := [0; 1; 2; 3] in
  instants s = instants t /\ increasing (instants s) /\
  tp_conversion POINT_TIMESERIES XLINEAR s v s (Ok v) /\
  exists w, tp_conversion POINT_TIMESERIES XLINEAR s v t (Ok w) /\ w <> v.
Proof.
  intros s t v.
  assert (I : increasing (tp_ticks s)) by (repeat constructor; simpl; lia).
  assert (It : increasing (tp_ticks t)) by (repeat constructor; simpl; lia).
  assert (Is : increasing (instants s)) by (repeat constructor; simpl; lia).
  assert (B : belongs POINT_TIMESERIES (tp_ticks s) v) by (split; [reflexivity|discriminate]).
  split; [reflexivity|]. split; auto. split.
  - destruct (same_grid POINT_TIMESERIES XLINEAR (tp_ticks s) v (or_intror eq_refl) I B) as (c & C & F & _); [simpl; lia|].
    left. exists c. auto.
  - assert (C : exists r, tp_conversion POINT_TIMESERIES XLINEAR s v t r).
    { eexists. left. eexists. split; [reflexivity|]. reflexivity. }
    destruct C as (r & C).
    destruct (others_succeed POINT_TIMESERIES XLINEAR (tp_ticks s) v (tp_ticks t) r) as (w & ->); auto.
    + right; auto.
    + simpl; lia.
    + simpl; lia.
    + discriminate.
    + exists w. split; auto. intros ->.
      pose proof (interpolant XLINEAR _ v _ v I C 0 1 0%Z 86400%Z 0 1 1%Z eq_refl eq_refl eq_refl eq_refl eq_refl ltac:(lia)) as Q.
      unfold line in Q. simpl in Q. inversion Q. lra.
Qed.
Lemma subsecond : create_time_points (mkDT 1000000000 0) (mkDT 1000000 400) 3 (AEnum POINT_TIMESERIES) = Ok [0; 0; 0]%Z.
Proof.
  unfold create_time_points. cbn [from_timeseries_type rbind].
  change (ns_to_s (dt_ns (mkDT 1000000000 0))) with 0%Z.
  change (ns_to_s (dt_ns (mkDT 1000000000 0) + (3 - 1) * dt_ns (mkDT 1000000 400))) with 0%Z.
  rewrite b64_id_int by lia. unfold linspace. change (3 <? 0)%Z with false. cbn [rbind].
  change (zrange 3) with [0; 1; 2]%Z. cbn [map].
  pose proof (fun i H => linspace_exact 0 0 3 i H ltac:(lia) ltac:(lia)) as Q. simpl Z.mul in Q. simpl Z.add in Q.
  rewrite !Q by lia. rewrite !Z.mul_0_r, !Ztrunc_IZR. reflexivity.
Qed.
Lemma year_9999 : double 9999 /\ float_year_to_datetime 9999 = Err EValueError.
Proof.
  split.
  - apply FLT_format_generic; [apply b64_prec|]. apply b64_int. lia.
  - unfold float_year_to_datetime. rewrite Ztrunc_IZR. reflexivity.
Qed.

Lemma line_facts x0 y0 x1 y1 x : (x0 < x1)%Z -> (x0 <= x <= x1)%Z ->
  line x0 y0 x1 y1 (IZR x0) = y0 /\ line x0 y0 x1 y1 (IZR x1) = y1 /\
  Rmin y0 y1 <= line x0 y0 x1 y1 (IZR x) <= Rmax y0 y1.
Proof.
  intros L B. split; [|split; [|apply line_between; auto]]; unfold line; rewrite minus_IZR; apply IZR_lt in L; field; lra.
Qed.
Lemma int_years cal ys : calendar cal -> format_int_years ys = map cal ys.
Proof. intros C. unfold format_int_years. apply map_ext. intros y. symmetry. apply calendar_eq; auto. Qed.
Lemma two_doubles : double 2017 /\ double (4035 / 2).
Proof.
  split; (apply FLT_format_generic; [apply b64_prec|]).
  - apply b64_int. lia.
  - replace (4035 / 2) with (F2R (Float radix2 4035 (-1))) by (unfold F2R; simpl; lra).
    apply b64_format; lia.
Qed.
Lemma none_from ty s v t :
  timeseries ty -> increasing s -> increasing t -> belongs ty s v -> (3 <= length v)%nat -> (2 <= length t)%nat ->
  ((exists x, In x t /\ ~ (hd 0 s <= x <= last s 0)%Z) <->
   rbind (timeseries_converter s t ty XNONE) (fun c => tconvert_from c v) = Err EInsufficientData).
Proof.
  intros T I J B L2 L. destruct (timeseries_converter s t ty XNONE) as [c|e] eqn:C.
  - cbn [rbind]. apply (none_iff ty s v t (tconvert_from c v)); auto. left. exists c. auto.
  - destruct s as [|s0 s']; [destruct B; congruence|]. destruct t as [|t0 [|t1 t']]; try (simpl in L; lia).
    unfold timeseries_converter in C. destruct (s0 >? t1)%Z eqn:G; [|discriminate].
    inversion C. split; [reflexivity|]. intros _. exists t0. split; [left; auto|].
    pose proof (increasing_nth _ 0 t0 t1 J eq_refl eq_refl). apply Z.gtb_lt in G. change (hd 0%Z (s0 :: s')) with s0. lia.
Qed.
