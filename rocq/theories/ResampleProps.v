(** Resampling data frames whose times are times of the rule.  (For C98.) *)
From Coq Require Import String Ascii List ZArith QArith Qcanon Reals Bool Lia Lra Sorted.
From Coquelicot Require Import Coquelicot.
From Verif Require Import Base ListFacts Units TimeModel TimeFacts TimeLin TimeConv TimeConv2 TimeConv3 TimeConv TimeProps Core Filters ParameterType Spec_Time Frame Spec_Frame FrameEdit FrameInterp Spec_Interp InterpProps ConvertProps RegridProps Calendar Civil CivilFacts Offsets OffsetsFacts Spec_Offsets OffsetsProps Spec_Resample.
Import ListNotations.
Local Open Scope string_scope.
Local Open Scope list_scope.
Local Open Scope Z_scope.

(** ** The times *)
Lemma range_exact D rule o start end_ : gregorian D -> to_offset rule = Ok o -> every o -> start <= end_ ->
  of_rule D o start start -> of_rule D o start end_ ->
  exists l, generate_range start end_ o = Ok l /\ increasing l /\ forall x, In x l <-> start <= x <= end_ /\ of_rule D o start x.
Proof.
  intros G T E L S F. destruct E as [(K & P)|(K & P)].
  - destruct o as [n| | | |]; try destruct K. cbn [stride] in P. destruct (range_ticks n start end_ P) as (l & X & Y & Z). exists l. auto.
  - pose proof (rule_anchored' rule o T K) as A.
    assert (RW : forall x, of_rule D o start x <-> exists j, x = slot o (second_of_day start) j).
    { intros x. rewrite <- (anchors_iff D o start x G A). destruct o; cbn [of_rule]; tauto. }
    apply RW in S as (a & S). apply RW in F as (b & F).
    rewrite stride_count in P. destruct (range_slots start end_ o A ltac:(lia)) as (i & j & k & B1 & B2 & H & B3 & B4).
    assert (C : second_of_day end_ = second_of_day start).
    { rewrite F. apply slot_sec; auto. apply Z.mod_pos_bound. lia. }
    rewrite C in *. set (s := second_of_day start) in *. rewrite P in *.
    exists (steps_from o s i k). split; [exact H|]. split; [apply (range_sorted o start end_ _ A); [rewrite stride_count; lia|exact H]|].
    assert (I : i = a).
    { assert (i <= a) by (apply (slot_le o s); auto; lia). assert (a < i + 1) by (apply (slot_lt o s); auto; lia). lia. }
    assert (J : j = b).
    { assert (b <= j) by (apply (slot_le o s); auto; lia). assert (j - 1 < b) by (apply (slot_lt o s); auto; lia). lia. }
    subst i j. intros x. rewrite in_steps, RW. split.
    + intros (n & N & ->). split; [|eauto]. rewrite P. split; [rewrite S at 1; apply slot_le; auto; lia|]. rewrite F. apply B3. lia.
    + intros (X & m & ->). exists (m - a). rewrite P. split; [|f_equal; lia].
      assert (a <= m) by (apply (slot_le o s); auto; lia). assert (m < a + Z.of_nat k * 1) by (apply (slot_lt o s); auto; lia). lia.
Qed.
Lemma hd_least t x : increasing t -> In x t -> hd 0 t <= x.
Proof. intros I X. destruct I as [|a l I F]; [destruct X|]. cbn. destruct X as [->|X]; [lia|]. rewrite Forall_forall in F. specialize (F x X). lia. Qed.
Lemma last_greatest t x : increasing t -> In x t -> x <= last t 0.
Proof.
  intros I X. induction I as [|a l I IH F]; [destruct X|]. destruct l as [|b l]; [destruct X as [->|[]]; cbn; lia|].
  change (last (a :: b :: l) 0) with (last (b :: l) 0). rewrite Forall_forall in F. destruct X as [->|X]; [|auto].
  specialize (F b (or_introl eq_refl)). assert (b <= last (b :: l) 0); [|lia].
  inversion I as [|? ? I' F']; subst. destruct l as [|c l]; [cbn; lia|]. assert (In (last (b :: c :: l) 0) (c :: l)) as LI.
  { change (last (b :: c :: l) 0) with (last (c :: l) 0). apply last_In. discriminate. }
  rewrite Forall_forall in F'. specialize (F' _ LI). lia.
Qed.
Lemma hd_of t x : increasing t -> In x t -> (forall y, In y t -> x <= y) -> hd 0 t = x.
Proof. intros I X M. pose proof (hd_least t x I X). assert (x <= hd 0 t); [|lia]. apply M. destruct t; [destruct X|now left]. Qed.
Lemma last_of t x : increasing t -> In x t -> (forall y, In y t -> y <= x) -> last t 0 = x.
Proof. intros I X M. pose proof (last_greatest t x I X). assert (last t 0 <= x); [|lia]. apply M. apply last_In. now intros ->. Qed.
Lemma prev_of t : increasing t -> (2 <= length t)%nat ->
  In (last (removelast t) 0) t /\ last (removelast t) 0 < last t 0 /\ forall y, In y t -> y < last t 0 -> y <= last (removelast t) 0.
Proof.
  intros I L. assert (N : t <> []) by (intros ->; cbn in L; lia). assert (N' : removelast t <> []).
  { intros K. rewrite (app_removelast_last 0 N), K in L. cbn in L. lia. }
  assert (SP : t = removelast t ++ [last t 0]) by now apply app_removelast_last.
  assert (I' : increasing (removelast t) /\ forall y, In y (removelast t) -> y < last t 0).
  { rewrite SP in I. revert I. generalize (removelast t) (last t 0). clear. intros l b. unfold increasing. induction l as [|a l IH]; intros I.
    - split; [constructor|intros y []].
    - cbn in I. apply StronglySorted_inv in I as (I & F). destruct (IH I) as (A & B). rewrite Forall_forall in F. split.
      + constructor; auto. apply Forall_forall. intros y Y. apply F. apply in_or_app. now left.
      + intros y [<-|Y]; auto. apply F. apply in_or_app. right. now left. }
  destruct I' as (IR & BR). pose proof (last_In 0 _ N') as LI. split; [rewrite SP at 2; apply in_or_app; now left|]. split; [now apply BR|].
  intros y Y B. rewrite SP in Y. apply in_app_or in Y as [Y|[Y|[]]]; [now apply last_greatest|lia].
Qed.

(** ** The totals *)
Lemma total_none a b t v : (forall u, In u t -> b <= u) -> increasing t -> total a b t v = 0%R.
Proof.
  revert v. induction t as [|u [|u' t] IH]; intros v M I; try reflexivity. destruct v as [|y v]; [reflexivity|].
  cbn [total]. assert (u < u') by (inversion I as [|? ? ? F]; subst; rewrite Forall_forall in F; apply F; now left).
  assert (K : (u' <=? b)%Z = false) by (apply Z.leb_gt; specialize (M u (or_introl eq_refl)); lia). rewrite K, Bool.andb_false_r.
  change (0 + total a b (u' :: t) v = 0)%R. rewrite IH; [lra|intros w W; apply M; now right|now inversion I].
Qed.
Lemma total_avgs (g : R -> R) a b t : (forall x y, ex_RInt g x y) -> increasing t -> In a t -> In b t -> a <= b ->
  total a b t (avgs g (map IZR t)) = RInt g (IZR a) (IZR b).
Proof.
  intros G. revert a. induction t as [|u t IH]; intros a I A B L; [destruct A|].
  destruct t as [|u' t].
  { destruct A as [<-|[]]. destruct B as [<-|[]]. change (0%R = RInt g (IZR u) (IZR u)). rewrite RInt_point. reflexivity. }
  assert (LU : u < u') by (inversion I as [|? ? ? F]; subst; rewrite Forall_forall in F; apply F; now left).
  assert (I' : increasing (u' :: t)) by (now inversion I).
  change (total a b (u :: u' :: t) (avgs g (map IZR (u :: u' :: t)))) with
    ((if (a <=? u)%Z && (u' <=? b)%Z then RInt g (IZR u) (IZR u') / (IZR u' - IZR u) * IZR (u' - u) else 0) + total a b (u' :: t) (avgs g (map IZR (u' :: t))))%R.
  destruct A as [->|A].
  - rewrite Z.leb_refl. destruct B as [->|B].
    + assert (K : (u' <=? b)%Z = false) by (apply Z.leb_gt; lia). rewrite K. cbn [andb].
      rewrite total_none; [rewrite RInt_point; unfold zero; cbn; lra| |exact I'].
      intros w W. pose proof (hd_least _ _ I' W) as Q. cbn in Q. lia.
    + assert (K : (u' <=? b)%Z = true) by (apply Z.leb_le; pose proof (hd_least _ _ I' B) as Q; cbn in Q; lia). rewrite K. cbn [andb].
      assert (UB : u' <= b) by (now apply Z.leb_le).
      assert (TT : total a b (u' :: t) (avgs g (map IZR (u' :: t))) = total u' b (u' :: t) (avgs g (map IZR (u' :: t)))).
      { assert (M : forall w, In w (u' :: t) -> u' <= w) by (intros w W; pose proof (hd_least _ _ I' W) as Q; exact Q).
        generalize (avgs g (map IZR (u' :: t))). revert M LU. generalize (u' :: t) as l. clear. induction l as [|x [|x' l] IHl]; intros M LU v; try reflexivity.
        destruct v as [|y v]; [reflexivity|]. change ((if (a <=? x)%Z && (x' <=? b)%Z then y * IZR (x' - x) else 0) + total a b (x' :: l) v = (if (u' <=? x)%Z && (x' <=? b)%Z then y * IZR (x' - x) else 0) + total u' b (x' :: l) v)%R.
        rewrite IHl; auto; [|intros w W; apply M; now right].
        assert (X : u' <= x) by (apply M; now left). assert (K1 : (a <=? x)%Z = true) by (apply Z.leb_le; lia). assert (K2 : (u' <=? x)%Z = true) by (now apply Z.leb_le).
        rewrite K1, K2. reflexivity. }
      rewrite TT. rewrite (IH u' I' (or_introl eq_refl) B UB). rewrite <- (RInt_Chasles g (IZR a) (IZR u') (IZR b)) by auto.
      unfold plus. cbn. rewrite minus_IZR. assert (IZR a < IZR u')%R by (apply IZR_lt; exact LU). field. lra.
  - assert (K : (a <=? u)%Z = false) by (apply Z.leb_gt; pose proof (hd_least _ _ I' A) as Q; cbn in Q; lia). rewrite K. cbn [andb].
    assert (B' : In b (u' :: t)) by (destruct B as [->|B]; [exfalso; pose proof (hd_least _ _ I' A) as Q; cbn in Q; lia|exact B]).
    rewrite (IH a I' A B' L). lra.
Qed.
Lemma period_in {A} (s : list A) : forall (v : list R) i a b x, nth_error s i = Some a -> nth_error s (Datatypes.S i) = Some b -> nth_error v i = Some x ->
  exists s1 s2, s = s1 ++ a :: b :: s2 /\ length s1 = i.
Proof.
  induction s as [|c s IH]; intros v i a b x P Q V; [destruct i; discriminate|]. destruct i as [|i].
  - cbn in P. injection P as ->. destruct s as [|d s]; [discriminate|]. cbn in Q. injection Q as ->. exists [], s. auto.
  - destruct v as [|y v]; [destruct i; discriminate|]. destruct (IH v i a b x P Q V) as (s1 & s2 & -> & E). exists (c :: s1), s2. cbn. auto.
Qed.
Lemma subtotal ex s v t w a b x i : increasing s -> increasing t -> conversion AVERAGE_TIMESERIES ex s v t (Ok w) ->
  nth_error s i = Some a -> nth_error s (Datatypes.S i) = Some b -> nth_error v i = Some x -> In a t -> In b t ->
  total a b t w = (x * IZR (b - a))%R.
Proof.
  intros I J C P Q V TA TB. pose proof (conversion_eq _ _ _ _ _ _ C) as E. symmetry in E. destruct (convert_result _ _ _ _ _ _ E) as (TT & F & L3 & ->).
  cbn [sample]. set (g := ip_val (rep_of AVERAGE_TIMESERIES ex (map IZR s) v)) in *. pose proof (incr_IZR _ I) as I'.
  assert (LT : a < b) by (destruct (period_in s v i a b x P Q V) as (s1 & s2 & -> & _); clear -I; induction s1 as [|c s1 IH]; cbn in I; apply StronglySorted_inv in I as (I1 & I2); [rewrite Forall_forall in I2; apply I2; now left|auto]).
  destruct (rep_spec AVERAGE_TIMESERIES ex (map IZR s) v TT F L3 I') as (_ & IK & Lo & Hi & LH).
  assert (G : forall u y, ex_RInt g u y) by (apply ip_ex_RInt; auto).
  rewrite (total_avgs g a b t G J TA TB) by lia.
  assert (D : convert_R AVERAGE_TIMESERIES ex v (map IZR s) (map IZR s) = Ok v) by (apply avg_id; auto).
  destruct (convert_result _ _ _ _ _ _ D) as (_ & _ & _ & D'). cbn [sample] in D'. fold g in D'.
  assert (LTR : (IZR a < IZR b)%R) by (now apply IZR_lt).
  assert (CS : conversion AVERAGE_TIMESERIES ex s v s (Ok v)).
  { left. exists (mkTconv s s AVERAGE_TIMESERIES ex). split; [|exact D]. apply make_converter_start; auto; [intros ->; destruct i; discriminate|destruct s as [|? [|? ?]]; cbn; try lia; destruct i as [|[|?]]; discriminate|lia]. }
  pose proof (avg_value ex s v s v i a b CS P Q) as AV. fold g in AV. rewrite V in AV. injection AV as ->. rewrite minus_IZR.
  generalize (RInt g (IZR a) (IZR b) : R). intros q. cbn in q. unfold Rdiv. rewrite Rmult_assoc, Rinv_l by lra. symmetry. apply Rmult_1_r.
Qed.

(** ** Frames *)
Section Frames.
Variables (D : Z -> Z -> Z -> Z) (env : uenv) (ex : extrapolation) (rule : string) (o : offset) (f : frame).
Hypothesis GR : gregorian D.
Hypothesis RU : to_offset rule = Ok o.
Hypothesis EV : every o.
Hypothesis IT : increasing (fr_times f).
Hypothesis L3 : (3 <= length (fr_times f))%nat.
Hypothesis ON : forall x, In x (fr_times f) -> of_rule D o (hd 0 (fr_times f)) x.

Lemma new_times : exists ts, (forall shared, resample env shared rule ex f = interpolate env shared ts ex f) /\ increasing ts /\
  (forall x, In x ts <-> hd 0 (fr_times f) <= x <= last (fr_times f) 0 /\ of_rule D o (hd 0 (fr_times f)) x) /\
  incl (fr_times f) ts /\ hd 0 ts = hd 0 (fr_times f) /\ last ts 0 = last (fr_times f) 0 /\ (length (fr_times f) <= length ts)%nat.
Proof.
  assert (N : fr_times f <> []) by (intros K; rewrite K in L3; cbn in L3; lia).
  assert (HI : In (hd 0 (fr_times f)) (fr_times f)) by (destruct (fr_times f); [congruence|now left]).
  assert (LI : In (last (fr_times f) 0) (fr_times f)) by now apply last_In.
  destruct (range_exact D rule o (hd 0 (fr_times f)) (last (fr_times f) 0) GR RU EV (hd_least _ _ IT LI) (ON _ HI) (ON _ LI)) as (ts & R & I & M).
  exists ts. assert (IN : incl (fr_times f) ts).
  { intros x X. apply M. split; [split; [now apply hd_least|now apply last_greatest]|now apply ON]. }
  split; [|split; [exact I|split; [exact M|split; [exact IN|split; [|split]]]]].
  - intros shared. unfold resample. destruct (fr_times f) as [|t0 t] eqn:E; [congruence|]. rewrite RU. cbn [rbind]. cbn [hd] in R.
    assert (LE : last (t0 :: t) t0 = last (t0 :: t) 0) by (clear; revert t0; assert (X : forall d e (l : list Z) a, last (a :: l) d = last (a :: l) e) by (intros d e l; induction l as [|b l IH]; intros a; [reflexivity|exact (IH b)]); intros; apply X).
    rewrite LE, R. reflexivity.
  - apply hd_of; [exact I|now apply IN|]. intros y Y. apply M in Y. tauto.
  - apply last_of; [exact I|now apply IN|]. intros y Y. apply M in Y. tauto.
  - apply NoDup_incl_length; [now apply incr_nodup|exact IN].
Qed.

Hypothesis AL : aligned f.
Hypothesis NN : forall l vs, In (l, vs) (fr_data f) -> ~ In None vs.

Lemma resample_points : one_type env f POINT_TIMESERIES -> exists g h, resample env true rule ex f = Ok g /\
  increasing (fr_times g) /\ (forall x, In x (fr_times g) <-> hd 0 (fr_times f) <= x <= last (fr_times f) 0 /\ of_rule D o (hd 0 (fr_times f)) x) /\
  map fst (fr_data g) = map fst (fr_data f) /\
  (forall l c v, c <> "parameter_type" -> (meta_of g l c v <-> meta_of f l c v)) /\
  (forall l vs ws, In (l, vs) (fr_data f) -> In (l, ws) (fr_data g) -> forall i j x0 x1 y0 y1 x,
    nth_error (fr_times f) i = Some x0 -> nth_error (fr_times f) (Datatypes.S i) = Some x1 -> nth_error vs i = Some (Some y0) -> nth_error vs (Datatypes.S i) = Some (Some y1) ->
    nth_error (fr_times g) j = Some x -> x0 <= x <= x1 -> nth_error ws j = Some (Some (line x0 y0 x1 y1 (IZR x)))) /\
  interpolate env true (fr_times f) ex g = Ok h /\ fr_times h = fr_times f /\ fr_data h = fr_data f /\
  (forall l c v, c <> "parameter_type" -> (meta_of h l c v <-> meta_of f l c v)).
Proof.
  intros OT. destruct new_times as (ts & RS & I & M & IN & H1 & H2 & LL).
  destruct (more_times env ex f POINT_TIMESERIES ts AL (or_intror eq_refl) OT IT L3 NN I IN H1 H2) as (g & h & G & H & TG & TH & DH & MH).
  exists g, h. rewrite RS. split; [exact G|]. rewrite TG. split; [exact I|]. split; [exact M|].
  destruct (interp_converts env true ts ex f g AL G) as (A1 & A2 & A3 & _ & A5 & A6 & _). split; [exact A3|]. split; [exact A5|].
  split; [|auto]. intros l vs ws V W i j x0 x1 y0 y1 x P Q Y0 Y1 X B.
  destruct (A6 l vs POINT_TIMESERIES V) as (xs & w & -> & (c & C & F) & _ & J & _); [apply (proj1 OT); apply in_map_iff; now exists (l, vs)|discriminate|].
  assert (ws = map Some w) by (exact (data_fun g l ws _ A1 W J)). subst ws. cbn [grid] in *.
  assert (SY : forall k y, nth_error (map (@Some R) xs) k = Some (Some y) -> nth_error xs k = Some y).
  { intros k y K. rewrite nth_error_map in K. destruct (nth_error xs k); [|discriminate]. now injection K as ->. }
  apply map_nth_error. apply (interpolant ex (fr_times f) xs ts w IT) with (i := i); auto. left. exists c. auto.
Qed.

Lemma resample_averages : one_type env f AVERAGE_TIMESERIES -> exists g, resample env true rule ex f = Ok g /\
  increasing (fr_times g) /\ (forall x, In x (fr_times g) <-> hd 0 (fr_times f) <= x <= last (fr_times f) 0 /\ of_rule D o (hd 0 (fr_times f)) x) /\
  map fst (fr_data g) = map fst (fr_data f) /\
  (forall l c v, c <> "parameter_type" -> (meta_of g l c v <-> meta_of f l c v)) /\
  (forall l vs ws, In (l, vs) (fr_data f) -> In (l, ws) (fr_data g) -> exists w, ws = map Some w /\ length w = length (fr_times g) /\ forall i a b x,
    nth_error (fr_times f) i = Some a -> nth_error (fr_times f) (Datatypes.S i) = Some b -> nth_error vs i = Some (Some x) ->
    total a b (fr_times g) w = (x * IZR (b - a))%R) /\
  ((forall x, last (removelast (fr_times f)) 0 < x < last (fr_times f) 0 -> ~ of_rule D o (hd 0 (fr_times f)) x) ->
    exists h, interpolate env true (fr_times f) ex g = Ok h /\ fr_times h = fr_times f /\ fr_data h = fr_data f /\
    (forall l c v, c <> "parameter_type" -> (meta_of h l c v <-> meta_of f l c v))).
Proof.
  intros OT. destruct new_times as (ts & RS & I & M & IN & H1 & H2 & LL). pose proof OT as (TY & SP).
  destruct (prev_of (fr_times f) IT ltac:(lia)) as (P1 & P2 & P3). destruct (prev_of ts I ltac:(lia)) as (Q1 & Q2 & Q3).
  assert (PL : last (removelast (fr_times f)) 0 <= last (removelast ts) 0) by (apply Q3; [now apply IN|lia]).
  assert (TP : timeseries AVERAGE_TIMESERIES) by (now left).
  assert (RG : forall l vs, In (l, vs) (fr_data f) -> exists xs w, vs = map Some xs /\ regridded AVERAGE_TIMESERIES ex (grid AVERAGE_TIMESERIES (fr_times f)) xs (grid AVERAGE_TIMESERIES ts) w).
  { intros l vs V. destruct (present vs (NN l vs V)) as (xs & ->). exists xs. pose proof (values_length f l _ AL V) as VL. rewrite map_length in VL.
    assert (B : belongs AVERAGE_TIMESERIES (closed (fr_times f)) xs) by (apply (grid_belongs AVERAGE_TIMESERIES); auto; lia).
    eexists. split; [reflexivity|]. exists (mkTconv (closed (fr_times f)) (closed ts) AVERAGE_TIMESERIES ex). split.
    - cbn [grid]. apply make_converter_start.
      + now apply closed_increasing.
      + apply B.
      + rewrite closed_length by lia. lia.
      + pose proof (grid_hd AVERAGE_TIMESERIES (fr_times f) TP ltac:(lia)) as E1. pose proof (grid_hd AVERAGE_TIMESERIES ts TP ltac:(lia)) as E2. cbn [grid] in *. lia.
    - unfold tconvert_from. cbn [tc_type tc_extra tc_source tc_target]. apply TimeConv2.convert_ok; [now left|apply belongs_fits; auto|lia|apply incr_IZR; now apply closed_increasing|apply incr_IZR; now apply closed_increasing|].
      intros _ x X. apply in_map_iff in X as (z & <- & X).
      assert (NC : closed (fr_times f) <> []) by apply B.
      rewrite last_IZR by exact NC. assert (HC : hd 0%R (map IZR (closed (fr_times f))) = IZR (hd 0 (closed (fr_times f)))) by (destruct (closed (fr_times f)); [congruence|reflexivity]).
      rewrite HC. pose proof (grid_hd AVERAGE_TIMESERIES (fr_times f) TP ltac:(lia)) as E1. cbn [grid] in E1. rewrite E1.
      rewrite (closed_hd (fr_times f)) by lia. rewrite last_last. rewrite closed_hd in X by lia.
      apply in_app_or in X as [X|[<-|[]]].
      + apply M in X. split; apply IZR_le; lia.
      + assert (hd 0 ts <= last (removelast ts) 0) by (apply hd_least; auto). split; apply IZR_le; lia. }
  destruct (interp_accepts env ts ex f AVERAGE_TIMESERIES AL TP TY SP) as (g & G); [intros _; lia|exact RG|].
  exists g. rewrite RS. split; [exact G|]. destruct (interp_converts env true ts ex f g AL G) as (A1 & A2 & A3 & _ & A5 & A6 & _). rewrite A2.
  split; [exact I|]. split; [exact M|]. split; [exact A3|]. split; [exact A5|]. split.
  - intros l vs ws V W.
    destruct (A6 l vs AVERAGE_TIMESERIES V) as (xs & w & -> & (c & C & F) & LW & J & _); [apply TY; apply in_map_iff; now exists (l, vs)|discriminate|].
    exists w. split; [exact (data_fun g l ws _ A1 W J)|]. split; [exact LW|]. intros i a b x P Q X.
    assert (SX : nth_error xs i = Some x) by (rewrite nth_error_map in X; destruct (nth_error xs i); [now injection X as ->|discriminate]).
    assert (IA : In a (fr_times f)) by (now apply nth_error_In in P). assert (IB : In b (fr_times f)) by (now apply nth_error_In in Q).
    cbn [grid] in *. assert (NE : forall k z, nth_error (fr_times f) k = Some z -> nth_error (closed (fr_times f)) k = Some z).
    { intros k z K. rewrite closed_hd by lia. rewrite nth_error_app1; [exact K|]. apply nth_error_Some. congruence. }
    assert (T : total a b (closed ts) w = (x * IZR (b - a))%R).
    { apply (subtotal ex (closed (fr_times f)) xs (closed ts) w a b x i); [now apply closed_increasing|now apply closed_increasing|left; exists c; auto|now apply NE|now apply NE|exact SX| |];
        rewrite closed_hd by lia; apply in_or_app; left; now apply IN. }
    rewrite <- T. rewrite closed_hd by lia. assert (BL : b <= last ts 0) by (apply last_greatest; auto).
    assert (NT : ts <> []) by (intros ->; cbn in LL; lia). clear -BL Q2 NT. set (z := 2 * last ts 0 - last (removelast ts) 0). assert (Z1 : b < z) by (unfold z; lia). clearbody z. clear Q2 BL.
    revert w. induction ts as [|u ts IH]; intros w; [congruence|]. destruct ts as [|u' ts].
    + cbn [app total]. destruct w as [|y w]; [reflexivity|]. assert (K : (z <=? b)%Z = false) by (apply Z.leb_gt; lia). rewrite K, Bool.andb_false_r. destruct w; cbn; lra.
    + destruct w as [|y w]; [reflexivity|].
      change ((if (a <=? u) && (u' <=? b) then y * IZR (u' - u) else 0) + total a b (u' :: ts) w = (if (a <=? u) && (u' <=? b) then y * IZR (u' - u) else 0) + total a b ((u' :: ts) ++ [z]) w)%R.
      rewrite <- IH by discriminate. reflexivity.
  - intros GAP. assert (EQ : last (removelast ts) 0 = last (removelast (fr_times f)) 0).
    { destruct (Z_le_lt_eq_dec _ _ PL) as [LT|E]; [|auto]. exfalso. apply (GAP (last (removelast ts) 0)); [lia|]. now apply M. }
    destruct (more_times env ex f AVERAGE_TIMESERIES ts AL TP OT IT L3 NN I IN H1) as (g' & h & G' & H & TG & TH & DH & MH).
    { cbn [grid]. rewrite !closed_hd by lia. rewrite !last_last. lia. }
    rewrite G in G'. injection G' as <-. exists h. auto.
Qed.
End Frames.

(** The data points of a frame of points are among those of the resampled frame. *)
Lemma resample_kept D env ex rule o f g : gregorian D -> to_offset rule = Ok o -> every o -> increasing (fr_times f) -> (3 <= length (fr_times f))%nat ->
  (forall x, In x (fr_times f) -> of_rule D o (hd 0 (fr_times f)) x) -> aligned f -> (forall l vs, In (l, vs) (fr_data f) -> ~ In None vs) ->
  one_type env f POINT_TIMESERIES -> resample env true rule ex f = Ok g ->
  forall l vs ws t y, In (l, vs) (fr_data f) -> In (l, ws) (fr_data g) -> In (t, y) (combine (fr_times f) vs) -> In (t, y) (combine (fr_times g) ws).
Proof.
  intros GR RU EV IT L3 ON AL NN OT H l vs ws t y V W K.
  destruct (resample_points D env ex rule o f GR RU EV IT L3 ON AL NN OT) as (g' & h & G & I & M & _ & _ & LN & _). rewrite H in G. injection G as <-.
  assert (IT' : In t (fr_times g)).
  { apply in_combine_l in K. apply M. split; [split; [now apply hd_least|now apply last_greatest]|now apply ON]. }
  destruct (present vs (NN l vs V)) as (xs & ->). pose proof (values_length f l _ AL V) as VL. rewrite map_length in VL.
  apply In_nth_error in IT' as (j & J). assert (N : exists i, nth_error (fr_times f) i = Some t /\ nth_error (map (@Some R) xs) i = Some y).
  { clear -K. revert K. generalize (map (@Some R) xs). generalize (fr_times f). induction l as [|a l IH]; intros [|b m] K; try destruct K.
    - injection H as -> ->. exists O. auto.
    - destruct (IH m H) as (i & P & Q). exists (Datatypes.S i). auto. }
  destruct N as (i & P & Q). assert (exists y0, y = Some y0 /\ nth_error xs i = Some y0) as (y0 & -> & Q').
  { rewrite nth_error_map in Q. destruct (nth_error xs i) as [r|]; [|discriminate]. injection Q as <-. eauto. }
  assert (WJ : nth_error ws j = Some (Some y0)).
  { assert (LI : (i < length (fr_times f))%nat) by (apply nth_error_Some; congruence).
    destruct (Nat.eq_dec (Datatypes.S i) (length (fr_times f))) as [E|E].
    - destruct i as [|i]; [lia|]. destruct (nth_error (fr_times f) i) as [x0|] eqn:P0; [|apply nth_error_None in P0; lia].
      destruct (nth_error xs i) as [z|] eqn:Z0; [|apply nth_error_None in Z0; lia].
      assert (LT : x0 < t).
      { destruct (period_in (fr_times f) xs i x0 t z P0 P Z0) as (s1 & s2 & E' & _). clear -IT E'. rewrite E' in IT. clear E'. induction s1 as [|c s1 IH]; cbn in IT; apply StronglySorted_inv in IT as (I1 & I2); [rewrite Forall_forall in I2; apply I2; now left|auto]. }
      rewrite (LN l _ ws V W i j x0 t z y0 t P0 P); [|now apply map_nth_error|exact Q|exact J|lia]. do 2 f_equal.
      destruct (line_facts x0 z t y0 t LT ltac:(lia)) as (_ & X & _). exact X.
    - destruct (nth_error (fr_times f) (Datatypes.S i)) as [x1|] eqn:P1; [|apply nth_error_None in P1; lia].
      destruct (nth_error xs (Datatypes.S i)) as [z|] eqn:Z1; [|apply nth_error_None in Z1; lia].
      assert (LT : t < x1).
      { destruct (period_in (fr_times f) xs i t x1 y0 P P1 Q') as (s1 & s2 & E' & _). clear -IT E'. rewrite E' in IT. clear E'. induction s1 as [|c s1 IH]; cbn in IT; apply StronglySorted_inv in IT as (I1 & I2); [rewrite Forall_forall in I2; apply I2; now left|auto]. }
      rewrite (LN l _ ws V W i j t x1 y0 z t P P1 Q); [|now apply map_nth_error|exact J|lia]. do 2 f_equal.
      destruct (line_facts t y0 x1 z t LT ltac:(lia)) as (X & _). exact X. }
  clear -J WJ. revert ws j J WJ. induction (fr_times g) as [|a l IH]; intros [|b m] [|j] J WJ; try discriminate; cbn in *.
  - injection J as ->. injection WJ as ->. now left.
  - right. eauto.
Qed.
