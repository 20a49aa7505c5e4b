(** C59: reference periods.  C67: statistics over metadata.
    Vocabulary: [Spec_Frame.v], [Spec_Append.v], [Spec_Wide.v]. *)
From Coq Require Import String Ascii List ZArith QArith Qcanon Reals Bool Lia Lra Permutation Sorted.
From Verif Require Import Base Core Filters Frame Spec_Frame Spec_Append FrameAppend AppendProps FrameWide Spec_Wide WideProps RefProps Prop_Frame.
Import ListNotations.
Local Open Scope string_scope.
Local Open Scope list_scope.

(** ** C59 *)

(** [y] is a timeseries of the result, [x] the one it comes from, [r] the part of [x] in the reference
    period.  Without data in the reference period nothing is left; otherwise the mean of [r] was
    subtracted everywhere (so differences within the timeseries are as before), and the mean of [y] at the
    times of [r] is zero.  The result contains nothing else. *)
Theorem C59_centres append keep rx hn filters f g : aligned f -> relative_to_ref_period_mean append keep rx hn filters f = Ok g ->
  exists s a, (forall s', append = Some s' -> s = s') /\ fr_filter keep rx hn filters f = Ok a /\
  aligned g /\ fr_times g = fr_times f /\ fr_cols g = fr_cols f /\
  (forall pt, In pt (points g) -> exists k, fst (fst pt) = suffixed s k) /\
  forall k, let x := track (points f) k in let r := track (points a) k in let y := track (points g) (suffixed s k) in
    (r = [] -> y = []) /\
    (r <> [] -> y = map (fun p => (fst p, (snd p - mean (map snd r))%R)) x /\
      mean (map snd (filter (fun p => if in_dec Z.eq_dec (fst p) (map fst r) then true else false) y)) = 0%R).
Proof. intros A H. destruct (relative_ok append keep rx hn filters f g A H) as (s & a & X1 & _ & X2). exists s, a. split; auto. Qed.
Print Assumptions C59_centres.

(** There is a result if a suffix is given, the timeseries are distinct, no metadata are missing, and the
    reference period contains data. *)
Theorem C59_accepts s keep rx hn filters f a : aligned f -> unique_rows (map snd (fr_meta f)) -> fr_filter keep rx hn filters f = Ok a -> points a <> [] ->
  (forall l c v, meta_of f l c v -> v <> MNaN /\ v <> MNone) -> (forall l v, meta_of f l "variable" v -> exists x, v = MStr x) ->
  exists g, relative_to_ref_period_mean (Some s) keep rx hn filters f = Ok g.
Proof. exact (relative_accepts s keep rx hn filters f a). Qed.
Print Assumptions C59_accepts.

Example C59_case : aligned case_frame /\ exists g,
  relative_to_ref_period_mean None true false true [("year", Many [PInt 2005; PInt 2010]%Z)] case_frame = Ok g /\
  let m := ((1 + (6 + 0)) / INR 2)%R in
  track (points g) (combine case_cols (case_row "Primary Energy (ref. period year: 2005 - 2010)" "EJ/yr")) =
    [(1104537600%Z, (1 - m)%R); (1262304000%Z, (6 - m)%R); (1420070400%Z, (7 - m)%R)].
Proof. split; [apply C48_case|]. eexists. split; [cbv; reflexivity|]. cbv. reflexivity. Qed.

(** Without [append_str] (the default) a reference period given by one number never works. *)
Theorem C59_default_refuted keep rx hn c y more f g : relative_to_ref_period_mean None keep rx hn ((c, One (PInt y)) :: more) f <> Ok g.
Proof.
  unfold relative_to_ref_period_mean. intros H. apply FrameFilter.rbind_ok in H as (ts & _ & H). apply FrameFilter.rbind_ok in H as (a & _ & H). apply FrameFilter.rbind_ok in H as (ref & _ & H).
  destruct (existsb _ ts); [discriminate|]. destruct ref; [discriminate|]. discriminate.
Qed.
Print Assumptions C59_default_refuted.
Example C59_default_case : (exists a, fr_filter true false true [("year", One (PInt 2005))] case_frame = Ok a /\ length (points a) = 2%nat) /\
  exists g, relative_to_ref_period_mean (Some "x") true false true [("year", One (PInt 2005))] case_frame = Ok g.
Proof. split; [eexists; split; [vm_compute; reflexivity|reflexivity]|]. eexists. vm_compute. reflexivity. Qed.

(** ** C67 *)

(** The result has the columns that were not processed over; its rows are distinct; and where these
    columns are not missing, the value at each time is the statistic of all values in the frame with the
    same metadata in these columns (nothing, if there are none). *)
Theorem C67_statistics cols op f g : aligned f -> NoDup (fr_times f) -> process_over cols op f = Ok g ->
  fr_times g = fr_times f /\ (forall c, In c (fr_cols g) <-> In c (fr_cols f) /\ ~ In c cols) /\
  NoDup (map fst (fr_data g)) /\ map fst (fr_data g) = map fst (fr_meta g) /\ NoDup (map snd (fr_meta g)) /\
  forall k t, ~ In MNaN k -> ~ In MNone k ->
    match values_at (fr_cols g) (points f) k t with
    | [] => values_at (fr_cols g) (points g) k t = []
    | xs => exists m, values_at (fr_cols g) (points g) k t = [m] /\ stat_spec op xs m
    end.
Proof.
  intros A NT H. apply over_iff in H as (ts & W & _ & V & ->). set (C := filter _ _).
  assert (IC : incl C (fr_cols f)) by (intros c I; apply filter_In in I; tauto). assert (NC : NoDup C) by (apply NoDup_filter; apply A).
  destruct (over_values C op f ts A W NT IC NC) as (X1 & X2 & X3 & _ & X5). split; [reflexivity|]. split.
  { intros c. change (fr_cols (over_frame C op f ts)) with C. unfold C. rewrite filter_In, negb_true_iff. split; intros (I & M); (split; [exact I|]).
    - intros I'. apply FrameFilter.mem_in in I'. congruence.
    - destruct (mem c cols) eqn:E; auto. apply FrameFilter.mem_in in E. contradiction. }
  split; [exact X1|]. split; [exact X2|]. split; [exact X3|]. intros k t N1 N2.
  assert (S : Forall solid k) by (apply Forall_forall; intros v I; split; intros ->; contradiction).
  change (fr_cols (over_frame C op f ts)) with C. rewrite X5 by auto. destruct (values_at C (points f) k t) as [|x xs]; [reflexivity|]. eexists. split; [reflexivity|]. apply statistic_spec. exact V.
Qed.
Print Assumptions C67_statistics.

(** There is a result if and only if the timeseries are distinct, some column is left, and the operation
    is a mean, a median or a quantile between 0 and 1. *)
Theorem C67_accepts cols op f : (exists g, process_over cols op f = Ok g) <->
  unique_rows (map snd (fr_meta f)) /\ (exists c, In c (fr_cols f) /\ ~ In c cols) /\
  match op with Mean | Median => True | Quantile q => (0 <= q <= 1)%R | Other => False end.
Proof.
  split.
  - intros (g & H). apply over_iff in H as (ts & W & N & V & _). split; [|split; [|exact V]].
    + apply FrameEdit.has_dup_iff. unfold wide in W. unfold meta_dup in W. destruct (has_dup _); [discriminate|reflexivity].
    + destruct (filter _ (fr_cols f)) as [|c C] eqn:E; [congruence|]. exists c. assert (I : In c (c :: C)) by (now left). rewrite <- E in I. apply filter_In in I as (I & M). split; auto. apply negb_true_iff in M. intros J. apply FrameFilter.mem_in in J. congruence.
  - intros (U & (c & I & N) & V). eexists. apply over_iff. unfold wide, meta_dup. rewrite (proj2 (FrameEdit.has_dup_iff _) U). eexists. split; [reflexivity|]. split; [|split; [exact V|reflexivity]].
    intros E. assert (X : In c (filter (fun c => negb (mem c cols)) (fr_cols f))); [|rewrite E in X; exact X]. apply filter_In. split; auto. apply negb_true_iff. destruct (mem c cols) eqn:M; auto. apply FrameFilter.mem_in in M. contradiction.
Qed.
Print Assumptions C67_accepts.

(** The quantile with [q = 0.5] is the median. *)
Theorem C67_half cols f : process_over cols (Quantile (1 / 2)) f = process_over cols Median f.
Proof.
  unfold process_over. destruct (wide f) as [ts|e]; [|reflexivity]. cbn [rbind]. destruct (filter _ (fr_cols f)) as [|c C]; [reflexivity|]. cbv zeta.
  destruct (Rle_dec 0 (1 / 2)); [|lra]. destruct (Rle_dec (1 / 2) 1); [|lra]. f_equal. f_equal. f_equal. apply map_ext. intros k. unfold grouped. apply map_ext. intros i.
  unfold stat_num. destruct (present _) as [|x xs] eqn:E; [reflexivity|]. f_equal. apply quantile_median. discriminate.
Qed.
Print Assumptions C67_half.

(** The specification of each statistic determines it. *)
Theorem C67_determined op xs m m' : stat_spec op xs m -> stat_spec op xs m' -> m = m'.
Proof.
  assert (U : forall ys ys', Permutation xs ys -> Permutation xs ys' -> StronglySorted Rle ys -> StronglySorted Rle ys' -> ys = ys').
  { intros ys ys' P P' S S'. assert (Q : Permutation ys ys') by (rewrite <- P; exact P'). clear P P'. revert ys' S' Q. induction S as [|y ys S IH F]; intros ys' S' Q; [now apply Permutation_nil in Q|].
    destruct S' as [|y' ys' S' F']; [apply Permutation_sym, Permutation_nil in Q; discriminate|]. assert (y = y').
    { assert (I : In y (y' :: ys')) by (apply (Permutation_in _ Q); now left). assert (I' : In y' (y :: ys)) by (apply (Permutation_in _ (Permutation_sym Q)); now left).
      rewrite Forall_forall in F, F'. destruct I as [I|I]; auto. destruct I' as [I'|I']; auto. apply F' in I. apply F in I'. lra. }
    subst y'. f_equal. apply IH; auto. now apply Permutation_cons_inv in Q. }
  destruct op as [| |q|]; cbn [stat_spec]; [|congruence| |tauto].
  - intros (ys & P & S & ->) (ys' & P' & S' & ->). now rewrite (U ys ys' P P' S S').
  - intros (_ & ys & i & P & S & B & E) (_ & ys' & i' & P' & S' & B' & E'). assert (ys = ys') by (now apply U). subst ys'. cbv zeta in *. assert (i = i'); [|subst; congruence].
    assert (i < Datatypes.S i' /\ i' < Datatypes.S i)%nat; [|lia]. split; apply INR_lt; rewrite S_INR; lra.
Qed.
Print Assumptions C67_determined.

(** Timeseries with missing metadata in a remaining column are left out. *)
Theorem C67_missing_refuted cols op f g k t : aligned f -> NoDup (fr_times f) -> process_over cols op f = Ok g -> In MNaN k \/ In MNone k ->
  values_at (fr_cols g) (points g) k t = [].
Proof.
  intros A NT H M. apply over_iff in H as (ts & W & _ & V & ->). set (C := filter _ _).
  assert (IC : incl C (fr_cols f)) by (intros c I; apply filter_In in I; tauto). assert (NC : NoDup C) by (apply NoDup_filter; apply A).
  destruct (over_values C op f ts A W NT IC NC) as (_ & _ & _ & X4 & _). change (fr_cols (over_frame C op f ts)) with C. apply X4. rewrite Forall_forall. intros S. destruct M as [M|M]; apply S in M; destruct M; congruence.
Qed.
Print Assumptions C67_missing_refuted.

(** Three members of an ensemble and one timeseries without value of [climate_model]. *)
Definition ens_row (n : Z) (c : mval) : list mval := case_row "T" "K" ++ [MNum (Q2Qc (inject_Z n)); c].
Definition ens_frame : frame := mkFrame [0; 10]%Z
  [(0%Z, [Some 1%R; Some 2%R]); (1%Z, [Some 5%R; None]); (2%Z, [Some 3%R; Some 4%R]); (3%Z, [Some 9%R; Some 9%R])]
  (case_cols ++ ["ensemble"; "climate_model"])
  [(0%Z, ens_row 0 (MStr "a")); (1%Z, ens_row 1 (MStr "a")); (2%Z, ens_row 2 (MStr "a")); (3%Z, ens_row 3 MNaN)].
Example C67_case : aligned ens_frame /\ NoDup (fr_times ens_frame) /\ exists g, process_over ["ensemble"] Mean ens_frame = Ok g /\
  values_at (fr_cols g) (points ens_frame) (case_row "T" "K" ++ [MStr "a"]) 0 = [1; 5; 3]%R /\
  values_at (fr_cols g) (points g) (case_row "T" "K" ++ [MStr "a"]) 0 = [((1 + (5 + (3 + 0))) / INR 3)%R] /\
  values_at (fr_cols g) (points ens_frame) (case_row "T" "K" ++ [MNaN]) 0 = [9%R] /\
  values_at (fr_cols g) (points g) (case_row "T" "K" ++ [MNaN]) 0 = [].
Proof.
  split; [|split; [repeat constructor; cbn; intuition discriminate|]].
  { split; try reflexivity.
    - cbn. repeat constructor; cbn; intuition discriminate.
    - repeat constructor.
    - repeat constructor.
    - cbn. repeat constructor; cbn; intuition discriminate.
    - intros c H. cbn in *. tauto. }
  assert (exists g, process_over ["ensemble"] Mean ens_frame = Ok g) as (g & G) by (eexists; vm_compute; reflexivity).
  exists g. split; [exact G|]. assert (E : exists g', process_over ["ensemble"] Mean ens_frame = Ok g' /\
    values_at (fr_cols g') (points ens_frame) (case_row "T" "K" ++ [MStr "a"]) 0 = [1; 5; 3]%R /\
    values_at (fr_cols g') (points g') (case_row "T" "K" ++ [MStr "a"]) 0 = [((1 + (5 + (3 + 0))) / INR 3)%R] /\
    values_at (fr_cols g') (points ens_frame) (case_row "T" "K" ++ [MNaN]) 0 = [9%R] /\
    values_at (fr_cols g') (points g') (case_row "T" "K" ++ [MNaN]) 0 = []).
  { eexists. split; [cbv; reflexivity|]. repeat split; cbv; reflexivity. }
  destruct E as (g' & G' & E). rewrite G in G'. injection G' as <-. exact E.
Qed.
