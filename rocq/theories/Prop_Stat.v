(** C100: the order of statistics over metadata.  Vocabulary: [Spec_Stat.v], [Spec_Frame.v], [Spec_Append.v]. *)
From Coq Require Import String Ascii List ZArith QArith Qcanon Reals Bool Lia Lra Permutation Sorted.
From Verif Require Import Base Core Filters Frame Spec_Frame Spec_Append FrameAppend AppendProps FrameWide WideProps Spec_Stat StatProps Prop_Frame Prop_Wide.
Import ListNotations.
Local Open Scope string_scope.
Local Open Scope list_scope.

(** Quantiles increase: with a larger [q] the table has the same rows and no smaller value. *)
Theorem C100_quantiles cols p q f g h : (p <= q)%R -> process_over cols (Quantile p) f = Ok g -> process_over cols (Quantile q) f = Ok h -> raised g h.
Proof.
  intros L G H. refine (over_ordered cols (Quantile p) (Quantile q) f g h _ G H). intros xs N.
  apply over_iff in G as (_ & _ & _ & (P & _) & _). apply over_iff in H as (_ & _ & _ & (_ & Q) & _). now apply quantile_mono.
Qed.
Print Assumptions C100_quantiles.

(** All statistics are between the smallest and the largest value ... *)
Theorem C100_within cols op f g : process_over cols op f = Ok g ->
  exists lo hi, process_over cols (Quantile 0) f = Ok lo /\ process_over cols (Quantile 1) f = Ok hi /\ raised lo g /\ raised g hi.
Proof.
  intros G. assert (V : valid_op op) by (apply over_iff in G as (_ & _ & _ & V & _); exact V).
  destruct (over_valid cols op (Quantile 0) f g) as (lo & L); [cbn; lra|exact G|]. destruct (over_valid cols op (Quantile 1) f g) as (hi & H); [cbn; lra|exact G|]. exists lo, hi. split; [exact L|]. split; [exact H|]. split.
  - refine (over_ordered _ _ _ _ _ _ _ L G). intros xs N. exact (proj1 (statistic_within op xs N V)).
  - refine (over_ordered _ _ _ _ _ _ _ G H). intros xs N. exact (proj2 (statistic_within op xs N V)).
Qed.
Print Assumptions C100_within.

(** ... which are the quantiles 0 and 1: values of the frame with the given metadata and time, and none of these is smaller or
    larger. *)
Theorem C100_extremes cols f lo hi : aligned f -> NoDup (fr_times f) -> process_over cols (Quantile 0) f = Ok lo -> process_over cols (Quantile 1) f = Ok hi ->
  forall k t, ~ In MNaN k -> ~ In MNone k ->
    match values_at (fr_cols lo) (points f) k t with
    | [] => values_at (fr_cols lo) (points lo) k t = [] /\ values_at (fr_cols hi) (points hi) k t = []
    | xs => exists a b, values_at (fr_cols lo) (points lo) k t = [a] /\ values_at (fr_cols hi) (points hi) k t = [b] /\
        In a xs /\ In b xs /\ forall x, In x xs -> (a <= x <= b)%R
    end.
Proof.
  intros A NT L H k t N1 N2. apply over_iff in L as (ts & W & _ & _ & ->). apply over_iff in H as (ts' & W' & _ & _ & ->). rewrite W in W'. injection W' as <-. set (C := filter _ _).
  assert (IC : incl C (fr_cols f)) by (intros c I; apply filter_In in I; tauto). assert (NC : NoDup C) by (apply NoDup_filter; apply A).
  assert (S : Forall solid k) by (apply Forall_forall; intros v I; split; intros ->; contradiction).
  destruct (over_values C (Quantile 0) f ts A W NT IC NC) as (_ & _ & _ & _ & X). destruct (over_values C (Quantile 1) f ts A W NT IC NC) as (_ & _ & _ & _ & Y).
  change (fr_cols (over_frame C (Quantile 0) f ts)) with C. change (fr_cols (over_frame C (Quantile 1) f ts)) with C. rewrite X, Y by auto.
  destruct (values_at C (points f) k t) as [|x xs]; [auto|]. set (l := x :: xs). assert (N : l <> []) by discriminate. destruct (quantile_0 l N) as (A1 & A2). destruct (quantile_1 l N) as (B1 & B2).
  exists (quantile_of 0 l), (quantile_of 1 l). repeat split; auto.
Qed.
Print Assumptions C100_extremes.

(** Larger data have larger statistics. *)
Theorem C100_raised cols op f f' g : raised f f' -> process_over cols op f = Ok g -> exists g', process_over cols op f' = Ok g' /\ raised g g'.
Proof. exact (over_raised cols op f f' g). Qed.
Print Assumptions C100_raised.

(** An ensemble of three members (C67): with 0.25 and 0.75; and the same, one value raised. *)
Definition warmer_frame : frame := mkFrame (fr_times ens_frame)
  [(0%Z, [Some 1%R; Some 2%R]); (1%Z, [Some 6%R; None]); (2%Z, [Some 3%R; Some 4%R]); (3%Z, [Some 9%R; Some 9%R])] (fr_cols ens_frame) (fr_meta ens_frame).
Example C100_case : aligned ens_frame /\ NoDup (fr_times ens_frame) /\ raised ens_frame warmer_frame /\
  (exists g, process_over ["ensemble"] (Quantile (1 / 4)) ens_frame = Ok g) /\ (exists g, process_over ["ensemble"] (Quantile (3 / 4)) ens_frame = Ok g) /\
  exists g, process_over ["ensemble"] Mean ens_frame = Ok g /\ values_at (fr_cols g) (points ens_frame) (case_row "T" "K" ++ [MStr "a"]) 0 = [1; 5; 3]%R.
Proof.
  destruct C67_case as (A & N & g & G & V & _). split; [exact A|]. split; [exact N|]. split.
  { repeat split. repeat constructor; cbn; lra. }
  split; [apply (over_valid _ Mean _ _ g); [cbn; lra|exact G]|]. split; [apply (over_valid _ Mean _ _ g); [cbn; lra|exact G]|]. exists g. auto.
Qed.
