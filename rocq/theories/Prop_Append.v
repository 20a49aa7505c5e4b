(** C50: appending data frames.  Vocabulary: [Spec_Frame.v], [Spec_Append.v]. *)
From Coq Require Import String Ascii List ZArith QArith Qcanon Reals Bool Lia Lra Permutation Sorted.
From Verif Require Import Base Core Filters Frame Spec_Frame FrameAppend Spec_Append AppendProps Prop_Frame.
Import ListNotations.
Local Open Scope string_scope.
Local Open Scope list_scope.

(** The frame has the metadata columns and the times of all frames.  For every combination of
    metadata and every time it has no point if no frame has one, and otherwise one, the mean of all
    that are there; if only one frame has a point that is the point itself ([C50_single]). *)
Theorem C50_append msg fs g : Forall aligned fs -> Forall no_fill fs -> df_append msg fs = Ok (Joined g) ->
  aligned g /\ unique_rows (map snd (fr_meta g)) /\ StronglySorted Z.lt (fr_times g) /\
  (forall t, In t (fr_times g) <-> exists f, In f fs /\ In t (fr_times f)) /\
  (forall c, In c (fr_cols g) <-> exists f, In f fs /\ In c (fr_cols f)) /\
  forall k t, values_at (fr_cols g) (points g) k t =
    match values_at (fr_cols g) (flat_map points fs) k t with [] => [] | xs => [mean xs] end.
Proof. exact (append_points msg fs g). Qed.
Print Assumptions C50_append.
Theorem C50_single msg fs g k t x : Forall aligned fs -> Forall no_fill fs -> df_append msg fs = Ok (Joined g) ->
  values_at (fr_cols g) (flat_map points fs) k t = [x] -> values_at (fr_cols g) (points g) k t = [x].
Proof.
  intros A N H E. destruct (append_points msg fs g A N H) as (_ & _ & _ & _ & _ & V). rewrite V, E. unfold mean. cbn. f_equal. field.
Qed.
Print Assumptions C50_single.

(** Frames in which no timeseries occurs twice can be appended, others are refused. *)
Theorem C50_accepts fs : fs <> [] -> Forall aligned fs -> Forall (fun f => NoDup (fr_times f) /\ fr_times f <> [] /\ fr_meta f <> []) fs ->
  Forall (fun f => ~ In "" (fr_cols f)) fs ->
  ((exists g, df_append DFalse fs = Ok (Joined g)) <-> Forall (fun f => unique_rows (map snd (fr_meta f))) fs).
Proof. exact (append_accepts fs). Qed.
Print Assumptions C50_accepts.

(** What [duplicate_msg] does: "warn" gives the same frame as [False]; "return" gives it unless two
    values are given for one point (then the joint data), and so does an unknown option (then
    ValueError). *)
Theorem C50_duplicates fs g : Forall aligned fs -> Forall no_fill fs -> df_append DFalse fs = Ok (Joined g) ->
  (df_append DOther fs = Err EValueError <-> exists k t, (1 < length (values_at (fr_cols g) (flat_map points fs) k t))%nat) /\
  (df_append DOther fs = Ok (Joined g) <-> forall k t, (length (values_at (fr_cols g) (flat_map points fs) k t) <= 1)%nat) /\
  df_append DWarn fs = Ok (Joined g) /\
  (df_append DReturn fs = Ok (Joined g) <-> forall k t, (length (values_at (fr_cols g) (flat_map points fs) k t) <= 1)%nat).
Proof. exact (append_duplicates fs g). Qed.
Print Assumptions C50_duplicates.

(** The order of the frames does not matter for the points. *)
Theorem C50_order fs fs' g : Permutation fs fs' -> Forall aligned fs -> Forall no_fill fs -> df_append DFalse fs = Ok (Joined g) ->
  exists g', df_append DFalse fs' = Ok (Joined g') /\ fr_times g' = fr_times g /\ fr_cols g' = fr_cols g /\
    forall k t, values_at (fr_cols g) (points g') k t = values_at (fr_cols g) (points g) k t.
Proof. exact (append_order fs fs' g). Qed.
Print Assumptions C50_order.

(** The frame of C48, and one with an additional metadata column and a later time: they share a
    timeseries and one of its times. *)
Definition later_frame : frame := mkFrame [1420070400; 1577836800]%Z
  [(0%Z, [Some 9%R; Some 2%R]); (1%Z, [Some 4%R; None])] (case_cols ++ ["run"])
  [(0%Z, case_row "Primary Energy" "EJ/yr" ++ [MNaN]); (1%Z, case_row "Primary Energy" "EJ/yr" ++ [MNum (Q2Qc (inject_Z 7))])].
Lemma later_aligned : aligned later_frame.
Proof.
  split; try reflexivity.
  - cbn. repeat constructor; cbn; intuition discriminate.
  - repeat constructor.
  - repeat constructor.
  - cbn. repeat constructor; cbn; intuition discriminate.
  - intros c H. cbn in *. tauto.
Qed.
Example C50_case : Forall aligned [case_frame; later_frame] /\ Forall no_fill [case_frame; later_frame] /\
  Forall (fun f => unique_rows (map snd (fr_meta f))) [case_frame; later_frame] /\
  exists g, df_append DFalse [case_frame; later_frame] = Ok (Joined g) /\ df_append DOther [case_frame; later_frame] = Err EValueError /\
    fr_times g = [1104537600; 1262304000; 1420070400; 1577836800]%Z /\ length (points g) = 7%nat /\
    values_at (fr_cols g) (points g) (case_row "Primary Energy" "EJ/yr" ++ [MNaN]) 1420070400 = [8%R].
Proof.
  split; [constructor; [apply C48_case|constructor; [apply later_aligned|constructor]]|].
  assert (NF : Forall no_fill [case_frame; later_frame]).
  { repeat constructor; intros l row I J; cbn in I; repeat destruct I as [I|I]; try easy; apply pair_equal_spec in I as (_ & <-); cbn in J; repeat destruct J as [J|J]; try easy. }
  split; [exact NF|].
  split; [repeat constructor; apply unique_iff; vm_compute; reflexivity|]. destruct (df_append DFalse [case_frame; later_frame]) as [[g|r]|e] eqn:E; [| |]; try (vm_compute in E; discriminate E).
  exists g. split; auto. split; [vm_compute; reflexivity|].
  assert (V : values_at (fr_cols g) (flat_map points [case_frame; later_frame]) (case_row "Primary Energy" "EJ/yr" ++ [MNaN]) 1420070400 = [7%R; 9%R]).
  { vm_compute in E. injection E as <-. vm_compute. reflexivity. }
  assert (AL : Forall aligned [case_frame; later_frame]) by (constructor; [apply C48_case|constructor; [apply later_aligned|constructor]]).
  destruct (C50_append _ _ _ AL NF E) as (_ & _ & _ & _ & _ & X). rewrite X, V.
  split; [vm_compute in E; injection E as <-; reflexivity|]. split; [vm_compute in E; injection E as <-; reflexivity|].
  unfold mean. cbn. f_equal. lra.
Qed.

(** The number -999 in the metadata is taken for a missing value: the timeseries is not found any more,
    and it is mixed with another one. *)
Definition run_frame (run : mval) (x : R) : frame := mkFrame [0%Z] [(0%Z, [Some x])] (case_cols ++ ["run"]) [(0%Z, case_row "T" "K" ++ [run])].
Lemma run_aligned run x : aligned (run_frame run x).
Proof.
  split; try reflexivity.
  - cbn. repeat constructor; cbn; intuition discriminate.
  - repeat constructor.
  - repeat constructor.
  - cbn. repeat constructor; cbn; intuition discriminate.
  - intros c H. cbn in *. tauto.
Qed.
Theorem C50_fill_refuted : exists fs g k k' t, Forall aligned fs /\ df_append DFalse fs = Ok (Joined g) /\ k <> k' /\
  values_at (fr_cols g) (flat_map points fs) k t = [1%R] /\ values_at (fr_cols g) (points g) k t = [] /\
  values_at (fr_cols g) (flat_map points fs) k' t = [3%R] /\ values_at (fr_cols g) (points g) k' t = [2%R].
Proof.
  exists [run_frame (MNum (Q2Qc (inject_Z (-999)))) 1%R; run_frame MNaN 3%R].
  destruct (df_append DFalse [run_frame (MNum (Q2Qc (inject_Z (-999)))) 1%R; run_frame MNaN 3%R]) as [[g|r]|e] eqn:E; try (vm_compute in E; discriminate E).
  exists g, (case_row "T" "K" ++ [MNum (Q2Qc (inject_Z (-999)))]), (case_row "T" "K" ++ [MNaN]), 0%Z.
  split; [repeat (constructor; [apply run_aligned|]); constructor|]. split; auto. split; [discriminate|].
  vm_compute in E. injection E as <-. split; [vm_compute; reflexivity|]. split; [vm_compute; reflexivity|]. split; [vm_compute; reflexivity|].
  transitivity [((1 + (3 + 0)) / (1 + 1))%R]; [vm_compute; reflexivity|]. f_equal. lra.
Qed.
Print Assumptions C50_fill_refuted.

(** With more than two frames the order of successive [append]s does matter: the mean of means is
    not the mean. *)
Theorem C50_successive_refuted : exists a b c ab ac g g' k t,
  Forall aligned [a; b; c] /\ Forall no_fill [a; b; c] /\
  fr_append DFalse a b = Ok (Joined ab) /\ fr_append DFalse ab c = Ok (Joined g) /\
  fr_append DFalse a c = Ok (Joined ac) /\ fr_append DFalse ac b = Ok (Joined g') /\
  values_at (fr_cols g) (points g) k t = [2%R] /\ values_at (fr_cols g') (points g') k t = [1%R].
Proof.
  exists (run_frame MNaN 0), (run_frame MNaN 0), (run_frame MNaN 4).
  destruct (fr_append DFalse (run_frame MNaN 0) (run_frame MNaN 0)) as [[ab|r]|e] eqn:E; try (vm_compute in E; discriminate E).
  destruct (fr_append DFalse (run_frame MNaN 0) (run_frame MNaN 4)) as [[ac|r]|e] eqn:E1; try (vm_compute in E1; discriminate E1).
  exists ab, ac. vm_compute in E, E1. injection E as <-. injection E1 as <-. do 2 eexists. exists (case_row "T" "K" ++ [MNaN]), 0%Z.
  split; [repeat (constructor; [apply run_aligned|]); constructor|].
  split; [repeat constructor; intros l row I J; cbn in I; repeat destruct I as [I|I]; try easy; apply pair_equal_spec in I as (_ & <-); cbn in J; repeat destruct J as [J|J]; try easy|].
  split; [reflexivity|]. split; [vm_compute; reflexivity|]. split; [reflexivity|]. split; [vm_compute; reflexivity|].
  split.
  - transitivity [(((0 + (0 + 0)) / (1 + 1) + (4 + 0)) / (1 + 1))%R]; [vm_compute; reflexivity|]. f_equal. lra.
  - transitivity [(((0 + (4 + 0)) / (1 + 1) + (0 + 0)) / (1 + 1))%R]; [vm_compute; reflexivity|]. f_equal. lra.
Qed.
Print Assumptions C50_successive_refuted.
