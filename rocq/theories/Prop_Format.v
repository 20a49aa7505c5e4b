(** C66, C68, C69: how frames are built and stay aligned.  Vocabulary: [Spec_Frame.v], [Spec_Append.v], [Spec_Format.v];
    [calendar] ([Spec_Time.v]). *)
From Coq Require Import String Ascii List ZArith QArith Qcanon Reals Bool Lia Sorted Lra.
From Verif Require Import Spec_Time Base Calendar Core TimeModel Filters Frame Spec_Frame FrameAppend Spec_Append FrameFormat FrameItems Spec_Format AlignProps LongProps FormatProps Prop_Frame.
Import ListNotations.
Local Open Scope string_scope.
Local Open Scope list_scope.

Definition no_reader (ss : list string) : res (list Z) := Err EValueError.
Definition no_series_args : list (string * parg) :=
  [("model", One (PStr "m")); ("scenario", One (PStr "s")); ("region", One (PStr "World")); ("variable", One (PStr "a")); ("unit", One (PStr "K"))].

(** ** C66 *)

(** All frames that can be built are aligned.  (Reading texts as times gives one time for each text.) *)
Theorem C66_aligned is_time read_times f : (forall ss ts, read_times ss = Ok ts -> length ts = length ss) ->
  reachable is_time read_times f -> aligned f.
Proof. exact (reachable_aligned is_time read_times f). Qed.
Print Assumptions C66_aligned.

(** A frame built from arrays has these times and values, and the given metadata: the [i]-th value of a
    list for the [i]-th timeseries, or one value for all. *)
Theorem C66_arrays times data columns g : Forall (fun vs => length vs = length times) data -> NoDup (map fst columns) -> from_ts times data columns = Ok g ->
  aligned g /\ fr_times g = times /\ fr_data g = combine (map Z.of_nat (seq 0 (length data))) data /\
  (forall c, In c (fr_cols g) <-> In c (map fst columns)) /\
  forall i c v, (i < length data)%nat -> (meta_of g (Z.of_nat i) c v <-> exists a, In (c, a) columns /\
    (nth_error (values_of a) i = Some v /\ length (values_of a) = length data \/ values_of a = [v])).
Proof. exact (from_ts_ok times data columns g). Qed.
Print Assumptions C66_arrays.
Theorem C66_arrays_accepts times data columns : (exists g, from_ts times data columns = Ok g) <->
  incl required_columns (map fst columns) /\ forall c a, In (c, a) columns -> length (values_of a) = length data \/ length (values_of a) = 1%nat.
Proof. exact (from_ts_accepts times data columns). Qed.
Print Assumptions C66_arrays_accepts.

(** Setting metadata without an index sets one column and nothing else. *)
Theorem C66_set_meta name a f g : aligned f -> fr_data f <> [] \/ (exists v, a = One v) -> set_meta name a f = Ok g ->
  aligned g /\ fr_times g = fr_times f /\ fr_data g = fr_data f /\ (forall c, In c (fr_cols g) <-> In c (fr_cols f) \/ c = name) /\
  (forall l c v, c <> name -> (meta_of g l c v <-> meta_of f l c v)) /\
  forall i l vs v, nth_error (fr_data f) i = Some (l, vs) -> (meta_of g l name v <-> match a with One w => v = mval_of w | Many ws => option_map mval_of (nth_error ws i) = Some v end).
Proof. exact (set_meta_ok name a f g). Qed.
Print Assumptions C66_set_meta.
(** A list set on a frame without timeseries gives metadata without data. *)
Theorem C66_empty_refuted : exists f name a g, reachable (fun _ => false) no_reader f /\ fr_data f = [] /\ set_meta name a f = Ok g /\
  ~ aligned g /\ fr_data g = [] /\ meta_of g 0 name (MStr "x") /\ meta_of g 1 name (MStr "y") /\ meta_of g 1 "model" MNaN.
Proof.
  set (f := mkFrame [0; 10]%Z [] case_cols []). exists f, "note", (Many [PStr "x"; PStr "y"]). eexists. split; [|split; [reflexivity|split; [vm_compute; reflexivity|]]].
  - assert (E : from_ts [0; 10]%Z [] no_series_args = Ok f) by (vm_compute; reflexivity). eapply from_arrays; [| |exact E]; [constructor|]. cbn. repeat constructor; cbn; intuition discriminate.
  - split; [intros [L _ _ _ _ _]; cbn in L; discriminate|]. split; [reflexivity|]. repeat split; (eexists; split; [cbn; auto|cbn; auto 10]).
Qed.
Print Assumptions C66_empty_refuted.

(** With an index every timeseries keeps its metadata and gets the value for its key, but the order of
    the metadata can change. *)
Theorem C66_index_partial name names values f g : aligned f -> set_meta_index name names values f = Ok g ->
  fr_times g = fr_times f /\ fr_data g = fr_data f /\ (forall c, In c (fr_cols g) <-> In c (fr_cols f) \/ c = name) /\
  Permutation.Permutation (map fst (fr_meta f)) (map fst (fr_meta g)) /\ (aligned g <-> map fst (fr_meta g) = map fst (fr_data g)) /\
  (forall l c v, c <> name -> (meta_of g l c v <-> meta_of f l c v)) /\
  forall l v, In l (map fst (fr_data f)) -> (meta_of g l name v <-> exists ks, keyed f names l ks /\ (In (ks, v) values \/ (v = MNaN /\ ~ In ks (map fst values)))).
Proof. exact (set_index_ok name names values f g). Qed.
Print Assumptions C66_index_partial.

(** Two timeseries that are not sorted by variable.  After [set_meta] with an index on the variables,
    [timeseries] gives the values of one with the metadata of the other. *)
Definition two_args : list (string * parg) :=
  [("model", One (PStr "m")); ("scenario", One (PStr "s")); ("region", One (PStr "World")); ("variable", Many [PStr "b"; PStr "a"]); ("unit", One (PStr "K"))].
Definition two_frame : frame := mkFrame [0; 10]%Z [(0%Z, [Some 1%R; Some 2%R]); (1%Z, [Some 3%R; None])] case_cols [(0%Z, case_row "b" "K"); (1%Z, case_row "a" "K")].
Example C66_case : from_ts [0; 10]%Z [[Some 1%R; Some 2%R]; [Some 3%R; None]] two_args = Ok two_frame /\ reachable (fun _ => false) no_reader two_frame /\
  set_meta "note" (Many [PStr "x"; PInt 1]) two_frame =
    Ok (mkFrame [0; 10]%Z [(0%Z, [Some 1%R; Some 2%R]); (1%Z, [Some 3%R; None])] (case_cols ++ ["note"])
      [(0%Z, case_row "b" "K" ++ [MStr "x"]); (1%Z, case_row "a" "K" ++ [MNum (Q2Qc 1)])]).
Proof.
  assert (E : from_ts [0; 10]%Z [[Some 1%R; Some 2%R]; [Some 3%R; None]] two_args = Ok two_frame) by (vm_compute; reflexivity). split; [exact E|]. split; [|vm_compute; reflexivity].
  eapply from_arrays; [| |exact E]; [repeat constructor|]. cbn. repeat constructor; cbn; intuition discriminate.
Qed.
Theorem C66_index_refuted : exists f name names values g ts row,
  reachable (fun _ => false) no_reader f /\ set_meta_index name names values f = Ok g /\ ~ aligned g /\
  fr_data f = [(0%Z, [Some 1%R; Some 2%R]); (1%Z, [Some 3%R; None])] /\ meta_of f 0 "variable" (MStr "b") /\
  wide g = Ok ts /\ In (row, [Some 1%R; Some 2%R]) ts /\ In ("variable", MStr "a") (combine (fr_cols g) row).
Proof.
  exists two_frame, "note", ["variable"], [(["a"], MStr "x"); (["b"], MStr "y")].
  exists (mkFrame [0; 10]%Z [(0%Z, [Some 1%R; Some 2%R]); (1%Z, [Some 3%R; None])] (case_cols ++ ["note"]) [(1%Z, case_row "a" "K" ++ [MStr "x"]); (0%Z, case_row "b" "K" ++ [MStr "y"])]).
  do 2 eexists. split; [apply C66_case|]. split; [vm_compute; reflexivity|]. split; [intros [L _ _ _ _ _]; cbn in L; discriminate|]. split; [reflexivity|].
  split; [eexists; split; [left; reflexivity|cbn; tauto]|]. split; [vm_compute; reflexivity|]. split; [left; reflexivity|cbn; tauto].
Qed.
Print Assumptions C66_index_refuted.

(** ** C68 *)

(** A frame built from what [timeseries] returns is the same frame with increasing times, with the
    timeseries counted from 0; [None] in the metadata has become NaN. *)
Theorem C68_rebuild is_time read_times f ts : aligned f -> NoDup (fr_times f) -> fr_times f <> [] ->
  (forall c, In c (fr_cols f) -> ~ In c required_columns -> is_time c = false) -> ~ In "value" (fr_cols f) -> wide f = Ok ts ->
  exists g, format_data is_time read_times (wide_table f ts) = Ok g /\ aligned g /\ (forall c, In c (fr_cols g) <-> In c (fr_cols f)) /\
    StronglySorted Z.lt (fr_times g) /\ (forall t, In t (fr_times g) <-> In t (fr_times f)) /\ map fst (fr_data g) = map Z.of_nat (seq 0 (length (fr_data f))) /\
    forall i l vs, nth_error (fr_data f) i = Some (l, vs) ->
      (forall c v, meta_of g (Z.of_nat i) c v <-> exists v', meta_of f l c v' /\ v = plain_value v') /\
      exists vs', In (Z.of_nat i, vs') (fr_data g) /\ forall t x, In (t, x) (combine (fr_times g) vs') <-> In (t, x) (combine (fr_times f) vs).
Proof. exact (rebuild_ok is_time read_times f ts). Qed.
Print Assumptions C68_rebuild.
Definition is_number (s : string) : bool := String.eqb s "1".
Example C68_case : aligned case_frame /\ exists ts, wide case_frame = Ok ts /\ format_data is_number no_reader (wide_table case_frame ts) = Ok case_frame.
Proof. split; [apply C48_case|]. eexists. split; vm_compute; reflexivity. Qed.

(** With a metadata column whose name is understood as a time it always fails. *)
Theorem C68_names_refuted is_time read_times f ts c g : fr_times f <> [] -> In c (fr_cols f) -> ~ In c required_columns -> is_time c = true -> ~ In "value" (fr_cols f) ->
  format_data is_time read_times (wide_table f ts) <> Ok g.
Proof. exact (rebuild_fails is_time read_times f ts c g). Qed.
Print Assumptions C68_names_refuted.
Example C68_names_case : exists f, set_meta "1" (One (PStr "x")) case_frame = Ok f /\ exists ts, wide f = Ok ts /\ format_data is_number no_reader (wide_table f ts) = Err ETypeError.
Proof. eexists. split; [vm_compute; reflexivity|]. eexists. split; vm_compute; reflexivity. Qed.

(** ** C69 *)

(** A frame built from a table with one row for each point has at each of the points that have complete
    metadata the mean of the values that the rows give, and no other points; its times are those of these
    rows, in order. *)
Theorem C69_points cal is_time read_times by_year names rows g : calendar cal -> long_names names -> Forall (fun r => length (fst (fst r)) = length names) rows ->
  format_data is_time read_times (long_table by_year names rows) = Ok g ->
  aligned g /\ (forall c, In c (fr_cols g) <-> In c (map lower names)) /\ StronglySorted Z.lt (fr_times g) /\
  (forall t, In t (fr_times g) <-> exists k t' x, In (k, t', Some x) rows /\ complete k /\ instant cal by_year t' = t) /\
  (forall k t, complete k -> values_at (map lower names) (points g) k t = match given cal by_year rows k t with [] => [] | xs => [mean xs] end) /\
  (forall k t, ~ complete k -> values_at (map lower names) (points g) k t = []).
Proof. exact (long_ok cal is_time read_times by_year names rows g). Qed.
Print Assumptions C69_points.
Theorem C69_accepts is_time read_times by_year names rows : long_names names -> Forall (fun r => length (fst (fst r)) = length names) rows ->
  (exists k t x, In (k, t, Some x) rows /\ complete k) -> exists g, format_data is_time read_times (long_table by_year names rows) = Ok g.
Proof. exact (long_accepts is_time read_times by_year names rows). Qed.
Print Assumptions C69_accepts.

Definition long_cols : list string := ["Model"; "Scenario"; "Region"; "Variable"; "Unit"; "Note"].
Definition long_rows (v : mval) : list point_row :=
  [(case_row "a" "K" ++ [MStr "n"], 2010%Z, Some 1%R); (case_row "a" "K" ++ [v], 2011%Z, Some 2%R); (case_row "a" "K" ++ [MStr "n"], 2005%Z, Some 3%R)].
Lemma long_cols_ok : long_names long_cols.
Proof.
  split; [cbn; repeat constructor; cbn; intuition discriminate|]. split; [intros c I; cbn in I |- *; tauto|]. intros c I. cbn in I. repeat destruct I as [<-|I]; try (repeat split; discriminate). easy.
Qed.
Example C69_case : calendar np_year_seconds /\ long_names long_cols /\ exists g, format_data is_number no_reader (long_table true long_cols (long_rows (MStr "n"))) = Ok g /\
  fr_times g = [1104537600; 1262304000; 1293840000]%Z /\ length (points g) = 3%nat.
Proof. split; [exact TimeProps.calendar_np|]. split; [exact long_cols_ok|]. eexists. split; [cbv; reflexivity|]. split; reflexivity. Qed.
(** Rows with missing metadata are silently left out. *)
Theorem C69_missing_refuted : exists rows k t g, In (k, t, Some 2%R) rows /\ format_data is_number no_reader (long_table true long_cols rows) = Ok g /\
  Forall (fun r => length (fst (fst r)) = length long_cols) rows /\ fr_times g = [1104537600; 1262304000]%Z /\ ~ In (np_year_seconds t) (fr_times g).
Proof.
  exists (long_rows MNaN), (case_row "a" "K" ++ [MNaN]), 2011%Z. eexists. split; [right; left; reflexivity|]. split; [cbv; reflexivity|]. split; [repeat constructor|]. split; [reflexivity|].
  cbv. intros [H|[H|[]]]; discriminate H.
Qed.
Print Assumptions C69_missing_refuted.
