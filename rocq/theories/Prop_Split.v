(** C94: splitting a data frame with a filter and appending the parts.  Vocabulary: [Spec_Frame.v],
    [Spec_Append.v]. *)
From Coq Require Import String Ascii List ZArith QArith Qcanon Reals Bool Lia Permutation.
From Verif Require Import Base Core Filters Spec_Filters Frame Spec_Frame FrameFilter FrameEdit FrameAppend Spec_Append AppendProps SplitProps Prop_Frame.
Import ListNotations.
Local Open Scope string_scope.
Local Open Scope list_scope.

(** What a filter keeps and what it drops can be appended, whatever [duplicate_msg] says, and the result
    has the columns and for all metadata and times the values of the frame itself. *)
Theorem C94_rejoined rx hn fl f a b msg : aligned f -> unique_rows (map snd (fr_meta f)) -> NoDup (fr_times f) -> no_fill f ->
  ~ In "" (fr_cols f) -> fr_filter true rx hn fl f = Ok a -> fr_filter false rx hn fl f = Ok b -> points a <> [] -> points b <> [] ->
  exists g, fr_append msg a b = Ok (Joined g) /\ aligned g /\
    (forall c, In c (fr_cols g) <-> In c (fr_cols f)) /\ (forall t, In t (fr_times g) -> In t (fr_times f)) /\
    forall k t, values_at (fr_cols g) (points g) k t = values_at (fr_cols g) (points f) k t.
Proof. exact (split_append rx hn fl f a b msg). Qed.
Print Assumptions C94_rejoined.

(** If one of them is empty, the other one has all points. *)
Theorem C94_whole rx hn fl f a b : aligned f -> fr_filter true rx hn fl f = Ok a -> fr_filter false rx hn fl f = Ok b ->
  (points a = [] -> points b = points f) /\ (points b = [] -> points a = points f).
Proof. exact (split_whole rx hn fl f a b). Qed.
Print Assumptions C94_whole.

(** The frame of C48 is split within a timeseries, and one of its times is only in one part. *)
Example C94_case : exists a b, aligned case_frame /\ unique_rows (map snd (fr_meta case_frame)) /\ NoDup (fr_times case_frame) /\
  no_fill case_frame /\ ~ In "" (fr_cols case_frame) /\
  fr_filter true false true (map argument case_filters) case_frame = Ok a /\
  fr_filter false false true (map argument case_filters) case_frame = Ok b /\
  length (points a) = 1%nat /\ length (points b) = 4%nat.
Proof.
  destruct C48_case as (A & _ & _ & _ & Ha & Hb). eexists _, _. split; [exact A|].
  split; [apply has_dup_iff; vm_compute; reflexivity|].
  split; [cbn; repeat constructor; cbn; intuition discriminate|].
  split; [intros l row [[= <- <-]|[[= <- <-]|[]]]; cbn; intuition discriminate|].
  split; [cbn; intuition discriminate|]. split; [exact Ha|]. split; [exact Hb|]. split; reflexivity.
Qed.
