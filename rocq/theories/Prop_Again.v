(** C105: resampling again with the same rule changes nothing.  Vocabulary: [Spec_Offsets.v],
    [Spec_Frame.v], [Spec_Interp.v]. *)
From Coq Require Import String Ascii List ZArith Reals Bool Lia Sorted.
From Verif Require Import Base Units TimeModel Core Filters ParameterType Spec_Time TimeProps Frame Spec_Frame FrameInterp Spec_Interp InterpProps RegridProps Examples Offsets Spec_Offsets OffsetsProps AgainProps Prop_Frame Prop_Interp Prop_Regrid.
Import ListNotations.
Local Open Scope string_scope.
Local Open Scope list_scope.
Local Open Scope Z_scope.

(** The times that a rule generates from the first to the last of the times that it has generated are
    those times, also for rules that skip periods like "2AS". *)
Theorem C105_range rule o start end_ ts : to_offset rule = Ok o -> 0 < stride o -> generate_range start end_ o = Ok ts -> ts <> [] ->
  generate_range (hd 0 ts) (last ts 0) o = Ok ts.
Proof. exact (rule_range_again rule o start end_ ts). Qed.
Print Assumptions C105_range.

(** So a frame of one type that has been resampled to three or more times can be resampled again, whether
    or not its times have fitted the rule before and however it is extrapolated, and keeps its times, its
    values and its metadata. *)
Theorem C105_frame env ex rule o f g p : to_offset rule = Ok o -> 0 < stride o -> aligned f -> timeseries p ->
  (forall l, In l (map fst (fr_data f)) -> type_known env f l p) -> (forall l s, meta_of f l "parameter_type" (MStr s) -> s = type_text p) ->
  resample env true rule ex f = Ok g -> (3 <= length (fr_times g))%nat ->
  exists h, resample env true rule ex g = Ok h /\ fr_times h = fr_times g /\ fr_data h = fr_data g /\
    forall l c v, c <> "parameter_type" -> (meta_of h l c v <-> meta_of g l c v).
Proof. intros T P AL TP TY SP. exact (resample_again env ex rule o f g p T P AL TP (conj TY SP)). Qed.
Print Assumptions C105_frame.

(** If the types are given this does not depend on whether pandas lets guesses reach the metadata. *)
Theorem C105_given env shared ex rule o f g p : to_offset rule = Ok o -> 0 < stride o -> aligned f -> timeseries p ->
  (forall l, In l (map fst (fr_data f)) -> type_known env f l p /\ meta_of f l "parameter_type" (MStr (type_text p))) ->
  (forall l s, meta_of f l "parameter_type" (MStr s) -> s = type_text p) ->
  resample env shared rule ex f = Ok g -> (3 <= length (fr_times g))%nat ->
  exists h, resample env shared rule ex g = Ok h /\ fr_times h = fr_times g /\ fr_data h = fr_data g /\
    forall l c v, c <> "parameter_type" -> (meta_of h l c v <-> meta_of g l c v).
Proof.
  intros T P AL TP TY SP. apply (resample_again_given env shared ex rule o f g p T P AL TP).
  - split; [intros l I; exact (proj1 (TY l I))|exact SP].
  - intros l I. exists (MStr (type_text p)). split; [exact (proj2 (TY l I))|discriminate].
Qed.
Print Assumptions C105_given.

(** For example with a rule that the times of the frame do not fit. *)
Example C105_case : to_offset "7S" = Ok (OTick 7) /\ 0 < stride (OTick 7) /\ aligned warming_frame /\ timeseries POINT_TIMESERIES /\
  (forall l, In l (map fst (fr_data warming_frame)) -> type_known ex_env warming_frame l POINT_TIMESERIES) /\
  (forall l s, meta_of warming_frame l "parameter_type" (MStr s) -> s = type_text POINT_TIMESERIES) /\
  exists g, resample ex_env true "7S" XLINEAR warming_frame = Ok g /\ fr_times g = [0; 7; 14].
Proof.
  split; [vm_compute; reflexivity|]. split; [reflexivity|]. split; [exact warming_aligned|]. split; [right; reflexivity|].
  split; [exact warming_types|]. split; [exact warming_spelling|]. eexists. split; [vm_compute; reflexivity|reflexivity].
Qed.
Example C105_range_case : to_offset "2AS" = Ok (OYear 2 DStart 1) /\ generate_range 0 100000000 (OYear 2 DStart 1) = Ok [0; 63072000; 126230400].
Proof. split; vm_compute; reflexivity. Qed.
Example C105_given_case : let f := typed_frame (MStr "point") (MStr "point") in
  aligned f /\ (forall l, In l (map fst (fr_data f)) -> type_known ex_env f l POINT_TIMESERIES /\ meta_of f l "parameter_type" (MStr "point")) /\
  exists g, resample ex_env false "7S" XLINEAR f = Ok g /\ fr_times g = [0; 7; 14].
Proof.
  split; [apply typed_aligned|]. split.
  { intros l I. assert (M : meta_of (typed_frame (MStr "point") (MStr "point")) l "parameter_type" (MStr "point")).
    { destruct I as [<-|[<-|[]]]; eexists; split; [left; reflexivity|cbn; tauto|right; left; reflexivity|cbn; tauto]. }
    split; [left; exists "point"; split; [exact M|right; split; reflexivity]|exact M]. }
  eexists. split; [vm_compute; reflexivity|reflexivity].
Qed.
