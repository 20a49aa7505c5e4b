(** C96: interpolating data frames to their own times, and to more times and back.  Vocabulary:
    [Spec_Frame.v], [Spec_Interp.v]. *)
From Coq Require Import String Ascii List ZArith QArith Qcanon Reals Bool Lia Sorted.
From Verif Require Import Base Units TimeModel Core Filters ParameterType Spec_Time TimeProps Frame Spec_Frame FrameInterp Spec_Interp InterpProps RegridProps Examples Prop_Frame Prop_Interp.
Import ListNotations.
Local Open Scope string_scope.
Local Open Scope list_scope.

(** A frame whose timeseries have one type and no missing values can be interpolated to its own times
    (three or more), with and without extrapolation, and stays the same. *)
Theorem C96_own_times env ex f p : aligned f -> timeseries p ->
  (forall l, In l (map fst (fr_data f)) -> type_known env f l p) -> (forall l s, meta_of f l "parameter_type" (MStr s) -> s = type_text p) ->
  increasing (fr_times f) -> (3 <= length (fr_times f))%nat -> (forall l vs, In (l, vs) (fr_data f) -> ~ In None vs) ->
  exists g, interpolate env true (fr_times f) ex f = Ok g /\ fr_times g = fr_times f /\ fr_data g = fr_data f /\
    forall l c v, c <> "parameter_type" -> (meta_of g l c v <-> meta_of f l c v).
Proof. intros AL TP TY SP. exact (same_times env ex f p AL TP (conj TY SP)). Qed.
Print Assumptions C96_own_times.

(** It can be interpolated to more times from the first to the last (for averages: to the end of the last
    period) and back, and then is the same. *)
Theorem C96_more_times env ex f p targets : aligned f -> timeseries p ->
  (forall l, In l (map fst (fr_data f)) -> type_known env f l p) -> (forall l s, meta_of f l "parameter_type" (MStr s) -> s = type_text p) ->
  increasing (fr_times f) -> (3 <= length (fr_times f))%nat -> (forall l vs, In (l, vs) (fr_data f) -> ~ In None vs) ->
  increasing targets -> incl (fr_times f) targets -> hd 0%Z targets = hd 0%Z (fr_times f) -> last (grid p targets) 0%Z = last (grid p (fr_times f)) 0%Z ->
  exists g h, interpolate env true targets ex f = Ok g /\ interpolate env true (fr_times f) ex g = Ok h /\ fr_times g = targets /\
    fr_times h = fr_times f /\ fr_data h = fr_data f /\ forall l c v, c <> "parameter_type" -> (meta_of h l c v <-> meta_of f l c v).
Proof. intros AL TP TY SP. exact (more_times env ex f p targets AL TP (conj TY SP)). Qed.
Print Assumptions C96_more_times.

Lemma warming_spelling : forall l s, meta_of warming_frame l "parameter_type" (MStr s) -> s = type_text POINT_TIMESERIES.
Proof. intros l s (row & I & J). exfalso. apply in_combine_l in J. revert J. cbn. intuition discriminate. Qed.
Example C96_case : aligned warming_frame /\ (forall l, In l (map fst (fr_data warming_frame)) -> type_known ex_env warming_frame l POINT_TIMESERIES) /\
  increasing (fr_times warming_frame) /\ (forall l vs, In (l, vs) (fr_data warming_frame) -> ~ In None vs) /\
  increasing [0; 3; 10; 14; 20]%Z /\ incl (fr_times warming_frame) [0; 3; 10; 14; 20]%Z /\
  last (grid POINT_TIMESERIES [0; 3; 10; 14; 20]%Z) 0%Z = last (grid POINT_TIMESERIES (fr_times warming_frame)) 0%Z.
Proof.
  split; [exact warming_aligned|]. split; [exact warming_types|]. split; [repeat constructor; lia|].
  split; [intros l vs [[= <- <-]|[[= <- <-]|[]]]; cbn; intuition discriminate|]. split; [repeat constructor; lia|].
  split; [intros x X; cbn in *; lia|reflexivity].
Qed.

(** The frame of C53 with two averages. *)
Definition average_frame : frame := typed_frame (MStr "average") (MStr "average").
Lemma average_types : (forall l, In l (map fst (fr_data average_frame)) -> type_known ex_env average_frame l AVERAGE_TIMESERIES) /\
  (forall l s, meta_of average_frame l "parameter_type" (MStr s) -> s = type_text AVERAGE_TIMESERIES) /\
  (forall l vs, In (l, vs) (fr_data average_frame) -> ~ In None vs).
Proof.
  split; [|split].
  - intros l [<-|[<-|[]]]; left; exists "average"; (split; [|left; split; reflexivity]); eexists; (split; [cbn; eauto|cbn; tauto]).
  - intros l s (row & [[= <- <-]|[[= <- <-]|[]]] & J); cbn in J; repeat (destruct J as [J|J]; [try discriminate J; now injection J as <-|]); destruct J.
  - intros l vs [[= <- <-]|[[= <- <-]|[]]]; cbn; intuition discriminate.
Qed.
Example C96_average_case : aligned average_frame /\ increasing [0; 3; 10; 20]%Z /\ incl (fr_times average_frame) [0; 3; 10; 20]%Z /\
  last (grid AVERAGE_TIMESERIES [0; 3; 10; 20]%Z) 0%Z = last (grid AVERAGE_TIMESERIES (fr_times average_frame)) 0%Z.
Proof. split; [apply typed_aligned|]. split; [repeat constructor; lia|]. split; [intros x X; cbn in *; lia|reflexivity]. Qed.

(** It does not suffice that the targets have the same first and last time: the last period gets as long
    as the one before.  Halving all periods of averages cannot be taken back without extrapolation. *)
Theorem C96_last_period_refuted : exists f targets g, aligned f /\
  (forall l, In l (map fst (fr_data f)) -> type_known ex_env f l AVERAGE_TIMESERIES) /\
  increasing (fr_times f) /\ (3 <= length (fr_times f))%nat /\ (forall l vs, In (l, vs) (fr_data f) -> ~ In None vs) /\
  increasing targets /\ incl (fr_times f) targets /\ hd 0%Z targets = hd 0%Z (fr_times f) /\ last targets 0%Z = last (fr_times f) 0%Z /\
  interpolate ex_env true targets XNONE f = Ok g /\ forall h, interpolate ex_env true (fr_times f) XNONE g <> Ok h.
Proof.
  destruct average_types as (TY & SP & NN). pose proof (typed_aligned (MStr "average") (MStr "average")) as AL.
  assert (IT : increasing (fr_times average_frame)) by (repeat constructor; lia). assert (IG : increasing [0; 5; 10; 15; 20]%Z) by (repeat constructor; lia).
  destruct (interp_accepts ex_env [0; 5; 10; 15; 20]%Z XNONE average_frame AVERAGE_TIMESERIES AL (or_introl eq_refl) TY SP) as (g & H); [intros _; cbn; lia| |].
  { intros l vs I. destruct (present vs (NN l vs I)) as (xs & ->). exists xs. pose proof (values_length average_frame l _ AL I) as VL. rewrite map_length in VL.
    pose proof (grid_belongs AVERAGE_TIMESERIES (fr_times average_frame) xs (or_introl eq_refl) ltac:(cbn; lia) VL) as B.
    assert (C : timeseries_converter (grid AVERAGE_TIMESERIES (fr_times average_frame)) (grid AVERAGE_TIMESERIES [0; 5; 10; 15; 20]%Z) AVERAGE_TIMESERIES XNONE =
      Ok (mkTconv (grid AVERAGE_TIMESERIES (fr_times average_frame)) (grid AVERAGE_TIMESERIES [0; 5; 10; 15; 20]%Z) AVERAGE_TIMESERIES XNONE)) by reflexivity.
    destruct (none_iff AVERAGE_TIMESERIES (grid AVERAGE_TIMESERIES (fr_times average_frame)) xs (grid AVERAGE_TIMESERIES [0; 5; 10; 15; 20]%Z)
      (tconvert_from (mkTconv (grid AVERAGE_TIMESERIES (fr_times average_frame)) (grid AVERAGE_TIMESERIES [0; 5; 10; 15; 20]%Z) AVERAGE_TIMESERIES XNONE) xs)) as (_ & K).
    - now left.
    - now apply closed_increasing.
    - now apply closed_increasing.
    - exact B.
    - rewrite VL. cbn. lia.
    - cbn. lia.
    - left. eexists. split; [exact C|reflexivity].
    - destruct (proj1 K) as (w & W); [intros x X; cbn in *; lia|]. exists w. split; [reflexivity|]. eexists. split; [exact C|exact W]. }
  exists average_frame, [0; 5; 10; 15; 20]%Z, g. split; [exact AL|]. split; [exact TY|]. split; [exact IT|]. split; [cbn; lia|]. split; [exact NN|].
  split; [exact IG|]. split; [intros x X; cbn in *; lia|]. split; [reflexivity|]. split; [reflexivity|]. split; [exact H|].
  apply (shorter ex_env XNONE average_frame g [0; 5; 10; 15; 20]%Z (fr_times average_frame) AL H); auto; [discriminate|cbn; lia|cbn; lia|cbn; lia].
Qed.
Print Assumptions C96_last_period_refuted.
