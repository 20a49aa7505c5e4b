(** C53: interpolating data frames.  Vocabulary: [Spec_Frame.v], [Spec_Interp.v]. *)
From Coq Require Import String Ascii List ZArith QArith Qcanon Reals Bool Lia Sorted.
From Verif Require Import Base Units TimeModel Core Filters Civil Offsets ParameterType Spec_Time Frame Spec_Frame FrameInterp Spec_Interp InterpProps Examples Prop_Frame.
Import ListNotations.
Local Open Scope string_scope.
Local Open Scope list_scope.

(** If [interpolate] returns a frame then every timeseries whose type is known was converted according
    to its own type to the target times; there is one value for each of them, and the other metadata are
    the same.  (Assuming that pandas lets guesses reach the metadata.) *)
Theorem C53_converts_partial env targets ex f g : aligned f -> interpolate env true targets ex f = Ok g ->
  aligned g /\ fr_times g = targets /\ map fst (fr_data g) = map fst (fr_data f) /\
  (forall c, In c (fr_cols g) <-> In c (fr_cols f) \/ c = "parameter_type") /\
  (forall l c v, c <> "parameter_type" -> (meta_of g l c v <-> meta_of f l c v)) /\
  forall l vs p, In (l, vs) (fr_data f) -> type_known env f l p ->
    exists xs w, vs = map Some xs /\ regridded p ex (grid p (fr_times f)) xs (grid p targets) w /\ length w = length targets /\
      In (l, map Some w) (fr_data g) /\ meta_of g l "parameter_type" (MStr (type_text p)).
Proof.
  intros A H. destruct (interp_converts env true targets ex f g A H) as (X1 & X2 & X3 & X4 & X5 & X6 & _).
  split; [exact X1|]. split; [exact X2|]. split; [exact X3|]. split; [exact X4|]. split; [exact X5|].
  intros l vs p I T. apply (X6 l vs p I T). discriminate.
Qed.
Print Assumptions C53_converts_partial.

(** It does return one if all timeseries have the same type, spelt in one way or not given, and each of
    them can be converted; *)
Theorem C53_accepts_partial env targets ex f p : aligned f -> timeseries p ->
  (forall l, In l (map fst (fr_data f)) -> type_known env f l p) -> (forall l s, meta_of f l "parameter_type" (MStr s) -> s = type_text p) ->
  (p = AVERAGE_TIMESERIES -> 2 <= length targets /\ 2 <= length (fr_times f))%nat ->
  (forall l vs, In (l, vs) (fr_data f) -> exists xs w, vs = map Some xs /\ regridded p ex (grid p (fr_times f)) xs (grid p targets) w) ->
  exists g, interpolate env true targets ex f = Ok g.
Proof. exact (interp_accepts env targets ex f p). Qed.
Print Assumptions C53_accepts_partial.
(** in particular for three or more increasing times without missing values, if extrapolation is
    allowed and the second target time is not before the first time. *)
Theorem C53_succeeds_partial env targets ex f p t0 t1 rest : aligned f -> timeseries p ->
  (forall l, In l (map fst (fr_data f)) -> type_known env f l p) -> (forall l s, meta_of f l "parameter_type" (MStr s) -> s = type_text p) ->
  increasing (fr_times f) -> increasing targets -> (3 <= length (fr_times f))%nat -> targets = t0 :: t1 :: rest -> (hd 0 (fr_times f) <= t1)%Z -> ex <> XNONE ->
  (forall l vs, In (l, vs) (fr_data f) -> ~ In None vs) ->
  exists g, interpolate env true targets ex f = Ok g.
Proof. exact (interp_succeeds env targets ex f p t0 t1 rest). Qed.
Print Assumptions C53_succeeds_partial.

(** [resample] is [interpolate] to the range of times of C58. *)
Theorem C53_resample_partial env rule ex f g : aligned f -> resample env true rule ex f = Ok g ->
  exists o t0 ts, fr_times f <> [] /\ hd 0%Z (fr_times f) = t0 /\ to_offset rule = Ok o /\ generate_range t0 (last (fr_times f) t0) o = Ok ts /\ fr_times g = ts /\
  forall l vs p, In (l, vs) (fr_data f) -> type_known env f l p ->
    exists xs w, vs = map Some xs /\ regridded p ex (grid p (fr_times f)) xs (grid p ts) w /\ In (l, map Some w) (fr_data g).
Proof.
  intros A H. unfold resample in H. destruct (fr_times f) as [|t0 ts] eqn:E; [discriminate|]. apply FrameFilter.rbind_ok in H as (o & O & H). apply FrameFilter.rbind_ok in H as (r & G & H).
  destruct (C53_converts_partial env r ex f g A H) as (_ & T & _ & _ & _ & X). exists o, t0, r. split; [discriminate|]. repeat split; auto.
  intros l vs p I TY. destruct (X l vs p I TY) as (xs & w & X1 & X2 & _ & X3 & _). rewrite E in X2. eauto.
Qed.
Print Assumptions C53_resample_partial.

(** Two timeseries of temperatures, whose types have to be guessed, and one with its type. *)
Definition warming_frame : frame := mkFrame [0; 10; 20]%Z
  [(0%Z, [Some 1%R; Some 2%R; Some 4%R]); (1%Z, [Some 3%R; Some 5%R; Some 3%R])] case_cols
  [(0%Z, case_row "T" "K"); (1%Z, case_row "T|Ocean" "mK")].
Lemma warming_aligned : aligned warming_frame.
Proof.
  split; try reflexivity.
  - cbn. repeat constructor; cbn; intuition discriminate.
  - repeat constructor.
  - repeat constructor.
  - cbn. repeat constructor; cbn; intuition discriminate.
  - intros c H. exact H.
Qed.
Lemma warming_types : forall l, In l (map fst (fr_data warming_frame)) -> type_known ex_env warming_frame l POINT_TIMESERIES.
Proof.
  intros l I. right. split; [right; cbn; intuition discriminate|]. split; [auto|]. destruct I as [<-|[<-|[]]].
  - exists "T", "K", POINT_TIMESERIES. split; [eexists; split; [left; reflexivity|cbn; tauto]|]. split; [eexists; split; [left; reflexivity|cbn; tauto]|]. split; [vm_compute; reflexivity|split; discriminate].
  - exists "T|Ocean", "mK", POINT_TIMESERIES. split; [eexists; split; [right; left; reflexivity|cbn; tauto]|]. split; [eexists; split; [right; left; reflexivity|cbn; tauto]|]. split; [vm_compute; reflexivity|split; discriminate].
Qed.
Example C53_case : aligned warming_frame /\ (forall l, In l (map fst (fr_data warming_frame)) -> type_known ex_env warming_frame l POINT_TIMESERIES) /\
  exists g, interpolate ex_env true [5; 15; 25; 35]%Z XLINEAR warming_frame = Ok g.
Proof.
  split; [exact warming_aligned|]. split; [exact warming_types|].
  apply (C53_succeeds_partial ex_env [5; 15; 25; 35]%Z XLINEAR warming_frame POINT_TIMESERIES 5%Z 15%Z [25; 35]%Z warming_aligned (or_intror eq_refl) warming_types).
  - intros l s (row & I & J). exfalso. apply in_combine_l in J. revert J. cbn. intuition discriminate.
  - repeat constructor; lia.
  - repeat constructor; lia.
  - cbn. lia.
  - reflexivity.
  - cbn. lia.
  - discriminate.
  - intros l vs [[= <- <-]|[[= <- <-]|[]]]; cbn; intuition discriminate.
Qed.

(** Averages and points in one frame: never (unless a type is spelt such that it comes before "average",
    as "Point"), because the target times are extended for the averages and stay extended. *)
Theorem C53_mixed_refuted env targets ex f g l l' : aligned f ->
  type_known env f l AVERAGE_TIMESERIES -> type_known env f l' POINT_TIMESERIES ->
  (forall k s, meta_of f k "parameter_type" (MStr s) -> s = "average" \/ s = "point") ->
  interpolate env true targets ex f <> Ok g.
Proof. intros A T T' S. apply (interp_mixed env true targets ex f g l l' A T T' S). discriminate. Qed.
Print Assumptions C53_mixed_refuted.
Definition typed_frame (a b : mval) : frame := mkFrame [0; 10; 20]%Z
  [(0%Z, [Some 1%R; Some 2%R; Some 4%R]); (1%Z, [Some 3%R; Some 5%R; Some 3%R])] (case_cols ++ ["parameter_type"])
  [(0%Z, case_row "T" "K" ++ [a]); (1%Z, case_row "E" "W" ++ [b])].
Lemma typed_aligned a b : aligned (typed_frame a b).
Proof.
  split; try reflexivity.
  - cbn. repeat constructor; cbn; intuition discriminate.
  - repeat constructor.
  - repeat constructor.
  - cbn. repeat constructor; cbn; intuition discriminate.
  - intros c H. cbn in *. tauto.
Qed.
Example C53_mixed_case : exists f, aligned f /\ type_known ex_env f 1 AVERAGE_TIMESERIES /\ type_known ex_env f 0 POINT_TIMESERIES /\
  forall k s, meta_of f k "parameter_type" (MStr s) -> s = "average" \/ s = "point".
Proof.
  exists (typed_frame (MStr "point") (MStr "average")). split; [apply typed_aligned|].
  split; [left; exists "average"; split; [eexists; split; [right; left; reflexivity|cbn; tauto]|left; split; reflexivity]|].
  split; [left; exists "point"; split; [eexists; split; [left; reflexivity|cbn; tauto]|right; split; reflexivity]|].
  intros k s (row & [[= _ <-]|[[= _ <-]|[]]] & J); cbn in J; repeat (destruct J as [J|J]; [try discriminate J; injection J as <-; auto|]); destruct J.
Qed.

(** Where the type is NaN (as [append] leaves it), all values are lost; and so they are where it has to
    be guessed but pandas copies the metadata (numbers among them). *)
Theorem C53_missing_refuted env shared targets ex f g l c : aligned f -> interpolate env shared targets ex f = Ok g -> In (l, c) (fr_data g) ->
  meta_of f l "parameter_type" MNaN \/ (shared = false /\ (meta_of f l "parameter_type" MNone \/ ~ In "parameter_type" (fr_cols f))) ->
  c = repeat None (length targets).
Proof. intros A H. apply (proj2 (proj2 (proj2 (proj2 (proj2 (proj2 (interp_converts env shared targets ex f g A H))))))). Qed.
Print Assumptions C53_missing_refuted.
Example C53_missing_case : exists g, interpolate ex_env true [0; 10; 20]%Z XLINEAR (typed_frame MNaN MNaN) = Ok g /\ length (points (typed_frame MNaN MNaN)) = 6%nat /\ points g = [].
Proof. eexists. split; [vm_compute; reflexivity|]. split; reflexivity. Qed.
Example C53_lost_case : exists g, interpolate ex_env false [0; 10; 20]%Z XLINEAR warming_frame = Ok g /\ length (points warming_frame) = 6%nat /\ points g = [].
Proof. eexists. split; [vm_compute; reflexivity|]. split; reflexivity. Qed.
