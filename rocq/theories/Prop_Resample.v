(** C98: resampling data frames.  Vocabulary: [Spec_Offsets.v], [Spec_Resample.v], [Spec_Frame.v],
    [Spec_Interp.v]. *)
From Coq Require Import String Ascii List ZArith QArith Qcanon Reals Bool Lia Lra Sorted.
From Verif Require Import Base Units TimeModel Core Filters ParameterType Spec_Time TimeProps Frame Spec_Frame FrameInterp Spec_Interp InterpProps RegridProps Examples Calendar Civil Offsets OffsetsFacts Spec_Offsets OffsetsProps Spec_Resample ResampleProps Prop_Frame Prop_Interp Prop_Regrid.
Import ListNotations.
Local Open Scope string_scope.
Local Open Scope list_scope.
Local Open Scope Z_scope.

(** A frame of points without missing values, whose three or more times are times of the rule, can be
    resampled with and without extrapolation: it gets all times of the rule from its first to its last one,
    keeps its metadata, new values are on the straight lines between its points, and interpolating to the old
    times gives the frame back. *)
Theorem C98_points D env ex rule o f :
  gregorian D -> to_offset rule = Ok o -> every o -> increasing (fr_times f) -> (3 <= length (fr_times f))%nat ->
  (forall x, In x (fr_times f) -> of_rule D o (hd 0 (fr_times f)) x) -> aligned f -> (forall l vs, In (l, vs) (fr_data f) -> ~ In None vs) ->
  (forall l, In l (map fst (fr_data f)) -> type_known env f l POINT_TIMESERIES) -> (forall l s, meta_of f l "parameter_type" (MStr s) -> s = type_text POINT_TIMESERIES) ->
  exists g h, resample env true rule ex f = Ok g /\
  increasing (fr_times g) /\ (forall x, In x (fr_times g) <-> hd 0 (fr_times f) <= x <= last (fr_times f) 0 /\ of_rule D o (hd 0 (fr_times f)) x) /\
  map fst (fr_data g) = map fst (fr_data f) /\
  (forall l c v, c <> "parameter_type" -> (meta_of g l c v <-> meta_of f l c v)) /\
  (forall l vs ws, In (l, vs) (fr_data f) -> In (l, ws) (fr_data g) -> forall i j x0 x1 y0 y1 x,
    nth_error (fr_times f) i = Some x0 -> nth_error (fr_times f) (S i) = Some x1 -> nth_error vs i = Some (Some y0) -> nth_error vs (S i) = Some (Some y1) ->
    nth_error (fr_times g) j = Some x -> x0 <= x <= x1 -> nth_error ws j = Some (Some (line x0 y0 x1 y1 (IZR x)))) /\
  interpolate env true (fr_times f) ex g = Ok h /\ fr_times h = fr_times f /\ fr_data h = fr_data f /\
  (forall l c v, c <> "parameter_type" -> (meta_of h l c v <-> meta_of f l c v)).
Proof. intros G T E I L O A N TY SP. exact (resample_points D env ex rule o f G T E I L O A N (conj TY SP)). Qed.
Print Assumptions C98_points.

(** Its data are among those of the resampled frame. *)
Theorem C98_kept D env ex rule o f g :
  gregorian D -> to_offset rule = Ok o -> every o -> increasing (fr_times f) -> (3 <= length (fr_times f))%nat ->
  (forall x, In x (fr_times f) -> of_rule D o (hd 0 (fr_times f)) x) -> aligned f -> (forall l vs, In (l, vs) (fr_data f) -> ~ In None vs) ->
  (forall l, In l (map fst (fr_data f)) -> type_known env f l POINT_TIMESERIES) -> (forall l s, meta_of f l "parameter_type" (MStr s) -> s = type_text POINT_TIMESERIES) ->
  resample env true rule ex f = Ok g ->
  forall l vs ws t y, In (l, vs) (fr_data f) -> In (l, ws) (fr_data g) -> In (t, y) (combine (fr_times f) vs) -> In (t, y) (combine (fr_times g) ws).
Proof. intros G T E I L O A N TY SP. exact (resample_kept D env ex rule o f g G T E I L O A N (conj TY SP)). Qed.
Print Assumptions C98_kept.

(** A frame of averages: the new averages of the periods between two successive old times have the total of
    the old average (value times length), so nothing is lost or added; if no time of the rule is between the
    last two times, interpolating to the old times gives the frame back. *)
Theorem C98_averages D env ex rule o f :
  gregorian D -> to_offset rule = Ok o -> every o -> increasing (fr_times f) -> (3 <= length (fr_times f))%nat ->
  (forall x, In x (fr_times f) -> of_rule D o (hd 0 (fr_times f)) x) -> aligned f -> (forall l vs, In (l, vs) (fr_data f) -> ~ In None vs) ->
  (forall l, In l (map fst (fr_data f)) -> type_known env f l AVERAGE_TIMESERIES) -> (forall l s, meta_of f l "parameter_type" (MStr s) -> s = type_text AVERAGE_TIMESERIES) ->
  exists g, resample env true rule ex f = Ok g /\
  increasing (fr_times g) /\ (forall x, In x (fr_times g) <-> hd 0 (fr_times f) <= x <= last (fr_times f) 0 /\ of_rule D o (hd 0 (fr_times f)) x) /\
  map fst (fr_data g) = map fst (fr_data f) /\
  (forall l c v, c <> "parameter_type" -> (meta_of g l c v <-> meta_of f l c v)) /\
  (forall l vs ws, In (l, vs) (fr_data f) -> In (l, ws) (fr_data g) -> exists w, ws = map Some w /\ length w = length (fr_times g) /\ forall i a b x,
    nth_error (fr_times f) i = Some a -> nth_error (fr_times f) (S i) = Some b -> nth_error vs i = Some (Some x) ->
    total a b (fr_times g) w = (x * IZR (b - a))%R) /\
  ((forall x, last (removelast (fr_times f)) 0 < x < last (fr_times f) 0 -> ~ of_rule D o (hd 0 (fr_times f)) x) ->
    exists h, interpolate env true (fr_times f) ex g = Ok h /\ fr_times h = fr_times f /\ fr_data h = fr_data f /\
    (forall l c v, c <> "parameter_type" -> (meta_of h l c v <-> meta_of f l c v))).
Proof. intros G T E I L O A N TY SP. exact (resample_averages D env ex rule o f G T E I L O A N (conj TY SP)). Qed.
Print Assumptions C98_averages.

(** In general, for the conversions of C23-C33: what is between two successive source points that are also
    target points stays between them. *)
Theorem C98_conversion ex s v t w a b x i : increasing s -> increasing t -> conversion AVERAGE_TIMESERIES ex s v t (Ok w) ->
  nth_error s i = Some a -> nth_error s (S i) = Some b -> nth_error v i = Some x -> In a t -> In b t ->
  total a b t w = (x * IZR (b - a))%R.
Proof. exact (subtotal ex s v t w a b x i). Qed.
Print Assumptions C98_conversion.

(** The hypotheses hold for the frame of C53 with the rule "5S" ... *)
Example C98_seconds_case : forall D, to_offset "5S" = Ok (OTick 5) /\ every (OTick 5) /\ (3 <= length (fr_times warming_frame))%nat /\
  (forall x, In x (fr_times warming_frame) -> of_rule D (OTick 5) (hd 0 (fr_times warming_frame)) x) /\
  exists g, resample ex_env true "5S" XNONE warming_frame = Ok g /\ fr_times g = [0; 5; 10; 15; 20].
Proof.
  intros D. split; [vm_compute; reflexivity|]. split; [left; split; [exact I|reflexivity]|]. split; [cbn; lia|].
  assert (ON : forall x, In x (fr_times warming_frame) -> of_rule D (OTick 5) (hd 0 (fr_times warming_frame)) x).
  { intros x [<-|[<-|[<-|[]]]]; [exists 0|exists 2|exists 4]; reflexivity. }
  split; [exact ON|].
  destruct (C98_points _ ex_env XNONE "5S" (OTick 5) warming_frame gregorian_exists) as (g & h & H & _); try exact warming_aligned; try exact warming_types; try exact warming_spelling.
  - vm_compute; reflexivity.
  - left; split; [exact I|reflexivity].
  - repeat constructor; lia.
  - cbn; lia.
  - intros x [<-|[<-|[<-|[]]]]; [exists 0|exists 2|exists 4]; reflexivity.
  - intros l vs [[= <- <-]|[[= <- <-]|[]]]; cbn; intuition discriminate.
  - exists g. split; [exact H|]. unfold resample in H. cbn [fr_times warming_frame last] in H.
    change (to_offset "5S") with (Ok (OTick 5)) in H. cbn [rbind] in H.
    change (generate_range 0 20 (OTick 5)) with (Ok [0; 5; 10; 15; 20]) in H. cbn [rbind] in H.
    now destruct (interp_converts ex_env true [0; 5; 10; 15; 20] XNONE warming_frame g warming_aligned H) as (_ & X & _).
Qed.

(** ... and for averages over 1970-1971, 1972 and 1973 with the rule "AS" (starts of years). *)
Definition years_frame : frame := mkFrame [time_of 1970 1 1 0; time_of 1972 1 1 0; time_of 1973 1 1 0]
  [(0, [Some 1%R; Some 2%R; Some 4%R])] (fr_cols average_frame) [(0, match fr_meta average_frame with r :: _ => snd r | [] => [] end)].
Definition days (y m d : Z) : Z := ymd2ord y m d - epoch_ord.
Example C98_years_case : to_offset "AS" = Ok (OYear 1 DStart 1) /\ every (OYear 1 DStart 1) /\ gregorian days /\
  increasing (fr_times years_frame) /\ aligned years_frame /\
  (forall x, In x (fr_times years_frame) -> of_rule days (OYear 1 DStart 1) (hd 0 (fr_times years_frame)) x) /\
  (forall l, In l (map fst (fr_data years_frame)) -> type_known ex_env years_frame l AVERAGE_TIMESERIES) /\
  generate_range (time_of 1970 1 1 0) (time_of 1973 1 1 0) (OYear 1 DStart 1) = Ok [time_of 1970 1 1 0; time_of 1971 1 1 0; time_of 1972 1 1 0; time_of 1973 1 1 0].
Proof.
  split; [vm_compute; reflexivity|]. split; [right; split; [exact (fun x => x)|reflexivity]|]. split; [exact gregorian_exists|].
  split; [repeat constructor; vm_compute; reflexivity|]. split.
  { split; try reflexivity.
    - cbn. repeat constructor. intros [].
    - repeat constructor.
    - repeat constructor.
    - apply typed_aligned.
    - exact (al_required _ (typed_aligned (MStr "average") (MStr "average"))). }
  split; [|split; [|vm_compute; reflexivity]].
  - intros x X. assert (Y : exists y, x = time_of y 1 1 0 /\ days y 1 1 * 86400 = time_of y 1 1 0) by (destruct X as [<-|[<-|[<-|[]]]]; [exists 1970|exists 1972|exists 1973]; split; vm_compute; reflexivity).
    destruct Y as (y & -> & E). split.
    + exists y, 1, 1, 0. split; [split; [exists 31; split; [constructor; cbn; tauto|lia]|lia|lia]|]. split; reflexivity.
    + exists (days y 1 1). assert (Z : hd 0 (fr_times years_frame) = 0) by (vm_compute; reflexivity). rewrite Z. lia.
  - intros l [<-|[]]; left; exists "average"; (split; [|left; split; reflexivity]); eexists; (split; [cbn; eauto|cbn; tauto]).
Qed.
