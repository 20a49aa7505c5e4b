(** C103: interpolating points respects the order of values.  Vocabulary: [Spec_Time.v], [Spec_Order.v],
    for data frames [Spec_Frame.v], [Spec_Interp.v]. *)
From Coq Require Import String List ZArith QArith Qreals Reals Lia Lra.
From Verif Require Import Base Units TimeModel Core Filters Frame Spec_Frame FrameInterp Spec_Interp InterpProps Spec_Time TimeProps TimeConv ExactProps Spec_Order OrderProps Examples Prop_Frame Prop_Interp.
Import ListNotations.
Local Open Scope list_scope.

(** Higher values at the source times never give a lower value at a target time, *)
Theorem C103_order ex s v v' t w w' : increasing s -> tame ex s t -> below v v' ->
  conversion POINT_TIMESERIES ex s v t (Ok w) -> conversion POINT_TIMESERIES ex s v' t (Ok w') -> below w w'.
Proof. exact (order_ok ex s v v' t w w'). Qed.
Print Assumptions C103_order.

(** and no value leaves the range of the data. *)
Theorem C103_within ex s v t w lo hi : increasing s -> tame ex s t -> Forall (fun y => lo <= y <= hi)%R v ->
  conversion POINT_TIMESERIES ex s v t (Ok w) -> Forall (fun y => lo <= y <= hi)%R w.
Proof. exact (within_ok ex s v t w lo hi). Qed.
Print Assumptions C103_within.

(** The same for data frames: in an interpolated frame the timeseries of points stay in the range that
    they have had. *)
Theorem C103_frame env shared targets ex f g l vs s lo hi : aligned f -> increasing (fr_times f) -> tame ex (fr_times f) targets ->
  interpolate env shared targets ex f = Ok g -> In (l, vs) (fr_data f) -> meta_of f l "parameter_type" (MStr s) ->
  named_type s POINT_TIMESERIES -> (forall x, In (Some x) vs -> lo <= x <= hi)%R ->
  exists ws, In (l, ws) (fr_data g) /\ length ws = length targets /\ forall y, In y ws -> exists x, y = Some x /\ (lo <= x <= hi)%R.
Proof.
  intros A Inc T H I M N F. destruct (interp_converts env shared targets ex f g A H) as (_ & _ & _ & _ & _ & X & _).
  destruct (X l vs POINT_TIMESERIES I) as (xs & w & -> & (c & C1 & C2) & L & G & _); [left; eauto|eauto|].
  exists (map Some w). split; [exact G|]. split; [now rewrite map_length|]. intros y Y. apply in_map_iff in Y as (x & <- & Y).
  exists x. split; [reflexivity|]. cbn [grid] in C1.
  assert (W : Forall (fun y => lo <= y <= hi)%R w).
  { apply (within_ok ex (fr_times f) xs targets w lo hi Inc T); [|left; eauto].
    apply Forall_forall. intros z Z. apply F. now apply in_map. }
  rewrite Forall_forall in W. now apply W.
Qed.
Print Assumptions C103_frame.

(** Linear extrapolation leaves the range, *)
Theorem C103_extrapolation_refuted : exists s v t w, increasing s /\ Forall (fun y => 0 <= y)%R v /\
  conversion POINT_TIMESERIES XLINEAR s v t (Ok w) /\ ~ Forall (fun y => 0 <= y)%R w.
Proof.
  exists [0; 10; 20]%Z, (map Q2R [4; 2; 0]%Q), [0; 20; 30]%Z, (map Q2R [4; 0; - 2 # 1]%Q).
  assert (I : increasing [0; 10; 20]%Z) by (repeat constructor; lia).
  assert (J : increasing [0; 20; 30]%Z) by (repeat constructor; lia).
  split; [exact I|]. split; [repeat constructor; unfold Q2R; cbn; lra|]. split.
  - left. eexists. split; [reflexivity|]. unfold tconvert_from. cbn [tc_type tc_extra tc_source tc_target].
    rewrite exactly; [f_equal|right; reflexivity|exact I|exact J|split; [reflexivity|discriminate]|cbn; lia|cbn; lia|discriminate].
  - intros F. inversion F as [|? ? _ F1]; subst. inversion F1 as [|? ? _ F2]; subst. inversion F2 as [|? ? B _]; subst. unfold Q2R in B. cbn in B. lra.
Qed.
Print Assumptions C103_extrapolation_refuted.

(** and so do averages, even within the data: emissions that are never negative can be converted to
    negative ones. *)
Theorem C103_averages_refuted : exists s v t w, increasing s /\ inside s t /\ Forall (fun y => 0 <= y)%R v /\
  conversion AVERAGE_TIMESERIES XCONSTANT s v t (Ok w) /\ ~ Forall (fun y => 0 <= y)%R w.
Proof.
  exists [0; 10; 20; 30]%Z, (map Q2R [4; 0; 0]%Q), [14; 16]%Z, (map Q2R [- 4 # 5]%Q).
  assert (I : increasing [0; 10; 20; 30]%Z) by (repeat constructor; lia).
  assert (J : increasing [14; 16]%Z) by (repeat constructor; lia).
  split; [exact I|]. split; [intros x [<-|[<-|[]]]; cbn; lia|]. split; [repeat constructor; unfold Q2R; cbn; lra|]. split.
  - left. eexists. split; [reflexivity|]. unfold tconvert_from. cbn [tc_type tc_extra tc_source tc_target].
    rewrite exactly; [f_equal|left; reflexivity|exact I|exact J|split; [reflexivity|discriminate]|cbn; lia|cbn; lia|discriminate].
  - intros F. inversion F as [|? ? B _]; subst. unfold Q2R in B. cbn in B. lra.
Qed.
Print Assumptions C103_averages_refuted.

(** Both hypotheses of the theorems are met, for example, by constant extrapolation. *)
Example C103_case : increasing [0; 10; 20]%Z /\ tame XCONSTANT [0; 10; 20]%Z [-5; 5; 30]%Z /\
  below (map Q2R [1; 4; 2]%Q) (map Q2R [2; 4; 3]%Q) /\
  conversion POINT_TIMESERIES XCONSTANT [0; 10; 20]%Z (map Q2R [1; 4; 2]%Q) [-5; 5; 30]%Z (Ok (map Q2R [1; 5 # 2; 2]%Q)) /\
  conversion POINT_TIMESERIES XCONSTANT [0; 10; 20]%Z (map Q2R [2; 4; 3]%Q) [-5; 5; 30]%Z (Ok (map Q2R [2; 3; 3]%Q)).
Proof.
  assert (I : increasing [0; 10; 20]%Z) by (repeat constructor; lia).
  assert (J : increasing [-5; 5; 30]%Z) by (repeat constructor; lia).
  split; [exact I|]. split; [left; discriminate|]. split; [repeat constructor; unfold Q2R; cbn; lra|].
  split; left; eexists; (split; [reflexivity|]); unfold tconvert_from; cbn [tc_type tc_extra tc_source tc_target];
    (rewrite exactly; [f_equal|right; reflexivity|exact I|exact J|split; [reflexivity|discriminate]|cbn; lia|cbn; lia|discriminate]).
Qed.

Example C103_frame_case : let f := typed_frame (MStr "point") (MStr "point") in
  aligned f /\ increasing (fr_times f) /\ tame XLINEAR (fr_times f) [0; 5; 20]%Z /\
  (exists g, interpolate ex_env false [0; 5; 20]%Z XLINEAR f = Ok g) /\ In (0%Z, map Some [1; 2; 4]%R) (fr_data f) /\
  meta_of f 0 "parameter_type" (MStr "point") /\ named_type "point" POINT_TIMESERIES /\
  forall x, In (Some x) (map Some [1; 2; 4]%R) -> (1 <= x <= 4)%R.
Proof.
  split; [apply typed_aligned|]. split; [repeat constructor; lia|]. split; [right; intros x [<-|[<-|[<-|[]]]]; cbn; lia|].
  split; [eexists; vm_compute; reflexivity|]. split; [left; reflexivity|].
  split; [eexists; split; [left; reflexivity|cbn; tauto]|]. split; [right; split; reflexivity|].
  intros x [[= <-]|[[= <-]|[[= <-]|[]]]]; lra.
Qed.
