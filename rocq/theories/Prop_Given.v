(** C53, C96, C98, C99 without assumption on pandas: frames whose parameter types are given are
    interpolated and resampled in the same way whether or not pandas lets guesses reach the metadata.
    Vocabulary: [Spec_Frame.v], [Spec_Interp.v]. *)
From Coq Require Import String Ascii List ZArith Reals.
From Verif Require Import Base Units TimeModel Core Filters Civil Offsets ParameterType Spec_Time Frame Spec_Frame FrameInterp Spec_Interp InterpProps InterpGiven Examples Prop_Frame Prop_Interp.
Import ListNotations.
Local Open Scope string_scope.
Local Open Scope list_scope.

(** The results are the same, also when there is an error: everything proved for one of the two ways
    pandas may behave holds for the other. *)
Theorem C53_given env shared targets ex f : aligned f ->
  (forall l, In l (map fst (fr_data f)) -> exists v, meta_of f l "parameter_type" v /\ v <> MNone) ->
  interpolate env shared targets ex f = interpolate env true targets ex f.
Proof. exact (interpolate_given env shared targets ex f). Qed.
Print Assumptions C53_given.

Theorem C53_given_resample env shared rule ex f : aligned f ->
  (forall l, In l (map fst (fr_data f)) -> exists v, meta_of f l "parameter_type" v /\ v <> MNone) ->
  resample env shared rule ex f = resample env true rule ex f.
Proof. exact (resample_given env shared rule ex f). Qed.
Print Assumptions C53_given_resample.

(** And in any frame, each timeseries whose type is given is converted according to it. *)
Theorem C53_given_converts env shared targets ex f g l vs p s : aligned f -> interpolate env shared targets ex f = Ok g ->
  In (l, vs) (fr_data f) -> type_known env f l p -> meta_of f l "parameter_type" (MStr s) ->
  exists xs w, vs = map Some xs /\ regridded p ex (grid p (fr_times f)) xs (grid p targets) w /\ length w = length targets /\
    In (l, map Some w) (fr_data g) /\ meta_of g l "parameter_type" (MStr (type_text p)).
Proof.
  intros A H I T S. destruct (interp_converts env shared targets ex f g A H) as (_ & _ & _ & _ & _ & X & _).
  apply (X l vs p I T). eauto.
Qed.
Print Assumptions C53_given_converts.

Example C53_given_case : aligned (typed_frame (MStr "point") (MStr "point")) /\
  (forall l, In l (map fst (fr_data (typed_frame (MStr "point") (MStr "point")))) ->
    exists v, meta_of (typed_frame (MStr "point") (MStr "point")) l "parameter_type" v /\ v <> MNone) /\
  type_known ex_env (typed_frame (MStr "point") (MStr "point")) 0 POINT_TIMESERIES /\
  exists g, interpolate ex_env false [0; 10; 20]%Z XLINEAR (typed_frame (MStr "point") (MStr "point")) = Ok g.
Proof.
  split; [apply typed_aligned|]. split.
  { intros l [<-|[<-|[]]]; exists (MStr "point"); (split; [|discriminate]); eexists; split; [left; reflexivity|cbn; tauto|right; left; reflexivity|cbn; tauto]. }
  split; [left; exists "point"; split; [eexists; split; [left; reflexivity|cbn; tauto]|right; split; reflexivity]|].
  eexists. vm_compute. reflexivity.
Qed.
