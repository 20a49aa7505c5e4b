(** C102: the origin of time does not matter.  Vocabulary: [Spec_Shift.v], [Spec_Combined.v]. *)
From Coq Require Import String Ascii List ZArith Reals.
From Verif Require Import Base Units TimeModel Core Filters Civil Offsets ParameterType Frame FrameInterp Spec_Frame Spec_Combined Spec_Shift ShiftProps Examples Prop_Frame Prop_Interp.
Import ListNotations.
Local Open Scope string_scope.
Local Open Scope list_scope.

(** Converting timeseries from times to other times, all of them later by [d], gives the same values or
    the same error; for all times, values, types and extrapolations. *)
Theorem C102_conversion d s t p ex xs :
  rbind (timeseries_converter (shifted d s) (shifted d t) p ex) (fun c => tconvert_from c xs) =
    rbind (timeseries_converter s t p ex) (fun c => tconvert_from c xs) /\
  rbind (timeseries_converter (shifted d s) (shifted d t) p ex) (fun c => tconvert_to c xs) =
    rbind (timeseries_converter s t p ex) (fun c => tconvert_to c xs).
Proof. exact (convert_shift d s t p ex xs). Qed.
Print Assumptions C102_conversion.

(** Interpolating a later frame to later times gives the later frame, or the same error. *)
Theorem C102_interpolate env shared d targets ex f :
  interpolate env shared (shifted d targets) ex (later d f) = later_result d (interpolate env shared targets ex f).
Proof. exact (interpolate_shift env shared d targets ex f). Qed.
Print Assumptions C102_interpolate.

(** So does resampling with a rule that is a multiple of seconds, *)
Theorem C102_resample env shared d rule z ex f : says_signed rule z ->
  resample env shared rule ex (later d f) = later_result d (resample env shared rule ex f).
Proof. exact (resample_shift env shared d rule z ex f). Qed.
Print Assumptions C102_resample.

(** but not with rules of the calendar: resampling to the beginnings of months depends on the date. *)
Theorem C102_calendar : exists env d f g, resample env true "MS" XLINEAR f = Ok g /\
  resample env true "MS" XLINEAR (later d f) <> Ok (later d g).
Proof.
  exists ex_env, 86400%Z, (later 432000 warming_frame).
  destruct (resample ex_env true "MS" XLINEAR (later 432000 warming_frame)) as [g|e] eqn:E.
  - exists g. split; [reflexivity|]. intros H.
    apply (f_equal (fun r => match r with Ok h => fr_times h | Err _ => [] end)) in H.
    apply (f_equal (fun r => match r with Ok h => fr_times h | Err _ => [] end)) in E.
    cbn [later fr_times] in H. rewrite <- E in H. vm_compute in H. discriminate.
  - exfalso. assert (B : match resample ex_env true "MS" XLINEAR (later 432000 warming_frame) with Ok _ => true | Err _ => false end = true) by (vm_compute; reflexivity).
    rewrite E in B. discriminate B.
Qed.
Print Assumptions C102_calendar.

Example C102_case : (exists g, interpolate ex_env true [5; 15; 25; 35]%Z XLINEAR warming_frame = Ok g /\
    interpolate ex_env true (shifted 86400 [5; 15; 25; 35]%Z) XLINEAR (later 86400 warming_frame) = Ok (later 86400 g) /\ length (fr_data g) = 2%nat) /\
  says_signed "10S" 10.
Proof.
  split.
  - destruct C53_case as (_ & _ & g & E). exists g. split; [exact E|]. split; [rewrite C102_interpolate, E; reflexivity|].
    apply (f_equal (fun r => match r with Ok h => length (map fst (fr_data h)) | Err _ => O end)) in E. rewrite <- (map_length fst). rewrite <- E. vm_compute. reflexivity.
  - apply signed_none, bare_full. apply (says_one [1; 0]%nat "S" 1); [split; [discriminate|repeat constructor]|constructor].
Qed.
