(** C99: work flows on data frames in another unit of measure.  Vocabulary: [Spec_Rescale.v], [Spec_Time.v]. *)
From Coq Require Import String Ascii List ZArith QArith Qcanon Reals Bool Lia Lra Sorted.
From Verif Require Import Base Units TimeModel Core Filters Spec_Time Frame Spec_Frame FrameAppend FrameWide WideProps FrameInterp InterpProps Examples Offsets OffsetsProps Spec_Offsets Spec_Resample Spec_Rescale RescaleProps Prop_Frame Prop_Append Prop_Wide Prop_Interp Prop_Regrid Prop_Resample.
Import ListNotations.
Local Open Scope string_scope.
Local Open Scope list_scope.

(** Any sequence of filters, renamings, new metadata, appended frames, interpolations, resamplings, statistics
    and differences to reference periods gives the rescaled result if the data (and the appended data) are
    rescaled before.  After the first difference to a reference period the zero point of the unit does not
    matter any more. *)
Theorem C99_rescaled env shared a b l f g :
  Forall (keeps_order a) l -> Forall ordered l -> increasing (fr_times f) -> frun env shared l f = Ok g ->
  frun env shared (in_unit a b l) (rescaled a b f) = Ok (rescaled a (zero_point b l) g).
Proof. intros K O I H. exact (run_affine env shared a l K b f g O I H). Qed.
Print Assumptions C99_rescaled.

(** It fails only if it fails with the original data. *)
Theorem C99_fails env shared a b l f :
  a <> 0%R -> Forall (keeps_order a) l -> Forall ordered l -> increasing (fr_times f) -> (exists e, frun env shared l f = Err e) ->
  exists e, frun env shared (in_unit a b l) (rescaled a b f) = Err e.
Proof. exact (run_fails env shared a b l f). Qed.
Print Assumptions C99_fails.

(** Filters do not look at values at all: any function of the values may be taken before or after. *)
Theorem C99_filter h keep rx hn fl f :
  fr_filter keep rx hn fl (mapped h f) = rbind (fr_filter keep rx hn fl f) (fun g => Ok (mapped h g)).
Proof. exact (filter_mapped h keep rx hn fl f). Qed.
Print Assumptions C99_filter.

(** Without [keeps_order] it is not so: the smallest value of 1 and 5 and 3 in a unit with the opposite sign. *)
Theorem C99_order_needed : exists g g', frun ex_env true [FOver ["ensemble"] (Quantile 0)] ens_frame = Ok g /\
  frun ex_env true (in_unit (-1) 0 [FOver ["ensemble"] (Quantile 0)]) (rescaled (-1) 0 ens_frame) = Ok g' /\ g' <> rescaled (-1) 0 g.
Proof.
  assert (P : forall f ts, wide f = Ok ts -> fr_cols f = fr_cols ens_frame -> exists g, process_over ["ensemble"] (Quantile 0) f = Ok g /\ g = over_frame (case_cols ++ ["climate_model"]) (Quantile 0) f ts).
  { intros f ts W C. eexists. split; [|reflexivity]. apply over_iff. exists ts. rewrite C. repeat split; auto; try lra. discriminate. }
  destruct (P ens_frame _ eq_refl eq_refl) as (g & G & EG). destruct (P (rescaled (-1) 0 ens_frame) _ eq_refl eq_refl) as (g' & G' & EG').
  exists g, g'. cbn [in_unit frun fdo]. rewrite G, G'. split; [reflexivity|]. split; [reflexivity|]. intros K.
  assert (F : Some (quantile_of 0 [-1 * 1 + 0; -1 * 5 + 0; -1 * 3 + 0])%R = Some (-1 * quantile_of 0 [1; 5; 3] + 0)%R).
  { pose proof (f_equal (fun g => nth 0 (snd (nth 0 (fr_data g) (0%Z, []))) None) K) as V. rewrite EG, EG' in V. exact V. }
  injection F as F.
  assert (Z : forall xs, quantile_of 0 xs = nth 0 (sort_R xs) 0%R).
  { intros xs. unfold quantile_of. rewrite Rmult_0_r. assert (E : Int_part 0 = 0%Z) by (destruct (base_Int_part 0); assert (Int_part 0 <= 0 /\ -1 < Int_part 0)%Z; [split; [apply le_IZR|apply lt_IZR]; lra|lia]). rewrite E. change (Z.to_nat 0) with 0%nat. lra. }
  rewrite !Z in F. cbn [sort_R insert_R] in F. repeat (destruct (Rle_dec _ _) in F; cbn [insert_R nth] in F; try lra).
Qed.
Print Assumptions C99_order_needed.

(** A work flow that appends, renames, selects and subtracts a reference period, on the frames of C48 and C50. *)
Definition case_flow : list fop :=
  [FAppend DFalse later_frame; FFilter true false true [("variable", One (PStr "Primary Energy"))]; FSetMeta "source" (One (PStr "test"));
   FRename [("region", [("World", "Earth")])]].
Example C99_case : Forall (keeps_order 1000) case_flow /\ Forall ordered case_flow /\ increasing (fr_times case_frame) /\
  exists g, frun ex_env true case_flow case_frame = Ok g /\ length (points g) = 5%nat.
Proof.
  split; [repeat constructor|]. split; [repeat constructor|]. split; [repeat constructor; lia|]. eexists. split; [vm_compute; reflexivity|reflexivity].
Qed.
Definition mean_flow : list fop :=
  [FFilter true false true [("climate_model", One (PStr "a"))]; FRelative (Some "x") true false true [("year", One (PInt 1970))]; FOver ["ensemble"] Mean].
Example C99_mean_case : Forall (keeps_order (-1)) mean_flow /\ Forall ordered mean_flow /\ increasing (fr_times ens_frame) /\ zero_point 273 mean_flow = 0%R /\
  exists g, frun ex_env true mean_flow ens_frame = Ok g /\ length (points g) = 2%nat.
Proof.
  split; [repeat constructor|]. split; [repeat constructor|]. split; [repeat constructor; lia|]. split; [reflexivity|]. eexists. split; [vm_compute; reflexivity|reflexivity].
Qed.
(** Resampling and interpolating back, for the frame of C53. *)
Definition times_flow : list fop := [FResample "5S" XNONE; FInterpolate [0; 10; 20]%Z XNONE].
Example C99_times_case : Forall (keeps_order (-1)) times_flow /\ Forall ordered times_flow /\ increasing (fr_times warming_frame) /\
  exists g, frun ex_env true times_flow warming_frame = Ok g.
Proof.
  split; [repeat constructor|]. split; [repeat constructor; lia|]. split; [repeat constructor; lia|].
  destruct (C98_points _ ex_env XNONE "5S" (OTick 5) warming_frame gregorian_exists) as (g & h & H & _ & _ & _ & _ & _ & K & _); try exact warming_aligned; try exact warming_types; try exact warming_spelling.
  - vm_compute; reflexivity.
  - left; split; [exact I|reflexivity].
  - repeat constructor; lia.
  - cbn; lia.
  - intros x [<-|[<-|[<-|[]]]]; [exists 0%Z|exists 2%Z|exists 4%Z]; reflexivity.
  - intros l vs [[= <- <-]|[[= <- <-]|[]]]; cbn; intuition discriminate.
  - exists h. cbn [times_flow frun fdo]. rewrite H. cbn [rbind]. change [0; 10; 20]%Z with (fr_times warming_frame). rewrite K. reflexivity.
Qed.
