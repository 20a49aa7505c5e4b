(** C54: data frames converted to parameter sets and back.  Vocabulary: [Spec_Store.v], [Spec_Frame.v].
    [q_of] says which rational number a float in the parameter set is read as. *)
From Coq Require Import String Ascii List ZArith QArith Qcanon Reals Qreals Bool Lia Sorted.
From Verif Require Import Base Units TimeModel Core CoreInv Spec_Core CoreReq Filters ParameterType Frame Spec_Frame FrameStore Spec_Store StorePut StoreProps StoreNever Examples Prop_Frame.
Import ListNotations.
Local Open Scope string_scope.
Local Open Scope list_scope.

(** If all regions are "World" or directly below it then storing a frame in an empty parameter set and reading
    it at the same times succeeds, and the frame read has exactly the same timeseries, with their values, their
    types if given, and all other metadata.  Reading does not change the parameters. *)
Theorem C54_lossless_partial env q_of f model scenario climate_model :
  good_env env -> storable env f -> (forall c l q, meta_of f l c (MNum q) -> q_of (num_of_q q) = q) ->
  (forall l r, meta_of f l "region" (MStr r) -> near r) ->
  exists s s' g,
  to_parameterset env f (init_state "World") = (s, Ok tt) /\
  convert_openscm_to_scmdataframe env q_of s (fr_times f) model scenario climate_model = (s', Ok g) /\
  st_params s' = st_params s /\ aligned g /\ fr_times g = fr_times f /\ length (fr_data g) = length (fr_data f) /\
  (forall v r u xs, has_series g v r u xs <-> has_series f v r u xs) /\
  (forall v r u t xs, has_typed_series f v r u t xs -> has_typed_series g v r u t xs) /\
  (forall l l' c v, other_column f c -> meta_of f l c v -> In l' (map fst (fr_data g)) -> meta_of g l' c v) /\
  (forall c, In c (fr_cols g) -> In c (fr_cols f) \/ c = "climate_model" \/ c = "parameter_type").
Proof.
  intros G ST QO AN. destruct (stored_and_read env q_of f G ST QO model scenario climate_model) as (s & s' & g & X1 & X2 & X3 & X4 & X5 & X6 & X7 & X8 & X9 & X10).
  exists s, s', g. split; [exact X1|]. split; [exact X2|]. split; [exact X3|]. split; [exact X4|]. split; [exact X5|]. split; [exact (X6 AN)|].
  split; [|split; [|split; [exact X9|exact X10]]].
  - intros v r u xs. rewrite X7. split; [intros [A _]; exact A|]. intros A. split; [exact A|]. destruct A as (l & _ & _ & R & _). exact (AN _ _ R).
  - intros v r u t xs A. apply X8; [exact A|]. destruct A as (l & _ & _ & R & _). exact (AN _ _ R).
Qed.
Print Assumptions C54_lossless_partial.

(** In general both conversions succeed, but only the timeseries in those regions come back: *)
Theorem C54_kept_partial env q_of f model scenario climate_model :
  good_env env -> storable env f -> (forall c l q, meta_of f l c (MNum q) -> q_of (num_of_q q) = q) ->
  exists s s' g,
  to_parameterset env f (init_state "World") = (s, Ok tt) /\
  convert_openscm_to_scmdataframe env q_of s (fr_times f) model scenario climate_model = (s', Ok g) /\
  forall v r u xs, has_series g v r u xs <-> has_series f v r u xs /\ near r.
Proof.
  intros G ST QO. destruct (stored_and_read env q_of f G ST QO model scenario climate_model) as (s & s' & g & X1 & X2 & _ & _ & _ & _ & X7 & _).
  exists s, s', g. exact (conj X1 (conj X2 X7)).
Qed.
Print Assumptions C54_kept_partial.

(** A frame with two temperatures and an energy, a type for each, a quantity and a missing note. *)
Definition store_cols : list string :=
  ["model"; "scenario"; "region"; "variable"; "unit"; "parameter_type"; "climate_model"; "ecs (K)"; "note"].
Definition store_row (r v u t : string) : list mval :=
  [MStr "m"; MStr "s"; MStr r; MStr v; MStr u; MStr t; MStr "unspecified"; MNum (Q2Qc 3); MNaN].
Definition store_frame (r : string) : frame := mkFrame [0; 10; 20]%Z
  [(4%Z, [Some 1%R; Some 2%R; Some 4%R]); (2%Z, [Some 3%R; Some 5%R; Some 3%R]); (7%Z, [Some 0%R; Some 5%R; Some 3%R])] store_cols
  [(4%Z, store_row "World" "T|Ocean" "K" "point"); (2%Z, store_row r "T|Ocean" "mK" "average"); (7%Z, store_row "World" "T|Land" "K" "average")].
Lemma store_meta r l c v : meta_of (store_frame r) l c v ->
  exists r' v' u' t', (l = 4%Z /\ r' = "World" /\ v' = "T|Ocean" /\ u' = "K" /\ t' = "point" \/ l = 2%Z /\ r' = r /\ v' = "T|Ocean" /\ u' = "mK" /\ t' = "average" \/
    l = 7%Z /\ r' = "World" /\ v' = "T|Land" /\ u' = "K" /\ t' = "average") /\
  (c = "model" /\ v = MStr "m" \/ c = "scenario" /\ v = MStr "s" \/ c = "region" /\ v = MStr r' \/ c = "variable" /\ v = MStr v' \/ c = "unit" /\ v = MStr u' \/
   c = "parameter_type" /\ v = MStr t' \/ c = "climate_model" /\ v = MStr "unspecified" \/ c = "ecs (K)" /\ v = MNum (Q2Qc 3) \/ c = "note" /\ v = MNaN).
Proof.
  intros (row & I & J). cbn [store_frame fr_meta fr_cols] in I, J.
  destruct I as [I|[I|[I|[]]]]; injection I as <- <-; unfold store_row, store_cols in J; cbn [combine In] in J; do 4 eexists; (split; [cbn; tauto|]);
    repeat (destruct J as [J|J]; [injection J as <- <-; tauto|]); destruct J.
Qed.
Lemma store_others r c : other_column (store_frame r) c -> c = "model" \/ c = "scenario" \/ c = "climate_model" \/ c = "ecs (K)" \/ c = "note".
Proof.
  intros [I N]. cbn [store_frame fr_cols] in I. unfold store_cols in I. cbn [In] in I, N.
  repeat (destruct I as [<-|I]; [tauto|]). destruct I.
Qed.
Ltac lacks := repeat (apply without_cons; split; [discriminate|]); apply without_nil.
Lemma trimmed_one c : is_space c = false -> trimmed (String c "").
Proof.
  intros H. split; [intros c' b [= <- _]; exact H|]. intros [|a0 a] c' E; cbn in E; [injection E as <-; exact H|].
  injection E as _ E. now destruct a.
Qed.
Lemma ecs_column : quantity_column "ecs (K)" "ecs" "K".
Proof.
  split; [reflexivity|]. split; [|split; [now apply trimmed_one|repeat split; lacks]].
  split; [now intros c b [= <- _]|]. intros a c E. destruct a as [|a0 [|a1 [|a2 [|a3 a]]]]; cbn in E; try discriminate; try (injection E as <-; reflexivity); try (injection E as _ E; discriminate).
  injection E as _ _ <-. reflexivity.
Qed.
Lemma held_name c n : held_as c n -> n = if has_unit c then unit_name c else c.
Proof.
  intros [[W ->]|(u & Q)]; [now rewrite (has_unit_no _ W)|]. destruct (quantity_ok _ _ _ Q) as (-> & -> & _). reflexivity.
Qed.
Lemma store_names r c n : other_column (store_frame r) c -> held_as c n ->
  c = n /\ (n = "model" \/ n = "scenario" \/ n = "climate_model" \/ n = "note") \/ c = "ecs (K)" /\ n = "ecs".
Proof. intros O H. apply held_name in H. destruct (store_others _ _ O) as [-> |[-> |[-> |[-> | ->]]]]; vm_compute in H; subst n; auto 10. Qed.
Ltac not_under := let H := fresh in let x := fresh in intros [H|(x & H)]; cbn in H; discriminate.

Lemma store_frame_storable r : under "World" r -> r <> "World" -> storable ex_env (store_frame r).
Proof.
  intros UR NR. constructor.
  - split; try reflexivity.
    + cbn. repeat constructor; cbn; intuition discriminate.
    + repeat constructor.
    + repeat constructor.
    + cbn. repeat constructor; cbn; intuition discriminate.
    + intros c H. cbn in *. tauto.
  - discriminate.
  - cbn. repeat constructor; lia.
  - cbn. lia.
  - intros l vals [[= <- <-]|[[= <- <-]|[[= <- <-]|[]]]]; cbn; intuition discriminate.
  - intros l [<-|[<-|[<-|[]]]].
    + exists "T|Ocean", "World", "K". split; [|split; [|split; [|split; [discriminate|split; [reflexivity|now left]]]]]; (eexists; split; [left; reflexivity|cbn; tauto]).
    + exists "T|Ocean", r, "mK". split; [|split; [|split; [|split; [discriminate|split; [reflexivity|exact UR]]]]]; (eexists; split; [right; left; reflexivity|cbn; tauto]).
    + exists "T|Land", "World", "K". split; [|split; [|split; [|split; [discriminate|split; [reflexivity|now left]]]]]; (eexists; split; [right; right; left; reflexivity|cbn; tauto]).
  - exists 4%Z, "World". split; [eexists; split; [left; reflexivity|cbn; tauto]|now left].
  - intros l v M. destruct (store_meta _ _ _ _ M) as (r' & v' & u' & t' & [X|[X|X]] & Y); destruct X as (-> & -> & -> & -> & ->);
      repeat (destruct Y as [[Y1 Y2]|Y]; [try discriminate Y1; subst v; auto|]); destruct Y; discriminate.
  - intros l l' v v' r0 A B C D N.
    destruct (store_meta _ _ _ _ A) as (r1 & v1 & u1 & t1 & X1 & Y1). destruct (store_meta _ _ _ _ B) as (r2 & v2 & u2 & t2 & X2 & Y2).
    destruct (store_meta _ _ _ _ C) as (r3 & v3 & u3 & t3 & X3 & Y3). destruct (store_meta _ _ _ _ D) as (r4 & v4 & u4 & t4 & X4 & Y4).
    assert (v = v1) by (clear -Y1; repeat (destruct Y1 as [[Y Z]|Y1]; [first [discriminate Y|now injection Z]|]); destruct Y1; discriminate).
    assert (v' = v2) by (clear -Y2; repeat (destruct Y2 as [[Y Z]|Y2]; [first [discriminate Y|now injection Z]|]); destruct Y2; discriminate).
    assert (r0 = r3) by (clear -Y3; repeat (destruct Y3 as [[Y Z]|Y3]; [first [discriminate Y|now injection Z]|]); destruct Y3; discriminate).
    assert (r0 = r4) by (clear -Y4; repeat (destruct Y4 as [[Y Z]|Y4]; [first [discriminate Y|now injection Z]|]); destruct Y4; discriminate).
    clear A B C D Y1 Y2 Y3 Y4. subst v v' r3.
    destruct X1 as [(-> & _ & -> & _)|[(-> & _ & -> & _)|(-> & _ & -> & _)]]; destruct X2 as [(-> & _ & -> & _)|[(-> & _ & -> & _)|(-> & _ & -> & _)]]; try congruence; try not_under.
    + exfalso. apply NR. destruct X3 as [(_ & E & _)|[(E & _)|(E & _)]]; try discriminate E. destruct X4 as [(E4 & _)|[(_ & E4 & _)|(E4 & _)]]; try discriminate E4. congruence.
    + exfalso. apply NR. destruct X4 as [(_ & E & _)|[(E & _)|(E & _)]]; try discriminate E. destruct X3 as [(E4 & _)|[(_ & E4 & _)|(E4 & _)]]; try discriminate E4. congruence.
  - intros c l l' v v' O A B. destruct (store_meta _ _ _ _ A) as (r1 & v1 & u1 & t1 & _ & Y1). destruct (store_meta _ _ _ _ B) as (r2 & v2 & u2 & t2 & _ & Y2).
    destruct (store_others _ _ O) as [-> |[-> |[-> |[-> | ->]]]];
      repeat (destruct Y1 as [[E1 F1]|Y1]; [try discriminate E1|]); try destruct Y1 as [E1 F1]; try discriminate;
      repeat (destruct Y2 as [[E2 F2]|Y2]; [try discriminate E2|]); try destruct Y2 as [E2 F2]; try discriminate; congruence.
  - intros l v A. destruct (store_meta _ _ _ _ A) as (r1 & v1 & u1 & t1 & _ & Y1). 
    repeat (destruct Y1 as [[E1 F1]|Y1]; [first [discriminate E1|exact F1]|]); destruct Y1; discriminate.
  - intros c O. destruct (store_others _ _ O) as [-> |[-> |[-> |[-> | ->]]]]; (split; [discriminate|]); (split; [discriminate|]).
    + exists "model". left. split; [lacks|reflexivity].
    + exists "scenario". left. split; [lacks|reflexivity].
    + exists "climate_model". left. split; [lacks|reflexivity].
    + exists "ecs". right. exists "K". exact ecs_column.
    + exists "note". left. split; [lacks|reflexivity].
  - intros c n u l v O Q A. destruct (quantity_ok _ _ _ Q) as (HU & _ & EU). destruct (store_others _ _ O) as [-> |[-> |[-> |[-> | ->]]]]; vm_compute in HU; try discriminate HU.
    vm_compute in EU. subst u. split; [discriminate|]. right. exists (Q2Qc 3). destruct (store_meta _ _ _ _ A) as (r1 & v1 & u1 & t1 & _ & Y1).
    repeat (destruct Y1 as [[E1 F1]|Y1]; [first [discriminate E1|exact F1]|]); destruct Y1; discriminate.
  - intros c c' n n' O O' H H' N. destruct (store_names _ _ _ O H) as [(<- & K)|(-> & ->)]; destruct (store_names _ _ _ O' H') as [(<- & K')|(-> & ->)]; try congruence.
    + destruct K as [-> |[-> |[-> | ->]]]; destruct K' as [-> |[-> |[-> | ->]]]; try congruence; not_under.
    + destruct K as [-> |[-> |[-> | ->]]]; not_under.
    + destruct K' as [-> |[-> |[-> | ->]]]; not_under.
  - intros c n l v O H A _. destruct (store_meta _ _ _ _ A) as (r1 & v1 & u1 & t1 & X & Y1).
    assert (v = v1) by (clear -Y1; repeat (destruct Y1 as [[Y Z]|Y1]; [first [discriminate Y|now injection Z]|]); destruct Y1; discriminate). subst v1. clear Y1.
    destruct (store_names _ _ _ O H) as [(_ & K)|(_ & ->)].
    + destruct X as [(_ & _ & -> & _)|[(_ & _ & -> & _)|(_ & _ & -> & _)]]; destruct K as [-> |[-> |[-> | ->]]]; split; not_under.
    + destruct X as [(_ & _ & -> & _)|[(_ & _ & -> & _)|(_ & _ & -> & _)]]; split; not_under.
Qed.
Lemma store_numbers r c l q : meta_of (store_frame r) l c (MNum q) -> Q2Qc 3 = q.
Proof.
  intros M. destruct (store_meta _ _ _ _ M) as (r1 & v1 & u1 & t1 & _ & Y).
  repeat (destruct Y as [[E F]|Y]; [first [discriminate F|now injection F]|]). destruct Y; discriminate.
Qed.
Example C54_case : good_env ex_env /\ storable ex_env (store_frame "World|Asia") /\
  (forall c l q, meta_of (store_frame "World|Asia") l c (MNum q) -> (fun _ => Q2Qc 3) (num_of_q q) = q) /\
  (forall l r, meta_of (store_frame "World|Asia") l "region" (MStr r) -> near r) /\
  has_typed_series (store_frame "World|Asia") "T|Ocean" "World|Asia" "mK" "average" [Some 3%R; Some 5%R; Some 3%R].
Proof.
  split; [exact ex_good|]. split; [apply store_frame_storable; [right; now exists "Asia"|discriminate]|].
  split; [intros c l q; apply store_numbers|]. split.
  - intros l r M. destruct (store_meta _ _ _ _ M) as (r1 & v1 & u1 & t1 & X & Y).
    assert (r = r1) by (clear -Y; repeat (destruct Y as [[Y1 Z]|Y]; [first [discriminate Y1|now injection Z]|]); destruct Y; discriminate). subst r1.
    destruct X as [(_ & -> & _)|[(_ & -> & _)|(_ & -> & _)]]; [now left| |now left]. right. exists "Asia". split; [lacks|reflexivity].
  - exists 2%Z. split; [right; now left|]. repeat split; (eexists; split; [right; left; reflexivity|cbn; tauto]).
Qed.

(** Timeseries further down are lost without an error. *)
Theorem C54_depth_refuted : exists env q_of f v r u xs, good_env env /\ storable env f /\ has_series f v r u xs /\
  exists s s' g, to_parameterset env f (init_state "World") = (s, Ok tt) /\
    convert_openscm_to_scmdataframe env q_of s (fr_times f) "" "" "" = (s', Ok g) /\
    forall u' xs', ~ has_series g v r u' xs'.
Proof.
  exists ex_env, (fun _ => Q2Qc 3), (store_frame "World|Asia|Japan"), "T|Ocean", "World|Asia|Japan", "mK", [Some 3%R; Some 5%R; Some 3%R].
  assert (ST : storable ex_env (store_frame "World|Asia|Japan")) by (apply store_frame_storable; [right; now exists "Asia|Japan"|discriminate]).
  split; [exact ex_good|]. split; [exact ST|]. split.
  { exists 2%Z. split; [right; now left|]. repeat split; (eexists; split; [right; left; reflexivity|cbn; tauto]). }
  destruct (C54_kept_partial ex_env (fun _ => Q2Qc 3) _ "" "" "" ex_good ST (store_numbers _)) as (s & s' & g & A & B & C).
  exists s, s', g. split; [exact A|]. split; [exact B|]. intros u' xs' H. apply C in H. destruct H as [_ [H|(x & W & H)]]; [discriminate|].
  injection H as H. apply (W "Asia" "Japan"). now rewrite <- H.
Qed.
Print Assumptions C54_depth_refuted.

(** Frames in which one variable lies below another in the same region are never converted, *)
Theorem C54_nested_refuted env f s s' l l' v x r : reachable env s -> aligned f ->
  meta_of f l "variable" (MStr v) -> meta_of f l' "variable" (MStr (v ++ "|" ++ x)) ->
  meta_of f l "region" (MStr r) -> meta_of f l' "region" (MStr r) ->
  to_parameterset env f s <> (s', Ok tt).
Proof. intros R. exact (nested_never env f s s' l l' v x r (reachable_wf env s R)). Qed.
Print Assumptions C54_nested_refuted.
Example C54_nested_case : reachable ex_env (init_state "World") /\ aligned case_frame /\
  meta_of case_frame 0 "variable" (MStr "Primary Energy") /\ meta_of case_frame 1 "variable" (MStr ("Primary Energy" ++ "|" ++ "Coal")) /\
  meta_of case_frame 0 "region" (MStr "World") /\ meta_of case_frame 1 "region" (MStr "World").
Proof.
  split; [exists "World", []; reflexivity|]. split; [apply C48_case|].
  repeat split; (eexists; split; [first [left; reflexivity|right; left; reflexivity]|cbn; tauto]).
Qed.

(** nor are frames with fewer than three times. *)
Theorem C54_short_refuted env f s s' : reachable env s -> aligned f -> fr_data f <> [] -> (length (fr_times f) < 3)%nat ->
  to_parameterset env f s <> (s', Ok tt).
Proof. intros R. exact (short_never env f s s' (reachable_wf env s R)). Qed.
Print Assumptions C54_short_refuted.
Example C54_short_case : exists f, aligned f /\ fr_data f <> [] /\ length (fr_times f) = 2%nat.
Proof.
  exists (mkFrame [0; 10]%Z [(0%Z, [Some 1%R; Some 2%R])] case_cols [(0%Z, case_row "T" "K")]). split; [|split; [discriminate|reflexivity]].
  split; try reflexivity.
  - cbn. repeat constructor; cbn; intuition discriminate.
  - repeat constructor.
  - repeat constructor.
  - cbn. repeat constructor; cbn; intuition discriminate.
  - intros c H. exact H.
Qed.
