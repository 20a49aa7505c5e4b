(** C48 and C49: filters of data frames.  Vocabulary: [Spec_Frame.v]. *)
From Coq Require Import String Ascii List ZArith QArith Qcanon Reals Bool Lia Permutation.
From Verif Require Import Base Core Filters Spec_Filters Offsets Spec_Offsets CivilFacts OffsetsProps Frame Spec_Frame FrameFilter FrameSelect.
Import ListNotations.
Local Open Scope string_scope.
Local Open Scope list_scope.

(** ** C48 *)

(** If filtering succeeds with either value of [keep] it does with the other one.  There is a test of
    metadata and time such that the points kept are those that pass and the points dropped those that
    do not, in their order; data and metadata of both frames fit together. *)
Theorem C48_partition keep rx hn fl f g : aligned f -> fr_filter keep rx hn fl f = Ok g ->
  exists a b (test : list (string * mval) -> Z -> bool),
    fr_filter true rx hn fl f = Ok a /\ fr_filter false rx hn fl f = Ok b /\
    Permutation (points f) (points a ++ points b) /\
    points a = filter (fun pt => test (fst (fst pt)) (snd (fst pt))) (points f) /\
    points b = filter (fun pt => negb (test (fst (fst pt)) (snd (fst pt)))) (points f) /\
    aligned a /\ aligned b /\ fr_cols a = fr_cols f /\ fr_cols b = fr_cols f.
Proof.
  intros AL H. destruct (partition keep rx hn fl f g AL H) as (p & q & a & b & Ha & Hb & Aa & Ab & Ca & Cb & Pa & Pb).
  exists a, b, (fun k t => q t && p (map snd k)). split; auto. split; auto. split; [|auto 10].
  rewrite Pa, Pb. apply filter_partition.
Qed.
Print Assumptions C48_partition.

(** What the test is: for plain patterns and calendar fields, exactly the points that pass every
    keyword are kept. *)
Theorem C48_selection D f ws keep : gregorian D -> aligned f -> fr_times f <> [] -> fr_meta f <> [] -> Forall (usable f) ws ->
  exists g s, fr_filter keep false true (map argument ws) f = Ok g /\ points g = filter s (points f) /\
    forall pt, In pt (points f) ->
      (s pt = true <-> (if keep then (forall w, In w ws -> passes D pt w) else ~ forall w, In w ws -> passes D pt w)).
Proof. exact (selection D f ws keep). Qed.
Print Assumptions C48_selection.

(** Two timeseries over 1 January of 2005, 2010 and 2015, of which one has a missing value. *)
Definition case_times : list Z := [1104537600; 1262304000; 1420070400]%Z.
Definition case_cols : list string := ["model"; "scenario"; "region"; "variable"; "unit"].
Definition case_row (v u : string) : list mval := [MStr "m"; MStr "s"; MStr "World"; MStr v; MStr u].
Definition case_frame : frame := mkFrame case_times
  [(0%Z, [Some 1%R; Some 6%R; Some 7%R]); (1%Z, [Some 3%R; None; Some 8%R])] case_cols
  [(0%Z, case_row "Primary Energy" "EJ/yr"); (1%Z, case_row "Primary Energy|Coal" "EJ/yr")].
Definition case_filters : list keyword := [Text "variable" ["*|Coal"]; Year [2005; 2010]%Z].
Example C48_case : aligned case_frame /\ Forall (usable case_frame) case_filters /\ (exists D, gregorian D) /\
  length (points case_frame) = 5%nat /\
  fr_filter true false true (map argument case_filters) case_frame =
    Ok (mkFrame [1104537600%Z] [(1%Z, [Some 3%R])] case_cols [(1%Z, case_row "Primary Energy|Coal" "EJ/yr")]) /\
  fr_filter false false true (map argument case_filters) case_frame =
    Ok (mkFrame case_times [(0%Z, [Some 1%R; Some 6%R; Some 7%R]); (1%Z, [None; None; Some 8%R])] case_cols
         [(0%Z, case_row "Primary Energy" "EJ/yr"); (1%Z, case_row "Primary Energy|Coal" "EJ/yr")]).
Proof.
  split.
  { split; try reflexivity.
    - cbn. repeat constructor; cbn; intuition discriminate.
    - repeat constructor.
    - repeat constructor.
    - cbn. repeat constructor; cbn; intuition discriminate.
    - intros c H. exact H. }
  split.
  { constructor; [|constructor; [|constructor]].
    - split; [discriminate|]. split; [cbn; tauto|]. split.
      + constructor; [|constructor]. intros c Hc O. cbn in Hc, O.
        repeat destruct Hc as [<-|Hc]; try destruct Hc; repeat (destruct O as [O|O]; [discriminate O|]); destruct O.
      + intros r v [<-|[<-|[]]] I; cbn in I; destruct I as [I|[I|[I|[I|[I|[]]]]]]; try discriminate I; injection I as <-; eexists;
          (split; [reflexivity|]); intros O; cbn in O; repeat (destruct O as [O|O]; [discriminate O|]); destruct O.
    - split; [discriminate|]. cbn. intuition discriminate. }
  split; [eexists; exact gregorian_exists|]. split; [reflexivity|]. split; vm_compute; reflexivity.
Qed.

(** Without data, filtering is refused. *)
Theorem C48_empty_refuted keep rx hn fl f : fr_times f = [] \/ fr_meta f = [] -> forall g, fr_filter keep rx hn fl f <> Ok g.
Proof. exact (filter_empty keep rx hn fl f). Qed.
Print Assumptions C48_empty_refuted.
(** [None] in the column of a filter: TypeError, even if no string is asked for.  ([convert_unit]
    puts [None] into the column "unit_context".) *)
Theorem C48_none_refuted : exists f, aligned f /\ points f <> [] /\
  fr_filter true false true [("unit_context", One (PStr "*"))] f = Err ETypeError /\
  fr_filter false false true [("unit_context", One (PStr "*"))] f = Err ETypeError.
Proof.
  exists (mkFrame [0%Z] [(0%Z, [Some 1%R])] (case_cols ++ ["unit_context"]) [(0%Z, case_row "Primary Energy" "EJ/yr" ++ [MNone])]).
  split; [|split; [discriminate|split; vm_compute; reflexivity]]. split; try reflexivity.
  - repeat constructor. intros [].
  - repeat constructor.
  - repeat constructor.
  - cbn. repeat constructor; cbn; intuition discriminate.
  - intros c H. apply in_or_app. now left.
Qed.
Print Assumptions C48_none_refuted.

(** ** C49 *)

(** If filtering by [a] and [b] together succeeds, so does filtering by [a]; if that leaves some point,
    filtering the result by [b] succeeds with the same points.  ([separable] holds in both orders or in
    none, so this is also filtering by [b] first.) *)
Theorem C49_compose rx hn a b f h : aligned f -> separable a b -> fr_filter true rx hn (a ++ b) f = Ok h ->
  exists g, fr_filter true rx hn a f = Ok g /\
    (points g <> [] -> exists g', fr_filter true rx hn b g = Ok g' /\ points g' = points h) /\
    (points g = [] -> points h = []).
Proof. exact (compose rx hn a b f h). Qed.
Print Assumptions C49_compose.

Theorem C49_idempotent keep rx hn fl f g : aligned f -> fr_filter keep rx hn fl f = Ok g -> points g <> [] ->
  exists g', fr_filter keep rx hn fl g = Ok g' /\ points g' = points g.
Proof. exact (idempotent keep rx hn fl f g). Qed.
Print Assumptions C49_idempotent.

(** The order of the keywords does not matter. *)
Theorem C49_order keep rx hn fl fl' f g : NoDup (map fst fl) -> Permutation fl fl' ->
  fr_filter keep rx hn fl f = Ok g -> fr_filter keep rx hn fl' f = Ok g.
Proof. exact (order_irrelevant keep rx hn fl fl' f g). Qed.
Print Assumptions C49_order.

Example C49_case : separable [("variable", One (PStr "*")); ("level", One (PInt 1))] [("year", One (PInt 2005))] /\
  exists g h, fr_filter true false true [("variable", One (PStr "*")); ("level", One (PInt 1))] case_frame = Ok g /\ length (points g) = 2%nat /\
    fr_filter true false true [("variable", One (PStr "*")); ("level", One (PInt 1)); ("year", One (PInt 2005))] case_frame = Ok h /\
    points h = [(combine case_cols (case_row "Primary Energy|Coal" "EJ/yr"), 1104537600%Z, 3%R)].
Proof.
  split.
  - split; [cbn; repeat constructor; cbn; intuition discriminate|]. cbn. intuition discriminate.
  - eexists _, _. split; [vm_compute; reflexivity|]. split; [reflexivity|]. split; [vm_compute; reflexivity|]. reflexivity.
Qed.

(** If nothing is left after the first filter the second one fails, although filtering by both
    together succeeds. *)
Theorem C49_empty_refuted : exists a b f g h, aligned f /\ separable a b /\ fr_filter true false true (a ++ b) f = Ok h /\
  fr_filter true false true a f = Ok g /\ fr_filter true false true b g = Err ETypeError.
Proof.
  exists [("variable", One (PStr "x"))], [("scenario", One (PStr "s"))], case_frame. eexists _, _. split; [apply C48_case|].
  split; [split; [cbn; repeat constructor; cbn; intuition discriminate|cbn; intuition discriminate]|].
  split; [vm_compute; reflexivity|]. split; vm_compute; reflexivity.
Qed.
Print Assumptions C49_empty_refuted.
(** A [level] applies to the variable pattern it is given with, else to the whole name: separately
    the keywords mean something different. *)
Theorem C49_level_refuted : exists a b f g g' h, aligned f /\ fr_filter true false true (a ++ b) f = Ok h /\
  fr_filter true false true a f = Ok g /\ fr_filter true false true b g = Ok g' /\ points g' <> points h.
Proof.
  exists [("variable", One (PStr "Primary Energy|*"))], [("level", One (PInt 1))], case_frame. eexists _, _, _. split; [apply C48_case|].
  split; [vm_compute; reflexivity|]. split; [vm_compute; reflexivity|]. split; [vm_compute; reflexivity|]. discriminate.
Qed.
Print Assumptions C49_level_refuted.
