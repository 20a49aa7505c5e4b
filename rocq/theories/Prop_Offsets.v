(** C58 and C65: calendar fields and generated time ranges.  Vocabulary: [Spec_Offsets.v]. *)
From Coq Require Import String List ZArith Bool Lia Sorted.
From Verif Require Import Base Calendar Civil CivilFacts Offsets OffsetsFacts Spec_Offsets OffsetsProps.
Import ListNotations.
Local Open Scope Z_scope.

(** ** C65 *)

(** The fields of every time are those of the Gregorian calendar, which determines them. *)
Theorem C65_calendar_fields D t : gregorian D ->
  falls D t (year_of t) (month_of t) (day_of t) (second_of_day t) /\
  (forall y m d s, falls D t y m d s -> year_of t = y /\ month_of t = m /\ day_of t = d /\ hour_of t = s / 3600) /\
  0 <= hour_of t < 24 /\ 0 <= t - 86400 * D (year_of t) (month_of t) (day_of t) - 3600 * hour_of t < 3600 /\
  0 <= weekday_of t < 7 /\ (exists k, D (year_of t) (month_of t) (day_of t) + 3 = 7 * k + weekday_of t).
Proof. exact (fields_ok D t). Qed.
Print Assumptions C65_calendar_fields.

(** For arrays of times: one entry for each time, in order; the empty array is refused. *)
Theorem C65_arrays D ts ys ms ds hs ws : gregorian D ->
  years ts = Ok ys -> months ts = Ok ms -> days ts = Ok ds -> hours ts = Ok hs -> weekdays ts = Ok ws ->
  forall i t, nth_error ts i = Some t -> exists y m d h w s,
    nth_error ys i = Some y /\ nth_error ms i = Some m /\ nth_error ds i = Some d /\ nth_error hs i = Some h /\ nth_error ws i = Some w /\
    falls D t y m d s /\ 3600 * h <= s < 3600 * (h + 1) /\ 0 <= w < 7 /\ (exists k, D y m d + 3 = 7 * k + w).
Proof.
  intros G Y M Dy H W i t T.
  assert (V : forall f l, vectorized f ts = Ok l -> nth_error l i = Some (f t)).
  { intros f l E. unfold vectorized in E. destruct ts as [|a ts']; [destruct i; discriminate|]. injection E as <-. exact (map_nth_error f i (a :: ts') T). }
  destruct (fields_ok D t G) as (F & _ & _ & Hr & Wk & K).
  exists (year_of t), (month_of t), (day_of t), (hour_of t), (weekday_of t), (second_of_day t).
  pose proof (falls_at _ _ _ _ _ _ F). repeat (split; [now apply V|]). split; [exact F|]. split; [lia|]. now split.
Qed.
Print Assumptions C65_arrays.
Theorem C65_empty_refused : years [] = Err EValueError /\ months [] = Err EValueError /\ days [] = Err EValueError /\
  hours [] = Err EValueError /\ weekdays [] = Err EValueError.
Proof. repeat split. Qed.
Print Assumptions C65_empty_refused.

(** The calendar exists, and on 29 February 2000, a Tuesday, at 12:00: *)
Example C65_case : (exists D, gregorian D) /\ time_of 2000 2 29 43200 = 951825600 /\
  (year_of 951825600, month_of 951825600, day_of 951825600, hour_of 951825600, weekday_of 951825600) = (2000, 2, 29, 12, 1) /\
  years [951825600; -1] = Ok [2000; 1969].
Proof. split; [exists (fun y m d => ymd2ord y m d - epoch_ord); exact gregorian_exists|]. vm_compute. auto. Qed.

(** ** C58 *)

(** The property is false: *)
Definition C58_claim : Prop := forall rule o start end_ l, to_offset rule = Ok o -> 0 < stride o -> start <= end_ ->
  generate_range start end_ o = Ok l -> exists x, In x l /\ end_ <= x.

(** every second year from 2001 does not reach 2002, *)
Theorem C58_strides_refuted : exists start end_ o l, to_offset "2AS" = Ok o /\ start <= end_ /\ generate_range start end_ o = Ok l /\
  l <> [] /\ Forall (fun x => x < end_) l.
Proof.
  exists (time_of 2001 1 1 0), (time_of 2002 1 1 0), (OYear 2 DStart 1), [time_of 2001 1 1 0].
  split; [vm_compute; reflexivity|]. split; [vm_compute; discriminate|]. split; [vm_compute; reflexivity|]. split; [discriminate|].
  constructor; [vm_compute; reflexivity|constructor].
Qed.
Print Assumptions C58_strides_refuted.
(** nor do years from 06:00 on 1 January 2000 reach 00:00 on 1 January 2001, *)
Theorem C58_clock_refuted : exists start end_ o l, to_offset "AS" = Ok o /\ start <= end_ /\ generate_range start end_ o = Ok l /\
  l <> [] /\ Forall (fun x => x < end_) l.
Proof.
  exists (time_of 2000 1 1 21600), (time_of 2001 1 1 0), (OYear 1 DStart 1), [time_of 2000 1 1 21600].
  split; [vm_compute; reflexivity|]. split; [vm_compute; discriminate|]. split; [vm_compute; reflexivity|]. split; [discriminate|].
  constructor; [vm_compute; reflexivity|constructor].
Qed.
Print Assumptions C58_clock_refuted.
(** nor pairs of days an end which is an odd number of days away. *)
Theorem C58_ticks_refuted : exists start end_ o l, to_offset "2D" = Ok o /\ start <= end_ /\ generate_range start end_ o = Ok l /\
  l <> [] /\ Forall (fun x => x < end_) l.
Proof.
  exists 0, 86400, (OTick 172800), [0].
  split; [vm_compute; reflexivity|]. split; [lia|]. split; [vm_compute; reflexivity|]. split; [discriminate|].
  constructor; [lia|constructor].
Qed.
Print Assumptions C58_ticks_refuted.
Theorem C58_refuted : ~ C58_claim.
Proof.
  intros H. destruct C58_strides_refuted as (s & e & o & l & T & L & E & _ & F).
  assert (P : 0 < stride o) by (vm_compute in T; injection T as <-; reflexivity).
  destruct (H "2AS"%string o s e l T P L E) as (x & I & X). rewrite Forall_forall in F. specialize (F x I). lia.
Qed.
Print Assumptions C58_refuted.

(** What the ranges are, for every rule other than multiples of seconds, minutes, hours and days:
    from the last time on the offset up to the start, taking every n-th time on the offset, as long
    as they are not after the first time on the offset from the end on. *)
Theorem C58_range D rule o start end_ : gregorian D -> to_offset rule = Ok o -> ~ is_tick o -> 0 < stride o -> exists first stop l,
  last_up_to D o start first /\ first_from D o end_ stop /\ generate_range start end_ o = Ok l /\
  (first <= stop -> exists l', l = first :: l') /\ (stop < first -> l = []) /\
  (forall l1 x y l2, l = l1 ++ x :: y :: l2 -> nth_anchor D o (Z.to_nat (stride o)) x y) /\
  Forall (fun x => x <= stop) l /\
  (forall l1 x y, l = l1 ++ [x] -> nth_anchor D o (Z.to_nat (stride o)) x y -> stop < y).
Proof. intros G T N. exact (range_ok D o start end_ G (rule_anchored' rule o T N)). Qed.
Print Assumptions C58_range.

(** The part of the property which holds for them: strictly increasing times on the offset, the
    first at or before the start; and, if the stride is 1 and start and end have the same time of the
    day, exactly the last one is at or after the end. *)
Theorem C58_cover_partial D rule o start end_ : gregorian D -> to_offset rule = Ok o -> ~ is_tick o -> 0 < stride o -> start <= end_ ->
  exists l, generate_range start end_ o = Ok l /\ StronglySorted Z.lt l /\ Forall (on D o) l /\
    (exists first l', l = first :: l' /\ first <= start) /\
    (stride o = 1 -> same_clock start end_ -> exists l' x, l = l' ++ [x] /\ end_ <= x /\ Forall (fun z => z < end_) l').
Proof.
  intros G T N P L. pose proof (rule_anchored' rule o T N) as A.
  destruct (range_ok D o start end_ G A P) as (first & stop & l & F & S & E & H & _). exists l. split; [exact E|].
  split; [exact (range_sorted o start end_ l A P E)|]. split; [exact (range_on D o start end_ l G A P E)|]. split.
  - destruct F as [F _]. destruct S as [S _]. destruct H as (l' & ->); [lia|]. eauto.
  - intros One C. exact (range_covers o start end_ l A One L C E).
Qed.
Print Assumptions C58_cover_partial.

(** Multiples of seconds to days: all multiples from the start up to the end; the end is reached if
    and only if the step divides the span. *)
Theorem C58_ticks n start end_ : 0 < n -> exists l, generate_range start end_ (OTick n) = Ok l /\ StronglySorted Z.lt l /\
  (forall x, In x l <-> start <= x <= end_ /\ exists k, x = start + k * n) /\
  (start <= end_ -> ((exists x, In x l /\ end_ <= x) <-> (n | end_ - start))).
Proof.
  intros N. destruct (range_ticks n start end_ N) as (l & E & S & I). exists l. split; [exact E|]. split; [exact S|]. split; [exact I|].
  intros L. split.
  - intros (x & X & Le). apply I in X as ((X1 & X2) & k & ->). exists k. lia.
  - intros (k & K). exists end_. split; [|lia]. apply I. split; [lia|]. exists k. lia.
Qed.
Print Assumptions C58_ticks.

(** Strides that are not positive are refused as soon as a second time is asked for. *)
Theorem C58_not_increasing rule o start end_ : to_offset rule = Ok o -> stride o <= 0 -> start <= end_ ->
  generate_range start end_ o = Err EValueError.
Proof. intros T. exact (range_stuck o start end_ (rule_anchored rule o T)). Qed.
Print Assumptions C58_not_increasing.

Example C58_case : to_offset "QS" = Ok (OQuarter 1 DStart 1) /\ ~ is_tick (OQuarter 1 DStart 1) /\
  same_clock (time_of 2001 5 1 0) (time_of 2001 10 3 0) /\
  generate_range (time_of 2001 5 1 0) (time_of 2001 10 3 0) (OQuarter 1 DStart 1) =
    Ok [time_of 2001 4 1 0; time_of 2001 7 1 0; time_of 2001 10 1 0; time_of 2002 1 1 0] /\
  to_offset "-2A-MAR" = Ok (OYear (-2) DEnd 3) /\ to_offset "W-TUE" = Ok (OWeek 1 1).
Proof. split; [vm_compute; reflexivity|]. split; [easy|]. split; [exists 155; vm_compute; reflexivity|]. vm_compute. auto. Qed.
