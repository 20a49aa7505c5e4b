(** Proofs relating calendar fields and ranges to the specification (C58, C65). *)
From Coq Require Import String Ascii List ZArith Bool Lia Sorted.
From Verif Require Import Base Calendar Civil CivilFacts Offsets OffsetsFacts Spec_Offsets.
Import ListNotations.
Local Open Scope Z_scope.

(** ** The calendar *)
Lemma leap_iff y : is_leap y = true <-> leap_year y.
Proof. apply is_leap_iff. Qed.
Lemma month_has_iff y m n : month_has y m n <-> 1 <= m <= 12 /\ n = days_in_month y m.
Proof.
  split.
  - intros [m' H|m' H|H|H].
    + cbn in H. unfold days_in_month. destruct H as [<-|[<-|[<-|[<-|[<-|[<-|[<-|[]]]]]]]]; cbn; split; auto; lia.
    + cbn in H. unfold days_in_month. destruct H as [<-|[<-|[<-|[<-|[]]]]]; cbn; split; auto; lia.
    + apply leap_iff in H. unfold days_in_month. rewrite H. cbn. split; auto; lia.
    + split; [lia|]. rewrite <- leap_iff in H. unfold days_in_month. destruct (is_leap y); [now destruct H|reflexivity].
  - intros [M ->]. pattern m. apply twelve; auto; unfold days_in_month; cbn [Z.eqb Pos.eqb andb month_days];
      try (apply has_31; cbn; tauto); try (apply has_30; cbn; tauto).
    destruct (is_leap y) eqn:E; [apply has_29; now apply leap_iff|apply has_28]. rewrite <- leap_iff. congruence.
Qed.
Lemma g_days D : gregorian D -> forall y m d, D y m d = D y m 1 + d - 1.
Proof.
  intros G y m d. assert (P : forall n, 0 <= n -> D y m (1 + n) = D y m 1 + n).
  { intros n N. pattern n. apply natlike_ind; auto; [cbn; lia|]. intros x X IH. replace (1 + Z.succ x) with (1 + x + 1) by lia. rewrite (g_day D G). lia. }
  assert (M : forall n, 0 <= n -> D y m (1 - n) = D y m 1 - n).
  { intros n N. pattern n. apply natlike_ind; auto; [cbn; lia|]. intros x X IH. pose proof (g_day D G y m (1 - Z.succ x)) as E.
    replace (1 - Z.succ x + 1) with (1 - x) in E by lia. lia. }
  destruct (Z_le_gt_dec 1 d).
  - replace d with (1 + (d - 1)) at 1 by lia. rewrite P by lia. lia.
  - replace d with (1 - (1 - d)) at 1 by lia. rewrite M by lia. lia.
Qed.
Lemma g_month_start D : gregorian D -> forall k, D ((k + 1) / 12) ((k + 1) mod 12 + 1) 1 - D (k / 12) (k mod 12 + 1) 1 = month_len k.
Proof.
  intros G k. unfold month_len. pose proof (Z.div_mod k 12 ltac:(lia)) as E. pose proof (Z.mod_pos_bound k 12 ltac:(lia)) as B.
  set (y := k / 12) in *. set (m := k mod 12) in *.
  assert (L : month_has y (m + 1) (days_in_month y (m + 1))) by (apply month_has_iff; split; [lia|auto]).
  destruct (Z.eq_dec m 11) as [M|M].
  - replace ((k + 1) / 12) with (y + 1) by (apply (Z.div_unique _ _ _ 0); lia).
    replace ((k + 1) mod 12) with 0 by (apply (Z.mod_unique _ _ (y + 1)); lia).
    rewrite M. change (0 + 1) with 1. change (11 + 1) with 12. rewrite (g_year D G y), (g_days D G y 12 31).
    change (days_in_month y 12) with 31. lia.
  - replace ((k + 1) / 12) with y by (apply (Z.div_unique _ _ _ (m + 1)); lia).
    replace ((k + 1) mod 12) with (m + 1) by (apply (Z.mod_unique _ _ y); lia).
    pose proof (g_month D G y (m + 1) _ L ltac:(lia)) as N. rewrite (g_days D G y (m + 1) (days_in_month y (m + 1))) in N. lia.
Qed.
Lemma g_start D : gregorian D -> forall k, D (k / 12) (k mod 12 + 1) 1 = month_start k - epoch_ord.
Proof.
  intros G. set (f k := D (k / 12) (k mod 12 + 1) 1 - month_start k).
  assert (S : forall k, f (k + 1) = f k).
  { intros k. pose proof (g_month_start D G k). pose proof (month_next k). unfold f. lia. }
  assert (P : forall n k, 0 <= n -> f (k + n) = f k).
  { intros n k N. pattern n. apply natlike_ind; auto; [f_equal; lia|]. intros x X IH. replace (k + Z.succ x) with (k + x + 1) by lia. now rewrite S. }
  assert (Z : f 23640 = - epoch_ord).
  { unfold f. change (23640 / 12) with 1970. change (23640 mod 12 + 1) with 1. rewrite (g_epoch D G). reflexivity. }
  intros k. assert (f k = f 23640) as E.
  { destruct (Z_le_gt_dec k 23640).
    - replace 23640 with (k + (23640 - k)) by lia. symmetry. apply P. lia.
    - replace k with (23640 + (k - 23640)) by lia. apply P. lia. }
  rewrite Z in E. unfold f in E. lia.
Qed.
Lemma g_ord D : gregorian D -> forall y m d, 1 <= m <= 12 -> D y m d = ymd2ord y m d - epoch_ord.
Proof.
  intros G y m d M. rewrite (g_days D G). destruct (ymd_month y m d M) as [-> _].
  rewrite <- (Z.add_sub_assoc (month_start _)). pose proof (g_start D G (12 * y + m - 1)) as E.
  replace ((12 * y + m - 1) / 12) with y in E by (apply (Z.div_unique _ _ _ (m - 1)); lia).
  replace ((12 * y + m - 1) mod 12 + 1) with m in E by (rewrite <- (Z.mod_unique (12 * y + m - 1) 12 y (m - 1)); lia). lia.
Qed.

(** There is such a calendar. *)
Lemma gregorian_exists : gregorian (fun y m d => ymd2ord y m d - epoch_ord).
Proof.
  constructor.
  - reflexivity.
  - intros y m d. unfold ymd2ord. lia.
  - intros y m n H L. apply month_has_iff in H as [M ->].
    destruct (ymd_month y m (days_in_month y m) M) as [-> E]. destruct (ymd_month y (m + 1) 1 ltac:(lia)) as [-> _].
    pose proof (month_next (12 * y + m - 1)) as N. replace (12 * y + (m + 1) - 1) with (12 * y + m - 1 + 1) by lia. lia.
  - intros y. destruct (ymd_month (y + 1) 1 1 ltac:(lia)) as [-> _]. destruct (ymd_month y 12 31 ltac:(lia)) as [-> E].
    pose proof (month_next (12 * y + 12 - 1)) as N. change (days_in_month y 12) with 31 in E.
    replace (12 * (y + 1) + 1 - 1) with (12 * y + 12 - 1 + 1) by lia. lia.
Qed.

Lemma falls_iff D t y m d s : gregorian D ->
  falls D t y m d s <-> year_of t = y /\ month_of t = m /\ day_of t = d /\ second_of_day t = s.
Proof.
  intros G. split.
  - intros [(n & H & B) S T]. apply month_has_iff in H as [M ->]. assert (V : is_date y m d) by (split; auto).
    rewrite (g_ord D G y m d M) in T. destruct (date_time y m d s V S) as [E1 E2]. fold (time_of y m d s) in T. rewrite T.
    unfold year_of, month_of, day_of. rewrite E1. auto.
  - intros (<- & <- & <- & <-). destruct (time_date t) as (y & m & d & E & V & S & T).
    assert (year_of t = y /\ month_of t = m /\ day_of t = d) as (-> & -> & ->) by (unfold year_of, month_of, day_of; now rewrite E).
    constructor; auto.
    + exists (days_in_month y m). split; [apply month_has_iff; split; auto; apply V|apply V].
    + rewrite (g_ord D G y m d) by apply V. exact T.
Qed.

Lemma fields_ok D t : gregorian D ->
  falls D t (year_of t) (month_of t) (day_of t) (second_of_day t) /\
  (forall y m d s, falls D t y m d s -> year_of t = y /\ month_of t = m /\ day_of t = d /\ hour_of t = s / 3600) /\
  0 <= hour_of t < 24 /\ 0 <= t - 86400 * D (year_of t) (month_of t) (day_of t) - 3600 * hour_of t < 3600 /\
  0 <= weekday_of t < 7 /\ (exists k, D (year_of t) (month_of t) (day_of t) + 3 = 7 * k + weekday_of t).
Proof.
  intros G. assert (F : falls D t (year_of t) (month_of t) (day_of t) (second_of_day t)) by (apply falls_iff; auto).
  split; auto. split.
  - intros y m d s H. apply falls_iff in H as (-> & -> & -> & E); auto. unfold hour_of. rewrite E. auto.
  - pose proof (falls_second _ _ _ _ _ _ F) as S. pose proof (falls_at _ _ _ _ _ _ F) as T.
    pose proof (Z.div_mod (second_of_day t) 3600 ltac:(lia)). pose proof (Z.mod_pos_bound (second_of_day t) 3600 ltac:(lia)).
    fold (hour_of t) in *. split; [lia|]. split; [lia|].
    assert (E : D (year_of t) (month_of t) (day_of t) = t / 86400) by (apply (Z.div_unique _ _ _ (second_of_day t)); lia).
    rewrite E. unfold weekday_of.
    pose proof (Z.div_mod (t / 86400 + epoch_ord + 6) 7 ltac:(lia)). pose proof (Z.mod_pos_bound (t / 86400 + epoch_ord + 6) 7 ltac:(lia)).
    split; [lia|]. exists ((t / 86400 + epoch_ord + 6) / 7 - 102738). unfold epoch_ord in *. lia.
Qed.

(** ** Being on the offset *)
Lemma anchor_iff t opt : anchor_day opt (year_of t) (month_of t) (day_of t) <-> (day_of t =? get_day_of_month t opt) = true.
Proof.
  destruct opt; cbn [anchor_day get_day_of_month]; rewrite Z.eqb_eq; [tauto|]. rewrite month_has_iff.
  destruct (at_month_ex t) as (k & d & A). pose proof (am_month _ _ _ A). tauto.
Qed.
Lemma on_iff D o t : gregorian D -> anchored o -> on D o t <-> on_offset o t = true.
Proof.
  intros G A. assert (F : falls D t (year_of t) (month_of t) (day_of t) (second_of_day t)) by (apply falls_iff; auto).
  assert (X : forall P : Z -> Z -> Z -> Prop, (exists y m d s, falls D t y m d s /\ P y m d) <-> P (year_of t) (month_of t) (day_of t)).
  { intros P. split; [|intros H; eauto 7]. intros (y & m & d & s & H & K). apply falls_iff in H as (<- & <- & <- & _); auto. }
  destruct o as [n|n wd|n opt|n opt q|n opt q]; cbn [on on_offset anchored] in *.
  - tauto.
  - rewrite (X (fun y m d => exists k, D y m d + 3 = 7 * k + wd)), Z.eqb_eq.
    destruct (fields_ok D t G) as (_ & _ & _ & _ & W & k & E). split.
    + intros (k' & E'). lia.
    + intros <-. eauto.
  - rewrite (X (fun y m d => anchor_day opt y m d)). apply anchor_iff.
  - rewrite (X (fun y m d => (exists k, m = q + 3 * k) /\ anchor_day opt y m d)), andb_true_iff, anchor_iff, (Z.eqb_eq ((month_of t - q) mod 3)).
    assert (Y : (exists k, month_of t = q + 3 * k) <-> (month_of t - q) mod 3 = 0).
    { pose proof (Z.div_mod (month_of t - q) 3 ltac:(lia)). split.
      - intros (k & E). symmetry. apply (Z.mod_unique _ _ k); lia.
      - intros E. exists ((month_of t - q) / 3). lia. }
    tauto.
  - rewrite (X (fun y m d => m = q /\ anchor_day opt y m d)), andb_true_iff, anchor_iff, (Z.eqb_eq (month_of t)). tauto.
Qed.
Lemma clock_iff t u : same_clock t u <-> second_of_day u = second_of_day t.
Proof.
  unfold same_clock, second_of_day. pose proof (Z.div_mod t 86400 ltac:(lia)). pose proof (Z.div_mod u 86400 ltac:(lia)). split.
  - intros (k & ->). rewrite Z.mul_comm. apply Z.mod_add. lia.
  - intros E. exists (u / 86400 - t / 86400). lia.
Qed.
Lemma anchors_iff D o t z : gregorian D -> anchored o -> on D o z /\ same_clock t z <-> exists j, z = slot o (second_of_day t) j.
Proof.
  intros G A. rewrite (on_iff D o z G A), clock_iff. split.
  - intros [O E]. destruct (place o z A) as (j & _ & _ & P & _). apply P in O. rewrite E in O. eauto.
  - intros (j & ->). assert (S : 0 <= second_of_day t < 86400) by (apply Z.mod_pos_bound; lia).
    split; [now apply apply_slot|now apply slot_sec].
Qed.
Lemma slot_le o s i j : anchored o -> slot o s i <= slot o s j <-> i <= j.
Proof.
  intros A. split; [|now apply slot_mono]. intros H. destruct (Z_le_gt_dec i j); auto.
  assert (slot o s j < slot o s i) by (apply slot_lt; auto; lia). lia.
Qed.
Lemma next_slot D o s j : gregorian D -> anchored o -> 0 <= s < 86400 -> forall y, next_anchor D o (slot o s j) y <-> y = slot o s (j + 1).
Proof.
  intros G A S y. assert (K : second_of_day (slot o s j) = s) by now apply slot_sec.
  assert (I : forall z, on D o z /\ same_clock (slot o s j) z <-> exists i, z = slot o s i).
  { intros z. rewrite (anchors_iff D o _ z G A), K. tauto. }
  assert (N : next_anchor D o (slot o s j) (slot o s (j + 1))).
  { destruct (I (slot o s (j + 1))) as [_ [X Y]]; [eauto|]. split; [apply slot_lt; auto; lia|]. split; auto. split; auto.
    intros z Z1 Z2 L. destruct (proj1 (I z)) as (i & ->); auto. apply slot_lt in L; auto. apply slot_le; auto. lia. }
  split; [|now intros ->]. intros (L & O & C & M). destruct N as (L' & O' & C' & M').
  pose proof (M _ O' C' L'). pose proof (M' _ O C L). lia.
Qed.
Lemma nth_slot D o s n : gregorian D -> anchored o -> 0 <= s < 86400 -> forall j y, nth_anchor D o n (slot o s j) y <-> y = slot o s (j + Z.of_nat n).
Proof.
  intros G A S. induction n as [|n IH]; intros j y; cbn [nth_anchor].
  - replace (j + Z.of_nat 0) with j by lia. tauto.
  - split.
    + intros (z & N & H). apply (next_slot D o s j G A S) in N as ->. apply IH in H as ->. f_equal. lia.
    + intros ->. exists (slot o s (j + 1)). split; [now apply next_slot|]. apply IH. f_equal. lia.
Qed.

(** Offsets from rules. *)
Lemma alookup_in {A} k (l : list (string * A)) v : alookup k l = Some v -> In v (map snd l).
Proof. induction l as [|[k' v'] l IH]; cbn; [discriminate|]. destruct (String.eqb k k'); [intros [= ->]; auto|auto]. Qed.
Lemma rule_anchored rule o : to_offset rule = Ok o -> anchored o \/ is_tick o.
Proof.
  unfold to_offset. destruct (count_of rule) as [n r].
  assert (N : forall name suffix, named n name suffix = Ok o -> anchored o \/ is_tick o).
  { assert (C : forall x m, alookup x month_codes = Some m -> 1 <= m <= 12).
    { intros x m H. apply alookup_in in H. cbn in H. lia. }
    assert (W : forall x m, alookup x weekday_codes = Some m -> 0 <= m <= 6).
    { intros x m H. apply alookup_in in H. cbn in H. lia. }
    intros name suffix. unfold named.
    repeat match goal with |- context [if ?b then _ else _] => destruct b end;
      try (destruct suffix as [x|]; [|intros [= <-]; cbn; lia || tauto]); try discriminate;
      try (intros [= <-]; cbn; tauto).
    all: try (destruct (alookup x weekday_codes) eqn:E; [|discriminate]; intros [= <-]; left; cbn; eauto).
    all: try (destruct (alookup x month_codes) eqn:E; [|discriminate]; intros [= <-]; left; cbn; eauto).
    all: destruct name as [|[[] [] [] [] [] [] [] []] ?]; discriminate. }
  assert (M : combined rule = Ok o -> anchored o \/ is_tick o).
  { unfold combined. intros H. right.
    repeat match type of H with context [match ?x with _ => _ end] => destruct x; try discriminate end; injection H as <-; exact I. }
  destruct (split "-"%char r) as [|a [|b [|? ?]]]; try discriminate; [|apply N].
  specialize (N a None). destruct (named n a None) as [x|e]; [exact N|]. destruct e; try discriminate. exact M.
Qed.

Lemma rule_anchored' rule o : to_offset rule = Ok o -> ~ is_tick o -> anchored o.
Proof. intros H N. destruct (rule_anchored rule o H); tauto. Qed.

Lemma rollback_last D o t x : gregorian D -> anchored o ->
  (exists j, x = slot o (second_of_day t) j /\ slot o (second_of_day t) j <= t < slot o (second_of_day t) (j + 1)) -> last_up_to D o t x.
Proof.
  intros G A (j & -> & L1 & L2). destruct (proj2 (anchors_iff D o t (slot o (second_of_day t) j) G A)) as [O C]; [eauto|].
  split; auto. split; auto. split; auto. intros z O' C' L. destruct (proj1 (anchors_iff D o t z G A) (conj O' C')) as (i & ->).
  apply slot_le; auto. assert (i < j + 1) by (apply (slot_lt o (second_of_day t)); auto; lia). lia.
Qed.
Lemma rollforward_first D o t x : gregorian D -> anchored o ->
  (exists j, x = slot o (second_of_day t) j /\ slot o (second_of_day t) (j - 1) < t <= slot o (second_of_day t) j) -> first_from D o t x.
Proof.
  intros G A (j & -> & L1 & L2). destruct (proj2 (anchors_iff D o t (slot o (second_of_day t) j) G A)) as [O C]; [eauto|].
  split; auto. split; auto. split; auto. intros z O' C' L. destruct (proj1 (anchors_iff D o t z G A) (conj O' C')) as (i & ->).
  apply slot_le; auto. assert (j - 1 < i) by (apply (slot_lt o (second_of_day t)); auto; lia). lia.
Qed.
Lemma steps_split o s j k l1 x y l2 : steps_from o s j k = l1 ++ x :: y :: l2 -> exists i, x = slot o s i /\ y = slot o s (i + count o).
Proof.
  revert j k. induction l1 as [|a l1 IH]; intros j k E.
  - destruct k as [|[|k]]; cbn in E; try discriminate. injection E as <- <- _. eauto.
  - destruct k as [|k]; cbn in E; [discriminate|]. injection E as _ E. eauto.
Qed.
Lemma stride_count o : stride o = count o.
Proof. destruct o; reflexivity. Qed.

Lemma range_ok D o start end_ : gregorian D -> anchored o -> 0 < stride o -> exists first stop l,
  last_up_to D o start first /\ first_from D o end_ stop /\ generate_range start end_ o = Ok l /\
  (first <= stop -> exists l', l = first :: l') /\ (stop < first -> l = []) /\
  (forall l1 x y l2, l = l1 ++ x :: y :: l2 -> nth_anchor D o (Z.to_nat (stride o)) x y) /\
  Forall (fun x => x <= stop) l /\
  (forall l1 x y, l = l1 ++ [x] -> nth_anchor D o (Z.to_nat (stride o)) x y -> stop < y).
Proof.
  intros G A C. change (stride o) with (count o) in C. destruct (range_slots start end_ o A C) as (i & j & k & B1 & B2 & E & L & U).
  set (s := second_of_day start) in *. set (s' := second_of_day end_) in *. cbn zeta in *.
  assert (S : 0 <= s < 86400) by (apply Z.mod_pos_bound; lia).
  exists (slot o s i), (slot o s' j), (steps_from o s i k).
  split; [apply rollback_last; eauto|]. split; [apply rollforward_first; eauto|]. split; auto.
  split; [|split; [|split; [|split]]].
  - intros H. destruct k as [|k]; [cbn in U; rewrite Z.add_0_r in U; lia|]. cbn. eauto.
  - intros H. destruct k as [|k]; auto. specialize (L 0 ltac:(lia)). rewrite Z.mul_0_l, Z.add_0_r in L. lia.
  - intros l1 x y l2 H. apply steps_split in H as (a & -> & ->). apply nth_slot; auto. change (stride o) with (count o). rewrite Z2Nat.id by lia. reflexivity.
  - apply Forall_forall. intros x X. apply in_steps in X as (a & Ha & ->). now apply L.
  - intros l1 x y H N. destruct k as [|k]; [destruct l1; discriminate|].
    assert (X : x = slot o s (i + Z.of_nat k * count o)) by (rewrite <- (steps_last o s i k 0), H; symmetry; apply last_last).
    subst x. apply nth_slot in N; auto. subst y. change (stride o) with (count o). rewrite Z2Nat.id by lia.
    replace (i + Z.of_nat k * count o + count o) with (i + Z.of_nat (Datatypes.S k) * count o) by lia. exact U.
Qed.
Lemma range_sorted o start end_ l : anchored o -> 0 < stride o -> generate_range start end_ o = Ok l -> StronglySorted Z.lt l.
Proof.
  intros A C H. change (stride o) with (count o) in C. destruct (range_slots start end_ o A C) as (i & j & k & _ & _ & E & _). cbn zeta in E.
  rewrite E in H. injection H as <-. now apply steps_sorted.
Qed.
Lemma range_on D o start end_ l : gregorian D -> anchored o -> 0 < stride o -> generate_range start end_ o = Ok l -> Forall (on D o) l.
Proof.
  intros G A C H. change (stride o) with (count o) in C. destruct (range_slots start end_ o A C) as (i & j & k & _ & _ & E & _). cbn zeta in E.
  rewrite E in H. injection H as <-. apply Forall_forall. intros x X. apply in_steps in X as (a & _ & ->).
  apply (anchors_iff D o start _ G A). eauto.
Qed.

(** Covering the end. *)
Lemma range_covers o start end_ l : anchored o -> stride o = 1 -> start <= end_ -> same_clock start end_ ->
  generate_range start end_ o = Ok l -> exists l' x, l = l' ++ [x] /\ end_ <= x /\ Forall (fun z => z < end_) l'.
Proof.
  intros A C Le K H. change (stride o) with (count o) in C. destruct (range_slots start end_ o A ltac:(lia)) as (i & j & k & B1 & B2 & E & L & U). cbn zeta in *.
  rewrite E in H. injection H as <-. apply clock_iff in K. rewrite K in *. set (s := second_of_day start) in *. rewrite C in *.
  assert (IJ : i <= j) by (apply (slot_le o s); auto; lia).
  assert (j < i + Z.of_nat k * 1) as KU by (apply (slot_lt o s); auto). destruct k as [|k]; [lia|].
  assert (KL : i + Z.of_nat k * 1 <= j) by (apply (slot_le o s); auto; apply L; lia).
  assert (EQ : i + Z.of_nat k * 1 = j) by lia.
  assert (SP : forall k i, steps_from o s i (S k) = steps_from o s i k ++ [slot o s (i + Z.of_nat k * 1)]).
  { clear - C. induction k as [|k IH]; intros i; [cbn; do 2 f_equal; lia|].
    change (steps_from o s i (S (S k))) with (slot o s i :: steps_from o s (i + count o) (S k)). rewrite IH. cbn [steps_from app]. rewrite C. replace (i + 1 + Z.of_nat k * 1) with (i + Z.of_nat (S k) * 1) by lia. reflexivity. }
  exists (steps_from o s i k), (slot o s j). split; [rewrite SP, EQ; reflexivity|]. split; [lia|].
  apply Forall_forall. intros x X. apply in_steps in X as (a & Ha & ->). rewrite C.
  assert (slot o s (i + a * 1) <= slot o s (j - 1)) by (apply slot_le; auto; lia). lia.
Qed.

(** Ticks. *)
Fixpoint ticks (n t : Z) (k : nat) : list Z := match k with O => [] | S k' => t :: ticks n (t + n) k' end.
Lemma iterate_ticks n e : 0 < n -> forall fuel t, e - t < n * Z.of_nat fuel ->
  exists k, iterate (S fuel) (OTick n) t e = Ok (ticks n t k) /\ (k = O -> e < t) /\ (forall i, 0 <= i < Z.of_nat k -> t + i * n <= e) /\ e < t + Z.of_nat k * n.
Proof.
  intros N. induction fuel as [|fuel IH]; intros t F.
  - exists O. cbn [iterate ticks]. assert (L : (t <=? e) = false) by (apply Z.leb_gt; lia). rewrite L. repeat split; try lia.
  - destruct (Z_le_gt_dec t e) as [L|L].
    + destruct (IH (t + n) ltac:(lia)) as (k & I & Z & B1 & B2). exists (S k).
      change (iterate (S (S fuel)) (OTick n) t e) with (if t <=? e then if t + n <=? t then Err EValueError else rbind (iterate (S fuel) (OTick n) (t + n) e) (fun l => Ok (t :: l)) else Ok []).
      assert (L1 : (t <=? e) = true) by (apply Z.leb_le; lia). assert (L2 : (t + n <=? t) = false) by (apply Z.leb_gt; lia).
      rewrite L1, L2, I. cbn [rbind ticks]. split; auto. split; [discriminate|]. split.
      * intros i Hi. destruct (Z.eq_dec i 0) as [->|]; [lia|]. specialize (B1 (i - 1) ltac:(lia)). lia.
      * lia.
    + exists O. cbn [iterate ticks]. assert (L1 : (t <=? e) = false) by (apply Z.leb_gt; lia). rewrite L1. repeat split; try lia.
Qed.
Lemma in_ticks n t k x : In x (ticks n t k) <-> exists i, 0 <= i < Z.of_nat k /\ x = t + i * n.
Proof.
  revert t. induction k as [|k IH]; intros t; cbn [ticks In].
  - split; [tauto|]. intros (i & H & _). lia.
  - rewrite IH. split.
    + intros [<-|(i & H & ->)]; [exists 0; lia|]. exists (i + 1). lia.
    + intros (i & H & ->). destruct (Z.eq_dec i 0) as [->|]; [left; lia|]. right. exists (i - 1). lia.
Qed.
Lemma ticks_sorted n t k : 0 < n -> StronglySorted Z.lt (ticks n t k).
Proof.
  intros N. revert t. induction k as [|k IH]; intros t; constructor; auto. apply Forall_forall. intros x X. apply in_ticks in X as (i & H & ->). nia.
Qed.
Lemma range_ticks n start end_ : 0 < n -> exists l, generate_range start end_ (OTick n) = Ok l /\ StronglySorted Z.lt l /\
  (forall x, In x l <-> start <= x <= end_ /\ exists k, x = start + k * n).
Proof.
  intros N. unfold generate_range. cbn [rollback rollforward on_offset min_step]. unfold rollback, rollforward. cbn [on_offset].
  rewrite (Z.max_r 1 n) by lia. set (f := Z.to_nat ((end_ - start) / n + 1)).
  assert (F : exists k, iterate (S f) (OTick n) start end_ = Ok (ticks n start k) /\ (k = O -> end_ < start) /\ (forall i, 0 <= i < Z.of_nat k -> start + i * n <= end_) /\ end_ < start + Z.of_nat k * n).
  { destruct (Z_le_gt_dec start end_) as [L|L].
    - apply iterate_ticks; auto. subst f. pose proof (Z.div_mod (end_ - start) n ltac:(lia)). pose proof (Z.mod_pos_bound (end_ - start) n N).
      assert (0 <= (end_ - start) / n) by (apply Z.div_pos; lia). rewrite Z2Nat.id by lia. nia.
    - exists O. cbn [iterate ticks]. assert (L1 : (start <=? end_) = false) by (apply Z.leb_gt; lia). rewrite L1. repeat split; try lia. }
  destruct F as (k & E & K & B1 & B2). exists (ticks n start k). split; auto. split; [now apply ticks_sorted|].
  intros x. rewrite in_ticks. split.
  - intros (i & H & ->). split; [|eauto]. specialize (B1 i H). nia.
  - intros (H & i & ->). exists i. split; auto. nia.
Qed.

(** Steps that do not advance. *)
Lemma range_stuck o start end_ : anchored o \/ is_tick o -> stride o <= 0 -> start <= end_ -> generate_range start end_ o = Err EValueError.
Proof.
  intros H C Le. unfold generate_range. change (stride o) with (count o) in C.
  assert (X : rollback o start <= rollforward o end_ /\ apply o (rollback o start) <= rollback o start).
  { destruct H as [A|T].
    - destruct (rollback_slot o start A) as (i & -> & B1). destruct (rollforward_slot o end_ A) as (j & -> & B2). split; [lia|].
      assert (S : 0 <= second_of_day start < 86400) by (apply Z.mod_pos_bound; lia).
      destruct (apply_slot o (second_of_day start) i A S) as [-> _]. apply slot_le; auto. lia.
    - destruct o as [n| | | |]; try destruct T. unfold rollback, rollforward. cbn in *. lia. }
  destruct X as [X1 X2]. apply Z.leb_le in X1, X2.
  cbn [iterate]. now rewrite X1, X2.
Qed.
