(** Proofs about offsets (C58). *)
From Coq Require Import String List ZArith Bool Lia Sorted.
From Verif Require Import Base Calendar Civil CivilFacts Offsets.
Import ListNotations.
Local Open Scope Z_scope.

(** The ordinal of the first or last day of the month number [k]. *)
Definition mday (k : Z) (opt : dayopt) : Z := match opt with DStart => month_start k | DEnd => month_start k + month_len k - 1 end.
Lemma mday_in k opt : month_start k <= mday k opt <= month_start k + month_len k - 1.
Proof. pose proof (month_len_pos k). destruct opt; cbn; lia. Qed.

(** A time by its month number, day and second. *)
Record at_month (t k d : Z) : Prop := {
  am_day : 1 <= d <= month_len k;
  am_k : k = 12 * year_of t + month_of t - 1;
  am_month : 1 <= month_of t <= 12;
  am_d : d = day_of t;
  am_sec : 0 <= second_of_day t < 86400;
  am_t : t = 86400 * (month_start k + d - 1 - epoch_ord) + second_of_day t }.
Lemma at_month_ex t : exists k d, at_month t k d.
Proof.
  destruct (time_date t) as (y & m & d & E & [M D] & S & T). exists (12 * y + m - 1), d.
  destruct (ymd_month y m d M) as [O L].
  assert (year_of t = y /\ month_of t = m /\ day_of t = d) as (EY & EM & ED) by (unfold year_of, month_of, day_of; now rewrite E).
  constructor; rewrite ?EY, ?EM, ?ED; auto; try lia. rewrite T at 1. unfold time_of. lia.
Qed.
Lemma get_day_eq t k d opt : at_month t k d -> get_day_of_month t opt = mday k opt - month_start k + 1.
Proof.
  intros A. unfold get_day_of_month, mday. destruct opt; [lia|].
  destruct (ymd_month (year_of t) (month_of t) 1 (am_month _ _ _ A)) as [_ ->]. rewrite <- (am_k _ _ _ A). lia.
Qed.
Lemma shift_eq t k d months opt : at_month t k d ->
  shift_month t months opt = 86400 * (mday (k + months) opt - epoch_ord) + second_of_day t.
Proof.
  intros A. unfold shift_month. pose proof (am_k _ _ _ A) as K.
  assert (G : forall y m, 1 <= m <= 12 -> 12 * y + m - 1 = k + months ->
    time_of y m match opt with DStart => 1 | DEnd => days_in_month y m end (second_of_day t) = 86400 * (mday (k + months) opt - epoch_ord) + second_of_day t).
  { intros y m M E. destruct (ymd_month y m match opt with DStart => 1 | DEnd => days_in_month y m end M) as [O L].
    unfold time_of. rewrite O, E. destruct opt; cbn [mday]; [lia|]. rewrite L, E. lia. }
  pose proof (Z.div_mod (month_of t + months) 12 ltac:(lia)) as D. pose proof (Z.mod_pos_bound (month_of t + months) 12 ltac:(lia)) as B.
  destruct (Z.eqb_spec ((month_of t + months) mod 12) 0) as [E|E]; apply G; lia.
Qed.
Lemma month_apart j k : j < k -> month_start j + month_len j <= month_start k.
Proof. intros H. destruct (month_start_mono j k ltac:(lia)) as [_ M]. auto. Qed.

(** ** The grid of an offset *)
Definition slot (o : offset) (s j : Z) : Z :=
  match o with
  | OTick n => s
  | OWeek _ wd => 86400 * (7 * j + wd - epoch_ord - 6) + s
  | OMonth _ opt => 86400 * (mday j opt - epoch_ord) + s
  | OQuarter _ opt m => 86400 * (mday (3 * j + m mod 3 - 1) opt - epoch_ord) + s
  | OYear _ opt m => 86400 * (mday (12 * j + m - 1) opt - epoch_ord) + s
  end.
Definition count (o : offset) : Z := match o with OTick n | OWeek n _ | OMonth n _ | OQuarter n _ _ | OYear n _ _ => n end.
Definition anchored (o : offset) : Prop :=
  match o with
  | OTick _ => False
  | OWeek _ wd => 0 <= wd <= 6
  | OMonth _ _ => True
  | OQuarter _ _ m | OYear _ _ m => 1 <= m <= 12
  end.

Lemma slot_with_n o n s j : anchored o -> slot (with_n o n) s j = slot o s j.
Proof. destruct o; cbn; tauto. Qed.
Lemma anchored_with_n o n : anchored o -> anchored (with_n o n).
Proof. destruct o; cbn; tauto. Qed.
Lemma count_with_n o n : anchored o -> count (with_n o n) = n.
Proof. destruct o; cbn; tauto. Qed.
Lemma on_with_n o n t : on_offset (with_n o n) t = on_offset o t.
Proof. destruct o; reflexivity. Qed.

Lemma slot_step o s j : anchored o -> slot o s j + 86400 <= slot o s (j + 1).
Proof.
  assert (M : forall opt a b, a < b -> 86400 * (mday a opt - epoch_ord) + s + 86400 <= 86400 * (mday b opt - epoch_ord) + s).
  { intros opt a b L. pose proof (month_apart a b L). pose proof (month_len_pos a). pose proof (month_len_pos b). destruct opt; cbn [mday]; lia. }
  destruct o as [n|n wd|n opt|n opt m|n opt m]; cbn [anchored slot]; intros H; [tauto|lia| | |]; apply M; lia.
Qed.
Lemma slot_add o s i j : anchored o -> i <= j -> slot o s i + 86400 * (j - i) <= slot o s j.
Proof.
  intros A H. assert (G : forall n, 0 <= n -> slot o s i + 86400 * n <= slot o s (i + n)).
  { intros n N. pattern n. apply natlike_ind; auto; [replace (i + 0) with i by lia; lia|]. intros x X IH.
    pose proof (slot_step o s (i + x) A). replace (i + Z.succ x) with (i + x + 1) by lia. lia. }
  replace j with (i + (j - i)) at 2 by lia. apply G. lia.
Qed.
Lemma slot_mono o s i j : anchored o -> i <= j -> slot o s i <= slot o s j.
Proof. intros A H. pose proof (slot_add o s i j A H). lia. Qed.
Lemma slot_lt o s i j : anchored o -> slot o s i < slot o s j <-> i < j.
Proof.
  intros A. split; intros H.
  - destruct (Z_lt_ge_dec i j) as [L|G]; auto. pose proof (slot_mono o s j i A ltac:(lia)). lia.
  - pose proof (slot_add o s i j A ltac:(lia)). lia.
Qed.
Lemma slot_sec o s j : anchored o -> 0 <= s < 86400 -> second_of_day (slot o s j) = s.
Proof.
  intros A S. unfold second_of_day.
  assert (M : forall a, (86400 * a + s) mod 86400 = s) by (intros a; symmetry; apply (Z.mod_unique _ _ a); lia).
  destruct o; cbn [slot]; cbn in A; try tauto; apply M.
Qed.

(** Where a time is in the grid. *)
Lemma month_family t k d opt u a b :
  at_month t k d -> (forall j, u < j -> k < a * j + b) -> (forall j, j < u -> a * j + b < k) ->
  let g j := 86400 * (mday (a * j + b) opt - epoch_ord) + second_of_day t in
  let before := (k <? a * u + b) || ((k =? a * u + b) && (d <? mday k opt - month_start k + 1)) in
  let after := (a * u + b <? k) || ((k =? a * u + b) && (mday k opt - month_start k + 1 <? d)) in
  (exists j, g j <= t < g (j + 1) /\ (before = true /\ j = u - 1 \/ before = false /\ j = u) /\
    ((k =? a * u + b) && (d =? mday k opt - month_start k + 1) = true <-> t = g j) /\
    (t <> g j -> (after = true /\ j = u \/ after = false /\ j = u - 1)) /\
    (t = g j -> before = false /\ after = false /\ j = u)).
Proof.
  intros A Hi Lo g before after. pose proof (am_t _ _ _ A) as T. pose proof (am_sec _ _ _ A) as S. pose proof (am_day _ _ _ A) as D.
  assert (Gt : forall j, k < a * j + b -> t < g j).
  { intros j L. pose proof (month_apart _ _ L). pose proof (mday_in (a * j + b) opt). unfold g. lia. }
  assert (Lt : forall j, a * j + b < k -> g j < t).
  { intros j L. pose proof (month_apart _ _ L). pose proof (mday_in (a * j + b) opt). unfold g. lia. }
  assert (Eq : k = a * u + b -> g u = 86400 * (mday k opt - epoch_ord) + second_of_day t) by (intros E; unfold g; now rewrite <- E).
  destruct (Z.lt_trichotomy k (a * u + b)) as [L|[E|L]].
  - assert (before = true) as Bf by (unfold before; apply Z.ltb_lt in L; now rewrite L).
    assert (after = false) as Af by (unfold after; apply orb_false_iff; split; [apply Z.ltb_ge; lia|apply andb_false_iff; left; apply Z.eqb_neq; lia]).
    exists (u - 1). replace (u - 1 + 1) with u by lia.
    pose proof (Gt u L). pose proof (Lt (u - 1) (Lo (u - 1) ltac:(lia))). split; [lia|]. split; [left; auto|].
    split; [|split; [intros _; right; auto|lia]]. split; intros X; [|lia]. apply andb_prop in X as [X _]. apply Z.eqb_eq in X. lia.
  - specialize (Eq E). pose proof (Gt (u + 1) (Hi (u + 1) ltac:(lia))). pose proof (Lt (u - 1) (Lo (u - 1) ltac:(lia))).
    assert (KE : (k =? a * u + b) = true) by (apply Z.eqb_eq; auto). unfold before, after. rewrite KE.
    assert (KL : (k <? a * u + b) = false) by (apply Z.ltb_ge; lia). rewrite KL.
    assert (KG : (a * u + b <? k) = false) by (apply Z.ltb_ge; lia). rewrite KG. cbn [orb andb].
    destruct (Z.lt_trichotomy d (mday k opt - month_start k + 1)) as [X|[X|X]].
    + assert (XB : (d <? mday k opt - month_start k + 1) = true) by (apply Z.ltb_lt; auto).
      assert (XA : (mday k opt - month_start k + 1 <? d) = false) by (apply Z.ltb_ge; lia).
      assert (XE : (d =? mday k opt - month_start k + 1) = false) by (apply Z.eqb_neq; lia). rewrite XB, XA, XE.
      exists (u - 1). replace (u - 1 + 1) with u by lia. split; [lia|]. split; [left; auto|].
      split; [|split; [intros _; right; auto|lia]]. split; intros Y; [discriminate|lia].
    + assert (XB : (d <? mday k opt - month_start k + 1) = false) by (apply Z.ltb_ge; lia).
      assert (XE : (d =? mday k opt - month_start k + 1) = true) by (apply Z.eqb_eq; lia). 
      assert (XA : (mday k opt - month_start k + 1 <? d) = false) by (apply Z.ltb_ge; lia). rewrite XB, XE, XA.
      exists u. split; [lia|]. split; [right; auto|]. split; [split; intros Y; [lia|reflexivity]|]. split; [intros N; exfalso; lia|auto].
    + assert (XB : (d <? mday k opt - month_start k + 1) = false) by (apply Z.ltb_ge; lia).
      assert (XA : (mday k opt - month_start k + 1 <? d) = true) by (apply Z.ltb_lt; lia).
      assert (XE : (d =? mday k opt - month_start k + 1) = false) by (apply Z.eqb_neq; lia). rewrite XB, XA, XE.
      exists u. split; [lia|]. split; [right; auto|]. split; [|split; [intros _; left; auto|lia]]. split; intros Y; [discriminate|lia].
  - assert (before = false) as Bf by (unfold before; apply orb_false_iff; split; [apply Z.ltb_ge; lia|apply andb_false_iff; left; apply Z.eqb_neq; lia]).
    assert (after = true) as Af by (unfold after; apply Z.ltb_lt in L; now rewrite L).
    exists u. pose proof (Lt u L). pose proof (Gt (u + 1) (Hi (u + 1) ltac:(lia))). split; [lia|]. split; [right; auto|].
    split; [|split; [intros _; left; auto|lia]]. split; intros X; [|lia]. apply andb_prop in X as [X _]. apply Z.eqb_eq in X. lia.
Qed.

(** What is known about applying an offset at a time between two grid points. *)
Definition placed (o : offset) (t : Z) : Prop := exists j,
  slot o (second_of_day t) j <= t < slot o (second_of_day t) (j + 1) /\
  (0 < count o -> apply o t = slot o (second_of_day t) (j + count o)) /\
  (on_offset o t = true <-> t = slot o (second_of_day t) j) /\
  (t <> slot o (second_of_day t) j -> count o = -1 -> apply o t = slot o (second_of_day t) j) /\
  (t = slot o (second_of_day t) j -> apply o t = slot o (second_of_day t) (j + count o)).

Lemma place_week n wd t : 0 <= wd <= 6 -> placed (OWeek n wd) t.
Proof.
  intros W. unfold placed. cbn [slot count on_offset apply].
  pose proof (Z.div_mod t 86400 ltac:(lia)) as D. unfold second_of_day. pose proof (Z.mod_pos_bound t 86400 ltac:(lia)) as S.
  set (s := t mod 86400) in *. unfold weekday_of. set (dn := t / 86400) in *.
  pose proof (Z.div_mod (dn + epoch_ord + 6) 7 ltac:(lia)) as D7. pose proof (Z.mod_pos_bound (dn + epoch_ord + 6) 7 ltac:(lia)) as S7.
  set (w := (dn + epoch_ord + 6) mod 7) in *. set (q := (dn + epoch_ord + 6) / 7) in *. clearbody s dn w q.
  destruct (Z.eqb_spec w wd) as [E|E].
  - exists q. subst w. repeat split; try lia.
  - destruct (Z_lt_ge_dec w wd) as [L|G].
    + exists (q - 1). assert (X : (wd - w) mod 7 = wd - w) by (apply Z.mod_small; lia). rewrite X.
      repeat split; try lia; try discriminate.
      * intros P. apply Z.ltb_lt in P. rewrite P. lia.
      * intros _ ->. change (0 <? -1) with false. cbv iota. lia.
    + exists q. assert (X : (wd - w) mod 7 = wd - w + 7) by (symmetry; apply (Z.mod_unique _ _ (-1)); lia). rewrite X.
      repeat split; try lia; try discriminate.
      * intros P. apply Z.ltb_lt in P. rewrite P. lia.
      * intros _ ->. change (0 <? -1) with false. cbv iota. lia.
Qed.

Lemma place_month n opt t : placed (OMonth n opt) t.
Proof.
  destruct (at_month_ex t) as (k & d & A).
  destruct (month_family t k d opt k 1 0 A ltac:(intros; lia) ltac:(intros; lia)) as (j & B & U & O & F & Q).
  unfold placed. cbn [slot count on_offset apply].
  assert (G : forall j, mday (1 * j + 0) opt = mday j opt) by (intros; f_equal; lia). rewrite (G (j + 1)), (G j) in B; rewrite (G j) in O, F, Q.
  exists j. split; [exact B|]. rewrite !(get_day_eq t k d opt A), !(shift_eq t k d _ opt A), <- !(am_d _ _ _ A).
  assert (K1 : (k <? 1 * k + 0) = false) by (apply Z.ltb_ge; lia). assert (K2 : (k =? 1 * k + 0) = true) by (apply Z.eqb_eq; lia).
  assert (K3 : (1 * k + 0 <? k) = false) by (apply Z.ltb_ge; lia). rewrite K1, K2 in U. rewrite K2 in O. rewrite K2, K3 in F. rewrite K1, K2, K3 in Q. cbn [orb andb] in *.
  split; [|split; [exact O|split]].
  - intros P. unfold roll_convention. assert (P1 : (0 <? n) = true) by (apply Z.ltb_lt; auto). assert (P2 : (n <=? 0) = false) by (apply Z.leb_gt; auto).
    rewrite P1, P2. cbn [andb]. destruct U as [[-> ->]|[-> ->]]; do 4 f_equal; lia.
  - intros N ->. unfold roll_convention. cbn [Z.ltb Z.leb Z.compare andb]. destruct (F N) as [[-> ->]|[-> ->]]; do 4 f_equal; lia.
  - intros N. destruct (Q N) as (Q1 & Q2 & ->). unfold roll_convention. rewrite Q1, Q2, !andb_false_r. do 4 f_equal; lia.
Qed.

Lemma place_quarter n opt m t : placed (OQuarter n opt m) t.
Proof.
  destruct (at_month_ex t) as (k & d & A).
  pose proof (Z.div_mod (month_of t) 3 ltac:(lia)) as D3. pose proof (Z.mod_pos_bound (month_of t) 3 ltac:(lia)) as S3.
  pose proof (Z.mod_pos_bound m 3 ltac:(lia)) as M3. pose proof (Z.div_mod m 3 ltac:(lia)) as DM. pose proof (am_k _ _ _ A) as K.
  set (r := month_of t mod 3) in *. set (q := month_of t / 3) in *. set (b := m mod 3) in *. set (u := 4 * year_of t + q).
  assert (KU : k = 3 * u + r - 1) by (subst u; lia).
  destruct (month_family t k d opt u 3 (b - 1) A ltac:(intros; lia) ltac:(intros; lia)) as (j & B & U & O & F & Q).
  unfold placed. cbn [slot count on_offset apply]. fold r b.
  assert (G : forall j, mday (3 * j + (b - 1)) opt = mday (3 * j + b - 1) opt) by (intros; f_equal; lia). rewrite (G (j + 1)), (G j) in B; rewrite (G j) in O, F, Q.
  assert (C1 : (k <? 3 * u + (b - 1)) = (r - b <? 0)) by (apply eq_true_iff_eq; rewrite !Z.ltb_lt; lia).
  assert (C2 : (k =? 3 * u + (b - 1)) = (r - b =? 0)) by (apply eq_true_iff_eq; rewrite !Z.eqb_eq; lia).
  assert (C3 : (3 * u + (b - 1) <? k) = (0 <? r - b)) by (apply eq_true_iff_eq; rewrite !Z.ltb_lt; lia).
  rewrite C1, C2 in U. rewrite C2 in O. rewrite C2, C3 in F. rewrite C1, C2, C3 in Q.
  exists j. split; [exact B|]. rewrite !(shift_eq t k d _ opt A). unfold roll_qtrday. fold r b. rewrite !(get_day_eq t k d opt A), <- !(am_d _ _ _ A).
  split; [|split; [|split]].
  - intros P. assert (P1 : (0 <? n) = true) by (apply Z.ltb_lt; auto). rewrite P1. destruct U as [[-> ->]|[-> ->]]; do 4 f_equal; lia.
  - rewrite <- O. assert (X : ((month_of t - m) mod 3 =? 0) = (r - b =? 0)).
    { apply eq_true_iff_eq. rewrite !Z.eqb_eq. split; intros E.
      - pose proof (Z.div_mod (month_of t - m) 3 ltac:(lia)). lia.
      - symmetry. apply (Z.mod_unique _ _ (q - m / 3)); lia. }
    rewrite X. reflexivity.
  - intros N ->. cbn [Z.ltb Z.compare]. destruct (F N) as [[-> ->]|[-> ->]]; do 4 f_equal; lia.
  - intros N. destruct (Q N) as (Q1 & Q2 & ->). rewrite Q1, Q2. destruct (0 <? n); do 4 f_equal; lia.
Qed.

Lemma place_year n opt m t : 1 <= m <= 12 -> placed (OYear n opt m) t.
Proof.
  intros HM. destruct (at_month_ex t) as (k & d & A). pose proof (am_k _ _ _ A) as K. pose proof (am_month _ _ _ A) as M.
  set (u := year_of t) in *.
  destruct (month_family t k d opt u 12 (m - 1) A ltac:(intros; lia) ltac:(intros; lia)) as (j & B & U & O & F & Q).
  unfold placed. cbn [slot count on_offset apply].
  assert (G : forall j, mday (12 * j + (m - 1)) opt = mday (12 * j + m - 1) opt) by (intros; f_equal; lia). rewrite (G (j + 1)), (G j) in B; rewrite (G j) in O, F, Q.
  assert (C1 : (k <? 12 * u + (m - 1)) = (month_of t <? m)) by (apply eq_true_iff_eq; rewrite !Z.ltb_lt; lia).
  assert (C2 : (k =? 12 * u + (m - 1)) = (month_of t =? m)) by (apply eq_true_iff_eq; rewrite !Z.eqb_eq; lia).
  assert (C3 : (12 * u + (m - 1) <? k) = (m <? month_of t)) by (apply eq_true_iff_eq; rewrite !Z.ltb_lt; lia).
  rewrite C1, C2 in U. rewrite C2 in O. rewrite C2, C3 in F. rewrite C1, C2, C3 in Q.
  exists j. split; [exact B|]. rewrite !(shift_eq t k d _ opt A). unfold roll_yearday. rewrite !(get_day_eq t k d opt A), <- !(am_d _ _ _ A).
  split; [|split; [exact O|split]].
  - intros P. assert (P1 : (0 <? n) = true) by (apply Z.ltb_lt; auto). rewrite P1. destruct U as [[-> ->]|[-> ->]]; do 4 f_equal; lia.
  - intros N ->. cbn [Z.ltb Z.compare]. destruct (F N) as [[-> ->]|[-> ->]]; do 4 f_equal; lia.
  - intros N. destruct (Q N) as (Q1 & Q2 & ->). rewrite Q1, Q2. destruct (0 <? n); do 4 f_equal; lia.
Qed.

Lemma place o t : anchored o -> placed o t.
Proof.
  destruct o; cbn; intros H; [tauto|now apply place_week|apply place_month|apply place_quarter|now apply place_year].
Qed.

(** ** Rolling and iterating *)
Lemma rollback_slot o t : anchored o -> exists j, rollback o t = slot o (second_of_day t) j /\ slot o (second_of_day t) j <= t < slot o (second_of_day t) (j + 1).
Proof.
  intros A. unfold rollback. destruct (place o t A) as (j & B & _ & O & _ & _). destruct (on_offset o t) eqn:E.
  - exists j. split; auto. now apply O.
  - destruct (place (with_n o (-1)) t (anchored_with_n _ _ A)) as (i & B' & _ & O' & F' & _). rewrite on_with_n in O'.
    setoid_rewrite slot_with_n in B'; auto. setoid_rewrite slot_with_n in O'; auto. setoid_rewrite slot_with_n in F'; auto.
    exists i. split; auto. apply F'; [|now apply count_with_n]. intros X. apply O' in X. congruence.
Qed.
Lemma rollforward_slot o t : anchored o -> exists j, rollforward o t = slot o (second_of_day t) j /\ slot o (second_of_day t) (j - 1) < t <= slot o (second_of_day t) j.
Proof.
  intros A. unfold rollforward. destruct (place o t A) as (j & B & _ & O & _ & _). destruct (on_offset o t) eqn:E.
  - exists j. assert (X : t = slot o (second_of_day t) j) by now apply O. split; auto.
    pose proof (slot_step o (second_of_day t) (j - 1) A). replace (j - 1 + 1) with j in * by lia. lia.
  - destruct (place (with_n o 1) t (anchored_with_n _ _ A)) as (i & B' & P' & O' & _ & _). rewrite on_with_n in O'.
    rewrite (count_with_n o 1 A) in P'.
    setoid_rewrite slot_with_n in B'; auto. setoid_rewrite slot_with_n in O'; auto. setoid_rewrite slot_with_n in P'; auto.
    exists (i + 1). split; [apply P'; lia|]. replace (i + 1 - 1) with i by lia.
    assert (t <> slot o (second_of_day t) i) by (intros X; apply O' in X; congruence). lia.
Qed.
Lemma apply_slot o s j : anchored o -> 0 <= s < 86400 -> apply o (slot o s j) = slot o s (j + count o) /\ on_offset o (slot o s j) = true.
Proof.
  intros A S. destruct (place o (slot o s j) A) as (i & B & _ & O & _ & P). rewrite (slot_sec o s j A S) in *.
  assert (i = j).
  { destruct B as [B1 B2]. apply slot_lt in B2; auto. destruct (Z_le_gt_dec i j); [lia|].
    assert (slot o s j < slot o s i) by (apply slot_lt; auto; lia). lia. }
  subst i. split; [now apply P|now apply O].
Qed.

(** The grid points [j], [j + n], ... up to the end. *)
Fixpoint steps_from (o : offset) (s j : Z) (k : nat) : list Z :=
  match k with O => [] | S k' => slot o s j :: steps_from o s (j + count o) k' end.
Lemma iterate_slots o s e : anchored o -> 0 <= s < 86400 -> 0 < count o -> forall fuel j,
  e - slot o s j < 86400 * Z.of_nat fuel ->
  exists k, iterate (S fuel) o (slot o s j) e = Ok (steps_from o s j k) /\
    (forall i, 0 <= i < Z.of_nat k -> slot o s (j + i * count o) <= e) /\ e < slot o s (j + Z.of_nat k * count o).
Proof.
  intros A S C. induction fuel as [|fuel IH]; intros j F.
  - exists O. cbn [iterate steps_from]. assert (L : (slot o s j <=? e) = false) by (apply Z.leb_gt; lia). rewrite L.
    split; auto. split; [lia|]. cbn. rewrite Z.add_0_r. lia.
  - destruct (Z_le_gt_dec (slot o s j) e) as [L|G].
    + pose proof (apply_slot o s j A S) as [E _]. pose proof (slot_add o s j (j + count o) A ltac:(lia)) as X.
      destruct (IH (j + count o)) as (k & I & B1 & B2); [lia|].
      exists (Datatypes.S k). change (iterate (Datatypes.S (Datatypes.S fuel)) o (slot o s j) e) with
        (if slot o s j <=? e then if apply o (slot o s j) <=? slot o s j then Err EValueError else
          rbind (iterate (Datatypes.S fuel) o (apply o (slot o s j)) e) (fun l => Ok (slot o s j :: l)) else Ok []).
      assert (L1 : (slot o s j <=? e) = true) by (apply Z.leb_le; lia). rewrite L1, E.
      assert (L2 : (slot o s (j + count o) <=? slot o s j) = false) by (apply Z.leb_gt; lia). rewrite L2, I. cbn [rbind steps_from].
      split; auto. split.
      * intros i Hi. destruct (Z.eq_dec i 0) as [->|]; [rewrite Z.mul_0_l, Z.add_0_r; lia|].
        replace (j + i * count o) with (j + count o + (i - 1) * count o) by lia. apply B1. lia.
      * replace (j + Z.of_nat (Datatypes.S k) * count o) with (j + count o + Z.of_nat k * count o) by lia. exact B2.
    + exists O. cbn [iterate steps_from]. assert (L : (slot o s j <=? e) = false) by (apply Z.leb_gt; lia). rewrite L.
      split; auto. split; [lia|]. cbn. rewrite Z.add_0_r. lia.
Qed.

Lemma in_steps o s j k x : In x (steps_from o s j k) <-> exists i, 0 <= i < Z.of_nat k /\ x = slot o s (j + i * count o).
Proof.
  revert j. induction k as [|k IH]; intros j; cbn [steps_from In].
  - split; [tauto|]. intros (i & H & _). lia.
  - rewrite IH. split.
    + intros [<-|(i & H & ->)]; [exists 0; split; [lia|f_equal; lia]|]. exists (i + 1). split; [lia|f_equal; lia].
    + intros (i & H & ->). destruct (Z.eq_dec i 0) as [->|]; [left; f_equal; lia|]. right. exists (i - 1). split; [lia|f_equal; lia].
Qed.
Lemma steps_sorted o s j k : anchored o -> 0 < count o -> StronglySorted Z.lt (steps_from o s j k).
Proof.
  intros A C. revert j. induction k as [|k IH]; intros j; constructor; auto.
  apply Forall_forall. intros x X. apply in_steps in X as (i & H & ->). apply slot_lt; auto. nia.
Qed.
Lemma steps_last o s j k d : last (steps_from o s j (S k)) d = slot o s (j + Z.of_nat k * count o).
Proof.
  revert j. induction k as [|k IH]; intros j; [cbn; f_equal; lia|].
  change (last (steps_from o s j (S (S k))) d) with (last (steps_from o s (j + count o) (S k)) d). rewrite IH. f_equal. lia.
Qed.

(** The whole range. *)
Lemma range_slots start end_ o : anchored o -> 0 < count o -> exists i j k,
  let s := second_of_day start in let s' := second_of_day end_ in
  slot o s i <= start < slot o s (i + 1) /\ slot o s' (j - 1) < end_ <= slot o s' j /\
  generate_range start end_ o = Ok (steps_from o s i k) /\
  (forall n, 0 <= n < Z.of_nat k -> slot o s (i + n * count o) <= slot o s' j) /\ slot o s' j < slot o s (i + Z.of_nat k * count o).
Proof.
  intros A C. destruct (rollback_slot o start A) as (i & E1 & B1). destruct (rollforward_slot o end_ A) as (j & E2 & B2).
  assert (S : 0 <= second_of_day start < 86400) by (apply Z.mod_pos_bound; lia).
  assert (MS : min_step o = 86400) by (destruct o; cbn in *; tauto).
  set (n := Z.to_nat ((slot o (second_of_day end_) j - slot o (second_of_day start) i) / 86400 + 1)).
  destruct (Z_lt_ge_dec (slot o (second_of_day end_) j) (slot o (second_of_day start) i)) as [L|G].
  - exists i, j, O. cbn zeta. split; auto. split; auto. split; [|split; [lia|cbn; rewrite Z.add_0_r; lia]].
    unfold generate_range. rewrite E1, E2, MS.
    cbn [iterate steps_from]. assert (X : (slot o (second_of_day start) i <=? slot o (second_of_day end_) j) = false) by (apply Z.leb_gt; lia).
    now rewrite X.
  - destruct (iterate_slots o (second_of_day start) (slot o (second_of_day end_) j) A S C n i) as (k & I & K1 & K2).
    { subst n. pose proof (Z.div_mod (slot o (second_of_day end_) j - slot o (second_of_day start) i) 86400 ltac:(lia)).
      pose proof (Z.mod_pos_bound (slot o (second_of_day end_) j - slot o (second_of_day start) i) 86400 ltac:(lia)).
      rewrite Z2Nat.id by lia. lia. }
    exists i, j, k. cbn zeta. split; auto. split; auto. split; [|split; auto].
    unfold generate_range. rewrite E1, E2, MS. exact I.
Qed.
