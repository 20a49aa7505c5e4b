(** Proofs about the calendar. *)
From Coq Require Import List ZArith Bool Lia.
From Verif Require Import Base Calendar Civil.
Import ListNotations.
Local Open Scope Z_scope.

Lemma dby_period y : days_before_year (y + 400) = days_before_year y + 146097.
Proof.
  unfold days_before_year. replace (y + 400 - 1) with (y - 1 + 100 * 4) by lia.
  rewrite Z.div_add by lia. replace (y - 1 + 100 * 4) with (y - 1 + 4 * 100) by lia. rewrite Z.div_add by lia.
  replace (y - 1 + 4 * 100) with (y - 1 + 1 * 400) by lia. rewrite Z.div_add by lia. lia.
Qed.
Lemma dby_cycles k y : days_before_year (y + 400 * k) = days_before_year y + 146097 * k.
Proof.
  unfold days_before_year. replace (y + 400 * k - 1) with (y - 1 + (100 * k) * 4) by lia.
  rewrite Z.div_add by lia. replace (y - 1 + 100 * k * 4) with (y - 1 + (4 * k) * 100) by lia. rewrite Z.div_add by lia.
  replace (y - 1 + 4 * k * 100) with (y - 1 + k * 400) by lia. rewrite Z.div_add by lia. lia.
Qed.
Lemma leap_cycles k y : is_leap (y + 400 * k) = is_leap y.
Proof.
  unfold is_leap. replace (y + 400 * k) with (y + (100 * k) * 4) by lia. rewrite Z.mod_add by lia.
  replace (y + (100 * k) * 4) with (y + (4 * k) * 100) by lia. rewrite Z.mod_add by lia.
  replace (y + 4 * k * 100) with (y + k * 400) by lia. rewrite Z.mod_add by lia. reflexivity.
Qed.

(** Years from cycles of 400, 100, 4 and 1 years. *)
Lemma year_parts a b c d : 0 <= b <= 3 -> 0 <= c <= 24 -> 0 <= d <= 3 ->
  let y := a * 400 + 1 + b * 100 + c * 4 + d in
  days_before_year y = a * 146097 + b * 36524 + c * 1461 + d * 365 /\
  is_leap y = (d =? 3) && (negb (c =? 24) || (b =? 3)).
Proof.
  intros B C D y. split.
  - unfold days_before_year. subst y.
    assert (E1 : (a * 400 + 1 + b * 100 + c * 4 + d - 1) / 4 = a * 100 + b * 25 + c) by (symmetry; apply (Z.div_unique _ _ _ d); lia).
    assert (E2 : (a * 400 + 1 + b * 100 + c * 4 + d - 1) / 100 = a * 4 + b) by (symmetry; apply (Z.div_unique _ _ _ (c * 4 + d)); lia).
    assert (E3 : (a * 400 + 1 + b * 100 + c * 4 + d - 1) / 400 = a) by (symmetry; apply (Z.div_unique _ _ _ (b * 100 + c * 4 + d)); lia).
    rewrite E1, E2, E3. lia.
  - unfold is_leap. subst y.
    destruct (Z.eqb_spec d 3) as [->|N].
    + assert (E1 : (a * 400 + 1 + b * 100 + c * 4 + 3) mod 4 = 0) by (symmetry; apply (Z.mod_unique _ _ (a * 100 + b * 25 + c + 1)); lia).
      rewrite E1. cbn [Z.eqb andb]. destruct (Z.eqb_spec c 24) as [->|N].
      * assert (E2 : (a * 400 + 1 + b * 100 + 24 * 4 + 3) mod 100 = 0) by (symmetry; apply (Z.mod_unique _ _ (a * 4 + b + 1)); lia).
        rewrite E2. cbn [Z.eqb negb orb]. destruct (Z.eqb_spec b 3) as [->|N].
        -- assert (E3 : (a * 400 + 1 + 3 * 100 + 24 * 4 + 3) mod 400 = 0) by (symmetry; apply (Z.mod_unique _ _ (a + 1)); lia).
           now rewrite E3.
        -- assert (E3 : (a * 400 + 1 + b * 100 + 24 * 4 + 3) mod 400 = b * 100 + 100) by (symmetry; apply (Z.mod_unique _ _ a); lia).
           rewrite E3. apply Z.eqb_neq. lia.
      * assert (E2 : (a * 400 + 1 + b * 100 + c * 4 + 3) mod 100 = c * 4 + 4) by (symmetry; apply (Z.mod_unique _ _ (a * 4 + b)); lia).
        rewrite E2. assert (E : (c * 4 + 4 =? 0) = false) by (apply Z.eqb_neq; lia). now rewrite E.
    + assert (E1 : (a * 400 + 1 + b * 100 + c * 4 + d) mod 4 = d + 1) by (symmetry; apply (Z.mod_unique _ _ (a * 100 + b * 25 + c)); lia).
      rewrite E1. assert (E : (d + 1 =? 0) = false) by (apply Z.eqb_neq; lia). now rewrite E.
Qed.

(** Days within a year, by evaluation. *)
Definition month_day (leap : bool) (n : Z) : Z * Z :=
  let month := (n + 50) / 32 in
  let preceding := days_before month + (if (2 <? month) && leap then 1 else 0) in
  if n <? preceding then
    let month := month - 1 in
    let preceding := preceding - (month_days month + (if (month =? 2) && leap then 1 else 0)) in
    (month, n - preceding + 1)
  else (month, n - preceding + 1).
Definition check_day (leap : bool) (n : Z) : bool :=
  let (m, d) := month_day leap n in
  (1 <=? m) && (m <=? 12) && (1 <=? d) && (d <=? (if (m =? 2) && leap then 29 else month_days m)) &&
  (days_before m + (if (2 <? m) && leap then 1 else 0) + d =? n + 1).
Fixpoint check_days (leap : bool) (k : nat) : bool :=
  match k with O => true | S k' => check_day leap (Z.of_nat k') && check_days leap k' end.
Lemma check_days_sound leap k : check_days leap k = true -> forall n, 0 <= n < Z.of_nat k -> check_day leap n = true.
Proof.
  induction k as [|k IH]; intros H n N; [lia|]. cbn in H. apply andb_prop in H as [H1 H2].
  destruct (Z.eq_dec n (Z.of_nat k)) as [->|]; auto. apply IH; auto. lia.
Qed.
Lemma all_days (leap : bool) (n : Z) : 0 <= n < (if leap then 366 else 365) -> check_day leap n = true.
Proof.
  destruct leap; intros H.
  - apply (check_days_sound true 366); [vm_compute; reflexivity|exact H].
  - apply (check_days_sound false 365); [vm_compute; reflexivity|exact H].
Qed.

Definition is_date (y m d : Z) : Prop := 1 <= m <= 12 /\ 1 <= d <= days_in_month y m.

Lemma ord2ymd_valid o y m d : ord2ymd o = (y, m, d) -> is_date y m d /\ ymd2ord y m d = o.
Proof.
  unfold ord2ymd.
  pose proof (Z.div_mod (o - 1) 146097 ltac:(lia)) as Da. pose proof (Z.mod_pos_bound (o - 1) 146097 ltac:(lia)) as Ba.
  set (a := (o - 1) / 146097) in *. set (n := (o - 1) mod 146097) in *.
  pose proof (Z.div_mod n 36524 ltac:(lia)) as Db. pose proof (Z.mod_pos_bound n 36524 ltac:(lia)) as Bb.
  set (b := n / 36524) in *. set (n' := n mod 36524) in *.
  pose proof (Z.div_mod n' 1461 ltac:(lia)) as Dc. pose proof (Z.mod_pos_bound n' 1461 ltac:(lia)) as Bc.
  set (c := n' / 1461) in *. set (n'' := n' mod 1461) in *.
  pose proof (Z.div_mod n'' 365 ltac:(lia)) as Dd. pose proof (Z.mod_pos_bound n'' 365 ltac:(lia)) as Bd.
  set (e := n'' / 365) in *. set (r := n'' mod 365) in *.
  assert (0 <= b <= 4) by lia. assert (0 <= c <= 24) by lia. assert (0 <= e <= 4) by lia.
  clearbody a n b n' c n'' e r.
  destruct ((e =? 4) || (b =? 4)) eqn:Last.
  - intros E. injection E as <- <- <-.
    assert (exists b' c', 0 <= b' <= 3 /\ 0 <= c' <= 24 /\ (c' = 24 -> b' = 3) /\
      a * 400 + 1 + b * 100 + c * 4 + e - 1 = a * 400 + 1 + b' * 100 + c' * 4 + 3 /\
      o = a * 146097 + b' * 36524 + c' * 1461 + 3 * 365 + 366) as (b' & c' & B' & C' & L & Y & O).
    { apply orb_prop in Last as [E|E]; apply Z.eqb_eq in E; subst.
      - exists b, c. lia.
      - exists 3, 24. lia. }
    rewrite Y. destruct (year_parts a b' c' 3 B' C' ltac:(lia)) as [E1 E2].
    assert (Lp : is_leap (a * 400 + 1 + b' * 100 + c' * 4 + 3) = true).
    { rewrite E2. cbn [Z.eqb andb]. change (3 =? 3) with true. cbn [andb]. destruct (Z.eqb_spec c' 24); cbn; auto. apply Z.eqb_eq; auto. }
    split; [split; [lia|]|].
    + unfold days_in_month. cbn. lia.
    + unfold ymd2ord, days_before_month. rewrite E1, Lp. cbn [days_before Z.ltb Z.compare Pos.compare Pos.compare_cont andb]. lia.
  - apply orb_false_iff in Last as [N1 N2]. apply Z.eqb_neq in N1, N2.
    destruct (year_parts a b c e ltac:(lia) ltac:(lia) ltac:(lia)) as [E1 E2].
    set (leap := (e =? 3) && (negb (c =? 24) || (b =? 3))) in *.
    assert (R : 0 <= r < (if leap then 366 else 365)) by (destruct leap; lia).
    pose proof (all_days leap r R) as C. unfold check_day in C. intros E.
    assert (M : month_day leap r = (m, d) /\ a * 400 + 1 + b * 100 + c * 4 + e = y).
    { unfold month_day. destruct (r <? _); injection E as <- <- <-; auto. }
    destruct M as [M <-]. rewrite M in C. repeat rewrite andb_true_iff in C.
    unfold is_date, days_in_month, ymd2ord, days_before_month. rewrite E1, E2. fold leap. lia.
Qed.

(** Dates in order. *)
Lemma is_leap_iff y : is_leap y = true <-> (y mod 4 = 0 /\ (y mod 100 <> 0 \/ y mod 400 = 0)).
Proof.
  unfold is_leap. rewrite andb_true_iff, orb_true_iff, negb_true_iff, !Z.eqb_eq, Z.eqb_neq. tauto.
Qed.
Lemma dby_succ y : days_before_year (y + 1) = days_before_year y + (if is_leap y then 366 else 365).
Proof.
  unfold days_before_year. replace (y + 1 - 1) with y by lia.
  assert (D : forall m, m > 0 -> y / m = (y - 1) / m + (if y mod m =? 0 then 1 else 0)).
  { intros m Hm. pose proof (Z.div_mod y m ltac:(lia)). pose proof (Z.mod_pos_bound y m ltac:(lia)).
    destruct (Z.eqb_spec (y mod m) 0) as [E|E].
    - assert ((y - 1) / m = y / m - 1); [|lia]. symmetry. apply (Z.div_unique _ _ _ (m - 1)); lia.
    - assert ((y - 1) / m = y / m); [|lia]. symmetry. apply (Z.div_unique _ _ _ (y mod m - 1)); lia. }
  rewrite (D 4), (D 100), (D 400) by lia. unfold is_leap.
  assert (y mod 100 = 0 -> y mod 4 = 0) by (intros; Z.div_mod_to_equations; lia).
  assert (y mod 400 = 0 -> y mod 100 = 0) by (intros; Z.div_mod_to_equations; lia).
  destruct (Z.eqb_spec (y mod 4) 0), (Z.eqb_spec (y mod 100) 0), (Z.eqb_spec (y mod 400) 0); cbn; try lia.
Qed.

(** Months counted since the year 0: the number of days before a month. *)
Definition month_start (k : Z) : Z := let y := k / 12 in let m := k mod 12 + 1 in ymd2ord y m 1.
Definition month_len (k : Z) : Z := days_in_month (k / 12) (k mod 12 + 1).
Lemma twelve (P : Z -> Prop) : P 1 -> P 2 -> P 3 -> P 4 -> P 5 -> P 6 -> P 7 -> P 8 -> P 9 -> P 10 -> P 11 -> P 12 ->
  forall m, 1 <= m <= 12 -> P m.
Proof.
  intros. assert (m = 1 \/ m = 2 \/ m = 3 \/ m = 4 \/ m = 5 \/ m = 6 \/ m = 7 \/ m = 8 \/ m = 9 \/ m = 10 \/ m = 11 \/ m = 12) as D by lia.
  repeat destruct D as [->|D]; auto. now subst.
Qed.
Lemma month_len_pos k : 28 <= month_len k <= 31.
Proof.
  unfold month_len, days_in_month. assert (1 <= k mod 12 + 1 <= 12) by (pose proof (Z.mod_pos_bound k 12); lia).
  revert H. generalize (k mod 12 + 1). apply twelve; cbn; destruct (is_leap (k / 12)); lia.
Qed.
Lemma month_next k : month_start (k + 1) = month_start k + month_len k.
Proof.
  unfold month_start, month_len. pose proof (Z.mod_pos_bound k 12 ltac:(lia)) as B. pose proof (Z.div_mod k 12 ltac:(lia)) as D.
  destruct (Z.eq_dec (k mod 12) 11) as [E|E].
  - replace ((k + 1) / 12) with (k / 12 + 1) by (apply (Z.div_unique _ _ _ 0); lia).
    replace ((k + 1) mod 12) with 0 by (apply (Z.mod_unique _ _ (k / 12 + 1)); lia).
    rewrite E. unfold ymd2ord, days_before_month. rewrite dby_succ. cbn. destruct (is_leap (k / 12)); lia.
  - replace ((k + 1) / 12) with (k / 12) by (apply (Z.div_unique _ _ _ (k mod 12 + 1)); lia).
    replace ((k + 1) mod 12) with (k mod 12 + 1) by (apply (Z.mod_unique _ _ (k / 12)); lia).
    unfold ymd2ord, days_before_month, days_in_month. generalize (is_leap (k / 12)). generalize (days_before_year (k / 12)). intros a l.
    assert (1 <= k mod 12 + 1 <= 11) as R by lia. clear -R. revert R. generalize (k mod 12 + 1). intros m Hm.
    assert (m = 1 \/ m = 2 \/ m = 3 \/ m = 4 \/ m = 5 \/ m = 6 \/ m = 7 \/ m = 8 \/ m = 9 \/ m = 10 \/ m = 11) as D by lia.
    repeat destruct D as [->|D]; try subst m; destruct l; cbn; lia.
Qed.
Lemma month_start_mono j k : j <= k -> month_start j <= month_start k /\ (j < k -> month_start j + month_len j <= month_start k).
Proof.
  intros H. assert (E : forall n, 0 <= n -> month_start j <= month_start (j + n)).
  { intros n Hn. pattern n. apply natlike_ind; auto; [now rewrite Z.add_0_r|]. intros x Hx IH.
    replace (j + Z.succ x) with (j + x + 1) by lia. rewrite month_next. pose proof (month_len_pos (j + x)). lia. }
  split.
  - replace k with (j + (k - j)) by lia. apply E. lia.
  - intros L. rewrite <- month_next. assert (E' : forall n, 0 <= n -> month_start (j + 1) <= month_start (j + 1 + n)).
    { intros n Hn. pattern n. apply natlike_ind; auto; [rewrite Z.add_0_r; lia|]. intros x Hx IH.
      replace (j + 1 + Z.succ x) with (j + 1 + x + 1) by lia. rewrite (month_next (j + 1 + x)). pose proof (month_len_pos (j + 1 + x)). lia. }
    replace k with (j + 1 + (k - j - 1)) by lia. apply E'. lia.
Qed.

(** Month number and day of a date. *)
Lemma ymd_month y m d : 1 <= m <= 12 -> ymd2ord y m d = month_start (12 * y + m - 1) + d - 1 /\ days_in_month y m = month_len (12 * y + m - 1).
Proof.
  intros H. unfold month_start, month_len.
  replace ((12 * y + m - 1) / 12) with y by (apply (Z.div_unique _ _ _ (m - 1)); lia).
  replace ((12 * y + m - 1) mod 12 + 1) with m by (replace ((12 * y + m - 1) mod 12) with (m - 1) by (apply (Z.mod_unique _ _ y); lia); lia).
  unfold ymd2ord. split; lia.
Qed.
Lemma month_day_unique k d k' d' : 1 <= d <= month_len k -> 1 <= d' <= month_len k' ->
  month_start k + d = month_start k' + d' -> k = k' /\ d = d'.
Proof.
  intros H H' E. destruct (Z.lt_trichotomy k k') as [L|[->|L]]; [|split; lia|].
  - pose proof (month_start_mono k k' ltac:(lia)) as [_ M]. specialize (M L). lia.
  - pose proof (month_start_mono k' k ltac:(lia)) as [_ M]. specialize (M L). lia.
Qed.
Lemma ymd_unique y m d y' m' d' : is_date y m d -> is_date y' m' d' -> ymd2ord y m d = ymd2ord y' m' d' -> y = y' /\ m = m' /\ d = d'.
Proof.
  intros [M D] [M' D'] E. destruct (ymd_month y m d M) as [E1 L1]. destruct (ymd_month y' m' d' M') as [E2 L2].
  destruct (month_day_unique (12 * y + m - 1) d (12 * y' + m' - 1) d') as [K ->]; lia.
Qed.
Lemma ord_date y m d : is_date y m d -> ord2ymd (ymd2ord y m d) = (y, m, d).
Proof.
  intros H. destruct (ord2ymd (ymd2ord y m d)) as [[y' m'] d'] eqn:E. apply ord2ymd_valid in E as [V E].
  destruct (ymd_unique y' m' d' y m d) as (-> & -> & ->); auto.
Qed.
Lemma date_time y m d s : is_date y m d -> 0 <= s < 86400 -> date_of (time_of y m d s) = (y, m, d) /\ second_of_day (time_of y m d s) = s.
Proof.
  intros H S. unfold date_of, time_of, second_of_day.
  replace (86400 * (ymd2ord y m d - epoch_ord) + s) with (s + (ymd2ord y m d - epoch_ord) * 86400) by lia.
  rewrite Z.div_add, Z.mod_add, (Z.div_small s), (Z.mod_small s) by lia. split; auto.
  replace (0 + (ymd2ord y m d - epoch_ord) + epoch_ord) with (ymd2ord y m d) by lia. now apply ord_date.
Qed.
Lemma time_date t : exists y m d, date_of t = (y, m, d) /\ is_date y m d /\ 0 <= second_of_day t < 86400 /\ t = time_of y m d (second_of_day t).
Proof.
  unfold date_of, time_of, second_of_day. destruct (ord2ymd (t / 86400 + epoch_ord)) as [[y m] d] eqn:E. exists y, m, d.
  split; auto. apply ord2ymd_valid in E as [V ->]. split; auto. split; [apply Z.mod_pos_bound; lia|].
  pose proof (Z.div_mod t 86400 ltac:(lia)). lia.
Qed.
