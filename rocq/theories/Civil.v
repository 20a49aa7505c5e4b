(** Model of the calendar fields used by openscm/core/time.py 195-248 ([TimePoints.years],
    [months], [days], [hours], [weekdays]).  Time points are seconds since 1970-01-01
    ([datetime64[s]]); [astype(object)] gives Python datetimes, whose fields are computed as in
    CPython's [Lib/datetime.py].  (Years outside 1..9999, for which [astype(object)] gives
    integers instead, are not modelled: the functions are total.) *)
From Coq Require Import List ZArith Bool.
From Verif Require Import Base TimeModel Calendar.
Import ListNotations.
Local Open Scope Z_scope.

(** [_is_leap] (CPython, used by [datetime] in core/time.py 195-248) *)
Definition is_leap (y : Z) : bool := (y mod 4 =? 0) && (negb (y mod 100 =? 0) || (y mod 400 =? 0)).

(** [_DAYS_BEFORE_MONTH], [_DAYS_IN_MONTH] (CPython, used by [datetime] in core/time.py 195-248) *)
Definition days_before (m : Z) : Z :=
  match m with
  | 1 => 0 | 2 => 31 | 3 => 59 | 4 => 90 | 5 => 120 | 6 => 151
  | 7 => 181 | 8 => 212 | 9 => 243 | 10 => 273 | 11 => 304 | _ => 334
  end.
(** Days of a month, in a year that is no leap year (the same lines, 195-248) *)
Definition month_days (m : Z) : Z :=
  match m with
  | 2 => 28 | 4 => 30 | 6 => 30 | 9 => 30 | 11 => 30 | _ => 31
  end.
(** [_days_in_month] (CPython, used by [datetime] in core/time.py 195-248) *)
Definition days_in_month (y m : Z) : Z := if (m =? 2) && is_leap y then 29 else month_days m.
(** [_days_before_month], [_ymd2ord] *)
Definition days_before_month (y m : Z) : Z := days_before m + (if (2 <? m) && is_leap y then 1 else 0).
(** The ordinal of a day, [_ymd2ord] (the same lines, 195-248) *)
Definition ymd2ord (y m d : Z) : Z := days_before_year y + days_before_month y m + d.

(** [_ord2ymd] *)
Definition ord2ymd (ord : Z) : Z * Z * Z :=
  let n := ord - 1 in
  let n400 := n / 146097 in
  let n := n mod 146097 in
  let year := n400 * 400 + 1 in
  let n100 := n / 36524 in
  let n := n mod 36524 in
  let n4 := n / 1461 in
  let n := n mod 1461 in
  let n1 := n / 365 in
  let n := n mod 365 in
  let year := year + n100 * 100 + n4 * 4 + n1 in
  if (n1 =? 4) || (n100 =? 4) then (year - 1, 12, 31)
  else
    let leapyear := (n1 =? 3) && (negb (n4 =? 24) || (n100 =? 3)) in
    let month := (n + 50) / 32 in
    let preceding := days_before month + (if (2 <? month) && leapyear then 1 else 0) in
    if n <? preceding then
      let month := month - 1 in
      let preceding := preceding - (month_days month + (if (month =? 2) && leapyear then 1 else 0)) in
      (year, month, n - preceding + 1)
    else (year, month, n - preceding + 1).

(** The ordinal of 1970-01-01. *)
Definition epoch_ord : Z := 719163.
(** Year, month and day of an instant (core/time.py 195-226: [dt.astype(object)]) *)
Definition date_of (t : Z) : Z * Z * Z := ord2ymd (t / 86400 + epoch_ord).
(** [.year] (core/time.py 195-204) *)
Definition year_of (t : Z) : Z := fst (fst (date_of t)).
(** [.month] (core/time.py 206-215) *)
Definition month_of (t : Z) : Z := snd (fst (date_of t)).
(** [.day] (core/time.py 217-226) *)
Definition day_of (t : Z) : Z := snd (date_of t).
(** The time of the day (core/time.py 228-237) *)
Definition second_of_day (t : Z) : Z := t mod 86400.
(** [.hour] (core/time.py 228-237) *)
Definition hour_of (t : Z) : Z := second_of_day t / 3600.
(** [datetime.weekday]: (toordinal() + 6) % 7 *)
Definition weekday_of (t : Z) : Z := (t / 86400 + epoch_ord + 6) mod 7.

(** [datetime(y, m, d)] plus seconds of the day. (core/time.py 107; scmdataframe/offsets.py 177-192) *)
Definition time_of (y m d s : Z) : Z := 86400 * (ymd2ord y m d - epoch_ord) + s.

(** [TimePoints.years] to [weekdays] (195-248): [np.vectorize] refuses arrays of size 0. *)
Definition vectorized (f : Z -> Z) (ts : list Z) : res (list Z) :=
  match ts with [] => Err EValueError | _ => Ok (map f ts) end.
(** [TimePoints.years] (core/time.py 195-204) *)
Definition years (ts : list Z) : res (list Z) := vectorized year_of ts.
(** [TimePoints.months] (core/time.py 206-215) *)
Definition months (ts : list Z) : res (list Z) := vectorized month_of ts.
(** [TimePoints.days] (core/time.py 217-226) *)
Definition days (ts : list Z) : res (list Z) := vectorized day_of ts.
(** [TimePoints.hours] (core/time.py 228-237) *)
Definition hours (ts : list Z) : res (list Z) := vectorized hour_of ts.
(** [TimePoints.weekdays] (core/time.py 239-248) *)
Definition weekdays (ts : list Z) : res (list Z) := vectorized weekday_of ts.
