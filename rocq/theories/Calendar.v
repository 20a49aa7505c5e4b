(** Model of the calendar and float arithmetic used by openscm/core/time.py 94-154 and
    251-288: binary64 operations are exact results rounded to nearest even
    (Flocq's [round]); overflow, infinities and NaN are not modelled. *)
From Coq Require Import String List ZArith Reals Bool.
From Flocq Require Import Core.
From Verif Require Import Base TimeModel.
Import ListNotations.
Local Open Scope Z_scope.

(** ** binary64 *)
Definition b64_exp : Z -> Z := FLT_exp (-1074) 53.
(** [x] is a binary64 number. *)
Definition is_b64 (x : R) : Prop := generic_format radix2 b64_exp x.
(** Rounding of an exact result. (time.py 94-107, 283-288) *)
Definition b64 (x : R) : R := round radix2 b64_exp ZnearestE x.

(** ** Years *)

(** Python's [datetime] ordinals: CPython [_days_before_year]
    ([datetime.datetime(year + 1, 1, 1) - datetime.datetime(year, 1, 1)], time.py 102). *)
Definition days_before_year (year : Z) : Z :=
  let y := year - 1 in y * 365 + y / 4 - y / 100 + y / 400.

(** numpy's conversion of [datetime64[Y]] to days since 1970
    (numpy [get_datetimestruct_days]; C division truncates), used by
    [.astype("datetime64[s]")] (time.py 149, 151) and by the mixed addition in time.py 97-107. *)
Definition np_year_days (year : Z) : Z :=
  let y := year - 1970 in
  let days := y * 365 in
  if days >=? 0 then
    days + Z.quot (y + 1) 4 - Z.quot (y + 69) 100 + Z.quot (y + 369) 400
  else
    days + Z.quot (y - 2) 4 - Z.quot (y - 30) 100 + Z.quot (y - 30) 400.
(** The start of a year in seconds (time.py 97-99, 151) *)
Definition np_year_seconds (year : Z) : Z := 86400 * np_year_days year.

(** [_float_year_to_datetime] (time.py 94-107), in seconds since 1970.  [int] truncates;
    [datetime.datetime(y, 1, 1)] raises ValueError unless [1 <= y <= 9999]
    (datetime.MINYEAR, MAXYEAR). *)
Definition float_year_to_datetime (inp : R) : res Z :=
  let year := Ztrunc inp in
  let fractional_part := b64 (inp - IZR year) in
  if (1 <=? year) && (year + 1 <=? 9999) then
    let total_seconds := 86400 * (days_before_year (year + 1) - days_before_year year) in
    Ok (np_year_seconds year + Ztrunc (b64 (IZR total_seconds * fractional_part)))
  else Err EValueError.

(** [_format_datetime] for float and integer arrays (time.py 121-154). *)
Definition format_float_years (dts : list R) : res (list Z) := rmap float_year_to_datetime dts.
(** [_format_datetime] for integers (time.py 150-151) *)
Definition format_int_years (dts : list Z) : list Z := map np_year_seconds dts.

(** ** [create_time_points] (time.py 251-288) *)

(** [astype("datetime64[s]")] rounds down. *)
Definition ns_to_s (ns : Z) : Z := ns / 1000000000.

(** [numpy.linspace(start, stop, num)] for floats, [endpoint=True]
    (numpy/core/function_base.py): [y = arange(0, num) * step + start] with
    [step = (stop - start) / (num - 1)], or [arange(0, num) / (num - 1) * (stop - start) + start]
    if the step is 0; the last element is replaced by [stop] if [num > 1]. *)
Definition linspace_at (start stop : R) (num i : Z) : R :=
  let div := num - 1 in
  let delta := b64 (stop - start) in
  if 0 <? div then
    if i =? div then stop else
    let step := b64 (delta / IZR div) in
    if Req_EM_T step 0 then b64 (b64 (b64 (IZR i / IZR div) * delta) + start)
    else b64 (b64 (IZR i * step) + start)
  else b64 (b64 (IZR i * delta) + start).
(** The numbers below [n], for [np.linspace] (time.py 283-288) *)
Definition zrange (n : Z) : list Z := map Z.of_nat (seq 0 (Z.to_nat n)).
(** [np.linspace] (time.py 283-288); a negative number of samples is a ValueError *)
Definition linspace (start stop : R) (num : Z) : res (list R) :=
  if num <? 0 then Err EValueError else Ok (map (linspace_at start stop num) (zrange num)).

(** The result is cast to [datetime64[s]] by truncation. [astype(float)] rounds. *)
Definition create_time_points (start_time period_length : dt64) (points_num : Z)
    (timeseries_type : enum_arg ptype) : res (list Z) :=
  rbind (from_timeseries_type timeseries_type) (fun ty =>
  let points_num_output := match ty with AVERAGE_TIMESERIES => points_num + 1 | _ => points_num end in
  let end_time_output := dt_ns start_time + (points_num_output - 1) * dt_ns period_length in
  rbind (linspace (b64 (IZR (ns_to_s (dt_ns start_time)))) (b64 (IZR (ns_to_s end_time_output)))
                  points_num_output) (fun l =>
  Ok (map Ztrunc l))).
