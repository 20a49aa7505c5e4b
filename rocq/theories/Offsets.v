(** Model of openscm/scmdataframe/offsets.py together with the pandas (0.25) offset classes it
    uses.  Datetimes are seconds since 1970 ([Civil.v]); sub-second, semi-month and
    week-of-month rules are not modelled ([EInvalid]). *)
From Coq Require Import String Ascii List ZArith Bool.
From Verif Require Import Base Regex Civil.
Import ListNotations.
Local Open Scope Z_scope.

(** The day within a month: [_day_opt] "start" or "end". (pandas, used by offsets.py 27-59) *)
Inductive dayopt := DStart | DEnd.

(** [Tick] (n seconds), [Week(n, weekday)], [MonthBegin]/[MonthEnd](n),
    [QuarterBegin]/[QuarterEnd](n, startingMonth), [YearBegin]/[YearEnd](n, month); all with
    [normalize=False]. (pandas, the result of offsets.py 90-134) *)
Inductive offset :=
| OTick (n : Z)
| OWeek (n weekday : Z)
| OMonth (n : Z) (opt : dayopt)
| OQuarter (n : Z) (opt : dayopt) (starting : Z)
| OYear (n : Z) (opt : dayopt) (month : Z).

(** pandas [get_day_of_month(other, day_opt)] (pandas, used by offsets.py 27-59) *)
Definition get_day_of_month (t : Z) (opt : dayopt) : Z :=
  match opt with DStart => 1 | DEnd => days_in_month (year_of t) (month_of t) end.

(** pandas [shift_month(stamp, months, day_opt)]: keeps the time of the day. (used by offsets.py 27-59) *)
Definition shift_month (t months : Z) (opt : dayopt) : Z :=
  let dy := (month_of t + months) / 12 in
  let month := (month_of t + months) mod 12 in
  let (month, dy) := if month =? 0 then (12, dy - 1) else (month, dy) in
  let year := year_of t + dy in
  let day := match opt with DStart => 1 | DEnd => days_in_month year month end in
  time_of year month day (second_of_day t).

(** pandas [roll_convention(other, n, compare)] (used by offsets.py 27-59) *)
Definition roll_convention (other n compare : Z) : Z :=
  if (0 <? n) && (other <? compare) then n - 1
  else if (n <=? 0) && (compare <? other) then n + 1 else n.

(** pandas [roll_qtrday(other, n, month, day_opt, modby=3)] (used by offsets.py 27-59) *)
Definition roll_qtrday (t n month : Z) (opt : dayopt) : Z :=
  let months_since := month_of t mod 3 - month mod 3 in
  if 0 <? n then
    if (months_since <? 0) || ((months_since =? 0) && (day_of t <? get_day_of_month t opt)) then n - 1 else n
  else
    if (0 <? months_since) || ((months_since =? 0) && (get_day_of_month t opt <? day_of t)) then n + 1 else n.

(** pandas [roll_yearday(other, n, month, day_opt)] (used by offsets.py 27-59) *)
Definition roll_yearday (t n month : Z) (opt : dayopt) : Z :=
  if 0 <? n then
    if (month_of t <? month) || ((month_of t =? month) && (day_of t <? get_day_of_month t opt)) then n - 1 else n
  else
    if (month <? month_of t) || ((month_of t =? month) && (get_day_of_month t opt <? day_of t)) then n + 1 else n.

(** The [apply] methods.  [apply_dt] (offsets.py 27-59) calls them with datetimes;
    [normalize] is false and time zones are not modelled. *)
Definition apply (o : offset) (t : Z) : Z :=
  match o with
  | OTick n => t + n
  | OWeek n wd =>
    if weekday_of t =? wd then t + n * 604800
    else
      let t' := t + (wd - weekday_of t) mod 7 * 86400 in
      t' + (if 0 <? n then n - 1 else n) * 604800
  | OMonth n opt => shift_month t (roll_convention (day_of t) n (get_day_of_month t opt)) opt
  | OQuarter n opt m =>
    let months_since := month_of t mod 3 - m mod 3 in
    shift_month t (roll_qtrday t n m opt * 3 - months_since) opt
  | OYear n opt m =>
    shift_month t (roll_yearday t n m opt * 12 + (m - month_of t)) opt
  end.

(** The [onOffset] methods. (used by offsets.py 62-87) *)
Definition on_offset (o : offset) (t : Z) : bool :=
  match o with
  | OTick _ => true
  | OWeek _ wd => weekday_of t =? wd
  | OMonth _ opt => day_of t =? get_day_of_month t opt
  | OQuarter _ opt m => ((month_of t - m) mod 3 =? 0) && (day_of t =? get_day_of_month t opt)
  | OYear _ opt m => (month_of t =? m) && (day_of t =? get_day_of_month t opt)
  end.

(** [obj.__class__(n, normalize=obj.normalize, **obj.kwds)]; for ticks the class has its own
    length, which is not needed as they are always on offset. (offsets.py 62-87) *)
Definition with_n (o : offset) (n : Z) : offset :=
  match o with
  | OTick k => OTick (n * k)
  | OWeek _ wd => OWeek n wd
  | OMonth _ opt => OMonth n opt
  | OQuarter _ opt m => OQuarter n opt m
  | OYear _ opt m => OYear n opt m
  end.

(** [apply_rollforward] (62-73), [apply_rollback] (76-87); subtracting an offset is applying it
    with the opposite sign. *)
Definition rollforward (o : offset) (t : Z) : Z := if on_offset o t then t else apply (with_n o 1) t.
(** [apply_rollback] (offsets.py 76-87) *)
Definition rollback (o : offset) (t : Z) : Z := if on_offset o t then t else apply (with_n o (-1)) t.

(** [generate_range] (137-253): the loop 238-253.  The fuel given in [generate_range] is never
    used up ([OffsetsFacts.v]). *)
Fixpoint iterate (fuel : nat) (o : offset) (current end_ : Z) : res (list Z) :=
  match fuel with
  | O => Err EInvalid
  | S fuel' =>
    if current <=? end_ then
      let next_current := apply o current in
      if next_current <=? current then Err EValueError
      else rbind (iterate fuel' o next_current end_) (fun l => Ok (current :: l))
    else Ok []
  end.
(** A bound for the fuel of the loop (offsets.py 238-253), not in the code *)
Definition min_step (o : offset) : Z := match o with OTick n => Z.max 1 n | _ => 86400 end.
(** [generate_range] (offsets.py 137-253) *)
Definition generate_range (start end_ : Z) (o : offset) : res (list Z) :=
  let start := rollback o start in
  let end_ := rollforward o end_ in
  iterate (S (Z.to_nat ((end_ - start) / min_step o + 1))) o start end_.

(** ** [to_offset] (90-134): parsing of rules by pandas *)

(** Names of months in rules (pandas, used by offsets.py 90-134) *)
Definition month_codes : list (string * Z) :=
  [("JAN", 1); ("FEB", 2); ("MAR", 3); ("APR", 4); ("MAY", 5); ("JUN", 6); ("JUL", 7); ("AUG", 8);
   ("SEP", 9); ("OCT", 10); ("NOV", 11); ("DEC", 12)]%string.
(** Names of weekdays in rules (pandas, used by offsets.py 90-134) *)
Definition weekday_codes : list (string * Z) :=
  [("MON", 0); ("TUE", 1); ("WED", 2); ("THU", 3); ("FRI", 4); ("SAT", 5); ("SUN", 6)]%string.

(** The count before the name: optional sign and digits, 1 if missing. (pandas, used by offsets.py 90-134) *)
Fixpoint take_digits (acc : Z) (s : string) : Z * string :=
  match s with
  | String c s' => match digit c with Some d => take_digits (10 * acc + Z.of_nat d) s' | None => (acc, s) end
  | EmptyString => (acc, s)
  end.
(** Digits, 1 if there are none (pandas, used by offsets.py 90-134) *)
Definition unsigned (s : string) : Z * string :=
  match s with
  | String c _ => match digit c with Some _ => take_digits 0 s | None => (1, s) end
  | EmptyString => (1, s)
  end.
(** Sign and digits (pandas, used by offsets.py 90-134) *)
Definition count_of (s : string) : Z * string :=
  match s with
  | String "-"%char s' => let (z, r) := unsigned s' in (- z, r)
  | String "+"%char s' => unsigned s'
  | _ => unsigned s
  end.

(** A capital letter (pandas' names of offsets, used for offsets.py 115) *)
Definition capital (c : ascii) : bool := let n := nat_of_ascii c in (65 <=? n)%nat && (n <=? 90)%nat.
(** Names; business offsets (names starting with B, and the custom business ones) and names that pandas
    does not know raise ValueError (offsets.py 115-120).  Not modelled ([EInvalid]): half months,
    parts of seconds, weeks of months and financial years (which have a suffix) and small letters. *)
Definition named (n : Z) (name : string) (suffix : option string) : res offset :=
  let month default k := match suffix with
    | None => Ok (k default)
    | Some x => match alookup x month_codes with Some m => Ok (k m) | None => Err EValueError end
    end in
  let no_suffix o := match suffix with None => Ok o | Some _ => Err EValueError end in
  if existsb (String.eqb name) ["S"]%string then no_suffix (OTick n)
  else if existsb (String.eqb name) ["T"; "min"; "Min"]%string then no_suffix (OTick (n * 60))
  else if String.eqb name "H" then no_suffix (OTick (n * 3600))
  else if String.eqb name "D" then no_suffix (OTick (n * 86400))
  else if String.eqb name "W" then
    match suffix with
    | None => Ok (OWeek n 6)
    | Some x => match alookup x weekday_codes with Some d => Ok (OWeek n d) | None => Err EValueError end
    end
  else if String.eqb name "M" then no_suffix (OMonth n DEnd)
  else if String.eqb name "MS" then no_suffix (OMonth n DStart)
  else if String.eqb name "Q" then month 12 (OQuarter n DEnd)
  else if String.eqb name "QS" then month 1 (OQuarter n DStart)
  else if existsb (String.eqb name) ["A"; "Y"]%string then month 12 (OYear n DEnd)
  else if existsb (String.eqb name) ["AS"; "YS"]%string then month 1 (OYear n DStart)
  else match name with
       | String "B"%char _ => Err EValueError
       | _ =>
         if existsb (String.eqb name) ["SM"; "SMS"; "L"; "U"; "N"]%string then Err EInvalid
         else if forallb capital (list_ascii_of_string name)
         then match suffix with None => Err EValueError | Some _ => Err EInvalid end
         else Err EInvalid
       end.

(** The letters at the beginning: the name in a part of a combined rule (pandas, used by offsets.py 90-134) *)
Definition letter (c : ascii) : bool := capital c || (let n := nat_of_ascii c in (97 <=? n)%nat && (n <=? 122)%nat).
(** The name and the rest (pandas, used by offsets.py 90-134) *)
Fixpoint take_letters (s : string) : string * string :=
  match s with
  | String c s' => if letter c then let (w, r) := take_letters s' in (String c w, r) else (EmptyString, s)
  | EmptyString => (EmptyString, s)
  end.
(** The seconds in one tick of the name (pandas, used by offsets.py 90-134) *)
Definition tick_length (name : string) : option Z :=
  alookup name [("S", 1); ("T", 60); ("min", 60); ("Min", 60); ("H", 3600); ("D", 86400)]%string.
(** The sum of the parts of a combined rule such as "1D12H"; [fuel] is at least the length of the
    text.  [None]: a part is something else than a number without sign and a tick of whole seconds.
    (pandas, used by offsets.py 90-134) *)
Fixpoint ticks_sum (fuel : nat) (s : string) : option Z :=
  match s, fuel with
  | EmptyString, _ => Some 0
  | _, O => None
  | _, Datatypes.S fuel =>
    let (n, r) := unsigned s in
    let (name, rest) := take_letters r in
    match tick_length name, ticks_sum fuel rest with
    | Some len, Some z => Some (n * len + z)
    | _, _ => None
    end
  end.
(** Combined rules: pandas takes the sign of the first number for all parts and adds the ticks.
    Not modelled ([EInvalid]): parts that are not ticks of whole seconds, blanks, fractions and
    signs within the rule. (pandas, used by offsets.py 90-134) *)
Definition combined (rule : string) : res offset :=
  let sum sign s := match ticks_sum (String.length s) s with Some z => Ok (OTick (sign * z)) | None => Err EInvalid end in
  match rule with
  | String "-"%char s => sum (-1) s
  | String "+"%char s => sum 1 s
  | _ => sum 1 rule
  end.
(** [to_offset] (offsets.py 90-134) *)
Definition to_offset (rule : string) : res offset :=
  let (n, r) := count_of rule in
  match split "-" r with
  | [name] => match named n name None with Err EInvalid => combined rule | o => o end
  | [name; suffix] => named n name (Some suffix)
  | _ => Err EInvalid
  end.

Example to_offset_ex : to_offset "AS" = Ok (OYear 1 DStart 1) /\ to_offset "2Q-NOV" = Ok (OQuarter 2 DEnd 11) /\
  to_offset "BAS" = Err EValueError /\ to_offset "3D" = Ok (OTick 259200) /\ to_offset "-1D12H" = Ok (OTick (-129600)).
Proof. vm_compute. repeat split. Qed.
(** The first example of the docstring (177-192). *)
Example range_ex : generate_range (time_of 2001 4 1 0) (time_of 2005 6 3 0) (OYear 1 DStart 1) =
  Ok [time_of 2001 1 1 0; time_of 2002 1 1 0; time_of 2003 1 1 0; time_of 2004 1 1 0; time_of 2005 1 1 0; time_of 2006 1 1 0].
Proof. vm_compute. reflexivity. Qed.
