(** Model of openscm/core/time.py 114-154 ([_parse_datetime], [_format_datetime]) and 157-181
    ([TimePoints.__init__], [TimePoints.values]) for arrays of every kind.

    Texts: numbers written with digits and at most one point, and dates YYYY-MM-DD, optionally
    followed by a blank or "T" and HH:MM:SS.  For other texts the answer is [EInvalid] (not
    modelled); arrays of objects are modelled if all elements are datetimes.
    [today] is the month and day on which the program runs: [dateutil.parser.parse] takes what a
    text does not say from the current date (dateutil/parser/_parser.py [parse], [_build_naive]). *)
From Coq Require Import String Ascii List ZArith Reals Bool.
From Flocq Require Import Core.
From Verif Require Import Base Calendar Civil.
Import ListNotations.
Local Open Scope string_scope.
Local Open Scope list_scope.
Local Open Scope Z_scope.

(** The unit of a [datetime64] array (core/time.py 146-147) *)
Inductive tunit := UYear | UMonth | UDay | UHour | UMinute | USecond | UMilli | UMicro | UNano.

(** [np.asarray(dts, dtype="datetime64[s]")] (core/time.py 147): calendar units by numpy's date arithmetic; finer units are rounded
    down (numpy [convert_datetime_to_datetimestruct]). *)
Definition to_seconds (u : tunit) (v : Z) : Z :=
  match u with
  | UYear => np_year_seconds (1970 + v)
  | UMonth => np_year_seconds (1970 + v / 12) + 86400 * days_before_month (1970 + v / 12) (v mod 12 + 1)
  | UDay => 86400 * v
  | UHour => 3600 * v
  | UMinute => 60 * v
  | USecond => v
  | UMilli => v / 1000
  | UMicro => v / 1000000
  | UNano => v / 1000000000
  end.

(** ** Texts *)
(** One decimal digit, as Python's [float] (core/time.py 116) and dateutil (118) read it *)
Definition digit (c : ascii) : option Z :=
  let n := Z.of_nat (nat_of_ascii c) - 48 in if (0 <=? n) && (n <=? 9) then Some n else None.
(** The number written by digits, to be continued from [acc] (the same lines) *)
Fixpoint digits_from (acc : Z) (s : string) : option Z :=
  match s with
  | EmptyString => Some acc
  | String c s' => match digit c with Some d => digits_from (10 * acc + d) s' | None => None end
  end.
(** A text of digits, not empty (the same lines) *)
Definition digits (s : string) : option Z := match s with EmptyString => None | _ => digits_from 0 s end.

(** What a text is for core/time.py 114-118: a number or a date *)
Inductive text_kind :=
| TNumber (n : Z) (places : Z) (* digits without the point, number of places after it *)
| TDateText (y m d s : Z).

(** The texts which [inp.astype(float)] (core/time.py 116) reads; signs, exponents, blanks and "nan" are not modelled. *)
Definition number_of (s : string) : option text_kind :=
  match digits s with
  | Some n => Some (TNumber n 0)
  | None =>
    match split "." s with
    | [a; b] => match digits a, digits b with
                | Some n, Some k => Some (TNumber (n * 10 ^ Z.of_nat (String.length b) + k) (Z.of_nat (String.length b)))
                | _, _ => None
                end
    | _ => None
    end
  end.
(** Fields of fixed width of the dates given to [parser.parse] (core/time.py 111, 118) *)
Definition fixed_digits (n : nat) (s : string) : option Z := if Nat.eqb (String.length s) n then digits s else None.
(** [datetime.datetime], called by [parser.parse] (core/time.py 118), refuses fields out of range. *)
Definition valid_date (y m d : Z) : bool :=
  (1 <=? y) && (y <=? 9999) && (1 <=? m) && (m <=? 12) && (1 <=? d) && (d <=? days_in_month y m).
(** YYYY-MM-DD, for [parser.parse] (core/time.py 118) *)
Definition date_part (s : string) : option (Z * Z * Z) :=
  match split "-" s with
  | [a; b; c] => match fixed_digits 4 a, fixed_digits 2 b, fixed_digits 2 c with
                 | Some y, Some m, Some d => if valid_date y m d then Some (y, m, d) else None
                 | _, _, _ => None
                 end
  | _ => None
  end.
(** HH:MM:SS in seconds, for [parser.parse] (core/time.py 118) *)
Definition time_part (s : string) : option Z :=
  match split ":" s with
  | [a; b; c] => match fixed_digits 2 a, fixed_digits 2 b, fixed_digits 2 c with
                 | Some h, Some m, Some s => if (h <? 24) && (m <? 60) && (s <? 60) then Some (3600 * h + 60 * m + s) else None
                 | _, _, _ => None
                 end
  | _ => None
  end.
(** A date with or without time, for [parser.parse] (core/time.py 118) *)
Definition date_of_text (s : string) : option text_kind :=
  match date_part (substring 0 10 s) with
  | Some (y, m, d) =>
    match substring 10 (String.length s - 10) s with
    | EmptyString => Some (TDateText y m d 0)
    | String c s' => if Ascii.eqb c " " || Ascii.eqb c "T" then option_map (TDateText y m d) (time_part s') else None
    end
  | None => None
  end.
(** Texts as core/time.py 114-118 distinguishes them *)
Definition kind_of (s : string) : option text_kind :=
  match number_of s with Some k => Some k | None => date_of_text s end.

(** [float(text)] (core/time.py 116): the nearest binary64 number.  A text that is a date is a ValueError. *)
Definition text_float (k : text_kind) : res R :=
  match k with TNumber n p => Ok (b64 (IZR n / IZR (10 ^ p))) | TDateText _ _ _ _ => Err EValueError end.
(** [parser.parse(text)] (core/time.py 118): for a number of four digits (only from 1000 here) the year; month and day are
    those of today, the day not beyond the end of the month. *)
Definition dateutil (today : Z * Z) (k : text_kind) : res Z :=
  match k with
  | TDateText y m d s => Ok (time_of y m d s)
  | TNumber y p =>
    if (p =? 0) && (1000 <=? y) && (y <=? 9999) then
      Ok (time_of y (fst today) (Z.min (snd today) (days_in_month y (fst today))) 0)
    else Err EInvalid
  end.

(** [_parse_datetime] (114-118): [inp.astype(float)] and the year conversion are in one [try]; if any
    element fails, all are given to [parser.parse]. *)
Definition parse_datetime (today : Z * Z) (ks : list text_kind) : res (list Z) :=
  match rbind (rmap text_float ks) (rmap float_year_to_datetime) with
  | Ok ts => Ok ts
  | Err _ => rmap (dateutil today) ks
  end.

(** ** [_format_datetime] (121-154) *)
Inductive tinput :=
| InDates (u : tunit) (vs : list Z)       (* datetime64 *)
| InFloats (vs : list R)
| InInts (vs : list Z)
| InTexts (vs : list string)
| InObjects (vs : list (Z * Z)).          (* datetimes: seconds and microseconds *)

(** [_format_datetime] (core/time.py 121-154) *)
Definition format_datetime (today : Z * Z) (i : tinput) : res (list Z) :=
  match i with
  | InDates u vs => Ok (map (to_seconds u) vs)
  | InFloats vs => format_float_years vs
  | InInts vs => Ok (format_int_years vs)
  | InTexts vs => rbind (rmap (fun s => match kind_of s with Some k => Ok k | None => Err EInvalid end) vs) (parse_datetime today)
  | InObjects vs => Ok (map fst vs)
  end.

(** [TimePoints(values).values] (core/time.py 165-181) *)
Definition time_points_of (today : Z * Z) (i : tinput) : res (list Z) := format_datetime today i.
