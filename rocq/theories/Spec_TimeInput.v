(** Specification vocabulary for the ways of writing time points (C71). *)
From Coq Require Import String Ascii List ZArith Reals.
From Verif Require Import Base TimeInput Spec_Offsets.
Import ListNotations.
Local Open Scope string_scope.
Local Open Scope Z_scope.

(** Decimal numbers *)
Inductive digit_char : ascii -> Z -> Prop :=
| d0 : digit_char "0" 0 | d1 : digit_char "1" 1 | d2 : digit_char "2" 2 | d3 : digit_char "3" 3 | d4 : digit_char "4" 4
| d5 : digit_char "5" 5 | d6 : digit_char "6" 6 | d7 : digit_char "7" 7 | d8 : digit_char "8" 8 | d9 : digit_char "9" 9.
Inductive decimal : string -> Z -> Prop :=
| one_digit c d : digit_char c d -> decimal (String c "") d
| more_digits s n c d : decimal s n -> digit_char c d -> decimal (s ++ String c "") (10 * n + d).
Definition places (n : nat) (s : string) (v : Z) : Prop := decimal s v /\ String.length s = n.

(** An array that says the years [ys] *)
Definition says_years (ys : list Z) (i : tinput) : Prop :=
  match i with
  | InInts vs => vs = ys
  | InFloats vs => vs = map IZR ys
  | InTexts ss => Forall2 decimal ss ys
  | InDates UYear vs => vs = map (fun y => y - 1970) ys
  | _ => False
  end.

(** Second [s] of a day of the calendar *)
Definition stamp := (Z * Z * Z * Z)%type.
Definition exists_in_calendar (x : stamp) : Prop :=
  let '(y, m, d, s) := x in 1 <= y <= 9999 /\ (exists n, month_has y m n /\ 1 <= d <= n) /\ 0 <= s < 86400.
Definition seconds (D : Z -> Z -> Z -> Z) (x : stamp) : Z := let '(y, m, d, s) := x in 86400 * D y m d + s.

(** Texts YYYY-MM-DD, YYYY-MM-DD HH:MM:SS and YYYY-MM-DDTHH:MM:SS *)
Definition date_text (t : string) (x : stamp) : Prop :=
  let '(y, m, d, s) := x in exists a b c, places 4 a y /\ places 2 b m /\ places 2 c d /\
    ((t = a ++ "-" ++ b ++ "-" ++ c /\ s = 0) \/
     exists sep e f g h min sec, (sep = " " \/ sep = "T") /\ places 2 e h /\ places 2 f min /\ places 2 g sec /\
       h < 24 /\ min < 60 /\ sec < 60 /\ s = 3600 * h + 60 * min + sec /\
       t = a ++ "-" ++ b ++ "-" ++ c ++ sep ++ e ++ ":" ++ f ++ ":" ++ g).
(** Numbers of a [datetime64] array: units since 1970; parts of seconds are cut off. *)
Definition unit_value (D : Z -> Z -> Z -> Z) (u : tunit) (v : Z) (x : stamp) : Prop :=
  let '(y, m, d, s) := x in
  let t := 86400 * D y m d + s in
  match u with
  | UYear => v = y - 1970 /\ m = 1 /\ d = 1 /\ s = 0
  | UMonth => v = 12 * (y - 1970) + (m - 1) /\ d = 1 /\ s = 0
  | UDay => v = D y m d /\ s = 0
  | UHour => 3600 * v = t
  | UMinute => 60 * v = t
  | USecond => v = t
  | UMilli => 1000 * t <= v < 1000 * (t + 1)
  | UMicro => 1000000 * t <= v < 1000000 * (t + 1)
  | UNano => 1000000000 * t <= v < 1000000000 * (t + 1)
  end.
(** An array that says the stamps [xs] *)
Definition says (D : Z -> Z -> Z -> Z) (xs : list stamp) (i : tinput) : Prop :=
  match i with
  | InDates u vs => Forall2 (unit_value D u) vs xs
  | InObjects vs => Forall2 (fun v x => fst v = seconds D x) vs xs
  | InTexts ss => xs <> [] /\ Forall2 date_text ss xs
  | _ => False
  end.

(** Entries of an array of texts: years of four digits and dates *)
Inductive entry := EYear (s : string) (y : Z) | EDate (s : string) (x : stamp).
Definition entry_text (e : entry) : string := match e with EYear s _ => s | EDate s _ => s end.
Definition entry_ok (e : entry) : Prop :=
  match e with
  | EYear s y => decimal s y /\ 1000 <= y <= 9999
  | EDate s x => date_text s x /\ exists_in_calendar x
  end.
