(** Specification vocabulary for rules of the calendar (C104), such as "2Q-NOV": an optional sign, an
    optional number, the name of an offset and for some an anchor.  Nothing of the parser is used. *)
From Coq Require Import String Ascii List ZArith.
From Verif Require Import Offsets Spec_Combined.
Import ListNotations.
Local Open Scope string_scope.
Local Open Scope Z_scope.

(** How often: a number with or without sign; 1 if it is missing. *)
Inductive counts : string -> Z -> Prop :=
| count_none : counts "" 1
| count_number ds : decimal ds -> counts (numeral ds) (number ds).
Inductive counts_signed : string -> Z -> Prop :=
| count_plain s n : counts s n -> counts_signed s n
| count_plus s n : counts s n -> counts_signed (String "+" s) n
| count_minus s n : counts s n -> counts_signed (String "-" s) (- n).

Definition weekdays : list (string * Z) :=
  [("MON", 0); ("TUE", 1); ("WED", 2); ("THU", 3); ("FRI", 4); ("SAT", 5); ("SUN", 6)].
Definition months : list (string * Z) :=
  [("JAN", 1); ("FEB", 2); ("MAR", 3); ("APR", 4); ("MAY", 5); ("JUN", 6); ("JUL", 7); ("AUG", 8);
   ("SEP", 9); ("OCT", 10); ("NOV", 11); ("DEC", 12)].

(** The names and what [n] of them mean: weeks end on Sunday; ends of quarters and years are counted
    from December, their starts from January, unless another day or month is given. *)
Inductive calendar (n : Z) : string -> offset -> Prop :=
| cal_week : calendar n "W" (OWeek n 6)
| cal_weekday w d : In (w, d) weekdays -> calendar n ("W-" ++ w) (OWeek n d)
| cal_month_end : calendar n "M" (OMonth n DEnd)
| cal_month_start : calendar n "MS" (OMonth n DStart)
| cal_quarter_end : calendar n "Q" (OQuarter n DEnd 12)
| cal_quarter_end_in w m : In (w, m) months -> calendar n ("Q-" ++ w) (OQuarter n DEnd m)
| cal_quarter_start : calendar n "QS" (OQuarter n DStart 1)
| cal_quarter_start_in w m : In (w, m) months -> calendar n ("QS-" ++ w) (OQuarter n DStart m)
| cal_year_end y : In y ["A"; "Y"] -> calendar n y (OYear n DEnd 12)
| cal_year_end_in y w m : In y ["A-"; "Y-"] -> In (w, m) months -> calendar n (y ++ w) (OYear n DEnd m)
| cal_year_start y : In y ["AS"; "YS"] -> calendar n y (OYear n DStart 1)
| cal_year_start_in y w m : In y ["AS-"; "YS-"] -> In (w, m) months -> calendar n (y ++ w) (OYear n DStart m).
