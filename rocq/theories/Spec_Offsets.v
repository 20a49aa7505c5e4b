(** Specification vocabulary for calendar fields and time ranges (C58, C65): the Gregorian
    calendar described by its rules only, without any of the formulas of the model. *)
From Coq Require Import List ZArith.
From Verif Require Import Base Offsets.
Import ListNotations.
Local Open Scope Z_scope.

Definition leap_year (y : Z) : Prop := y mod 4 = 0 /\ (y mod 100 <> 0 \/ y mod 400 = 0).

(** Month [m] of year [y] has [n] days. *)
Inductive month_has (y : Z) : Z -> Z -> Prop :=
| has_31 m : In m [1; 3; 5; 7; 8; 10; 12] -> month_has y m 31
| has_30 m : In m [4; 6; 9; 11] -> month_has y m 30
| has_29 : leap_year y -> month_has y 2 29
| has_28 : ~ leap_year y -> month_has y 2 28.

(** [D y m d] numbers the days: 1970-01-01 is day 0, every day has the number after the one of the
    previous day, across months and years. *)
Record gregorian (D : Z -> Z -> Z -> Z) : Prop := {
  g_epoch : D 1970 1 1 = 0;
  g_day : forall y m d, D y m (d + 1) = D y m d + 1;
  g_month : forall y m n, month_has y m n -> m < 12 -> D y (m + 1) 1 = D y m n + 1;
  g_year : forall y, D (y + 1) 1 1 = D y 12 31 + 1 }.

(** The time [t] (seconds since the start of 1970) is second [s] of the day [y]-[m]-[d]. *)
Record falls (D : Z -> Z -> Z -> Z) (t y m d s : Z) : Prop := {
  falls_date : exists n, month_has y m n /\ 1 <= d <= n;
  falls_second : 0 <= s < 86400;
  falls_at : t = 86400 * D y m d + s }.

(** The first or last day of a month. *)
Definition anchor_day (opt : dayopt) (y m d : Z) : Prop :=
  match opt with DStart => d = 1 | DEnd => month_has y m d end.

(** [t] is on the offset: any time for multiples of seconds, otherwise a time on a day of the
    week (0 is Monday; 1970-01-01 was a Thursday), the first or last day of a month, of every third
    month or of a month of the year. *)
Definition on (D : Z -> Z -> Z -> Z) (o : offset) (t : Z) : Prop :=
  match o with
  | OTick _ => True
  | _ => exists y m d s, falls D t y m d s /\
    match o with
    | OTick _ => True
    | OWeek _ wd => exists k, D y m d + 3 = 7 * k + wd
    | OMonth _ opt => anchor_day opt y m d
    | OQuarter _ opt q => (exists k, m = q + 3 * k) /\ anchor_day opt y m d
    | OYear _ opt q => m = q /\ anchor_day opt y m d
    end
  end.

(** How many periods one step of the offset takes. *)
Definition stride (o : offset) : Z := match o with OTick n | OWeek n _ | OMonth n _ | OQuarter n _ _ | OYear n _ _ => n end.
Definition is_tick (o : offset) : Prop := match o with OTick _ => True | _ => False end.

(** The same time of the day. *)
Definition same_clock (t u : Z) : Prop := exists k, u = t + 86400 * k.

(** [x] is the last time on the offset up to [t], and [x] the first one from [t] on, with the time
    of the day of [t]. *)
Definition last_up_to D o t x : Prop := x <= t /\ on D o x /\ same_clock t x /\ (forall z, on D o z -> same_clock t z -> z <= t -> z <= x).
Definition first_from D o t x : Prop := t <= x /\ on D o x /\ same_clock t x /\ (forall z, on D o z -> same_clock t z -> t <= z -> x <= z).

(** [y] is the [n]-th time on the offset after [x]. *)
Definition next_anchor D o x y : Prop := x < y /\ on D o y /\ same_clock x y /\ (forall z, on D o z -> same_clock x z -> x < z -> y <= z).
Fixpoint nth_anchor D o (n : nat) (x y : Z) : Prop :=
  match n with O => y = x | S n' => exists z, next_anchor D o x z /\ nth_anchor D o n' z y end.
