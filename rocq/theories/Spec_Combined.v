(** Specification vocabulary for rules that combine ticks (C101), such as "1D12H": a number and a unit
    of time, written one after the other, any number of times.  Nothing of the parser is used. *)
From Coq Require Import String Ascii List ZArith.
Import ListNotations.
Local Open Scope Z_scope.

(** The text and the value of a number given by its decimal digits. *)
Definition numeral (ds : list nat) : string := string_of_list_ascii (map (fun d => ascii_of_nat (48 + d)) ds).
Definition number (ds : list nat) : Z := fold_left (fun z d => 10 * z + Z.of_nat d) ds 0.
Definition decimal (ds : list nat) : Prop := ds <> [] /\ Forall (fun d => d < 10)%nat ds.

(** The units of time and their seconds. *)
Inductive unit_of : string -> Z -> Prop :=
| u_second : unit_of "S" 1
| u_minute : unit_of "T" 60
| u_min : unit_of "min" 60
| u_Min : unit_of "Min" 60
| u_hour : unit_of "H" 3600
| u_day : unit_of "D" 86400.

(** The text [s] says [z] seconds: the sum of its parts. *)
Inductive says : string -> Z -> Prop :=
| says_one ds name len : decimal ds -> unit_of name len -> says (numeral ds ++ name)%string (number ds * len)
| says_more ds name len s z : decimal ds -> unit_of name len -> says s z ->
  says (numeral ds ++ name ++ s)%string (number ds * len + z).

(** The same, where the first number may be missing: it is 1 then. *)
Inductive says_bare : string -> Z -> Prop :=
| bare_full s z : says s z -> says_bare s z
| bare_one name len : unit_of name len -> says_bare name len
| bare_more name len s z : unit_of name len -> says s z -> says_bare (name ++ s)%string (len + z).

(** The same with an optional sign, which counts for all parts. *)
Inductive says_signed : string -> Z -> Prop :=
| signed_none s z : says_bare s z -> says_signed s z
| signed_plus s z : says_bare s z -> says_signed (String "+" s) z
| signed_minus s z : says_bare s z -> says_signed (String "-" s) (- z).
