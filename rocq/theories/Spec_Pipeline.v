(** Vocabulary of C90 and C91: from a data frame through DICE to a data frame. *)
From Coq Require Import String List ZArith Reals.
From Verif Require Import Base Units TimeModel Core CoreNames Spec_Core Adapters Dice Spec_Dice Spec_DiceUnits.
Import ListNotations.
Local Open Scope string_scope.

Section Spec.
Variable env : uenv.

(** An adapter made for the parameter set [s] of inputs; then any calls of methods of the adapter and
    of [OpenSCM], returning or raising, and any operations on the two parameter sets, except that
    nothing is written through a view of the inputs' parameter "Emissions|CO2". *)
Inductive handed (s : state) : adapter world -> Prop :=
| handed_new outp junk : reachable env outp -> handed s (new_adapter world (new_world s outp junk))
| handed_call c a : handed s a -> handed s (fst (do_call world (dice_hooks env) c a))
| handed_op sd o a : handed s a ->
    (sd = In_ -> forall p, param_at (w_in (a_world _ a)) ["World"] ["Emissions"; "CO2"] = Some p ->
                   ~ writes_to (w_in (a_world _ a)) o p) ->
    handed s (user_call env sd o a).

(** The boundaries of [n] periods of [d] seconds from [t0] on. *)
Definition periods (t0 d : Z) (n : nat) : list Z := map (fun i => t0 + Z.of_nat i * d)%Z (seq 0 (S n)).
(** [n] points in time. *)
Definition instants (t0 d : Z) (n : nat) : list Z := map (fun i => t0 + Z.of_nat i * d)%Z (seq 0 n).

(** The adapter works with [n] periods of [d] seconds from [t0] seconds after the epoch on, times that
    floating point numbers hold exactly. *)
Definition works_with (a : adapter world) (t0 d : Z) (n : nat) : Prop :=
  (exists start, setting env a "start_time" = Ok (GTime start) /\ dt_ns start = (t0 * 1000000000)%Z) /\
  (exists period, setting env a "period_length" = Ok (GDelta period) /\ dt_ns period = (d * 1000000000)%Z) /\
  points a = Some (Z.of_nat n) /\ (0 < d)%Z /\ (- 2 ^ 52 < t0)%Z /\ (t0 + Z.of_nat n * d < 2 ^ 52)%Z.

(** The unit in which DICE takes emissions (dice.py 175-180). *)
Definition emissions_unit (rounding : gval) : string := if truthy rounding then "GtCO2/a" else "GtC/a".

(** *** C91 *)
(** The series that DICE writes, by the names of the adapter's views: variable, unit and type of the
    parameter (dice.py 182-225). *)
Definition output_series (name variable u type : string) : Prop :=
  In (name, variable, u, type)
    [("mat", "Pool|CO2|Atmosphere", "GtC", "point"); ("ml", "Pool|CO2|Ocean|lower", "GtC", "point");
     ("mu", "Pool|CO2|Ocean|shallow", "GtC", "point"); ("tatm", "Surface Temperature|Increase", "delta_degC", "point");
     ("tocean", "Ocean Temperature|Increase", "delta_degC", "point"); ("forc", "Radiative Forcing|CO2", "W/m^2", "average")].

(** The equations of DICE-2013R with parameters [p], from one period with values [x] to the next with values
    [y], given the carbon emitted and the other forcing. *)
Record dice_step (p x y : string -> R) (emitted other : R) : Prop := {
  ds_mat : y "mat" = Rmax (p "mat_lower") (x "mat" * (1 - p "b12") + x "mu" * (p "b12" * p "mateq" / p "mueq") + emitted)%R;
  ds_ml : y "ml" = Rmax (p "ml_lower") (x "ml" * (1 - p "b23" * p "mueq" / p "mleq") + x "mu" * p "b23")%R;
  ds_mu : y "mu" = Rmax (p "mu_lower") (x "mat" * p "b12" + x "mu" * (1 - p "b12" * p "mateq" / p "mueq" - p "b23")
    + x "ml" * (p "b23" * p "mueq" / p "mleq"))%R;
  ds_forc : y "forc" = (p "fco22x" * (ln (y "mat" / p "mateq") / ln 2) + other)%R;
  ds_tatm : y "tatm" = Rmin (p "tatm_upper") (x "tatm" + p "c1" *
    (y "forc" - p "fco22x" / p "t2xco2" * x "tatm" - p "c3" * (x "tatm" - x "tocean")))%R;
  ds_tocean : y "tocean" = Rmax (p "tocean_lower") (Rmin (p "tocean_upper") (x "tocean" + p "c4" * (x "tatm" - x "tocean")))%R }.
(** Its initial values. *)
Record dice_start (p x : string -> R) : Prop := {
  dt_pools : x "mat" = p "mat0" /\ x "ml" = p "ml0" /\ x "mu" = p "mu0";
  dt_temperatures : x "tatm" = p "tatm0" /\ x "tocean" = p "tocean0";
  dt_forc : x "forc" = (p "fco22x" * (ln (p "mat0" / p "mateq") / ln 2) + p "fex0")%R }.
End Spec.
