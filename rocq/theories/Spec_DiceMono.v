(** Vocabulary of C77 and C78: two runs of the DICE model. *)
From Coq Require Import String List ZArith Reals.
From Verif Require Import Base Units TimeModel Core Spec_Core Adapters Dice Spec_Dice.
Import ListNotations.
Local Open Scope string_scope.

Section Spec.
Variable env : uenv.

(** What a run reads: the numbers [p], emissions [e 0], [e 1], ..., the period, whether emissions
    are in GtCO2, and the times that other forcing depends on. *)
Record reads (a : adapter world) (p : string -> R) (e : nat -> R) (k : nat) (period : dt64) (rounding : gval)
    (start saturation : dt64) : Prop := {
  rd_numbers : forall name, In name scalar_names -> value env a name = Ok (Some (p name));
  rd_emissions : forall i, (i < k)%nat -> emission env a i = Ok (Some (e i));
  rd_period : setting env a "period_length" = Ok (GDelta period);
  rd_rounding : setting env a "original_rounding" = Ok rounding;
  rd_start : setting env a "start_time" = Ok (GTime start);
  rd_saturation : setting env a "forcoth_saturation_time" = Ok (GTime saturation) }.

(** Parameters in the range in which the model is meant: the exchange coefficients between the
    pools and between air and sea are not negative and no pool gives away more than it has; the
    masses are positive; warming responds to forcing and relaxes without overshooting. *)
Record physical (p : string -> R) : Prop := {
  ph_b12 : (0 <= p "b12" <= 1)%R;
  ph_b23 : (0 <= p "b23")%R;
  ph_masses : (0 < p "mateq" /\ 0 < p "mueq" /\ 0 < p "mleq" /\ 0 < p "mat0" /\ 0 < p "mat_lower")%R;
  ph_upper : (p "b12" * p "mateq" / p "mueq" + p "b23" <= 1)%R;
  ph_lower : (p "b23" * p "mueq" / p "mleq" <= 1)%R;
  ph_forcing : (0 <= p "fco22x")%R;
  ph_c1 : (0 <= p "c1")%R;
  ph_c3 : (0 <= p "c3")%R;
  ph_c4 : (0 <= p "c4" <= 1)%R;
  ph_relaxes : (p "c1" * (p "fco22x" / p "t2xco2" + p "c3") <= 1)%R }.

(** The same parameters, but with at least as much carbon and heat at the beginning. *)
Definition initial_names : list string := ["mat0"; "ml0"; "mu0"; "tatm0"; "tocean0"].
Definition no_less (p q : string -> R) : Prop :=
  forall name, In name scalar_names ->
    (p name <= q name)%R /\ (~ In name initial_names -> p name = q name).
End Spec.
