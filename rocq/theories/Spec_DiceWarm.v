(** Vocabulary of C79 and C80: the temperatures of the DICE model in the long run. *)
From Coq Require Import String List ZArith Reals.
From Verif Require Import Base Dice Spec_Dice.
Import ListNotations.
Local Open Scope string_scope.

(** Warming responds to forcing and relaxes without overshooting; the ocean follows. *)
Record thermal (p : string -> R) : Prop := {
  th_forcing : (0 < p "fco22x")%R;
  th_sensitivity : (0 < p "t2xco2")%R;
  th_c1 : (0 < p "c1")%R;
  th_c3 : (0 <= p "c3")%R;
  th_c4 : (0 < p "c4" <= 1)%R;
  th_relaxes : (p "c1" * (p "fco22x" / p "t2xco2" + p "c3") <= 1)%R }.

(** All three pools begin with [m] times their carbon in equilibrium, which is within the bounds. *)
Record carbon_level (p : string -> R) (m : R) : Prop := {
  cl_level : (0 < m)%R;
  cl_masses : (0 < p "mateq" /\ 0 < p "mueq" /\ 0 < p "mleq")%R;
  cl_mat : p "mat0" = (m * p "mateq")%R;
  cl_mu : p "mu0" = (m * p "mueq")%R;
  cl_ml : p "ml0" = (m * p "mleq")%R;
  cl_bounds : (p "mat_lower" <= p "mat0" /\ p "mu_lower" <= p "mu0" /\ p "ml_lower" <= p "ml0")%R }.

(** The bounds of the temperatures admit [t]. *)
Definition admits (p : string -> R) (t : R) : Prop :=
  (t <= p "tatm_upper" /\ p "tocean_lower" <= t <= p "tocean_upper")%R.

(** The warming that belongs to [m] times the carbon and to [f] of other forcing. *)
Definition warming (p : string -> R) (m f : R) : R := (p "t2xco2" * (ln m / ln 2 + f / p "fco22x"))%R.

(** The same parameters but for the temperatures at the beginning. *)
Definition same_but_heat (p q : string -> R) : Prop :=
  forall name, In name scalar_names -> name <> "tatm0" -> name <> "tocean0" -> p name = q name.
