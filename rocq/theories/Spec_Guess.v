(** Specification of the guesses of parameter types (C62). *)
From Coq Require Import String Ascii List ZArith Bool.
From Verif Require Import Base Units Spec_Filters.
Import ListNotations.
Local Open Scope string_scope.
Local Open Scope list_scope.

(** Names of averages: they start with one of three texts or contain one of seven texts. *)
Definition average_name (v : string) : Prop :=
  String.prefix "Emissions" v = true \/ String.prefix "Radiative Forcing" v = true \/
  String.prefix "HEATUPTAKE_EBALANCE_TOTAL" v = true \/
  exists w, In w ["_EMIS"; "_GWPEMIS"; "Flux"; "_RF"; "_PEFFRF"; "_EFFRF"; "_SRF"] /\ contains v w.

(** Unit strings that are plain numbers. *)
Definition number (u : string) : Prop :=
  u <> "" /\ forall c, occurs c u -> In c (list_ascii_of_string "0123456789").

(** No unit given, or one the registry does not know. *)
Definition no_unit (env : uenv) (u : option string) : Prop :=
  u = None \/ u = Some "" \/ exists w, u = Some w /\ ~ number w /\ env w = None.

(** Time is one of the dimensions of the unit. *)
Definition involves_time (d : udef) : Prop := exists k, In ("time", k) (u_dim d).
