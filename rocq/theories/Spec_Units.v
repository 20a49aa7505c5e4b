(** Vocabulary used to state the properties of units. *)
From Coq Require Import String List ZArith QArith Qreals Reals.
From Verif Require Import Base Units Gases.
Import ListNotations.
Local Open Scope string_scope.
Local Open Scope list_scope.

Section Env.
Variable env : uenv.

(** Both units are known and measure the same, or different, dimensions. *)
Definition commensurable (u w : string) : Prop :=
  exists a b, env u = Some a /\ env w = Some b /\ u_dim a = u_dim b.
Definition incommensurable (u w : string) : Prop :=
  exists a b, env u = Some a /\ env w = Some b /\ u_dim a <> u_dim b.
Definition unknown (u : string) : Prop := env u = None.

(** The string [u] is understood as a unit of dimensionality [d] that is [k] times the
    product of the base units. *)
Definition unit_is (u : string) (d : dim) (k : Q) : Prop :=
  exists a, env u = Some a /\ u_dim a = d /\ u_scale a = Q2R k /\ u_offset a = 0%R.

End Env.

(** [mass_ratio gases s b k]: by the table, one unit of the gas [s] is [k] units of the
    base gas [b]. *)
Inductive mass_ratio (gases : list (string * gas)) : string -> string -> Q -> Prop :=
| ratio_base s b : In (s, GBase b) gases -> mass_ratio gases s b 1
| ratio_derived s k r al b q :
    In (s, GDerived k r al) gases -> mass_ratio gases r b q -> mass_ratio gases s b (k * q).

(** The names the table advertises for one gas: the symbol, its other names, and the
    symbol in upper case. *)
Definition gas_names (entry : string * gas) : list string :=
  fst entry :: upper (fst entry) ::
  match snd entry with GBase v => [v] | GDerived _ _ al => al end.
(** The names that can be joined with a mass unit. *)
Definition joinable (entry : string * gas) : list string := [fst entry; upper (fst entry)].

(** Mass times gas, with the dimension names in alphabetical order. *)
Definition mass_of (b : string) : dim :=
  if String.ltb b "mass" then [(b, 1%Z); ("mass", 1%Z)] else [("mass", 1%Z); (b, 1%Z)].

(** The gases that depend on the undefined unit "sulfur". *)
Definition sulfurous (s : string) : Prop := s = "S" \/ s = "SO2" \/ s = "SOx".

(** What is multiplied with a gas in an emission unit: nothing, a mass, a mass per time
    or one over time. *)
Definition emission_form (d : dim) : Prop :=
  d = [] \/ d = [("mass", 1%Z)] \/ d = [("mass", 1%Z); ("time", (-1)%Z)] \/ d = [("time", (-1)%Z)].

(** [unit_for reg u gas d k]: the string [u] is a product of the unit [gas] and of other
    units, which make up [k] units of dimensionality [d]; e.g. "kg CO2 / yr". *)
Definition unit_for (reg : registry) (u gas : string) (d : dim) (k : Q) : Prop :=
  exists pre post, parse_unit u = Some (pre ++ (gas, 1%Z) :: post) /\
    resolve reg (pre ++ post) = Some (k, d).

(** The metric table has the value [v] for [species] in the column of [metric]. *)
Definition tabulated (metric species : string) (v : option Q) : Prop :=
  exists i row, nth_error metric_names i = Some metric /\ In (species, row) metric_rows /\ nth_error row i = Some v.

(** [means reg n q d]: in the registry, following definitions, the unit [n] is [q] times
    the base units of dimensionality [d]. *)
Definition means (reg : registry) (n : string) (q : Q) (d : dim) : Prop :=
  exists fuel q', resolve_name reg fuel n = Some (q', d) /\ (q' == q)%Q.

(** The names that are defined for one table entry. *)
Definition defined_names (entry : string * gas) : list string :=
  let (s, g) := entry in
  (s :: match g with GBase v => if String.eqb v s then [] else [v] | GDerived _ _ al => al end) ++
  ("g" ++ s)%string :: ("t" ++ s)%string ::
  (if String.eqb (upper s) s then [] else [upper s; ("g" ++ upper s)%string; ("t" ++ upper s)%string]).
