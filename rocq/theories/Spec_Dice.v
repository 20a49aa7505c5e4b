(** Vocabulary used to state the properties of the DICE adapter (C42-C47). *)
From Coq Require Import String List ZArith Reals Bool.
From Flocq Require Import Core.
From Verif Require Import Base Units TimeModel Calendar Core Spec_Core Adapters Dice.
Import ListNotations.
Local Open Scope string_scope.

Section Spec.
Variable env : uenv.

(** What the adapter [a] reads: a scalar parameter, a generic parameter, emissions number [i];
    value number [i] of an output series (["mat"], ["ml"], ...), read through the adapter's view;
    [current_time]. *)
Definition value (a : adapter world) (name : string) : res num := snd (scalar env name (a_world _ a)).
Definition setting (a : adapter world) (name : string) : res gval := snd (generic env name (a_world _ a)).
Definition emission (a : adapter world) (i : nat) : res num :=
  snd (item env In_ "E" (Z.of_nat i) (a_world _ a)).
Definition out (a : adapter world) (name : string) (i : nat) : res num :=
  snd (item env Out_ name (Z.of_nat i) (a_world _ a)).
Definition now (a : adapter world) : Z := w_time (a_world _ a).
(** The number of time points of the output. *)
Definition points (a : adapter world) : option Z := w_count (a_world _ a).

(** An adapter in use: made for two parameter sets that a program has worked with before; then
    any calls of methods of the adapter and of [OpenSCM], returning or raising, and any
    operations on the two parameter sets, in any order. *)
Inductive used : adapter world -> Prop :=
| used_new inp outp junk : reachable env inp -> reachable env outp ->
    used (new_adapter world (new_world inp outp junk))
| used_call c a : used a -> used (fst (do_call world (dice_hooks env) c a))
| used_op sd o a : used a ->
    used (mkAdapter world (fst (op_on env sd o (a_world _ a))) (a_initialized _ a) (a_log _ a)).

(** [reset_stepping()] returned; [run()] returned. *)
Definition resets (a a' : adapter world) : Prop :=
  used a /\ do_call world (dice_hooks env) SResetStepping a = (a', Ok tt).
Definition runs (a a' : adapter world) : Prop :=
  used a /\ do_call world (dice_hooks env) SRun a = (a', Ok tt).

(** [k] calls of [step()], all of which return. *)
Fixpoint steps (k : nat) (a a' : adapter world) : Prop :=
  match k with
  | O => a' = a
  | S k' => exists b, do_call world (dice_hooks env) SStep a = (b, Ok tt) /\ steps k' b a'
  end.

(** [k] more calls of [run()], whether they return or raise. *)
Fixpoint run_times (k : nat) (a a' : adapter world) : Prop :=
  match k with
  | O => a' = a
  | S k' => exists b r, do_call world (dice_hooks env) SRun a = (b, r) /\ run_times k' b a'
  end.

(** Two adapters with the same two parameter sets and the same views of them. They may differ in
    everything else that earlier calls have left: the coefficients, [current_time], the time step,
    the number of time points, and the content of the memory that new arrays get. *)
Definition same_start (a b : adapter world) : Prop :=
  w_in (a_world _ b) = w_in (a_world _ a) /\ w_out (a_world _ b) = w_out (a_world _ a) /\
  w_views (a_world _ b) = w_views (a_world _ a) /\ a_initialized _ b = a_initialized _ a.

(** Value [i] of series [name] is a number at least (at most) the parameter [bound]; nothing is
    said if the bound is NaN. *)
Definition at_least (a : adapter world) (name : string) (i : nat) (bound : string) : Prop :=
  forall b, value a bound = Ok (Some b) -> exists x, out a name i = Ok (Some x) /\ (b <= x)%R.
Definition at_most (a : adapter world) (name : string) (i : nat) (bound : string) : Prop :=
  forall b, value a bound = Ok (Some b) -> exists x, out a name i = Ok (Some x) /\ (x <= b)%R.

(** Emissions number [i] in GtC over one period; 3.666 = mass of CO2 / mass of C, as in the model,
    if emissions are in GtCO2 ([original_rounding]). *)
Definition carbon_emitted (e : R) (period : dt64) (rounding : gval) : R :=
  (e * dt_quot period (mkDT (24 * 60 * 60 * 1000000000) 365) / (if truthy rounding then 3666 / 1000 else 1))%R.

(** Sum of [f 0] ... [f (k-1)]. *)
Fixpoint sum_to (f : nat -> R) (k : nat) : R :=
  match k with O => 0 | S k' => (sum_to f k' + f k')%R end.

(** Forcing of other greenhouse gases at time point [t], as the code computes it: the product with
    the period is a numpy duration, that is a whole number of ticks. *)
Definition other_forcing (start period saturation : dt64) (t : Z) (fex0 fex1 : R) : R :=
  if (dt_ns saturation <=? dt_ns start + t * dt_ns period)%Z then fex1
  else (fex0 + dt_quot (mkDT (dt_unit period) (Ztrunc ((fex1 - fex0) * IZR (dt_ticks period * t))))
                 (dt_sub saturation start))%R.

(** The six output series; the parameters that are numbers. *)
Definition series_names : list string := ["mat"; "ml"; "mu"; "tatm"; "tocean"; "forc"].
Definition scalar_names : list string :=
  ["mat0"; "mateq"; "mat_lower"; "ml0"; "mleq"; "ml_lower"; "mu0"; "mueq"; "mu_lower"; "tatm0"; "tatm_upper";
   "tocean0"; "tocean_lower"; "tocean_upper"; "b12"; "b23"; "c1"; "c3"; "c4"; "fex0"; "fex1"; "fco22x"; "t2xco2"].

(** Units of numpy times below a month: "ns", "us", "ms", "s", "m", "h", "D", "W". *)
Definition numpy_units : list Z :=
  [1; 1000; 1000000; 1000000000; 60000000000; 3600000000000; 86400000000000; 604800000000000]%Z.

(** Two parameter sets with the same regions and parameters, written or empty, with the same
    types, units, time points and data (versions may differ). *)
Definition forget_version (q : param) : param :=
  mkParam (p_name q) (p_parent q) (p_region q) (p_children q) (p_read q) (p_written q)
    (p_type q) (p_unit q) (p_time q) (p_data q) 0.
Definition same_content (s s' : state) : Prop :=
  st_regions s' = st_regions s /\ map forget_version (st_params s') = map forget_version (st_params s).

(** The outputs (the whole parameter set and what the adapter's views show) and [current_time]. *)
Definition same_results (a b : adapter world) : Prop :=
  same_content (w_out (a_world _ a)) (w_out (a_world _ b)) /\ now a = now b /\
  forall name i, In name series_names -> out a name i = out b name i.

End Spec.
