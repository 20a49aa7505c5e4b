(** Vocabulary used to state the properties of adapters (C39-C41). *)
From Coq Require Import String List Bool ZArith Reals.
From Verif Require Import Base Spec_Offsets Units TimeModel Core Spec_Core Adapters Dice.
Import ListNotations.
Local Open Scope string_scope.
Local Open Scope list_scope.

(** [a_log] records the calls of the abstract methods, each with whether it returned
    ([true]) or raised. *)
Definition good_init : event * bool := (EvInitializeModel, true).

(** In the log, every event of one of the kinds [ks] comes after a successful initialisation. *)
Definition after_init (ks : list event) (l : list (event * bool)) : Prop :=
  forall l1 e b l2, l = l1 ++ (e, b) :: l2 -> In e ks -> In good_init l1.

(** Calls that do not initialise: the adapter's own [reset], [run], [step] and
    [OpenSCM.step]. *)
Definition bare (c : acall) : bool :=
  match c with AReset | ARun | AStep | SStep => true | _ => false end.

(** Every such call comes after another kind of call that returned. *)
Definition prepared (W : Type) (H : hooks W) w (cs : list acall) : Prop :=
  forall c1 c c2, cs = c1 ++ c :: c2 -> bare c = true ->
  exists d1 d d2, c1 = d1 ++ d :: d2 /\ bare d = false /\
    snd (do_call W H d (do_calls W H (new_adapter W w) d1)) = Ok tt.

(** A sequence of calls of [load_adapter], each with what the import of the module gives
    ([None]: it fails). *)
Fixpoint loads (l : adapters) (h : list (string * option nat)) : adapters :=
  match h with
  | [] => l
  | (n, i) :: h' => loads (fst (load_adapter i n l)) h'
  end.

(** The parameters of DICE, as documented (dice.py 27-88): attribute, name of the parameter, default, unit. *)
Definition one_day : Z := (24 * 60 * 60 * 1000 * 1000 * 1000)%Z.
Inductive table : string -> list string -> default -> option string -> Prop :=
| pool name x : In (name, x) [("mat0", 830.4); ("mateq", 588); ("mat_lower", 10); ("ml0", 10010); ("mleq", 10000); ("ml_lower", 1000);
                              ("mu0", 1527); ("mueq", 1350); ("mu_lower", 100)]%R -> table name ["DICE"; name] (DNum x) (Some "GtC")
| temperature name x : In (name, x) [("tatm0", 0.8); ("tatm_upper", 40); ("tocean0", 0.0068); ("tocean_lower", -1); ("tocean_upper", 20)]%R ->
    table name ["DICE"; name] (DNum x) (Some "delta_degC")
| coefficient name x u : In (name, x, u) [("b12", 0.0181, ""); ("b23", 0.00071, ""); ("c1", 0.0222, "delta_degC*m^2/W");
                                          ("c3", 0.09175, "W/m^2/delta_degC"); ("c4", 0.00487, "");
                                          ("fex0", 0.25, "W/m^2"); ("fex1", 0.7, "W/m^2")]%R ->
    table name ["DICE"; name] (DNum x) (Some u)
| period_length : table "period_length" ["DICE"; "period_length"] (DGen (GDelta (mkDT one_day 365))) None
| original_rounding : table "original_rounding" ["DICE"; "original_rounding"] (DGen (GBool true)) None
| saturation_time D : gregorian D ->
    table "forcoth_saturation_time" ["DICE"; "forcoth_saturation_time"] (DGen (GTime (mkDT one_day (D 2100 1 1)%Z))) None
| forcing_sensitivity : table "fco22x" ["Radiative Forcing Sensitivity"] (DNum 3.8) (Some "W/m^2")
| climate_sensitivity : table "t2xco2" ["Equilibrium Climate Sensitivity"] (DNum 2.9) (Some "delta_degC")
| start_time : table "start_time" ["Start Time"] DNone None
| stop_time : table "stop_time" ["Stop Time"] DNone None.

(** The user has not written the parameter. *)
Definition not_written (env : uenv) (s : state) (full : list string) : Prop :=
  forall q, reports env s (HSeq full) World_ q -> p_written q = false.
