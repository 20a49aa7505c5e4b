(** A concrete unit registry and concrete parameter sets for the DICE adapter. *)
From Coq Require Import String List ZArith Reals Bool Lra.
From Verif Require Import Base Units TimeModel Calendar Core Spec_Core Adapters Dice.
Import ListNotations.
Local Open Scope string_scope.
Local Open Scope list_scope.

Definition carbon : dim := [("carbon", 1%Z)].
Definition warming : dim := [("temperature", 1%Z)].
Definition dice_units : list (string * udef) :=
  [ ("GtC", mkUdef carbon 1 0); ("MtC", mkUdef carbon (1 / 1000) 0);
    ("delta_degC", mkUdef warming 1 0); ("", mkUdef [] 1 0);
    ("delta_degC*m^2/W", mkUdef [("temperature", 1%Z); ("flux", (-1)%Z)] 1 0);
    ("W/m^2/delta_degC", mkUdef [("temperature", (-1)%Z); ("flux", 1%Z)] 1 0);
    ("W/m^2", mkUdef [("flux", 1%Z)] 1 0);
    ("GtC/a", mkUdef [("carbon", 1%Z); ("time", (-1)%Z)] 1 0);
    ("GtCO2/a", mkUdef [("carbon", 1%Z); ("time", (-1)%Z)] (12 / 44) 0) ]%R.
Definition dice_env : uenv := fun u => alookup u dice_units.

Lemma dice_good : good_env dice_env.
Proof.
  intros u a. unfold dice_env, dice_units. simpl.
  repeat match goal with
    |- context [if ?b then _ else _] => destruct b; [intros H; inversion H; subst; simpl; clear H; lra|]
  end. discriminate.
Qed.

Definition World : hname := HStr "World".
(** The user has written the initial carbon in MtC and requested, but not written, [mateq] in MtC. *)
Definition some_inputs : state :=
  run dice_env (init_state "World")
    [ OScalar (HStr "DICE|mat0") "MtC" World; OSetValue 0 (Some 900000%R);
      OScalar (HStr "DICE|mateq") "MtC" World ].
Lemma some_reachable : reachable dice_env some_inputs.
Proof. eexists _, _. reflexivity. Qed.
Definition no_outputs : state := init_state "World".
Definition ex_world : world := new_world some_inputs no_outputs (fun _ => None).

(** Parameter sets in which [DICE|mat0] has another type. *)
Definition bad_inputs : state :=
  run dice_env (init_state "World") [OGeneric (HStr "DICE|mat0") World].
Definition bad_world : world := new_world bad_inputs no_outputs (fun _ => None).

Ltac eval_dice := lazy -[Rplus Rmult Rminus Rdiv Rinv Ropp IZR pint_to uconvert_from uconvert_to].
