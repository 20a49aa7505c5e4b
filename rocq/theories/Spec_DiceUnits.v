(** Vocabulary of C76: two users of the DICE adapter who work in different units. *)
From Coq Require Import String List ZArith Reals.
From Verif Require Import Base Units TimeModel Core Spec_Core Adapters Dice Spec_Relabel.
Import ListNotations.
Local Open Scope string_scope.

Section Spec.
Variable env : uenv.

(** The units in which the adapter works (dice.py 26-84, 175-225); none of them has an offset. *)
Definition adapter_units : list string :=
  ["GtC"; "GtC/a"; "GtCO2/a"; "delta_degC"; "W/m^2"; ""; "delta_degC*m^2/W"; "W/m^2/delta_degC"].
Definition adapter_units_plain : Prop :=
  forall u a, In u adapter_units -> env u = Some a -> u_offset a = 0%R.

(** The parameter set of inputs, the one of outputs. *)
Definition params_of (sd : side) (a : adapter world) : state :=
  match sd with In_ => w_in (a_world _ a) | Out_ => w_out (a_world _ a) end.
(** The user makes a call on one of the parameter sets. *)
Definition user_call (sd : side) (o : op) (a : adapter world) : adapter world :=
  mkAdapter world (fst (op_on env sd o (a_world _ a))) (a_initialized _ a) (a_log _ a).

(** Two users do the same in different units: before they make the adapter, and afterwards, they
    make the same calls of the parameter sets up to units; they make the same calls of the adapter
    and of [OpenSCM], returning or raising, at the same moments. *)
Inductive same_use : adapter world -> adapter world -> Prop :=
| su_new root root2 h h' k k' junk :
    restated_run env (init_state root) (init_state root) h h' ->
    restated_run env (init_state root2) (init_state root2) k k' ->
    same_use (new_adapter world (new_world (run env (init_state root) h) (run env (init_state root2) k) junk))
             (new_adapter world (new_world (run env (init_state root) h') (run env (init_state root2) k') junk))
| su_call c a b : same_use a b ->
    same_use (fst (do_call world (dice_hooks env) c a)) (fst (do_call world (dice_hooks env) c b))
| su_op sd o o' a b : same_use a b -> restated env (params_of sd a) (params_of sd b) o o' ->
    same_use (user_call sd o a) (user_call sd o' b).
End Spec.
