(** C76: DICE in other units.  Definitions: [Spec_DiceUnits.v], [Spec_Relabel.v], [Spec_Dice.v]. *)
From Coq Require Import String List ZArith Reals Lra Lia.
From Verif Require Import Base Units TimeModel Core Spec_Core Adapters Dice Spec_Dice Examples DiceEx DiceRunEx Spec_Relabel
  Spec_DiceUnits DiceUnits.
Import ListNotations.
Local Open Scope string_scope.
Local Open Scope list_scope.

(** C76: two users of the DICE adapter who make the same calls, but in units of their own, get the
    same exceptions from the same calls of the adapter; the adapter computes the same numbers at the
    same times; and what the users read from the parameter sets are the same quantities. *)
Theorem C76_dice_in_other_units env a b :
  good_env env -> adapter_units_plain env -> same_use env a b ->
  (forall c, snd (do_call world (dice_hooks env) c a) = snd (do_call world (dice_hooks env) c b)) /\
  (forall name i, In name series_names -> out env a name i = out env b name i) /\
  (forall name, In name scalar_names -> value env a name = value env b name) /\
  (forall i, emission env a i = emission env b i) /\
  now a = now b /\ points a = points b /\
  (forall sd o o', restated env (params_of sd a) (params_of sd b) o o' ->
     same_answer env (params_of sd a) (params_of sd b) (works_on o)
       (answer env o (params_of sd a)) (answer env o' (params_of sd b))).
Proof. intros G AU. exact (C76_proof env G AU a b). Qed.
Print Assumptions C76_dice_in_other_units.

(** The user of [DiceRunEx.v] (GtC, GtC/a), and one who gives the pools in MtC and the emissions in
    GtCO2/a; both want the carbon in the atmosphere, one in GtC, the other in MtC. *)
Definition in_other_units (e : R) : list op :=
  [ OGeneric (HStr "Start Time") World; OSetGeneric 0 (GTime (mkDT 1000000000 0));
    OGeneric (HStr "Stop Time") World; OSetGeneric 1 (GTime (mkDT 1000000000 (4 * year_s)));
    OScalar (HStr "DICE|mat0") "MtC" World; OSetValue 2 (Some 588000%R);
    OScalar (HStr "DICE|mu0") "MtC" World; OSetValue 3 (Some 1350000%R);
    OScalar (HStr "DICE|ml0") "MtC" World; OSetValue 4 (Some 10000000%R);
    OTimeseries (HStr "Emissions|CO2") "GtCO2/a" (mkTP 1 tp6) World (AEnum AVERAGE_TIMESERIES)
      (AEnum ILINEAR) (AEnum XNONE);
    OSetValues 5 (mkArr false (repeat (Some (e * 44 / 12)%R) 5)) ].
Definition other_user (e : R) : adapter world :=
  new_adapter world (new_world (run dice_env (init_state "World") (in_other_units e)) no_outputs (fun _ => Some 0%R)).
Ltac quantity := intros u u' A B; eval_in A; eval_in B; inversion A; inversion B; subst; simpl;
  first [exact I | do 2 eexists; split; [reflexivity|split; [reflexivity|simpl; lra]]].
Ltac one_call := constructor; first
  [ quantity
  | repeat (constructor; first [quantity | idtac])
  | (split; [reflexivity|split; reflexivity]) ].
Example C76_instance e :
  good_env dice_env /\ adapter_units_plain dice_env /\ same_use dice_env (a_user e) (other_user e) /\
  (exists a', do_call world (dice_hooks dice_env) SRun (a_user e) = (a', Ok tt)) /\
  (exists b', do_call world (dice_hooks dice_env) SRun (other_user e) = (b', Ok tt)).
Proof.
  assert (AU : adapter_units_plain dice_env).
  { intros u a H E. repeat (destruct H as [<-|H]; [vm_compute in E; inversion E; reflexivity|]). destruct H. }
  assert (U : same_use dice_env (a_user e) (other_user e)).
  { unfold a_user, other_user, w_user, no_outputs. rewrite <- inputs_eq. unfold run_inputs.
    apply (su_new dice_env "World" "World" _ _ [] []); [|exact I].
    unfold user_ops, in_other_units, app. cbn [restated_run].
    do 12 (split; [one_call|]). exact I. }
  split; [exact dice_good|]. split; [exact AU|]. split; [exact U|].
  destruct (user_junk e) as (a' & (_ & R) & _). split; [eauto|].
  destruct (C76_dice_in_other_units dice_env _ _ dice_good AU U) as (C & _). specialize (C SRun). rewrite R in C. simpl snd in C at 1.
  destruct (do_call world (dice_hooks dice_env) SRun (other_user e)) as [b' r]. exists b'. now rewrite C.
Qed.
