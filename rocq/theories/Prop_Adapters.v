(** C39-C41: life cycle of adapters, loading of adapters, defaults of the DICE adapter.
    Vocabulary: [Spec_Core.v] and [Spec_Adapters.v]. *)
From Coq Require Import String List ZArith Reals Bool.
From Verif Require Import Base Units TimeModel Core Spec_Core Adapters Dice Spec_Adapters AdapterProps
  DiceInit DiceEx.
Import ListNotations.
Local Open Scope string_scope.
Local Open Scope list_scope.

(** ** C39 *)

(** C39 does not hold: [step] before anything else calls the method of the model although it was
    never initialised ... *)
Theorem C39_before_use_refuted : exists env w,
  reachable env (w_in w) /\
  a_log world (do_calls world (dice_hooks env) (new_adapter world w) [SStep]) = [(EvStep, false)].
Proof.
  exists dice_env, ex_world. split; [exact some_reachable|]. eval_dice. reflexivity.
Qed.
Print Assumptions C39_before_use_refuted.

(** ... and an initialisation that raised is repeated by the next call. *)
Theorem C39_once_refuted : exists env w,
  reachable env (w_in w) /\
  a_log world (do_calls world (dice_hooks env) (new_adapter world w) [SRun; SRun]) =
    [(EvInitializeModel, false); (EvInitializeModel, false)].
Proof.
  exists dice_env, bad_world. split; [eexists _, _; reflexivity|]. eval_dice. reflexivity.
Qed.
Print Assumptions C39_once_refuted.

(** C39, what holds, for every model (every implementation [H] of the abstract methods) and every
    sequence of calls: after an initialisation that returned there is no other one, and input and
    run parameter initialisation come after it. *)
Theorem C39_once_partial W (H : hooks W) w cs :
  let log := a_log W (do_calls W H (new_adapter W w) cs) in
  (forall l1 l2 b, log = l1 ++ good_init :: l2 -> ~ In (EvInitializeModel, b) l2) /\
  after_init [EvModelInput; EvRunParameters] log.
Proof.
  split.
  - intros l1 l2 b. exact (C39_once_proof W H w cs l1 l2 b).
  - exact (C39_parameters_proof W H w cs).
Qed.
Print Assumptions C39_once_partial.

(** If moreover [reset], [run] and [step] of the adapter and [OpenSCM.step] are only called after
    some other call that returned, then all uses of the model come after its initialisation. *)
Theorem C39_before_use_partial W (H : hooks W) w cs : prepared W H w cs ->
  after_init [EvModelInput; EvRunParameters; EvReset; EvRun; EvStep]
    (a_log W (do_calls W H (new_adapter W w) cs)).
Proof. exact (C39_all_proof W H w cs). Qed.
Print Assumptions C39_before_use_partial.

(** A model whose methods all return; a sequence of calls with two runs and a step. *)
Definition nop_hooks : hooks nat :=
  let f := fun n : nat => (S n, Ok tt) in mkHooks nat f f f f f f f.
Example C39_case : prepared nat nop_hooks 0 [SRun; SRun; SStep] /\
  a_log nat (do_calls nat nop_hooks (new_adapter nat 0) [SRun; SRun; SStep]) =
    map (fun e => (e, true))
      [EvInitializeModel; EvModelInput; EvRunParameters; EvReset; EvRun;
       EvModelInput; EvRunParameters; EvReset; EvRun; EvStep].
Proof.
  split; [|reflexivity].
  intros [|x1 [|x2 [|x3 [|x4 c1]]]] c c2 E B; inversion E; subst; try discriminate B.
  exists [], SRun, [SRun]. repeat split.
Qed.

(** ** C40 *)

(** Once [load_adapter(n)] has returned class [c] it returns [c] on every later call, whatever is
    loaded in between and whatever the import would give. *)
Theorem C40_stable l n i c h j : snd (load_adapter i n l) = Ok c ->
  snd (load_adapter j n (loads (fst (load_adapter i n l)) h)) = Ok c.
Proof. exact (C40_stable_proof l n i c h j). Qed.
Print Assumptions C40_stable.

(** Unknown names raise KeyError, after every sequence of loads. *)
Theorem C40_unknown h n i : n <> "DICE" -> snd (load_adapter i n (loads [] h)) = Err EKeyError.
Proof. exact (C40_unknown_proof h n i). Qed.
Print Assumptions C40_unknown.

(** A failing load leaves no trace; the same load succeeds as soon as the import does. *)
Theorem C40_failed l n i e c : snd (load_adapter i n l) = Err e ->
  fst (load_adapter i n l) = l /\
  (n = "DICE" -> snd (load_adapter (Some c) n (fst (load_adapter i n l))) = Ok c).
Proof. exact (C40_failed_proof l n i e c). Qed.
Print Assumptions C40_failed.

Example C40_case : snd (load_adapter None "DICE" []) = Err EAdapterNeedsModule /\
  snd (load_adapter (Some 7) "DICE" []) = Ok 7 /\
  snd (load_adapter (Some 8) "DICE" (loads [] [("DICE", Some 7); ("X", Some 3)])) = Ok 7.
Proof. repeat split. Qed.

(** ** C41 *)

(** Whatever the user has written (any parameter of the set, in any region), model initialisation,
    also one that raises, leaves the parameter object as it is: data, unit, version and all. *)
Theorem C41_user env w w' r n reg q : reachable env (w_in w) -> initialize_model env w = (w', r) ->
  reports env (w_in w) n reg q -> p_written q = true -> reports env (w_in w') n reg q.
Proof. exact (C41_user_proof env w w' r n reg q). Qed.
Print Assumptions C41_user.

(** A numeric parameter of the tables that the user has not written holds the default (in the unit
    the user may have given it), and the model reads the default. *)
Theorem C41_numeric_default env w w' name full x u : good_env env -> reachable env (w_in w) ->
  initialize_model env w = (w', Ok tt) -> table name full (DNum x) (Some u) ->
  not_written env (w_in w) full ->
  (exists q u' y, reports env (w_in w') (HSeq full) World_ q /\ p_written q = true /\
     p_unit q = Some u' /\ p_data q = Some (PScalar (Some y)) /\ same_quantity env u x u' y) /\
  snd (scalar env name w') = Ok (Some x).
Proof. exact (C41_scalar_proof env w w' name full x u). Qed.
Print Assumptions C41_numeric_default.

(** The same for generic parameters. *)
Theorem C41_generic_default env w w' name full g : reachable env (w_in w) ->
  initialize_model env w = (w', Ok tt) -> table name full (DGen g) None ->
  not_written env (w_in w) full ->
  (exists q, reports env (w_in w') (HSeq full) World_ q /\ p_written q = true /\ p_data q = Some (PGen g)) /\
  snd (generic env name w') = Ok g.
Proof. exact (C41_generic_proof env w w' name full g). Qed.
Print Assumptions C41_generic_default.

(** A parameter without default stays empty unless the user writes it. *)
Theorem C41_no_default env w w' name full u : reachable env (w_in w) ->
  initialize_model env w = (w', Ok tt) -> table name full DNone u -> not_written env (w_in w) full ->
  exists q, reports env (w_in w') (HSeq full) World_ q /\ p_written q = false.
Proof. exact (C41_none_proof env w w' name full u). Qed.
Print Assumptions C41_no_default.

(** The user has written [mat0]; the initialisation succeeds. *)
Example C41_case :
  reachable dice_env (w_in ex_world) /\ good_env dice_env /\
  snd (initialize_model dice_env ex_world) = Ok tt /\
  (exists q, reports dice_env (w_in ex_world) (HStr "DICE|mat0") World q /\ p_written q = true) /\
  table "mateq" ["DICE"; "mateq"] (DNum 588) (Some "GtC") /\
  not_written dice_env (w_in ex_world) ["DICE"; "mateq"] /\
  table "start_time" ["Start Time"] DNone None /\
  not_written dice_env (w_in ex_world) ["Start Time"].
Proof.
  split; [exact some_reachable|]. split; [exact dice_good|].
  split; [eval_dice; reflexivity|].
  split. { eexists. split; [eexists; split; [eval_dice; reflexivity|eval_dice; reflexivity]|reflexivity]. }
  split; [apply pool; simpl; tauto|].
  split. { intros q (p & A & Q). assert (E : p = 2) by (revert A; eval_dice; congruence). subst p.
           revert Q. eval_dice. intros Q. inversion Q. reflexivity. }
  split; [exact start_time|].
  intros q (p & A & Q). revert A. eval_dice. discriminate.
Qed.
