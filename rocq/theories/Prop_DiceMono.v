(** C77, C78: two runs of the DICE model.  Vocabulary: [Spec_Dice.v], [Spec_DiceMono.v]. *)
From Coq Require Import String List ZArith Reals Lra Lia.
From Verif Require Import Base Units TimeModel Calendar Core Spec_Core Adapters Dice Spec_Dice Spec_DiceMono
  DiceMono DiceEx DiceWarmEx.
Import ListNotations.
Local Open Scope string_scope.

(** ** C77 *)

(** Of two runs with parameters in the physical range, the one that emits at least as much in every
    period and begins with at least as much carbon and heat has at least as much of everything at
    all times. *)
Theorem C77_more_emissions env a a1 ak b b1 bk k p q e f period rounding start saturation :
  resets env a a1 -> steps env k a1 ak -> resets env b b1 -> steps env k b1 bk ->
  reads env ak p e k period rounding start saturation -> reads env bk q f k period rounding start saturation ->
  physical p -> (0 < dt_unit period)%Z -> (0 <= dt_ticks period)%Z -> no_less p q ->
  (forall i, (i < k)%nat -> (e i <= f i)%R) ->
  forall name i, In name series_names -> (i <= k)%nat ->
  exists x y, out env ak name i = Ok (Some x) /\ out env bk name i = Ok (Some y) /\ (x <= y)%R.
Proof. exact (C77_proof env a a1 ak b b1 bk k p q e f period rounding start saturation). Qed.
Print Assumptions C77_more_emissions.

(** The user sets carbon to [m] times its equilibrium, other forcing [f], the temperatures and
    emissions, the remaining parameters are the defaults of the adapter ([DiceWarmEx.v]): four steps
    of two such users, the second with more of everything. *)
Example C77_instance e e' m m' f ta ta' to to' : (0 < m <= m')%R -> (ta <= ta')%R -> (to <= to')%R ->
  (forall i, (e i <= e' i)%R) ->
  (exists ak, a_case e m f ta to 4 ak) /\ (exists bk, a_case e' m' f ta' to' 4 bk) /\
  physical (pw m f ta to) /\ no_less (pw m f ta to) (pw m' f ta' to') /\
  (forall i, (e i * 44 / 12 <= e' i * 44 / 12)%R) /\ (0 < dt_unit YEAR)%Z /\ (0 <= dt_ticks YEAR)%Z.
Proof.
  intros M A O E. split; [apply warm_case; [lra|lia]|]. split; [apply warm_case; [lra|lia]|].
  split. { constructor; unfold pw; cbn [alookup String.eqb Ascii.eqb Bool.eqb]; repeat split; lra. }
  split.
  { intros name N. unfold scalar_names in N. cbn [In] in N. unfold pw.
    repeat (destruct N as [<-|N]; [cbn [alookup String.eqb Ascii.eqb Bool.eqb]; split;
      [lra|first [reflexivity | intros K; exfalso; apply K; simpl; tauto]]|]). contradiction. }
  split; [intros i; specialize (E i); lra|]. split; [reflexivity|discriminate].
Qed.

(** ** C78 *)

(** What a run computes up to time point [i] depends on the parameters and on the emissions before
    [i] only: another run, of any length, with the same ones computes the same numbers, whatever it
    emits later. *)
Theorem C78_causal env a a1 ak b b1 bk k l p e f period rounding start saturation i :
  resets env a a1 -> steps env k a1 ak -> resets env b b1 -> steps env l b1 bk ->
  reads env ak p e k period rounding start saturation -> reads env bk p f l period rounding start saturation ->
  (i <= k)%nat -> (i <= l)%nat -> (forall j, (j < i)%nat -> e j = f j) ->
  forall name j, In name series_names -> (j <= i)%nat ->
  exists x, out env ak name j = Ok (Some x) /\ out env bk name j = Ok (Some x).
Proof. exact (C78_proof env a a1 ak b b1 bk k l p e f period rounding start saturation i). Qed.
Print Assumptions C78_causal.

(** Three and four steps of two users who emit the same in the first two periods. *)
Example C78_instance m f ta to : (0 < m)%R ->
  let e i := match i with 0 => 10 | 1 => 11 | _ => 12 end%R in
  let e' i := match i with 0 => 10 | 1 => 11 | _ => 100 end%R in
  (exists ak, a_case e m f ta to 3 ak) /\ (exists bk, a_case e' m f ta to 4 bk) /\
  (forall j, (j < 2)%nat -> e j = e' j) /\ e 2%nat <> e' 2%nat.
Proof.
  intros M e e'. split; [apply warm_case; [lra|lia]|]. split; [apply warm_case; [lra|lia]|].
  split; [|cbn; lra]. intros [|[|j]] J; try reflexivity. lia.
Qed.
