(** C79, C80: temperatures of the DICE model in the long run.  Vocabulary: [Spec_Dice.v],
    [Spec_DiceMono.v], [Spec_DiceWarm.v]. *)
From Coq Require Import String List ZArith Reals Lra Lia.
From Verif Require Import Base Units TimeModel Calendar Core Spec_Core Adapters Dice Spec_Dice Spec_DiceMono
  DiceWarm DiceEx DiceWarmEx Spec_DiceWarm.
Import ListNotations.
Local Open Scope string_scope.

(** ** C79 *)

(** Without emissions and with carbon at [m] times its equilibrium the temperatures of air and sea
    approach the warming of [m] times the carbon: their distance falls geometrically, at a rate below
    1 that the parameters determine, whatever they are at the beginning. *)
Theorem C79_sensitivity env p : thermal p -> exists r, (0 <= r < 1)%R /\
  forall a a1 ak k e period rounding start saturation m f,
  resets env a a1 -> steps env k a1 ak -> reads env ak p e k period rounding start saturation ->
  carbon_level p m -> (forall i, (i < k)%nat -> e i = 0%R) -> p "fex0" = f -> p "fex1" = f -> admits p (warming p m f) ->
  forall i, (i <= k)%nat -> exists tatm tocean,
    out env ak "tatm" i = Ok (Some tatm) /\ out env ak "tocean" i = Ok (Some tocean) /\
    (Rabs (tatm - warming p m f) <= 2 * (r ^ i * Rmax (Rabs (p "tatm0" - warming p m f)) (Rabs (p "tocean0" - warming p m f))))%R /\
    (Rabs (tocean - warming p m f) <= 2 * (r ^ i * Rmax (Rabs (p "tatm0" - warming p m f)) (Rabs (p "tocean0" - warming p m f))))%R.
Proof. exact (C79_proof env p). Qed.
Print Assumptions C79_sensitivity.

(** The warming of twice the carbon is the parameter [t2xco2], that of the equilibrium is none. *)
Theorem C79_doubling p : thermal p -> warming p 2 0 = p "t2xco2" /\ warming p 1 0 = 0%R.
Proof. exact (doubling p). Qed.
Print Assumptions C79_doubling.

(** Carbon doubled, no other forcing, default parameters, any temperatures. *)
Example C79_instance ta to : let p := pw 2 0 ta to in thermal p /\ carbon_level p 2 /\ p "fex0" = 0%R /\ p "fex1" = 0%R /\
  admits p (warming p 2 0) /\ exists ak, a_case (fun _ => 0%R) 2 0 ta to 4 ak.
Proof.
  assert (T : thermal (pw 2 0 ta to)) by (constructor; unfold pw; cbn [alookup String.eqb Ascii.eqb Bool.eqb]; lra).
  intros p. split; [exact T|]. split; [constructor; unfold p, pw; cbn [alookup String.eqb Ascii.eqb Bool.eqb]; lra|].
  split; [reflexivity|]. split; [reflexivity|]. split; [|apply warm_case; [lra|lia]].
  unfold admits, p. rewrite (proj1 (doubling _ T)). unfold pw; cbn [alookup String.eqb Ascii.eqb Bool.eqb]. lra.
Qed.

(** ** C80 *)

(** The temperatures at the beginning are forgotten: two runs that differ in them only have the same
    carbon and the same forcing, and their temperatures approach each other geometrically. *)
Theorem C80_forgets env p : thermal p -> exists r, (0 <= r < 1)%R /\
  forall a a1 ak b b1 bk k q e period rounding start saturation,
  resets env a a1 -> steps env k a1 ak -> resets env b b1 -> steps env k b1 bk ->
  reads env ak p e k period rounding start saturation -> reads env bk q e k period rounding start saturation ->
  same_but_heat p q ->
  forall i, (i <= k)%nat ->
  (forall name, In name ["mat"; "mu"; "ml"; "forc"] -> exists x, out env ak name i = Ok (Some x) /\ out env bk name i = Ok (Some x)) /\
  (forall name, In name ["tatm"; "tocean"] -> exists x y, out env ak name i = Ok (Some x) /\ out env bk name i = Ok (Some y) /\
    (Rabs (x - y) <= 2 * (r ^ i * Rmax (Rabs (p "tatm0" - q "tatm0")) (Rabs (p "tocean0" - q "tocean0"))))%R).
Proof. exact (C80_proof env p). Qed.
Print Assumptions C80_forgets.

Example C80_instance e m f ta to ta' to' : (0 < m)%R ->
  (exists ak, a_case e m f ta to 4 ak) /\ (exists bk, a_case e m f ta' to' 4 bk) /\
  thermal (pw m f ta to) /\ same_but_heat (pw m f ta to) (pw m f ta' to').
Proof.
  intros M. split; [apply warm_case; [lra|lia]|]. split; [apply warm_case; [lra|lia]|].
  split; [constructor; unfold pw; cbn [alookup String.eqb Ascii.eqb Bool.eqb]; lra|].
  intros name N A O. unfold scalar_names in N. cbn [In] in N. unfold pw.
  repeat (destruct N as [<-|N]; [first [reflexivity | exfalso; congruence]|]). contradiction.
Qed.
