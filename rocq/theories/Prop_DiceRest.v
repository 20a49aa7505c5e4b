(** C83-C85: the DICE model after emissions have ended, and with emissions mixed.  Vocabulary: [Spec_Dice.v],
    [Spec_DiceMono.v], [Spec_DiceWarm.v], [Spec_DiceRest.v]. *)
From Coq Require Import String List ZArith Reals Lra Lia.
From Verif Require Import Base Units TimeModel Calendar Core Spec_Core Adapters Dice Spec_Dice Spec_DiceMono
  DiceWarm DiceRest DiceEx DiceWarmEx DiceRestEx Spec_DiceWarm Spec_DiceRest.
Import ListNotations.
Local Open Scope string_scope.

(** ** C83 *)

(** Once emissions have ended (at step [j], with the model in state [x]) all carbon there is spreads
    over the pools as in equilibrium: the distance of each pool from its share falls geometrically,
    at a rate below 1 that the parameters determine. *)
Theorem C83_spreads env p : mixing p -> exists r, (0 <= r < 1)%R /\
  forall a a1 ak k e period rounding start saturation j x lo hi,
  resets env a a1 -> steps env k a1 ak -> reads env ak p e k period rounding start saturation ->
  (forall i, (j <= i < k)%nat -> e i = 0%R) ->
  (forall name, In name series_names -> out env ak name j = Ok (Some (x name))) -> between p x lo hi ->
  forall i, (j <= i <= k)%nat -> exists mat mu ml,
    out env ak "mat" i = Ok (Some mat) /\ out env ak "mu" i = Ok (Some mu) /\ out env ak "ml" i = Ok (Some ml) /\
    (Rabs (mat - level p x * p "mateq") <= r ^ (i - j) * (hi - lo) * p "mateq")%R /\
    (Rabs (mu - level p x * p "mueq") <= r ^ (i - j) * (hi - lo) * p "mueq")%R /\
    (Rabs (ml - level p x * p "mleq") <= r ^ (i - j) * (hi - lo) * p "mleq")%R.
Proof. exact (C83_proof env p). Qed.
Print Assumptions C83_spreads.

(** ** C84 *)

(** Then, once other forcing is constant ([f]) as well, the temperatures of air and sea approach the
    warming that belongs to all carbon there is, geometrically, at a rate below 1 that the parameters
    determine; the factor depends only on how far carbon and temperatures are from their limits. *)
Theorem C84_commitment env p : mixing p -> thermal p -> exists r, (0 <= r < 1)%R /\ forall lo hi d, (0 < lo)%R -> exists K,
  forall a a1 ak k e period rounding start saturation j x f,
  resets env a a1 -> steps env k a1 ak -> reads env ak p e k period rounding start saturation ->
  (forall i, (j <= i < k)%nat -> e i = 0%R /\
     other_forcing start period saturation (Z.of_nat i + 1) (p "fex0") (p "fex1") = f) ->
  (forall name, In name series_names -> out env ak name j = Ok (Some (x name))) -> between p x lo hi ->
  admits p (warming p (level p x) f) ->
  (Rabs (x "tatm" - warming p (level p x) f) <= d)%R -> (Rabs (x "tocean" - warming p (level p x) f) <= d)%R ->
  forall i, (j <= i <= k)%nat -> exists tatm tocean,
    out env ak "tatm" i = Ok (Some tatm) /\ out env ak "tocean" i = Ok (Some tocean) /\
    (Rabs (tatm - warming p (level p x) f) <= K * r ^ (i - j))%R /\
    (Rabs (tocean - warming p (level p x) f) <= K * r ^ (i - j))%R.
Proof. exact (C84_proof env p). Qed.
Print Assumptions C84_commitment.

(** In equilibrium at first, 10 GtC in the first year, default parameters but for other forcing (none)
    and the temperatures at the beginning (none): step 1 is not in equilibrium. *)
Example C84_instance : mixing (pw 1 0 0 0) /\ thermal (pw 1 0 0 0) /\
  (forall i, (1 <= i < 4)%nat -> (pulse i * 44 / 12 = 0)%R /\
     other_forcing (mkDT 1000000000 0) YEAR (mkDT day_ns 47482) (Z.of_nat i + 1) (pw 1 0 0 0 "fex0") (pw 1 0 0 0 "fex1") = 0%R) /\
  exists ak x, a_case pulse 1 0 0 0 4 ak /\
  (forall name, In name series_names -> out dice_env ak name 1 = Ok (Some (x name))) /\
  between (pw 1 0 0 0) x 1 2 /\ (1 < level (pw 1 0 0 0) x)%R /\ admits (pw 1 0 0 0) (warming (pw 1 0 0 0) (level (pw 1 0 0 0) x) 0) /\
  x "mat" <> (level (pw 1 0 0 0) x * pw 1 0 0 0 "mateq")%R.
Proof.
  split; [exact pulse_mixing|]. split; [exact pulse_thermal|]. split; [|exact pulse_case].
  intros i I. split; [destruct i; [lia|cbn [pulse]; lra]|exact (constant_forcing _ _ _ _ 0%R)].
Qed.

(** ** C85 *)

(** As long as the bounds of the pools are not reached carbon responds linearly: if the emissions
    and the initial pools of a run are mixed from those of two other runs, with any weights [1 - c]
    and [c], then so are the pools at all times, whatever the temperatures and the forcing. *)
Theorem C85_linear env a a1 ak b b1 bk d d1 dk k p q s e f g period rounding start1 saturation1 start2 saturation2 start3 saturation3 c :
  resets env a a1 -> steps env k a1 ak -> resets env b b1 -> steps env k b1 bk -> resets env d d1 -> steps env k d1 dk ->
  reads env ak p e k period rounding start1 saturation1 -> reads env bk q f k period rounding start2 saturation2 ->
  reads env dk s g k period rounding start3 saturation3 ->
  mixed c p q s -> (forall i, (i < k)%nat -> g i = ((1 - c) * e i + c * f i)%R) ->
  off_bounds env ak p k -> off_bounds env bk q k -> off_bounds env dk s k ->
  forall name i, In name ["mat"; "mu"; "ml"] -> (i <= k)%nat -> exists x y,
    out env ak name i = Ok (Some x) /\ out env bk name i = Ok (Some y) /\
    out env dk name i = Ok (Some ((1 - c) * x + c * y)%R).
Proof.
  exact (C85_proof env a a1 ak b b1 bk d d1 dk k p q s e f g period rounding start1 saturation1 start2 saturation2
    start3 saturation3 c).
Qed.
Print Assumptions C85_linear.

(** Any emissions that are not negative, pools from the equilibrium upwards; also [c] above 1. *)
Example C85_instance e f c m m' : (forall i, 0 <= e i)%R -> (forall i, 0 <= f i)%R -> (1 <= m)%R -> (1 <= m')%R ->
  (forall i, 0 <= (1 - c) * e i + c * f i)%R -> (1 <= (1 - c) * m + c * m')%R ->
  exists ak bk dk, a_case e m 0 0 0 4 ak /\ a_case f m' 0 1 1 4 bk /\
    a_case (fun i => (1 - c) * e i + c * f i)%R ((1 - c) * m + c * m') 0 2 2 4 dk /\
    mixed c (pw m 0 0 0) (pw m' 0 1 1) (pw ((1 - c) * m + c * m') 0 2 2) /\
    (forall i, ((1 - c) * e i + c * f i) * 44 / 12 = (1 - c) * (e i * 44 / 12) + c * (f i * 44 / 12))%R /\
    off_bounds dice_env ak (pw m 0 0 0) 4 /\ off_bounds dice_env bk (pw m' 0 1 1) 4 /\
    off_bounds dice_env dk (pw ((1 - c) * m + c * m') 0 2 2) 4.
Proof.
  intros E F M M' G L.
  destruct (warm_case e m 0 0 0 ltac:(lra) 4 ltac:(lia)) as (ak & A).
  destruct (warm_case f m' 0 1 1 ltac:(lra) 4 ltac:(lia)) as (bk & B).
  destruct (warm_case (fun i => (1 - c) * e i + c * f i)%R ((1 - c) * m + c * m') 0 2 2 ltac:(lra) 4 ltac:(lia)) as (dk & D).
  exists ak, bk, dk. split; [exact A|]. split; [exact B|]. split; [exact D|]. split.
  - split; intros name N; simpl in N; repeat (destruct N as [<-|N]; [unfold pw; cbn [alookup String.eqb Ascii.eqb Bool.eqb];
      first [split; reflexivity | ring]|]); contradiction.
  - split; [intros i; field|]. split; [exact (off_case _ _ _ _ _ _ M E A)|]. split; [exact (off_case _ _ _ _ _ _ M' F B)|].
    exact (off_case _ _ _ _ _ _ L G D).
Qed.
