(** Proof of C92: the carbon of a data frame in the pools of DICE. *)
From Coq Require Import String List ZArith Reals Bool Arith Lia Lra.
From Verif Require Import Base ListFacts Units TimeModel Calendar Core Spec_Core Adapters Dice DiceSim DiceBase Spec_Dice DiceMachine DiceProps
  Spec_Totals Spec_DiceMono Pipeline PipelineBack.
From Verif Require Frame FrameStore Spec_Interp Spec_Store.
From Verif Require Import Spec_Pipeline.
Import ListNotations.
Local Open Scope string_scope.
Local Open Scope list_scope.

Section C.
Variable env : uenv.

Lemma total_cons x y a b t z v : total x y (a :: b :: t) (z :: v) =
  ((if ((x <=? a)%Z && (b <=? y)%Z)%bool then z * IZR (b - a) else 0) + total x y (b :: t) v)%R.
Proof. reflexivity. Qed.
Lemma total_late t0 d m : (0 < d)%Z -> forall j y es, (y <= t0 + Z.of_nat j * d)%Z ->
  total t0 y (map (fun l => t0 + Z.of_nat l * d)%Z (seq j (S m))) es = 0%R.
Proof.
  intros D. induction m as [|m IH]; intros j y es Y; [destruct es; reflexivity|].
  destruct es as [|e es]; [reflexivity|]. cbn [seq map]. rewrite total_cons.
  destruct (Z.leb_spec (t0 + Z.of_nat (S j) * d) y); [nia|]. rewrite andb_false_r, Rplus_0_l.
  apply (IH (S j)). nia.
Qed.
Lemma sum_to_shift f i : sum_to f (S i) = (f 0%nat + sum_to (fun l => f (S l)) i)%R.
Proof. induction i as [|i IH]; [cbn; lra|]. change (sum_to f (S (S i))) with (sum_to f (S i) + f (S i))%R. rewrite IH. cbn [sum_to]. lra. Qed.
Lemma total_upto t0 d m : (0 < d)%Z -> forall i j es, length es = m -> (i <= m)%nat ->
  total t0 (t0 + Z.of_nat (j + i) * d) (map (fun l => t0 + Z.of_nat l * d)%Z (seq j (S m))) es =
  (IZR d * sum_to (fun l => nth l es 0) i)%R.
Proof.
  intros D. induction m as [|m IH]; intros i j es L Hi.
  - assert (i = 0%nat) as -> by lia. destruct es; [|discriminate]. cbn. lra.
  - destruct i as [|i]; [rewrite total_late by (auto; nia); cbn; lra|].
    destruct es as [|e es]; [discriminate|]. injection L as L. cbn [seq map]. rewrite total_cons.
    destruct (Z.leb_spec t0 (t0 + Z.of_nat j * d)); [|nia].
    destruct (Z.leb_spec (t0 + Z.of_nat (S j) * d) (t0 + Z.of_nat (j + S i) * d)); [|nia]. cbn [andb].
    replace (j + S i)%nat with (S j + i)%nat by lia.
    change ((t0 + Z.of_nat (S j) * d)%Z :: map (fun l => (t0 + Z.of_nat l * d)%Z) (seq (S (S j)) m))
      with (map (fun l => t0 + Z.of_nat l * d)%Z (seq (S j) (S m))).
    rewrite IH by (auto; lia). rewrite sum_to_shift. cbn [nth].
    replace (t0 + Z.of_nat (S j) * d - (t0 + Z.of_nat j * d))%Z with d by nia. lra.
Qed.
Lemma mean_upto t0 d n es i : (0 < d)%Z -> length es = n -> (1 <= i <= n)%nat ->
  (INR i * mean_between t0 (t0 + Z.of_nat i * d) (periods t0 d n) es = sum_to (fun l => nth l es 0) i)%R.
Proof.
  intros D L Hi. unfold mean_between, periods. pose proof (total_upto t0 d n D i 0%nat es L ltac:(lia)) as T. cbn [Nat.add] in T. rewrite T.
  replace (t0 + Z.of_nat i * d - t0)%Z with (Z.of_nat i * d)%Z by lia. rewrite mult_IZR, <- INR_IZR_INZ.
  field. split; [apply not_0_IZR; lia|apply not_0_INR; lia].
Qed.
Lemma carbon_sum period rounding f i : sum_to (fun j => carbon_emitted (f j) period rounding) i = carbon_emitted (sum_to f i) period rounding.
Proof. unfold carbon_emitted. induction i as [|i IH]; cbn [sum_to]; [unfold Rdiv; ring|]. rewrite IH. unfold Rdiv. ring. Qed.

Section Given.
Context (f : Frame.frame) (u : string) (xs : list R) (s : state) (a a1 ak : adapter world) (k : nat) (t0 d : Z) (n : nat) (rounding : gval).
Context (mat mu ml : nat -> R) (lo1 lo2 lo3 : R) (period : dt64).
Hypothesis (G : good_env env) (ST : Spec_Store.storable env f)
  (HS : Spec_Store.has_typed_series f "Emissions|CO2" "World" u "average" (map Some xs))
  (TP : FrameStore.to_parameterset env f (init_state "World") = (s, Ok tt))
  (Ha : handed env s a) (R : resets env a a1) (St : steps env k a1 ak) (Ww : works_with env ak t0 d n)
  (Ro : setting env ak "original_rounding" = Ok rounding) (Pe : setting env ak "period_length" = Ok (GDelta period)).
Hypothesis (O : forall i, (i <= k)%nat -> out env ak "mat" i = Ok (Some (mat i)) /\ out env ak "mu" i = Ok (Some (mu i)) /\
     out env ak "ml" i = Ok (Some (ml i)))
  (V1 : value env ak "mat_lower" = Ok (Some lo1)) (V2 : value env ak "mu_lower" = Ok (Some lo2))
  (V3 : value env ak "ml_lower" = Ok (Some lo3))
  (B : forall i, (1 <= i <= k)%nat -> (lo1 < mat i /\ lo2 < mu i /\ lo3 < ml i)%R).
Notation grid := (Spec_Interp.closed (Frame.fr_times f)).

Lemma C92_proof i : (1 <= i <= k)%nat -> In t0 grid -> In (t0 + Z.of_nat i * d)%Z grid ->
  exists e, same_quantity env u (mean_between t0 (t0 + Z.of_nat i * d) grid xs) (emissions_unit rounding) e /\
    (mat i + mu i + ml i = mat 0%nat + mu 0%nat + ml 0%nat + INR i * carbon_emitted e period rounding)%R.
Proof.
  intros Hi I0 Ii. destruct (steps_after env _ _ _ _ R St) as (w0 & d0 & dd & A).
  assert (Kn : (k < n)%nat).
  { destruct (ak_count _ _ _ _ _ _ _ A) as (m & C & P). destruct (ak_room _ _ _ _ _ _ _ A _ C) as [_ K].
    destruct Ww as (_ & _ & P' & _). rewrite P' in P. injection P as <-. lia. }
  assert (D : (0 < d)%Z) by apply Ww.
  destruct (C90_proof env f u xs s a a1 ak k t0 d n rounding G ST HS TP Ha R St Ww Ro) as [(e & X)|(es & L & Em & Mn)].
  - destruct (ak_equations _ _ _ _ _ _ _ A 0%nat ltac:(lia)) as (c & e' & _ & Y & _). rewrite X in Y. discriminate.
  - exists (mean_between t0 (t0 + Z.of_nat i * d) (periods t0 d n) es). split.
    + apply Mn; auto; [nia| |]; unfold periods; apply in_map_iff; [exists 0%nat|exists i]; (split; [lia|]); apply in_seq; lia.
    + rewrite (C43_proof env _ _ _ _ _ _ mat mu ml (fun j => nth j es 0%R) lo1 lo2 lo3 period rounding A O
        (fun j Hj => Em j ltac:(lia)) V1 V2 V3 B Pe Ro i ltac:(lia)).
      rewrite carbon_sum, <- (mean_upto t0 d n es i D L) by lia. unfold carbon_emitted, Rdiv. ring.
Qed.
End Given.

(** Read from the data frame of the results. *)
Lemma C92_frame_proof q_of f u xs s a a1 ak t0 d n p period rounding start saturation model scenario climate_model s' g mat mu ml :
  good_env env -> Spec_Store.storable env f -> Spec_Store.has_typed_series f "Emissions|CO2" "World" u "average" (map Some xs) ->
  FrameStore.to_parameterset env f (init_state "World") = (s, Ok tt) -> handed env s a -> w_out (a_world _ a) = init_state "World" ->
  resets env a a1 -> steps env (n - 1) a1 ak -> works_with env ak t0 d n -> (3 <= n)%nat ->
  (forall name, In name scalar_names -> value env ak name = Ok (Some (p name))) ->
  setting env ak "period_length" = Ok (GDelta period) -> setting env ak "original_rounding" = Ok rounding ->
  setting env ak "start_time" = Ok (GTime start) -> setting env ak "forcoth_saturation_time" = Ok (GTime saturation) ->
  FrameStore.convert_openscm_to_scmdataframe env q_of (w_out (a_world _ ak)) (instants t0 d n) model scenario climate_model = (s', Ok g) ->
  Spec_Store.has_typed_series g "Pool|CO2|Atmosphere" "World" "GtC" "point" (map Some mat) ->
  Spec_Store.has_typed_series g "Pool|CO2|Ocean|shallow" "World" "GtC" "point" (map Some mu) ->
  Spec_Store.has_typed_series g "Pool|CO2|Ocean|lower" "World" "GtC" "point" (map Some ml) ->
  (forall i, (1 <= i < n)%nat -> (p "mat_lower" < nth i mat 0 /\ p "mu_lower" < nth i mu 0 /\ p "ml_lower" < nth i ml 0)%R) ->
  forall i, (1 <= i < n)%nat -> In t0 (Spec_Interp.closed (Frame.fr_times f)) -> In (t0 + Z.of_nat i * d)%Z (Spec_Interp.closed (Frame.fr_times f)) ->
  exists e, same_quantity env u (mean_between t0 (t0 + Z.of_nat i * d) (Spec_Interp.closed (Frame.fr_times f)) xs) (emissions_unit rounding) e /\
    (nth i mat 0 + nth i mu 0 + nth i ml 0 = p "mat0" + p "mu0" + p "ml0" + INR i * carbon_emitted e period rounding)%R.
Proof.
  intros G ST HS TP Ha Io Re St Ww L3 Sc S1 S2 S3 S4 C Hm Hu Hl B i Hi I0 Ii.
  destruct (C90_proof env f u xs s a a1 ak (n - 1) t0 d n rounding G ST HS TP Ha Re St Ww S2) as [(e & X)|(es & L & Em & _)].
  { destruct (steps_after env _ _ _ _ Re St) as (w0 & d0 & dd & A).
    destruct (ak_equations _ _ _ _ _ _ _ A 0%nat ltac:(lia)) as (c & e' & _ & Y & _). rewrite X in Y. discriminate. }
  assert (Rd : Spec_DiceMono.reads env ak p (fun j => nth j es 0%R) (n - 1) period rounding start saturation).
  { constructor; auto. intros j Hj. apply Em. lia. }
  destruct (trajectory env _ _ _ _ _ _ _ _ _ _ Re St Rd) as (y & [(Y1 & Y2 & Y3) _ _] & _ & Yo).
  destruct (resets_results env q_of a a1 (n - 1) ak t0 d n (fun name i => y i name) model scenario climate_model G Io Re St Ww L3)
    as (s2 & g2 & C2 & _ & _ & _ & _ & Se & _); [intros name j J Hj; apply Yo; [exact J|lia]|].
  rewrite C in C2. injection C2 as <- <-.
  assert (Nm : forall v name m, Spec_Store.has_typed_series g v "World" "GtC" "point" (map Some m) ->
    (forall name', output_series name' v "GtC" "point" -> name' = name) ->
    forall j, (j < n)%nat -> nth j m 0%R = y j name).
  { intros v name m H U j Hj. apply Se in H. destruct H as (_ & nm & On & E). rewrite (U _ On) in E.
    rewrite <- (map_map (fun i => y i name) Some) in E. apply (f_equal (map (fun o => match o with Some x => x | None => 0%R end))) in E.
    rewrite !(map_map Some), !map_id in E. rewrite E.
    rewrite (nth_indep _ 0%R (y 0%nat name)) by (rewrite map_length, seq_length; lia).
    rewrite (map_nth (fun i => y i name)), seq_nth by lia. reflexivity. }
  assert (U : forall v name' name, output_series name' v "GtC" "point" ->
     (v = "Pool|CO2|Atmosphere" /\ name = "mat" \/ v = "Pool|CO2|Ocean|shallow" /\ name = "mu" \/ v = "Pool|CO2|Ocean|lower" /\ name = "ml") -> name' = name).
  { intros v n1 n2 On Q. unfold output_series in On. cbn [In] in On.
    repeat (destruct On as [On|On]; [injection On as <- <-; destruct Q as [[Q ->]|[[Q ->]|[Q ->]]]; first [reflexivity|discriminate Q]|]);
    try (destruct On as [On|On]; [discriminate|]); contradiction. }
  pose proof (Nm _ "mat" _ Hm (fun n' o => U _ _ _ o (or_introl (conj eq_refl eq_refl)))) as M1.
  pose proof (Nm _ "mu" _ Hu (fun n' o => U _ _ _ o (or_intror (or_introl (conj eq_refl eq_refl))))) as M2.
  pose proof (Nm _ "ml" _ Hl (fun n' o => U _ _ _ o (or_intror (or_intror (conj eq_refl eq_refl))))) as M3.
  destruct (C92_proof f u xs s a a1 ak (n - 1) t0 d n rounding (fun j => y j "mat") (fun j => y j "mu") (fun j => y j "ml")
    (p "mat_lower") (p "mu_lower") (p "ml_lower") period G ST HS TP Ha Re St Ww S2 S1) with (i := i) as (e & Q & E); auto.
  - intros j Hj. repeat split; apply Yo; auto; unfold series_names; cbn; tauto.
  - apply Sc. unfold scalar_names; cbn; tauto.
  - apply Sc. unfold scalar_names; cbn; tauto.
  - apply Sc. unfold scalar_names; cbn; tauto.
  - intros j Hj. rewrite <- (M1 j), <- (M2 j), <- (M3 j) by lia. apply B. lia.
  - lia.
  - exists e. split; [exact Q|]. rewrite M1, M2, M3 by lia. rewrite <- Y1, <- Y2, <- Y3. lra.
Qed.
End C.
