(** C46: a run does not depend on what is left from earlier runs or in new arrays; running again
    gives the same results. *)
From Coq Require Import String List ZArith Reals Bool Arith Lia.
From Verif Require Import Base ListFacts Units TimeModel Calendar Core CoreEvo CoreTree CoreNames
  CoreInv CoreStep Spec_Core CoreReq CoreView CoreP1 CoreP2 CoreAgain Adapters Dice ConvShape DiceInit DiceSim DiceBase DiceMachine
  Spec_Dice DiceUsed DiceProgress DiceTime DiceProps DiceAgain.
Import ListNotations.
Local Open Scope string_scope.
Local Open Scope list_scope.

Section R.
Variable env : uenv.
Notation H := (dice_hooks env).
Notation In w0 := (I env w0 (vi_of w0)).

(** ** What [_initialize_run_parameters] and [start_time] do, step by step *)
Definition oE (rounding : gval) (tpa : list Z) : op :=
  OTimeseries (HSeq ["Emissions"; "CO2"]) (if truthy rounding then "GtCO2/a" else "GtC/a") (mkTP 1 tpa) World_
    (AStr "average") (AEnum ILINEAR) (AEnum XNONE).
Definition series_unit (x : series) : string :=
  match x with Mat | Ml | Mu => "GtC" | Tatm | Tocean => "delta_degC" | Forc => "W/m^2" end.
Definition series_type (x : series) : string := match x with Forc => "average" | _ => "point" end.
Definition oS (x : series) (tp tpa : list Z) : op :=
  OTimeseries (HSeq (full x)) (series_unit x) (mkTP 1 (match x with Forc => tpa | _ => tp end)) World_
    (AStr (series_type x)) (AEnum ILINEAR) (AEnum XNONE).

(** The requests for the six output series. *)
Fixpoint outs (tp tpa : list Z) (xs : list series) (s : state) (s' : state) (vs : list (string * nat)) : Prop :=
  match xs with
  | [] => s' = s /\ vs = []
  | x :: xs' => exists s1 v vs', step env (oS x tp tpa) s = (s1, Ok (VView v)) /\ outs tp tpa xs' s1 s' vs' /\
      vs = vs' ++ [(nm x, v)]
  end.
Definition all_series : list series := [Mat; Ml; Mu; Tatm; Tocean; Forc].

Record settings (w : world) (start stop period : dt64) (n : Z) (tp tpa : list Z) (rounding : gval) : Prop := {
  se_stop : snd (time_of env "stop_time" w) = Ok stop;
  se_start : snd (time_of env "start_time" w) = Ok start;
  se_period : snd (delta_of env "period_length" w) = Ok period;
  se_count : timestep_count start stop period = Ok n;
  se_tp : create_time_points start period n (AEnum POINT_TIMESERIES) = Ok tp;
  se_tpa : create_time_points start period n (AEnum AVERAGE_TIMESERIES) = Ok tpa;
  se_rounding : snd (generic env "original_rounding" w) = Ok rounding }.

Lemma out_series_eq x tp tpa w : out_series env (nm x) (full x) (series_unit x) (match x with Forc => tpa | _ => tp end) (series_type x) w =
  match step env (oS x tp tpa) (w_out w) with
  | (s, Ok (VView v)) => (mkWorld (w_in w) s ((nm x, v) :: w_views w) (w_coef w) (w_time w) (w_timestep w) (w_count w) (w_junk w), Ok tt)
  | (s, Ok _) => (mkWorld (w_in w) s (w_views w) (w_coef w) (w_time w) (w_timestep w) (w_count w) (w_junk w), Err EInvalid)
  | (s, Err e) => (mkWorld (w_in w) s (w_views w) (w_coef w) (w_time w) (w_timestep w) (w_count w) (w_junk w), Err e)
  end.
Proof.
  unfold out_series, a_view, bind, op_on, oS. destruct (step env _ (w_out w)) as [s [y|e]]; [|reflexivity].
  destruct y; reflexivity.
Qed.
Definition one (x : series) (tp tpa : list Z) : M Datatypes.unit :=
  out_series env (nm x) (full x) (series_unit x) (match x with Forc => tpa | _ => tp end) (series_type x).
Fixpoint each (tp tpa : list Z) (xs : list series) : M Datatypes.unit :=
  match xs with [] => ret tt | x :: xs' => bind (one x tp tpa) (fun _ => each tp tpa xs') end.
Lemma each_iff tp tpa xs : forall w w', each tp tpa xs w = (w', Ok tt) <->
  exists s' vs, outs tp tpa xs (w_out w) s' vs /\
    w' = mkWorld (w_in w) s' (vs ++ w_views w) (w_coef w) (w_time w) (w_timestep w) (w_count w) (w_junk w).
Proof.
  induction xs as [|x xs IH]; intros w w'; cbn [each outs].
  - unfold ret. split.
    + intros X. inversion X; subst. exists (w_out w'), []. split; auto. now rewrite world_eta.
    + intros (s' & vs & [-> ->] & ->). now rewrite world_eta.
  - unfold bind, one. rewrite out_series_eq. split.
    + destruct (step env (oS x tp tpa) (w_out w)) as [s [y|e]] eqn:St; [|discriminate]. destruct y; try discriminate.
      intros X. apply IH in X. destruct X as (s' & vs & O & ->). cbn [w_in w_out w_views w_coef w_time w_timestep w_count w_junk] in *.
      exists s', (vs ++ [(nm x, v)]). split; [exists s, v, vs; auto|]. now rewrite <- app_assoc.
    + intros (s' & vs & (s1 & v & vs' & St & O & ->) & ->). rewrite St. apply IH. cbn [w_in w_out w_views w_coef w_time w_timestep w_count w_junk]. exists s', vs'.
      split; auto. now rewrite <- app_assoc.
Qed.

Definition prepare : M Datatypes.unit :=
  set_timestep 0 ;;;
  stop <- time_of env "stop_time" ;;
  start <- time_of env "start_time" ;;
  period <- delta_of env "period_length" ;;
  n <- lift_res (timestep_count start stop period) ;;
  set_count n ;;;
  tp <- lift_res (create_time_points start period n (AEnum POINT_TIMESERIES)) ;;
  tpa <- lift_res (create_time_points start period n (AEnum AVERAGE_TIMESERIES)) ;;
  rounding <- generic env "original_rounding" ;;
  v <- a_view env In_ (oE rounding tpa) ;;
  set_view_of "E" v ;;;
  each tp tpa all_series.
Lemma ret_last {A} (m : M A) w : bind m ret w = m w.
Proof. unfold bind, ret. destruct (m w) as [w' [a|e]]; reflexivity. Qed.
Lemma bind_ext {A C} (m : M A) (f g : A -> M C) w : (forall a w, f a w = g a w) -> bind m f w = bind m g w.
Proof. intros E. unfold bind. destruct (m w) as [w' [a|e]]; auto. Qed.
Lemma unit_last (m : M Datatypes.unit) w : bind m (fun _ => ret tt) w = m w.
Proof. unfold bind, ret. destruct (m w) as [w' [[]|e]]; reflexivity. Qed.
Lemma params_eq w : Dice.initialize_run_parameters env w = prepare w.
Proof.
  unfold Dice.initialize_run_parameters, prepare. do 16 (apply bind_ext; intros).
  simpl. symmetry. apply (unit_last (one Forc a5 a6)).
Qed.

Lemma lift_inv {A} (r : res A) w w' a : lift_res r w = (w', Ok a) -> w' = w /\ r = Ok a.
Proof. unfold lift_res. intros X. inversion X. auto. Qed.

Lemma params_inv w w1 : Dice.initialize_run_parameters env w = (w1, Ok tt) ->
  exists start stop period n tp tpa rounding sE vE so vs,
    settings w start stop period n tp tpa rounding /\
    step env (oE rounding tpa) (w_in w) = (sE, Ok (VView vE)) /\ outs tp tpa all_series (w_out w) so vs /\
    w1 = mkWorld sE so (vs ++ ("E", vE) :: w_views w) (w_coef w) (w_time w) (Some 0%Z) (Some n) (w_junk w).
Proof.
  rewrite params_eq. unfold prepare. intros X. unfold bind at 1, set_timestep in X.
  set (w2 := mkWorld (w_in w) (w_out w) (w_views w) (w_coef w) (w_time w) (Some 0%Z) (w_count w) (w_junk w)) in X.
  change w2 with (fst (set_timestep 0 w)) in X.
  apply bind_ok in X. destruct X as (stop & w3 & E1 & X). pose proof (time_of_id _ _ _ _ _ E1); subst w3.
  apply bind_ok in X. destruct X as (start & w3 & E2 & X). pose proof (time_of_id _ _ _ _ _ E2); subst w3.
  apply bind_ok in X. destruct X as (period & w3 & E3 & X). pose proof (delta_of_id _ _ _ _ _ E3); subst w3.
  apply (f_equal snd) in E1, E2, E3. rewrite time_of_keep in E1, E2. rewrite delta_of_keep in E3. cbn [snd] in E1, E2, E3.
  apply bind_ok in X. destruct X as (n & w3 & E4 & X). apply lift_inv in E4. destruct E4 as [-> E4].
  unfold bind at 1, set_count in X.
  apply bind_ok in X. destruct X as (tp & w3 & E5 & X). apply lift_inv in E5. destruct E5 as [-> E5].
  apply bind_ok in X. destruct X as (tpa & w3 & E6 & X). apply lift_inv in E6. destruct E6 as [-> E6].
  apply bind_ok in X. destruct X as (rounding & w3 & E7 & X). pose proof (generic_id _ _ _ _ _ E7). subst w3.
  apply (f_equal snd) in E7. cbn [snd] in E7.
  assert (E7' : snd (generic env "original_rounding" w) = Ok rounding).
  { rewrite <- E7. match goal with |- _ = snd (generic env _ ?x) => set (w9 := x) end. symmetry. apply (proj2 (scalar_rd env "original_rounding" w w9 (rd_refl _) eq_refl)). }
  apply bind_ok in X. destruct X as (vE & w3 & E8 & X). unfold a_view in E8.
  apply bind_ok in E8. destruct E8 as (y & w4 & E8 & E9). unfold op_on in E8. cbn [w_in] in E8.
  match type of E8 with context [step env ?o ?s] => destruct (step env o s) as [sE r] eqn:St end.
  inversion E8; subst w4 r; clear E8. destruct y; try discriminate. unfold ret in E9. inversion E9; subst w3 v; clear E9.
  unfold bind, set_view_of in X. apply each_iff in X. cbn in X. destruct X as (so & vs & O & ->).
  exists start, stop, period, n, tp, tpa, rounding, sE, vE, so, vs. split; [constructor; auto|]. auto.
Qed.

Lemma time_of_snd n w t : snd (time_of env n w) = Ok t -> time_of env n w = (w, Ok t).
Proof. destruct (time_of env n w) as [w' r] eqn:E. apply time_of_id in E as X. subst w'. simpl. congruence. Qed.
Lemma delta_of_snd n w t : snd (delta_of env n w) = Ok t -> delta_of env n w = (w, Ok t).
Proof. destruct (delta_of env n w) as [w' r] eqn:E. apply delta_of_id in E as X. subst w'. simpl. congruence. Qed.
Lemma bind_go {A C} (m : M A) (f : A -> M C) w w' a : m w = (w', Ok a) -> bind m f w = f a w'.
Proof. unfold bind. now intros ->. Qed.

Lemma params_go w start stop period n tp tpa rounding sE vE so vs :
  settings w start stop period n tp tpa rounding ->
  step env (oE rounding tpa) (w_in w) = (sE, Ok (VView vE)) -> outs tp tpa all_series (w_out w) so vs ->
  Dice.initialize_run_parameters env w =
    (mkWorld sE so (vs ++ ("E", vE) :: w_views w) (w_coef w) (w_time w) (Some 0%Z) (Some n) (w_junk w), Ok tt).
Proof.
  intros [S1 S2 S3 S4 S5 S6 S7] St O. rewrite params_eq. unfold prepare.
  rewrite (bind_go _ _ _ (fst (set_timestep 0 w)) tt) by reflexivity.
  rewrite (bind_go _ _ _ (fst (set_timestep 0 w)) stop) by (apply time_of_snd; now rewrite time_of_keep).
  rewrite (bind_go _ _ _ (fst (set_timestep 0 w)) start) by (apply time_of_snd; now rewrite time_of_keep).
  rewrite (bind_go _ _ _ (fst (set_timestep 0 w)) period) by (apply delta_of_snd; now rewrite delta_of_keep).
  rewrite (bind_go _ _ _ (fst (set_timestep 0 w)) n) by (unfold lift_res; now rewrite S4).
  set (w2 := mkWorld (w_in w) (w_out w) (w_views w) (w_coef w) (w_time w) (Some 0%Z) (Some n) (w_junk w)).
  rewrite (bind_go _ _ _ w2 tt) by reflexivity.
  rewrite (bind_go _ _ _ w2 tp) by (unfold lift_res; now rewrite S5).
  rewrite (bind_go _ _ _ w2 tpa) by (unfold lift_res; now rewrite S6).
  rewrite (bind_go _ _ _ w2 rounding).
  2: { rewrite generic_pure. f_equal. rewrite <- S7. apply (proj2 (scalar_rd env "original_rounding" w w2 (rd_refl _) eq_refl)). }
  set (w3 := mkWorld sE (w_out w) (w_views w) (w_coef w) (w_time w) (Some 0%Z) (Some n) (w_junk w)).
  rewrite (bind_go _ _ _ w3 vE).
  2: { unfold a_view, bind, op_on. change (w_in w2) with (w_in w). rewrite St. reflexivity. }
  unfold bind, set_view_of. apply each_iff. exists so, vs. split; auto.
Qed.

Lemma start_inv w w1 : start_time env w = (w1, Ok tt) -> exists s v t s',
  step env (OGeneric (HStr "Start Time") World_) (w_in w) = (s, Ok (VView v)) /\
  step env (OGetGeneric v) s = (s', Ok (VGen (GTime t))) /\
  w1 = mkWorld s' (w_out w) (w_views w) (w_coef w) (dt_ns t) (w_timestep w) (w_count w) (w_junk w).
Proof.
  unfold start_time, a_view. intros X. apply bind_ok in X. destruct X as (v & w2 & A & X).
  apply bind_ok in A. destruct A as (y & w3 & O & A). unfold op_on in O.
  destruct (step env (OGeneric (HStr "Start Time") World_) (w_in w)) as [s r] eqn:St. inversion O; subst w3 r; clear O.
  destruct y; try discriminate. unfold ret in A. inversion A; subst w2 v0; clear A.
  apply bind_ok in X. destruct X as (y & w3 & O & X). unfold op_on in O. cbn [w_in] in O.
  destruct (step env (OGetGeneric v) s) as [s' r] eqn:Sg. inversion O; subst w3 r; clear O.
  destruct y; try discriminate. destruct g; try discriminate. unfold bind, as_time, ret, set_time in X. inversion X; subst w1.
  exists s, v, t, s'. auto.
Qed.
Lemma start_go w s v t s' : step env (OGeneric (HStr "Start Time") World_) (w_in w) = (s, Ok (VView v)) ->
  step env (OGetGeneric v) s = (s', Ok (VGen (GTime t))) ->
  start_time env w = (mkWorld s' (w_out w) (w_views w) (w_coef w) (dt_ns t) (w_timestep w) (w_count w) (w_junk w), Ok tt).
Proof.
  intros St Sg. unfold start_time, a_view.
  rewrite (bind_go _ _ _ (mkWorld s (w_out w) (w_views w) (w_coef w) (w_time w) (w_timestep w) (w_count w) (w_junk w)) v).
  2: { unfold bind, op_on. rewrite St. reflexivity. }
  rewrite (bind_go _ _ _ (mkWorld s' (w_out w) (w_views w) (w_coef w) (w_time w) (w_timestep w) (w_count w) (w_junk w)) (VGen (GTime t))).
  2: { unfold op_on. cbn [w_in w_out w_views w_coef w_time w_timestep w_count w_junk]. rewrite Sg. reflexivity. }
  reflexivity.
Qed.

(** ** Requesting the output series again *)
Lemma outs_evo tp tpa xs : forall s so vs, outs tp tpa xs s so vs -> wf env s ->
  wf env so /\ evo s so /\ (exists l, st_views so = st_views s ++ l) /\ map fst vs = map nm (rev xs).
Proof.
  induction xs as [|x xs IH]; cbn [outs]; intros s so vs O W.
  - destruct O as [-> ->]. split; auto. split; [apply evo_refl|]. split; auto. exists []. now rewrite app_nil_r.
  - destruct O as (s1 & v & vs' & St & O & ->). pose proof (after_eq env (oS x tp tpa) s) as Ae. rewrite St in Ae.
    assert (E1 : s1 = after env (oS x tp tpa) s) by congruence.
    pose proof (evo_after env (oS x tp tpa) s) as Ev. rewrite <- E1 in Ev.
    assert (W1 : wf env s1) by (rewrite E1; now apply wf_after).
    destruct (IH _ _ _ O W1) as (W2 & E2 & (l & L) & N). split; auto. split; [eapply evo_trans; eauto|]. split.
    + destruct (request_appends env (oS x tp tpa) s _ eq_refl) as (l' & L' & _). rewrite <- E1 in L'.
      exists (l' ++ l). rewrite L, L'. now rewrite app_assoc.
    + cbn [rev]. rewrite !map_app, N. reflexivity.
Qed.

Lemma outs_names tp tpa xs : forall s so vs, outs tp tpa xs s so vs -> map fst vs = map nm (rev xs).
Proof.
  induction xs as [|x xs IH]; cbn [outs]; intros s so vs O; [destruct O as [_ ->]; reflexivity|].
  destruct O as (s1 & v & vs' & _ & O & ->). cbn [rev]. rewrite !map_app, (IH _ _ _ O). reflexivity.
Qed.

(** The parameter of series [x] is a leaf, and the same in [so] and [S2] but for its data. *)
Definition ready (so S2 : state) (x : series) : Prop := exists p q1 q,
  param_at so ["World"] (full x) = Some p /\ nth_error (st_params so) p = Some q1 /\ p_children q1 = [] /\
  param_at S2 ["World"] (full x) = Some p /\ nth_error (st_params S2) p = Some q /\ psame q1 q.
Lemma ready_appended so S2 l x : ready so S2 x -> ready so (appended S2 l) x.
Proof.
  intros (p & q1 & q & A1 & Q1 & C & A2 & Q & Ps). exists p, q1, q. repeat (split; auto).
  rewrite <- A2. now apply param_at_same.
Qed.
Lemma alookup_none {A} c (a : list (string * A)) : ~ List.In c (map fst a) -> alookup c a = None.
Proof. induction a as [|[c' x] a IH]; cbn; intros N; [reflexivity|]. destruct (String.eqb_spec c c') as [->|]; [exfalso; auto|auto]. Qed.
Lemma not_in_names x xs : ~ List.In x xs -> ~ List.In (nm x) (map nm (rev xs)).
Proof. intros N I. apply in_map_iff in I. destruct I as (y & E & Iy). apply nm_inj in E. subst. apply N. now apply in_rev. Qed.

Lemma outs_again tp tpa xs : NoDup xs -> forall s so vs, outs tp tpa xs s so vs -> wf env s ->
  forall S2, (forall x, List.In x xs -> ready so S2 x) ->
  exists l vs2, outs tp tpa xs S2 (appended S2 l) vs2 /\
    forall x, List.In x xs -> exists i j v, alookup (nm x) vs = Some i /\ alookup (nm x) vs2 = Some j /\
      nth_error (st_views so) i = Some v /\ nth_error (st_views (appended S2 l)) j = Some v /\
      param_at so ["World"] (full x) = Some (v_param v).
Proof.
  induction xs as [|x xs IH]; cbn [outs]; intros Nd s so vs O W S2 Rd.
  - exists [], []. split; [|intros x []]. split; auto. unfold appended. rewrite app_nil_r. now destruct S2.
  - destruct O as (s1 & v & vs' & St & O & ->). apply NoDup_cons_iff in Nd. destruct Nd as [Nx Nd].
    pose proof (after_eq env (oS x tp tpa) s) as Ae. rewrite St in Ae.
    assert (E1 : s1 = after env (oS x tp tpa) s) by congruence.
    assert (Ea : answer env (oS x tp tpa) s = Ok (VView v)) by congruence.
    assert (W1 : wf env s1) by (rewrite E1; now apply wf_after).
    destruct (outs_evo _ _ _ _ _ _ O W1) as (W2 & E2 & (lv & L) & N).
    destruct (Rd x (or_introl eq_refl)) as (p & q1 & q & A1 & Q1 & C & A2 & Q & Ps).
    assert (Rq : exists t, is_ts t /\ requests (oS x tp tpa) (HSeq (full x)) World_ t (Some (series_unit x))
      (Some (mkTP 1 match x with Forc => tpa | _ => tp end))).
    { apply (requests_series x (series_unit x) (match x with Forc => tpa | _ => tp end) (series_type x)); [destruct x; simpl; auto|reflexivity]. }
    destruct Rq as (t & _ & Rq). destruct (request_ok_reports env _ _ _ _ _ _ _ _ W Rq Ea) as
      (p' & q' & At & Q' & T' & Rd' & _). rewrite <- E1 in At, Q'.
    change (hcomponents World_) with ["World"] in At. change (hcomponents (HSeq (full x))) with (full x) in At.
    pose proof (param_at_evo _ _ _ _ _ E2 At) as At2. assert (p' = p) by congruence. subst p'.
    destruct (ev_params _ _ E2 _ _ Q') as (q1' & Q1' & Pe). assert (q1' = q1) by congruence. subst q1'.
    destruct (pe_type _ _ Pe ltac:(congruence)) as (Pt & Pu & Pi).
    destruct (ts_leaf_again env (HSeq (full x)) (series_unit x) _ World_ (AStr (series_type x)) (AEnum ILINEAR) (AEnum XNONE)
      s s1 v p q' q W St At Q' S2 A2 Q) as (vw & V1 & Pv & Kv & St2).
    { rewrite (ps_type _ _ Ps). exact Pt. } { rewrite (ps_unit _ _ Ps). exact Pu. } { rewrite (ps_tp _ _ Ps). exact Pi. }
    { rewrite (ps_read _ _ Ps), Rd'. now apply (pe_read _ _ Pe). }
    { rewrite <- (pe_frozen _ _ Pe); auto. } { now rewrite (ps_children _ _ Ps). }
    destruct (IH Nd _ _ _ O W1 (appended S2 [vw])) as (l & vs2 & O2 & Al).
    { intros y Iy. apply ready_appended. apply Rd. now right. }
    pose proof (outs_evo _ _ _ _ _ _ O W1) as (_ & _ & _ & Nm). 
    assert (Nm2 : map fst vs2 = map nm (rev xs)).
    { eapply outs_names; eauto. }
    assert (App : appended (appended S2 [vw]) l = appended S2 ([vw] ++ l)) by (unfold appended; simpl; now rewrite <- app_assoc).
    exists ([vw] ++ l), (vs2 ++ [(nm x, length (st_views S2))]). split.
    + exists (appended S2 [vw]), (length (st_views S2)), vs2. split; [exact St2|]. rewrite <- App. auto.
    + intros y [<-|Iy].
      * exists v, (length (st_views S2)), vw. rewrite !alookup_app.
        rewrite (alookup_none (nm x) vs') by (rewrite Nm; now apply not_in_names).
        rewrite (alookup_none (nm x) vs2) by (rewrite Nm2; now apply not_in_names).
        cbn [alookup]. rewrite String.eqb_refl. split; auto. split; auto. split; [rewrite L; apply nth_app_old; auto|].
        split; [|congruence]. unfold appended. cbn [st_views]. rewrite nth_error_app2, Nat.sub_diag by lia. reflexivity.
      * destruct (Al y Iy) as (i & j & v' & A & A' & V & V' & Pp). exists i, j, v'.
        rewrite !alookup_app, A, A'. repeat (split; auto). now rewrite <- App.
Qed.

(** ** Reading attributes while views are added *)
Lemma leaf_get_appended s l c x : scalar_leaf_get s c = Ok x -> scalar_leaf_get (appended s l) c = Ok x.
Proof.
  unfold scalar_leaf_get, appended. cbn [st_views st_params]. destruct (nth_error (st_views s) c) as [v|] eqn:V; [|discriminate].
  rewrite (nth_app_old _ _ _ _ V). auto.
Qed.
Lemma rmap_keep {A C} (f g : A -> res C) l : (forall a c, f a = Ok c -> g a = Ok c) ->
  forall m, rmap f l = Ok m -> rmap g l = Ok m.
Proof.
  intros K. induction l as [|a l IH]; simpl; auto. intros m. unfold rbind. destruct (f a) as [c|] eqn:F; [|discriminate].
  rewrite (K _ _ F). destruct (rmap f l) as [m'|]; [|discriminate]. rewrite (IH _ eq_refl). auto.
Qed.
Lemma scalar_get_appended s l v x : scalar_get s v = Ok x -> scalar_get (appended s l) v = Ok x.
Proof.
  unfold scalar_get. change (st_params (appended s l)) with (st_params s).
  destruct (nth_error (st_params s) (v_param v)) as [q|]; auto. destruct (has_children q); auto.
  destruct (v_children v); auto. unfold rbind. destruct (rmap (scalar_leaf_get s) l0) as [m|] eqn:R; [|discriminate].
  rewrite (rmap_keep _ (scalar_leaf_get (appended s l)) _ (leaf_get_appended s l) _ R). auto.
Qed.
Lemma reads_appended n w w' l : w_in w' = appended (w_in w) l -> alookup n (w_views w') = alookup n (w_views w) ->
  (forall x, snd (scalar env n w) = Ok x -> snd (scalar env n w') = Ok x) /\
  (forall x, snd (generic env n w) = Ok x -> snd (generic env n w') = Ok x).
Proof.
  intros E Al. unfold scalar, generic, bind, view_of. rewrite Al. destruct (alookup n (w_views w)) as [v|]; [|auto].
  unfold op_on. rewrite E. cbn [step]. unfold with_view. change (st_views (appended (w_in w) l)) with (st_views (w_in w) ++ l).
  destruct (nth_error (st_views (w_in w)) v) as [c|] eqn:V; [|split; discriminate]. rewrite (nth_app_old _ _ _ _ V).
  destruct (v_public c); [|split; auto]. destruct (v_kind c); cbn; split; try discriminate; auto.
  - intros x. unfold lift. destruct (scalar_get (w_in w) c) as [y|] eqn:G; [|discriminate].
    rewrite (scalar_get_appended _ l _ _ G). auto.
  - intros x. unfold lift. change (generic_get (appended (w_in w) l) c) with (generic_get (w_in w) c).
    destruct (generic_get (w_in w) c); auto.
Qed.

(** The start time of the inputs: requested again, it is one more view of the same parameter. *)
Definition gview (p : nat) : view := mkView true KGeneric p "" dummy_uconv dummy_tconv None false None false None.
Lemma start_known w v : sane env w -> alookup "start_time" (w_views w) = Some v ->
  exists p q, param_at (w_in w) ["World"] ["Start Time"] = Some p /\ nth_error (st_params (w_in w)) p = Some q /\
    p_type q = Some GENERIC /\ p_read q = true.
Proof.
  intros Sw Al. destruct (sn_start _ _ Sw _ Al) as (c & p & V & Pv & Pb & K & At).
  destruct (wf_views _ _ (reachable_wf env _ (sn_in _ _ Sw)) _ _ V) as (q & Q & Vi). rewrite Pv in Q.
  destruct (vi_public _ _ _ _ _ Vi Pb) as (Rd & T & _). exists p, q. repeat (split; auto).
  rewrite T. unfold vtype. now rewrite K.
Qed.
Lemma start_request s p q : param_at s ["World"] ["Start Time"] = Some p -> nth_error (st_params s) p = Some q ->
  p_type q = Some GENERIC -> p_read q = true ->
  step env (OGeneric (HStr "Start Time") World_) s = (appended s [gview p], Ok (VView (length (st_views s)))).
Proof. intros. eapply (generic_again env (HStr "Start Time") World_); eauto. Qed.
Lemma start_read s p : exists r, forall s2, st_params s2 = st_params s ->
  step env (OGetGeneric (length (st_views s2))) (appended s2 [gview p]) = (appended s2 [gview p], r).
Proof.
  eexists. intros s2 E. cbn [step]. unfold with_view. unfold appended at 1. cbn [st_views].
  rewrite nth_error_app2, Nat.sub_diag by lia. cbn [nth_error gview v_public v_kind]. unfold lift.
  instantiate (1 := match generic_get s (gview p) with Ok a => Ok (VGen a) | Err e => Err e end).
  replace (generic_get (appended s2 [gview p]) (gview p)) with (generic_get s (gview p)).
  - fold (gview p). destruct (generic_get s (gview p)); reflexivity.
  - unfold generic_get, appended. cbn [st_params]. now rewrite E.
Qed.

Lemma attributes_same n (vs : list (string * nat)) vE (l : list (string * nat)) : ~ List.In n series_attributes -> map fst vs = map nm (rev all_series) ->
  alookup n (vs ++ ("E", vE) :: l) = alookup n l.
Proof.
  intros N E. rewrite alookup_app, (alookup_none n vs).
  - cbn [alookup]. destruct (String.eqb_spec n "E") as [->|]; auto. exfalso. apply N. left. auto.
  - rewrite E. intros I. apply N. unfold series_attributes. simpl in I |- *. tauto.
Qed.

Lemma time_generic n w t : snd (time_of env n w) = Ok t <-> snd (generic env n w) = Ok (GTime t).
Proof.
  unfold time_of, bind. rewrite generic_pure. destruct (snd (generic env n w)) as [g|]; [|split; discriminate].
  destruct g; simpl; split; intros X; inversion X; auto.
Qed.
Lemma delta_generic n w t : snd (delta_of env n w) = Ok t <-> snd (generic env n w) = Ok (GDelta t).
Proof.
  unfold delta_of, bind. rewrite generic_pure. destruct (snd (generic env n w)) as [g|]; [|split; discriminate].
  destruct g; simpl; split; intros X; inversion X; auto.
Qed.
Lemma settings_kept w w' start stop period n tp tpa rounding :
  (forall m g, ~ List.In m series_attributes -> snd (generic env m w) = Ok g -> snd (generic env m w') = Ok g) ->
  settings w start stop period n tp tpa rounding -> settings w' start stop period n tp tpa rounding.
Proof.
  intros K [S1 S2 S3 S4 S5 S6 S7]. apply time_generic in S1, S2. apply delta_generic in S3.
  assert (N : forall m, List.In m ["stop_time"; "start_time"; "period_length"; "original_rounding"] -> ~ List.In m series_attributes).
  { intros m Im Is. simpl in Im. unfold series_attributes in Is. simpl in Is.
    repeat (destruct Im as [<-|Im]; [repeat (destruct Is as [Is|Is]; [discriminate|]); contradiction|]). contradiction. }
  constructor; auto; [apply time_generic|apply time_generic|apply delta_generic|]; apply K; auto; apply N; simpl; auto.
Qed.

(** ** Preparing a run again *)
Lemma again_alike a k ak w0 d0 d : used env a -> after_k env a k ak w0 d0 d ->
  exists w1, prepared_world env ak w1 /\ alike env w0 w1.
Proof.
  intros U Ak. destruct (ak_prepared _ _ _ _ _ _ _ Ak) as (a1 & wp & E & Rp & St).
  pose proof (ensure_used env _ _ U E) as Sa. set (wa := a_world world a1) in *.
  pose proof (keeps_params env _ Sa) as Sp. rewrite Rp in Sp. cbn [fst] in Sp.
  destruct (params_inv _ _ Rp) as (start & stop & period & n & tp & tpa & rounding & sE & vE & so & vs & Se & StE & O & Ewp).
  destruct (start_inv _ _ St) as (s & v & t & s' & St1 & Sg1 & Ew0).
  pose proof (ru_sim _ _ _ _ (ak_running _ _ _ _ _ _ _ Ak)) as Jw. pose proof (ru_base _ _ _ _ (ak_running _ _ _ _ _ _ _ Ak)) as B0.
  set (w' := a_world world ak) in *.
  pose proof (reachable_wf env _ (sn_in _ _ Sa)) as Wi. pose proof (reachable_wf env _ (sn_out _ _ Sa)) as Wo.
  destruct (outs_evo _ _ _ _ _ _ O Wo) as (Wso & Evo & (lo & Lo) & Nm).
  (* the start time *)
  assert (Als : exists vst, alookup "start_time" (w_views wp) = Some vst).
  { pose proof (proj1 (time_generic _ _ _) (se_start _ _ _ _ _ _ _ _ Se)) as G. apply generic_view in G. destruct G as (vst & _ & _ & Al & _).
    exists vst. rewrite Ewp. cbn [w_views]. rewrite attributes_same; auto. unfold series_attributes. simpl. intuition discriminate. }
  destruct Als as (vst & Als). destruct (start_known _ _ Sp Als) as (p & q & At & Q & Ty & Rd).
  assert (Ein : w_in wp = sE) by now rewrite Ewp. rewrite Ein in At, Q, St1.
  pose proof (start_request _ _ _ At Q Ty Rd) as Sr. rewrite Sr in St1. inversion St1; subst s v; clear St1.
  destruct (start_read sE p) as (r & Hr). pose proof (Hr sE eq_refl) as Hr1. rewrite Hr1 in Sg1. inversion Sg1; subst s'; clear Sg1. subst r.
  assert (Win : w_in w0 = appended sE [gview p]) by now rewrite Ew0.
  assert (Wout : w_out w0 = so) by (rewrite Ew0; cbn [w_out]; now rewrite Ewp).
  assert (Wvs : w_views w0 = vs ++ ("E", vE) :: w_views wa) by (rewrite Ew0; cbn [w_views]; now rewrite Ewp).
  (* the emissions *)
  pose proof (j_in _ _ _ _ _ _ _ Jw) as Rdi. rewrite Win in Rdi.
  destruct (ts_request_again env _ _ _ _ _ _ _ _ _ _ Wi StE (w_in w') (rd_regions _ _ Rdi) (rd_params _ _ Rdi)) as (lE & vE2 & StE2 & RE).
  (* the settings *)
  assert (Kg : forall m g, ~ List.In m series_attributes -> snd (generic env m wa) = Ok g -> snd (generic env m w') = Ok g).
  { intros m g Nm' G. 
    assert (G1 : snd (generic env m wp) = Ok g).
    { apply (generic_request env (oE rounding tpa) m wa wp); auto.
      - rewrite Ein. unfold after. now rewrite StE.
      - rewrite Ewp. cbn [w_views]. now apply attributes_same. }
    assert (G2 : snd (generic env m w0) = Ok g).
    { revert G1. apply (reads_appended m wp w0 [gview p]); [congruence|]. now rewrite Ew0. }
    change w' with (a_world world ak). rewrite (running_generic env _ _ _ m (ak_running _ _ _ _ _ _ _ Ak)). exact G2. }
  pose proof (settings_kept _ _ _ _ _ _ _ _ _ Kg Se) as Se2.
  (* the outputs *)
  destruct (ak_started env _ _ _ _ _ _ Ak) as (n' & init & Sd).
  assert (Rdy : forall x, List.In x all_series -> ready so (w_out w') x).
  { intros x _. destruct (j_series _ _ _ _ _ _ _ Jw x) as (v0 & q0 & v1 & q1 & V0 & Q0 & V1 & Q1 & Vs & Ps & _).
    destruct (b_get _ _ _ _ _ Sd x) as (g & _ & Gs & _). cbn [i_start I] in Gs.
    assert (Pv0 : v_param v0 = pi_of w0 x) by (unfold pi_of; now rewrite V0).
    assert (Q0' : nth_error (st_params (w_out w0)) (v_param v0) = Some q0) by now rewrite Pv0.
    pose proof (proj1 (start_iff env w0 (vi_of w0) (pi_of w0) x g B0 v0 q0 V0 Q0') Gs) as (Ch & _).
    assert (Shape : forall rs ps, param_at (w_out w') rs ps = param_at so rs ps).
    { rewrite <- Wout. apply param_at_shape; [apply (j_regions _ _ _ _ _ _ _ Jw)|]. intros i.
      destruct (series_or_not (pi_of w0) i) as [(y & ->)|Ni]; [|now rewrite (j_params _ _ _ _ _ _ _ Jw)].
      destruct (j_series _ _ _ _ _ _ _ Jw y) as (a0 & b0 & a2 & b2 & _ & B1 & _ & B2 & _ & Pb & _).
      rewrite B1, B2. cbn. now rewrite (ps_children _ _ Pb). }
    assert (Atx : param_at so ["World"] (full x) = Some (pi_of w0 x)).
    { pose proof (initialize_run_parameters_spec env _ _ Wo Rp) as Rs.
      destruct (rp_views _ _ _ Rs x) as (vx & px & Al & Sv); [destruct x; simpl; auto 10|]. rewrite Ewp in Al, Sv. cbn [w_views w_out] in Al, Sv.
      destruct Sv as [Atx (c & qx & V & Pc & Qx & _)]. rewrite Atx. f_equal. rewrite <- Pc.
      unfold pi_of, vi_of. rewrite Wvs, Al, Wout, V. reflexivity. }
    exists (pi_of w0 x), q0, q1. rewrite Shape. split; auto. split; [now rewrite <- Wout|]. split; auto. }
  assert (Nd : NoDup all_series) by (repeat constructor; simpl; intuition discriminate).
  destruct (outs_again _ _ _ Nd _ _ _ O Wo (w_out w') Rdy) as (l2 & vs2 & O2 & Al2).
  pose proof (params_go _ _ _ _ _ _ _ _ _ _ _ _ Se2 StE2 O2) as Go.
  set (wp2 := mkWorld (appended (w_in w') lE) (appended (w_out w') l2) (vs2 ++ ("E", vE2) :: w_views w') (w_coef w') (w_time w') (Some 0%Z) (Some n) (w_junk w')) in *.
  assert (P2 : st_params (w_in wp2) = st_params sE) by apply (rd_params _ _ Rdi).
  assert (At2 : param_at (w_in wp2) ["World"] ["Start Time"] = Some p).
  { rewrite <- At. apply param_at_same; auto. apply (rd_regions _ _ Rdi). }
  pose proof (start_request (w_in wp2) p q At2 ltac:(now rewrite P2) Ty Rd) as Sr2.
  pose proof (start_go _ _ _ _ _ Sr2 (Hr _ P2)) as Go2.
  eexists. split.
  - exists ak, wp2. split; [|split; [exact Go|exact Go2]].
    unfold ensure_initialized. now rewrite (ru_init _ _ _ _ (ak_running _ _ _ _ _ _ _ Ak)).
  - assert (Nm2 : map fst vs2 = map nm (rev all_series)).
    { eapply outs_names; eauto. }
    assert (Lk : forall m, ~ List.In m series_attributes -> alookup m (w_views wp2) = alookup m (w_views w')).
    { intros m Nm'. unfold wp2. cbn [w_views]. now apply attributes_same. }
    assert (App : forall l m, appended (appended (w_in w') l) m = appended (w_in w') (l ++ m)).
    { intros l m. unfold appended. cbn. now rewrite <- app_assoc. }
    constructor.
    + intros m x Nm' X. cbn beta in X. change (i_scalar (In w0) m = Ok x) in X. rewrite <- (running_scalar env _ _ _ m (ak_running _ _ _ _ _ _ _ Ak)) in X.
      revert X. eapply (reads_appended m w'); [cbn [w_in wp2]; apply App|]. apply Lk; auto.
    + intros m x Nm' X. cbn beta in X. change (i_generic (In w0) m = Ok x) in X. rewrite <- (running_generic env _ _ _ m (ak_running _ _ _ _ _ _ _ Ak)) in X.
      revert X. eapply (reads_appended m w'); [cbn [w_in wp2]; apply App|]. apply Lk; auto.
    + unfold read_E. cbn [w_views w_in wp2]. rewrite Wvs, Win. rewrite !alookup_app.
      rewrite (alookup_none "E" vs2), (alookup_none "E" vs).
      2: { rewrite Nm. simpl. intuition discriminate. } 2: { rewrite Nm2. simpl. intuition discriminate. }
      cbn [alookup]. rewrite String.eqb_refl. now rewrite (RE [gview p] [gview p]).
    + rewrite Ew0. cbn [w_count]. now rewrite Ewp.
    + now rewrite Ew0.
    + cbn [w_out wp2 st_regions appended]. apply (j_regions _ _ _ _ _ _ _ Jw).
    + intros i Ni. cbn [w_out wp2 st_params appended]. now apply (j_params _ _ _ _ _ _ _ Jw).
    + intros x. destruct (Al2 x) as (i & j & vw & A1 & A2 & V1 & V2 & Pa); [destruct x; simpl; auto 10|].
      destruct (j_series _ _ _ _ _ _ _ Jw x) as (v0 & q0 & v1 & q1 & V0 & Q0 & _ & Q1 & _ & Ps & _).
      assert (Vi : vi_of w0 x = i) by (unfold vi_of; now rewrite Wvs, alookup_app, A1).
      rewrite Vi, Wout in V0. assert (v0 = vw) by congruence. subst v0.
      assert (Pi : pi_of w0 x = v_param vw) by (unfold pi_of; now rewrite Vi, Wout, V1).
      exists vw, q0, vw, q1. rewrite Vi, Wout. split; auto. split; [rewrite <- Pi, <- Wout; auto|].
      unfold vi_of. cbn [w_views w_out wp2]. rewrite alookup_app, A2. split; auto.
      split; [rewrite <- Pi; exact Q1|]. split; auto.
Qed.

(** ** Left-over attributes do not matter *)
Definition like (w w' : world) : Prop := w_in w' = w_in w /\ w_out w' = w_out w /\ w_views w' = w_views w.
Definition resp {A} (m : M A) : Prop := forall w w', like w w' ->
  snd (m w') = snd (m w) /\ like (fst (m w)) (fst (m w')).
Lemma resp_ret {A} (a : A) : resp (ret a). Proof. split; auto. Qed.
Lemma resp_raise {A} e : resp (@raise A e). Proof. split; auto. Qed.
Lemma resp_bind {A C} (m : M A) (f : A -> M C) : resp m -> (forall a, resp (f a)) -> resp (bind m f).
Proof.
  intros Rm Rf w w' L. destruct (Rm w w' L) as [E1 E2]. unfold bind.
  destruct (m w) as [w1 r1], (m w') as [w1' r1']. cbn [fst snd] in *. subst r1'. destruct r1; [|split; auto]. now apply Rf.
Qed.
Lemma resp_op sd o : resp (op_on env sd o).
Proof.
  intros w w' (L1 & L2 & L3). unfold op_on. destruct sd; [rewrite L1; destruct (step env o (w_in w))|rewrite L2; destruct (step env o (w_out w))];
    cbn; split; auto; split; auto.
Qed.
Lemma resp_a_view sd o : resp (a_view env sd o).
Proof.
  unfold a_view. apply resp_bind; [apply resp_op|]. intros []; try apply resp_raise. apply resp_ret.
Qed.
Lemma resp_is_empty n : resp (is_empty n).
Proof. intros w w' L. destruct L as (L1 & L2 & L3). unfold is_empty. rewrite L1. split; [|split]; auto. Qed.
Lemma resp_set_view n v : resp (set_view_of n v).
Proof. intros w w' (L1 & L2 & L3). cbn. split; auto. split; auto. split; auto. cbn. now rewrite L3. Qed.
Lemma resp_clear : resp clear_values.
Proof. intros w w' (L1 & L2 & L3). cbn. split; auto. split; auto. Qed.
Lemma resp_for_each {A} (l : list A) f : (forall a, resp (f a)) -> resp (for_each l f).
Proof. intros R. induction l as [|a l IH]; simpl; [apply resp_ret|]. apply resp_bind; auto. Qed.
Lemma resp_parameter n f v u : resp (set_parameter env n f v u).
Proof.
  unfold set_parameter. apply resp_bind; [apply resp_a_view|]. intros p. apply resp_bind; [apply resp_is_empty|]. intros b.
  apply resp_bind; [|intros; apply resp_set_view].
  destruct v; destruct b; try apply resp_ret; apply resp_bind; try apply resp_op; intros; apply resp_ret.
Qed.
Lemma resp_model : resp (initialize_model env).
Proof.
  unfold initialize_model. apply resp_bind; [apply resp_clear|]. intros _. apply resp_bind.
  - apply resp_for_each. intros [n0 [d0 u0]]. apply resp_parameter.
  - intros _. apply resp_for_each. intros [n0 [[st0 d0] u0]]. apply resp_parameter.
Qed.

Lemma like_alike a b w0 : used env a -> same_start a b -> prepared_world env a w0 ->
  base env w0 (vi_of w0) (pi_of w0) -> exists w1, prepared_world env b w1 /\ alike env w0 w1.
Proof.
  intros U (S1 & S2 & S3 & S4) (a1 & wp & E & Rp & St) B0. pose proof (ensure_used env _ _ U E) as Sa.
  assert (E' : exists b1, ensure_initialized world H b = (b1, Ok tt) /\ like (a_world _ a1) (a_world _ b1)).
  { unfold ensure_initialized in *. rewrite S4. destruct (a_initialized world a); [exists b; inversion E; subst; split; auto; split; auto|].
    unfold call in *. cbn [h_initialize_model dice_hooks] in *.
    destruct (resp_model (a_world world a) (a_world world b)) as [R1 R2]; [split; auto|].
    destruct (initialize_model env (a_world world a)) as [x [[]|e]]; [|discriminate].
    destruct (initialize_model env (a_world world b)) as [x' r']. cbn [fst snd] in *. subst r'. cbn in E |- *. inversion E; subst.
    eexists. split; [reflexivity|]. exact R2. }
  destruct E' as (b1 & E' & (L1 & L2 & L3)). set (wa := a_world world a1) in *. set (wb := a_world world b1) in *.
  destruct (params_inv _ _ Rp) as (start & stop & period & n & tp & tpa & rounding & sE & vE & so & vs & Se & StE & O & Ewp).
  destruct (start_inv _ _ St) as (s & v & t & s' & St1 & Sg1 & Ew0).
  assert (Rd : rd (w_in wa) (w_in wb)) by (rewrite L1; apply rd_refl).
  assert (Se2 : settings wb start stop period n tp tpa rounding).
  { revert Se. apply settings_kept. intros m g _ G. rewrite <- G. apply (proj2 (scalar_rd env m wa wb Rd L3)). }
  rewrite <- L1 in StE. rewrite <- L2 in O. pose proof (params_go _ _ _ _ _ _ _ _ _ _ _ _ Se2 StE O) as Go.
  set (wp2 := mkWorld sE so (vs ++ ("E", vE) :: w_views wb) (w_coef wb) (w_time wb) (Some 0%Z) (Some n) (w_junk wb)) in *.
  assert (Ei : w_in wp = w_in wp2) by (rewrite Ewp; reflexivity). rewrite Ei in St1.
  pose proof (start_go _ _ _ _ _ St1 Sg1) as Go2. eexists. split; [exists b1, wp2; split; [exact E'|split; [exact Go|exact Go2]]|].
  match type of Go2 with _ = (?w, _) => set (w1 := w) in * end.
  assert (V1 : w_views w1 = w_views w0) by (rewrite Ew0; cbn [w_views w1 wp2]; rewrite Ewp; cbn [w_views]; now rewrite L3).
  assert (I1 : w_in w1 = w_in w0) by now rewrite Ew0.
  assert (O1 : w_out w1 = w_out w0) by (rewrite Ew0; cbn [w_out w1 wp2]; now rewrite Ewp).
  assert (Rd1 : rd (w_in w0) (w_in w1)) by (rewrite I1; apply rd_refl).
  constructor.
  - intros m x _. now rewrite (proj1 (scalar_rd env m w0 w1 Rd1 V1)).
  - intros m x _. now rewrite (proj2 (scalar_rd env m w0 w1 Rd1 V1)).
  - unfold read_E. now rewrite V1, I1.
  - rewrite Ew0. cbn [w_count w1 wp2]. now rewrite Ewp.
  - now rewrite Ew0.
  - now rewrite O1.
  - intros. now rewrite O1.
  - intros x. destruct (ba_cells _ _ _ _ B0 x) as (c & q & V & Pv & Q & _). exists c, q, c, q.
    unfold vi_of. rewrite O1, V1. fold (vi_of w0 x). rewrite Pv. split; auto. split; auto. split; auto. split; auto.
    split; auto. split; auto. split; auto. apply psame_refl.
Qed.

(** ** C46 *)
Lemma start_proof a a' b : runs env a a' -> used env b -> same_start a b ->
  exists b', do_call world H SRun b = (b', Ok tt) /\ same_results env a' b'.
Proof.
  intros R Ub S. destruct (run_ok env _ _ R) as (w0 & d0 & d & n & N & Ak). destruct R as [U C].
  destruct (like_alike _ _ _ U S (ak_prepared _ _ _ _ _ _ _ Ak) (ru_base _ _ _ _ (ak_running _ _ _ _ _ _ _ Ak))) as (w1 & Pw & A).
  eapply alike_run; eauto. now apply used_wf.
Qed.
Lemma used_does c a a' r : used env a -> do_call world H c a = (a', r) -> used env a'.
Proof. intros U E. replace a' with (fst (do_call world H c a)) by now rewrite E. now constructor. Qed.
Lemma again_proof a a' : runs env a a' -> exists a'', do_call world H SRun a' = (a'', Ok tt) /\ same_results env a' a''.
Proof.
  intros R. destruct (run_ok env _ _ R) as (w0 & d0 & d & n & N & Ak). destruct R as [U C].
  destruct (again_alike _ _ _ _ _ _ U Ak) as (w1 & Pw & A).
  eapply alike_run; eauto. apply used_wf. eapply used_does; eauto.
Qed.
Lemma used_steps k : forall a b, used env a -> steps env k a b -> used env b.
Proof.
  induction k; simpl; intros a b U S; [now subst|]. destruct S as (c & E & S). exact (IHk _ _ (used_does SStep _ _ _ U E) S).
Qed.
Lemma prepared_det a w w' : prepared_world env a w -> prepared_world env a w' -> w' = w.
Proof. intros (a1 & w1 & E1 & R1 & S1) (a2 & w2 & E2 & R2 & S2). congruence. Qed.
Lemma after_steps_proof a a1 k ak a' : resets env a a1 -> steps env k a1 ak -> runs env a a' ->
  exists b, do_call world H SRun ak = (b, Ok tt) /\ same_results env a' b.
Proof.
  intros Re S R. destruct (run_ok env _ _ R) as (w0 & d0 & d & n & N & Ak).
  destruct (steps_after env _ _ _ _ Re S) as (w0' & d0' & d' & Ak').
  assert (w0' = w0) by (eapply prepared_det; [apply Ak|apply Ak']). subst w0'.
  destruct (again_alike _ _ _ _ _ _ (proj1 R) Ak') as (w1 & Pw & A).
  eapply alike_run; eauto. apply used_wf. eapply used_steps; [|exact S]. destruct Re. eapply used_does; eauto.
Qed.
Lemma same_trans a b c : same_results env a b -> same_results env b c -> same_results env a c.
Proof.
  intros ((R1 & P1) & T1 & O1) ((R2 & P2) & T2 & O2). split; [split; congruence|]. split; [congruence|].
  intros x i N. rewrite O1; auto.
Qed.
Lemma many_proof k : forall a a' b, runs env a a' -> run_times env k a' b -> same_results env a' b.
Proof.
  induction k as [|k IH]; simpl; intros a a' b R X.
  - subst. split; [split; auto|split; auto].
  - destruct X as (c & r & E & X). destruct (again_proof _ _ R) as (c' & E' & Sc).
    change (scm_run world H a') with (do_call world H SRun a') in E. rewrite E in E'. inversion E'; subst c' r. eapply same_trans; [exact Sc|].
    apply (IH a'); [split; [|exact E]|exact X]. destruct R as [U R]. exact (used_does SRun _ _ _ U R).
Qed.
End R.
