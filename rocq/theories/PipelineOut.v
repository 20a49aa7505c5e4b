(** Proof of C91: what the parameter set of outputs holds. *)
From Coq Require Import String List ZArith Reals Bool Arith Lia Sorted.
From Verif Require Import Base ListFacts Units TimeModel Calendar CalendarFacts Core CoreEvo CoreTree CoreNames
  CoreInv CoreStep Spec_Core CoreReq CoreP1 CoreP2 CoreView Adapters Dice.

From Verif Require DiceInit.
From Verif Require Import DiceSim DiceBase Spec_Dice DiceMachine DiceUsed DiceProps DiceRepeat.
From Verif Require Import Spec_Time TimeFacts TimeProps StoreHolds StoreCalls PipelineKept PipelineDice Pipeline.
From Verif Require Import Spec_Pipeline.
Import ListNotations.
Local Open Scope string_scope.
Local Open Scope list_scope.

Definition ux (x : series) : string := match x with Mat | Ml | Mu => "GtC" | Tatm | Tocean => "delta_degC" | Forc => "W/m^2" end.
Definition tyx (x : series) : ptype := match x with Forc => AVERAGE_TIMESERIES | _ => POINT_TIMESERIES end.
Definition tynx (x : series) : string := match x with Forc => "average" | _ => "point" end.
Definition gx (tp tpa : list Z) (x : series) : list Z := match x with Forc => tpa | _ => tp end.
Definition six : list series := [Mat; Ml; Mu; Tatm; Tocean; Forc].
Definition ent (tp tpa : list Z) (x : series) (d : list num) : entry :=
  mkEntry ["World"] (full x) (tyx x) (Some (ux x)) (Some (mkTP 1 (gx tp tpa x))) (PArr d).

Section O.
Variable env : uenv.

Definition oview (tp tpa : list Z) (w : world) (x : series) : Prop :=
  exists vi v, alookup (nm x) (w_views w) = Some vi /\ nth_error (st_views (w_out w)) vi = Some v /\
    param_at (w_out w) ["World"] (full x) = Some (v_param v) /\
    unit_converter env (Some (ux x)) (Some (ux x)) = Ok (v_uconv v) /\
    timeseries_converter (gx tp tpa x) (gx tp tpa x) (tyx x) XNONE = Ok (v_tconv v).
Definition outs tp tpa (w : world) (xs : list series) : Prop :=
  kept env (w_out w) (map (fun x => ent tp tpa x []) xs) /\ forall x, In x xs -> oview tp tpa w x.

Lemma full_apart x y : x <> y -> ~ prefix (full x) (full y).
Proof. intros N [m E]. destruct x, y; try congruence; cbn in E; try discriminate E; injection E; try discriminate. Qed.

Lemma out_series_outs tp tpa x w w' xs : outs tp tpa w xs -> ~ In x xs ->
  out_series env (nm x) (full x) (ux x) (gx tp tpa x) (tynx x) w = (w', Ok tt) -> outs tp tpa w' (xs ++ [x]).
Proof.
  intros [K V] N H. unfold out_series in H. apply bind_ok in H. destruct H as (v & w1 & A & H).
  unfold set_view_of in H. inversion H; subst w'; clear H.
  unfold a_view in A. apply bind_ok in A. destruct A as (y & w2 & O & A).
  destruct y; try discriminate. inversion A; subst w2 v0; clear A.
  unfold op_on in O. destruct (step env _ (w_out w)) as [s' r] eqn:St. inversion O; subst r w1; clear O.
  apply (kept_request env _ (map (fun x => ent tp tpa x []) xs) _ _ _ (tyx x)) in St; [| |destruct x; reflexivity|exact K|destruct x; discriminate|].
  2: { destruct x; cbn; unfold timeseries; auto. }
  2: { intros e' I _. apply in_map_iff in I. destruct I as (y & <- & I). cbn [ent e_name].
       assert (x <> y) by (intros ->; contradiction). split; apply full_apart; congruence. }
  destruct St as (K' & Ap & Ev & v0 & Nv & Pa & U & T). split.
  - rewrite map_app. exact K'.
  - intros y I. apply in_app_iff in I. destruct I as [I|[<-|[]]].
    + destruct (V y I) as (vi & vv & Al & Nt & P & UU & TT). exists vi, vv. cbn [w_views w_out alookup].
      destruct (String.eqb_spec (nm y) (nm x)) as [E|E]; [apply nm_inj in E; subst; contradiction|].
      split; [exact Al|]. split; [rewrite Ap; now apply nth_app_old|]. split; [eapply param_at_evo; eauto|auto].
    + exists v, v0. cbn [w_views w_out alookup]. rewrite String.eqb_refl. auto.
Qed.

Lemma params_outs w w1 : w_out w = init_state "World" -> Dice.initialize_run_parameters env w = (w1, Ok tt) ->
  exists start period n tp tpa, snd (generic env "start_time" w) = Ok (GTime start) /\
    snd (generic env "period_length" w) = Ok (GDelta period) /\
    w_count w1 = Some n /\ create_time_points start period n (AEnum POINT_TIMESERIES) = Ok tp /\
    create_time_points start period n (AEnum AVERAGE_TIMESERIES) = Ok tpa /\ outs tp tpa w1 six.
Proof.
  intros F H. unfold Dice.initialize_run_parameters in H. unfold bind at 1, set_timestep in H.
  set (w1' := mkWorld (w_in w) (w_out w) (w_views w) (w_coef w) (w_time w) (Some 0%Z) (w_count w) (w_junk w)) in H.
  assert (G : forall n g, snd (generic env n w1') = Ok g -> snd (generic env n w) = Ok g) by (intros n g; now apply generic_of_views).
  apply bind_ok in H. destruct H as (stop & w2 & E1 & H). pose proof (time_of_id env _ _ _ _ E1); subst w2.
  apply bind_ok in H. destruct H as (start & w2 & E2 & H). pose proof (time_of_id env _ _ _ _ E2); subst w2.
  apply bind_ok in H. destruct H as (period & w2 & E3 & H). pose proof (delta_of_id env _ _ _ _ E3); subst w2.
  apply bind_ok in H. destruct H as (n & w2 & E4 & H). unfold lift_res in E4. inversion E4; subst w2; clear E4.
  apply (f_equal snd) in E2, E3. apply time_of_generic, G in E2. apply delta_of_generic, G in E3.
  unfold bind at 1, set_count at 1 in H. simpl in H.
  apply bind_ok in H. destruct H as (tp & w2 & E5 & H). unfold lift_res in E5. inversion E5; subst w2; clear E5.
  apply bind_ok in H. destruct H as (tpa & w2 & E5 & H). unfold lift_res in E5. inversion E5; subst w2; clear E5.
  apply bind_ok in H. destruct H as (rounding & w2 & E5 & H). apply generic_id in E5. subst w2.
  apply bind_ok in H. destruct H as (v & w2 & E5 & H). apply a_view_in_only in E5. destruct E5 as [IO _ _ _ _ IC _]. cbn in IO, IC.
  unfold bind at 1, set_view_of at 1 in H.
  match type of H with _ ?w3 = _ => set (w3' := w3) in H end.
  assert (O0 : outs tp tpa w3' []).
  { split; [|intros x []]. cbn [w3' w_out map]. rewrite IO, F. apply kept_init. }
  assert (C0 : w_count w3' = Some n) by exact IC. clearbody w3'.
  exists start, period, n, tp, tpa.
  assert (step1 : forall x w w' xs, outs tp tpa w xs -> w_count w = Some n -> ~ In x xs ->
    out_series env (nm x) (full x) (ux x) (gx tp tpa x) (tynx x) w = (w', Ok tt) -> outs tp tpa w' (xs ++ [x]) /\ w_count w' = Some n).
  { intros x y y' xs O C N S. split; [now apply (out_series_outs _ _ _ _ _ _ O N S)|].
    destruct (out_series_in env _ _ _ _ _ _ _ S) as (_ & _ & ->); [destruct x; discriminate|exact C]. }
  repeat (split; [assumption|]).
  apply bind_ok in H. destruct H as ([] & w4 & A1 & H). apply (step1 Mat _ _ _ O0 C0) in A1; [|cbn; intuition discriminate]. destruct A1 as [A1 C1].
  apply bind_ok in H. destruct H as ([] & w5 & A2 & H). apply (step1 Ml _ _ _ A1 C1) in A2; [|cbn; intuition discriminate]. destruct A2 as [A2 C2].
  apply bind_ok in H. destruct H as ([] & w6 & A3 & H). apply (step1 Mu _ _ _ A2 C2) in A3; [|cbn; intuition discriminate]. destruct A3 as [A3 C3].
  apply bind_ok in H. destruct H as ([] & w7 & A4 & H). apply (step1 Tatm _ _ _ A3 C3) in A4; [|cbn; intuition discriminate]. destruct A4 as [A4 C4].
  apply bind_ok in H. destruct H as ([] & w8 & A5 & H). apply (step1 Tocean _ _ _ A4 C4) in A5; [|cbn; intuition discriminate]. destruct A5 as [A5 C5].
  apply (step1 Forc _ _ _ A5 C5) in H; [|cbn; intuition discriminate]. destruct H as [A6 C6].
  split; [exact C6|]. split; [assumption|]. split; [assumption|exact A6].
Qed.

Lemma settings_kept a k ak w0 d0 d a1 w1 m g : used env a -> after_k env a k ak w0 d0 d ->
  ensure_initialized world (dice_hooks env) a = (a1, Ok tt) ->
  Dice.initialize_run_parameters env (a_world _ a1) = (w1, Ok tt) -> start_time env w1 = (w0, Ok tt) ->
  ~ In m ["E"; "mat"; "ml"; "mu"; "tatm"; "tocean"; "forc"] -> snd (generic env m (a_world _ a1)) = Ok g -> setting env ak m = Ok g.
Proof.
  intros Us A E Rp St Nm Hg.
  pose proof (ensure_sane env a (used_sane env a Us)) as S1. rewrite E in S1. cbn [fst] in S1.
  pose proof (DiceUsed.keeps_params env _ S1) as S2. rewrite Rp in S2. cbn [fst] in S2.
  assert (W1 : wf env (w_out (a_world _ a1))) by (apply reachable_wf, S1).
  destruct (initialize_run_parameters_spec env _ _ W1 Rp) as [_ _ _ _ _ _ (o & No & Io) Al _].
  unfold setting. rewrite (running_generic env _ _ _ m (ak_running _ _ _ _ _ _ _ A)). cbn [i_generic DiceSim.I].
  assert (H1 : snd (generic env m w1) = Ok g).
  { apply (generic_request env o m (a_world _ a1) w1 g); auto. apply reachable_wf, S1. }
  unfold start_time in St. apply bind_ok in St. destruct St as (v & w2 & O & St). unfold a_view in O. apply bind_ok in O.
  destruct O as (y & w3 & O & O'). destruct y; try discriminate. inversion O'; subst w3 v0; clear O'. apply DiceInit.op_in in O. destruct O as (I1 & _ & _ & I4 & _).
  apply bind_ok in St. destruct St as (x & w4 & O & St). apply DiceInit.op_in in O. destruct O as (J1 & _ & _ & J4 & _).
  destruct x; try discriminate. destruct g0; try discriminate. unfold bind, as_time, ret, set_time in St. inversion St; subst w0.
  assert (H2 : snd (generic env m w2) = Ok g).
  { apply (generic_request env (OGeneric (HStr "Start Time") World_) m w1 w2 g); auto; [apply reachable_wf, S2|congruence]. }
  apply (generic_of_views env m w4); [reflexivity|reflexivity|].
  apply (generic_request env (OGetGeneric v) m w2 w4 g); auto; [|congruence].
  rewrite I1. apply wf_after, reachable_wf, S2.
Qed.

Lemma instants_increasing t0 d n : (0 < d)%Z -> increasing (instants t0 d n).
Proof.
  intros D. unfold instants, increasing. generalize 0%nat. induction n as [|n IH]; intros k; [constructor|]. cbn [seq map].
  constructor; [apply IH|]. apply Forall_forall. intros x I. apply in_map_iff in I. destruct I as (i & <- & I). apply in_seq in I. nia.
Qed.
Lemma instants_length t0 d n : length (instants t0 d n) = n.
Proof. unfold instants. now rewrite map_length, seq_length. Qed.

Lemma grids a k ak w0 d0 d t0 dd n : used env a -> after_k env a k ak w0 d0 d -> w_out (a_world _ a) = init_state "World" ->
  works_with env ak t0 dd n -> (1 <= n)%nat -> outs (instants t0 dd n) (periods t0 dd n) w0 six.
Proof.
  intros Us A Io Ww N0. destruct (ak_prepared _ _ _ _ _ _ _ A) as (a1 & w1 & E & Rp & St).
  pose proof (proj2 (ensure_out env _ _ E)) as Eo. rewrite Io in Eo.
  destruct (params_outs _ _ Eo Rp) as (start & period & n' & tp & tpa & G1 & G2 & C & T1 & T2 & [Kp V]).
  pose proof (settings_kept _ _ _ _ _ _ _ _ "start_time" _ Us A E Rp St ltac:(cbn; intuition discriminate) G1) as H1.
  pose proof (settings_kept _ _ _ _ _ _ _ _ "period_length" _ Us A E Rp St ltac:(cbn; intuition discriminate) G2) as H2.
  apply (start_time_spec env) in St. destruct St as (S1 & S2 & _ & _ & S5 & _).
  destruct Ww as ((st & H1' & N1) & (pd & H2' & N2) & P & D & B1 & B2).
  rewrite H1' in H1. injection H1 as ->. rewrite H2' in H2. injection H2 as ->.
  assert (n' = Z.of_nat n).
  { unfold points in P. destruct (ak_running _ _ _ _ _ _ _ A) as [_ _ Jw]. rewrite (j_count _ _ _ _ _ _ _ Jw) in P. congruence. }
  subst n'.
  assert (tpa = periods t0 dd n).
  { rewrite (create_eq _ _ _ _ AVERAGE_TIMESERIES t0 dd) in T2; auto; cbn [points_out]; try nia.
    injection T2 as <-. unfold periods, zrange. replace (Z.to_nat (Z.of_nat n + 1)) with (Datatypes.S n) by lia. rewrite map_map. reflexivity. }
  assert (tp = instants t0 dd n).
  { rewrite (create_eq _ _ _ _ POINT_TIMESERIES t0 dd) in T1; auto; cbn [points_out]; try nia.
    injection T1 as <-. unfold instants, zrange. rewrite Nat2Z.id, map_map. reflexivity. }
  subst tp tpa. split; [now rewrite S1|]. intros x Ix. destruct (V x Ix) as (vi & v & X). exists vi, v. rewrite S1, S2. exact X.
Qed.

Lemma unit_known u c : unit_converter env (Some u) (Some u) = Ok c -> env u <> None.
Proof. unfold unit_converter. destruct (env u); [discriminate|]. discriminate. Qed.

Lemma belongs_x t0 d n x (ys : list R) : (1 <= n)%nat -> length ys = n -> belongs (tyx x) (gx (instants t0 d n) (periods t0 d n) x) ys.
Proof.
  intros N L. assert (T : tyx x = POINT_TIMESERIES /\ gx (instants t0 d n) (periods t0 d n) x = instants t0 d n \/
    tyx x = AVERAGE_TIMESERIES /\ gx (instants t0 d n) (periods t0 d n) x = periods t0 d n) by (destruct x; auto).
  destruct T as [[-> ->]|[-> ->]]; (split; [cbn [value_count]|]).
  - now rewrite instants_length.
  - intros E. apply (f_equal (@length Z)) in E. rewrite instants_length in E. cbn in E. lia.
  - rewrite periods_length. lia.
  - intros E. apply (f_equal (@length Z)) in E. rewrite periods_length in E. cbn in E. lia.
Qed.
Lemma grid_increasing t0 d n x : (0 < d)%Z -> increasing (gx (instants t0 d n) (periods t0 d n) x).
Proof. intros D. destruct x; cbn [gx]; first [now apply instants_increasing|now apply periods_increasing]. Qed.
Lemma type_x x : timeseries (tyx x).
Proof. destruct x; cbn; unfold timeseries; auto. Qed.

Lemma outputs_held a k ak w0 d0 d t0 dd n ys : good_env env -> used env a -> wf env (w_out (a_world _ ak)) ->
  after_k env a k ak w0 d0 d -> w_out (a_world _ a) = init_state "World" ->
  works_with env ak t0 dd n -> (3 <= n)%nat -> (forall x, d_get d x = map Some (ys x) /\ length (ys x) = n) ->
  holds env (w_out (a_world _ ak)) (map (fun x => ent (instants t0 dd n) (periods t0 dd n) x (map Some (ys x))) six).
Proof.
  intros G Us W A Io Ww L3 Ys. pose proof (grids _ _ _ _ _ _ _ _ _ Us A Io Ww ltac:(lia)) as [Kp V].
  assert (D : (0 < dd)%Z) by apply Ww.
  destruct (ak_running _ _ _ _ _ _ _ A) as [B _ Jw]. set (s0 := w_out w0) in *. set (s := w_out (a_world _ ak)) in *.
  assert (Vx : forall x, oview (instants t0 dd n) (periods t0 dd n) w0 x) by (intros x; apply V; destruct x; cbn; auto 10).
  assert (Pi : forall x, param_at s0 ["World"] (full x) = Some (pi_of w0 x)).
  { intros x. destruct (Vx x) as (vi & v & Al & Nv & P & _). unfold pi_of, vi_of. rewrite Al. fold s0. unfold s0. rewrite Nv. exact P. }
  assert (PS : forall p, match nth_error (st_params s0) p, nth_error (st_params s) p with
    | Some q0, Some q => psame q0 q | None, None => True | _, _ => False end).
  { intros p. destruct (List.in_dec Nat.eq_dec p (map (pi_of w0) six)) as [I|NI].
    - apply in_map_iff in I. destruct I as (x & <- & _). destruct (j_series _ _ _ _ _ _ _ Jw x) as (v0 & q0 & v & q & _ & Q0 & _ & Q & _ & PS & _).
      fold s0 in Q0. fold s in Q. rewrite Q0, Q. exact PS.
    - assert (NE : forall x, p <> pi_of w0 x) by (intros x ->; apply NI; apply in_map; destruct x; cbn; auto 10).
      rewrite (j_params _ _ _ _ _ _ _ Jw p NE : nth_error (st_params s) p = nth_error (st_params s0) p).
      destruct (nth_error (st_params s0) p); [apply psame_refl|constructor]. }
  assert (S : same_shape s0 s).
  { split; [apply (j_regions _ _ _ _ _ _ _ Jw)|]. intros i. pose proof (PS i) as X.
    destruct (nth_error (st_params s0) i), (nth_error (st_params s) i); try contradiction; [|reflexivity]. cbn. now rewrite (ps_children _ _ X). }
  constructor.
  - exact W.
  - rewrite (shape_region_at _ _ _ S). apply Kp.
  - intros e I. apply in_map_iff in I. destruct I as (x & <- & I). cbn [ent e_region e_name].
    destruct (j_series _ _ _ _ _ _ _ Jw x) as (v0 & q0 & v & q & V0 & Q0 & Vw & Q & VS & PQ & Lv).
    exists (pi_of w0 x), q. rewrite (shape_at _ _ _ _ S). split; [apply Pi|]. split; [exact Q|].
    destruct (k_in _ _ _ Kp (ent (instants t0 dd n) (periods t0 dd n) x [])) as (p' & q' & P' & Q' & R1 & R2 & R3 & R4 & R5); [apply in_map_iff; eauto|].
    cbn [ent e_region e_name] in P'. fold s0 in P'. rewrite (Pi x) in P'. injection P' as <-. assert (q' = q0) by (fold s0 in Q0; congruence). subst q'.
    destruct PQ as [_ _ _ E4 E5 E6 E7 E8]. unfold is_entry. rewrite E4, E5, E6, E7, E8.
    split; [exact R1|]. split; [exact R2|]. split; [exact R3|]. split; [|split; [exact R4|split; [apply Lv|exact R5]]].
    destruct (lv_kept _ _ _ _ Lv eq_refl) as (xs & TP & ->). do 2 f_equal. cbn [ent e_data]. f_equal.
    rewrite (vsame_conv _ _ _ VS) in TP. destruct (Vx x) as (vi & v1 & Al & Nv & _ & U & T).
    unfold vi_of in V0. rewrite Al in V0. assert (v1 = v0) by congruence. subst v1.
    destruct (own_unit env (ux x) G (unit_known _ _ U)) as (c & Uc & _ & Ut). rewrite Uc in U. injection U as U.
    destruct (same_grid (tyx x) XNONE (gx (instants t0 dd n) (periods t0 dd n) x) (ys x)) as (tc & Tc & _ & Tt);
      [apply type_x|now apply grid_increasing|apply belongs_x; [lia|apply Ys]|rewrite (proj2 (Ys x)); lia|].
    rewrite Tc in T. injection T as T. destruct (Ys x) as [Yx _]. rewrite Yx in TP. unfold to_param in TP. rewrite <- U, <- T, (map_own _ _ Ut) in TP.
    unfold nconvert in TP. rewrite all_some_of, Tt in TP. congruence.
  - intros rs l p X. rewrite (shape_at _ _ _ _ S) in X. destruct (k_all _ _ _ Kp _ _ _ X) as (e & rest & I & E1 & E2).
    apply in_map_iff in I. destruct I as (x & <- & I). exists (ent (instants t0 dd n) (periods t0 dd n) x (map Some (ys x))), rest.
    split; [apply in_map_iff; eauto|]. auto.
  - intros p q Q T. pose proof (PS p) as X. rewrite Q in X. destruct (nth_error (st_params s0) p) as [q0|] eqn:Q0; [|contradiction].
    destruct (k_typed _ _ _ Kp p q0 Q0) as (e & I & P); [now rewrite <- (ps_type _ _ X)|].
    apply in_map_iff in I. destruct I as (x & <- & I). exists (ent (instants t0 dd n) (periods t0 dd n) x (map Some (ys x))).
    split; [apply in_map_iff; eauto|]. rewrite (shape_at _ _ _ _ S). exact P.
Qed.
End O.
