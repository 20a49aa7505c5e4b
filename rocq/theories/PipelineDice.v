(** Proof of C90: emissions that nobody writes to are what DICE uses. *)
From Coq Require Import String List ZArith Reals Bool Arith Lia.
From Verif Require Import Base ListFacts Units TimeModel Calendar CalendarFacts Core CoreEvo CoreTree CoreNames
  CoreInv CoreStep Spec_Core CoreReq CoreP1 CoreP2 CoreView Adapters Dice DiceInit DiceSim DiceBase Spec_Dice DiceUsed DiceProps
  Spec_DiceUnits Spec_Pipeline.
From Verif Require Import Spec_Time TimeProps Spec_Totals TimeTotals CoreP7 CoreTotals.
Import ListNotations.
Local Open Scope string_scope.
Local Open Scope list_scope.

Section U.
Variable env : uenv.
Variables (p : nat) (q : param).
Hypothesis Wr : p_written q = true.

Definition EC : list string := ["Emissions"; "CO2"].
Record fixed (w : world) : Prop := {
  fx_reach : reachable env (w_in w);
  fx_cell : nth_error (st_params (w_in w)) p = Some q;
  fx_at : param_at (w_in w) ["World"] EC = Some p }.

Definition keeps {A} (m : M A) : Prop := forall w, fixed w -> fixed (fst (m w)).

Lemma keeps_ret {A} (a : A) : keeps (ret a). Proof. intros w Hw. exact Hw. Qed.
Lemma keeps_raise {A} e : keeps (@raise A e). Proof. intros w Hw. exact Hw. Qed.
Lemma keeps_lift {A} (r : res A) : keeps (lift_res r). Proof. intros w Hw. exact Hw. Qed.
Lemma keeps_bind {A C} (m : M A) (f : A -> M C) : keeps m -> (forall a, keeps (f a)) -> keeps (bind m f).
Proof.
  intros Hm Hf w Hw. unfold bind. specialize (Hm w Hw). destruct (m w) as [w' [a|e]]; simpl in *; auto.
  apply Hf; auto.
Qed.
Lemma keeps_same {A} (m : M A) : (forall w, w_in (fst (m w)) = w_in w) -> keeps m.
Proof. intros E w [W C A']. constructor; now rewrite E. Qed.
Lemma fixed_in o w : fixed w -> ~ writes_to (w_in w) o p -> fixed (fst (op_on env In_ o w)).
Proof.
  intros [R C A'] N. pose proof (reachable_wf env _ R) as W. unfold op_on. destruct (step env o (w_in w)) as [s r] eqn:E. simpl.
  assert (Es : s = after env o (w_in w)) by (unfold after; now rewrite E). subst s.
  constructor; simpl.
  - apply reachable_after; auto.
  - apply frame_step; auto. eapply written_read; eauto.
  - eapply param_at_evo; eauto. apply evo_after.
Qed.
Lemma keeps_in o : write_target o = None -> keeps (op_on env In_ o).
Proof. intros N w F. apply fixed_in; auto. intros (x & E & _). congruence. Qed.
Lemma keeps_out o : keeps (op_on env Out_ o).
Proof. apply keeps_same. intros w. unfold op_on. now destruct (step env o (w_out w)). Qed.
Lemma keeps_np_empty n : keeps (np_empty n).
Proof. apply keeps_same. intros w. unfold np_empty. destruct (n <? 0)%Z; auto. Qed.
Lemma keeps_set_view n v : keeps (set_view_of n v). Proof. now apply keeps_same. Qed.

Ltac keep :=
  repeat (intros; cbv zeta; first
    [ assumption
    | simple apply keeps_bind; [|intros] | simple apply keeps_ret | simple apply keeps_raise | simple apply keeps_lift
    | simple apply keeps_in; reflexivity | simple apply keeps_out
    | simple apply keeps_np_empty
    | match goal with |- keeps (match ?x with _ => _ end) => destruct x end
    | apply keeps_same; intros; reflexivity ]).

Lemma keeps_scalar n : keeps (scalar env n). Proof. unfold scalar. keep. Qed.
Lemma keeps_generic n : keeps (generic env n). Proof. unfold generic. keep. Qed.
Lemma keeps_time_of n : keeps (time_of env n).
Proof. unfold time_of. apply keeps_bind; [apply keeps_generic|]. intros. unfold as_time. keep. Qed.
Lemma keeps_delta_of n : keeps (delta_of env n).
Proof. unfold delta_of. apply keeps_bind; [apply keeps_generic|]. intros. unfold as_delta. keep. Qed.
Lemma keeps_item sd n i : keeps (item env sd n i). Proof. unfold item. destruct sd; keep. Qed.
Lemma keeps_set_item n i x : keeps (set_item env n i x). Proof. unfold set_item. keep. Qed.
Lemma keeps_set_values n x : keeps (set_values env n x). Proof. unfold set_values. keep. Qed.
Lemma keeps_lock n : keeps (lock env n). Proof. unfold lock. keep. Qed.
Lemma keeps_unlock n : keeps (unlock env n). Proof. unfold unlock. keep. Qed.
Lemma keeps_a_view_in o : write_target o = None -> keeps (a_view env In_ o). Proof. intros N. unfold a_view. apply keeps_bind; [now apply keeps_in|]. keep. Qed.
Lemma keeps_a_view_out o : keeps (a_view env Out_ o). Proof. unfold a_view. keep. Qed.

Ltac keep2 :=
  repeat (intros; cbv zeta; first
    [ simple apply keeps_scalar | simple apply keeps_generic | simple apply keeps_time_of | simple apply keeps_delta_of | simple apply keeps_item
    | simple apply keeps_set_item | simple apply keeps_set_values | simple apply keeps_lock | simple apply keeps_unlock
    | simple apply keeps_a_view_in; reflexivity | simple apply keeps_a_view_out
    | assumption
    | simple apply keeps_bind; [|intros] | simple apply keeps_ret | simple apply keeps_raise | simple apply keeps_lift
    | simple apply keeps_in; reflexivity | simple apply keeps_out | simple apply keeps_np_empty | simple apply keeps_set_view
    | match goal with |- keeps (match ?x with _ => _ end) => destruct x end
    | apply keeps_same; intros; reflexivity ]).

Lemma keeps_start : keeps (start_time env).
Proof. unfold start_time. keep2. unfold as_time. keep2. Qed.
Lemma keeps_params : keeps (initialize_run_parameters env).
Proof. unfold initialize_run_parameters, out_series. keep2. Qed.
Lemma keeps_reset : keeps (reset_model env).
Proof. unfold reset_model, start_series, initial_forcing. keep2. Qed.
Lemma keeps_step : keeps (calc_step env).
Proof. unfold calc_step. keep2. Qed.
Lemma keeps_repeat n : keeps (repeat_m n (calc_step env)).
Proof. induction n; simpl; [apply keeps_ret|]. apply keeps_bind; [apply keeps_step|auto]. Qed.
Lemma keeps_run : keeps (run_model env).
Proof. unfold run_model. keep2. apply keeps_repeat. Qed.
Lemma keeps_parameter n full v u : keeps (set_parameter env n full v u).
Proof.
  intros w [R C A']. pose proof (reachable_wf env _ R) as W. destruct (set_parameter env n full v u w) as [w' r] eqn:E.
  destruct (set_parameter_spec env _ _ _ _ _ _ _ W E) as [[G1 G2 G3 _] _]. cbn [fst].
  constructor; auto. eapply param_at_evo; eauto.
Qed.
Lemma keeps_each {A} (l : list A) f : (forall a, keeps (f a)) -> keeps (for_each l f).
Proof.
  induction l as [|a l IH]; simpl; intros Hf; [apply keeps_ret|].
  apply keeps_bind; [apply Hf; auto|]. intros _. apply IH. auto.
Qed.
Lemma keeps_model : keeps (initialize_model env).
Proof.
  unfold initialize_model. apply keeps_bind; [apply keeps_same; intros; reflexivity|]. intros _. apply keeps_bind.
  - apply keeps_each. intros [n [d u]]. apply keeps_parameter.
  - intros _. apply keeps_each. intros [n [[sn d] u]]. apply keeps_parameter.
Qed.

Notation H := (dice_hooks env).
Definition afixed (a : adapter world) : Prop := fixed (a_world _ a).
Lemma call_fixed h e a : keeps h -> afixed a -> afixed (fst (call world h e a)).
Proof. intros K Sa. unfold call. specialize (K _ Sa). destruct (h (a_world world a)). exact K. Qed.
Lemma then_fixed x f : afixed (fst x) -> (forall a, afixed a -> afixed (fst (f a))) -> afixed (fst (then_do world x f)).
Proof. intros Hx Hf. unfold then_do. destruct x as [a [[]|e]]; simpl in *; auto. Qed.
Lemma ensure_fixed a : afixed a -> afixed (fst (ensure_initialized world H a)).
Proof.
  intros Sa. unfold ensure_initialized. destruct (a_initialized world a); auto.
  apply then_fixed; [apply call_fixed; auto; apply keeps_model|]. intros b Sb. exact Sb.
Qed.
Lemma input_fixed a : afixed a -> afixed (fst (Adapters.initialize_model_input world H a)).
Proof. intros Sa. apply then_fixed; [now apply ensure_fixed|]. intros. apply call_fixed; auto. apply keeps_ret. Qed.
Lemma params_fixed a : afixed a -> afixed (fst (Adapters.initialize_run_parameters world H a)).
Proof. intros Sa. apply then_fixed; [now apply ensure_fixed|]. intros. apply call_fixed; auto. apply keeps_params. Qed.
Lemma reset_fixed a : afixed a -> afixed (fst (adapter_reset world H a)).
Proof.
  intros Sa. unfold adapter_reset. simpl. pose proof (keeps_start _ Sa) as K.
  destruct (start_time env (a_world world a)) as [w [[]|e]]; auto. apply call_fixed; auto. apply keeps_reset.
Qed.
Lemma stepping_fixed a : afixed a -> afixed (fst (scm_reset_stepping world H a)).
Proof. intros Sa. apply then_fixed; [|apply reset_fixed]. apply then_fixed; [now apply input_fixed|]. apply params_fixed. Qed.

Lemma handed_fixed s a : reachable env s -> nth_error (st_params s) p = Some q -> param_at s ["World"] EC = Some p ->
  handed env s a -> afixed a.
Proof.
  intros R C At. induction 1 as [outp junk Ro|c a U IH|sd o a U IH N].
  - constructor; simpl; auto.
  - destruct c; simpl; auto using input_fixed, params_fixed, reset_fixed, stepping_fixed.
    + apply call_fixed; auto. apply keeps_run.
    + apply call_fixed; auto. apply keeps_step.
    + apply then_fixed; [now apply stepping_fixed|]. intros. apply call_fixed; auto. apply keeps_run.
    + apply call_fixed; auto. apply keeps_step.
  - destruct sd.
    + apply (fixed_in o _ IH). apply N; auto. apply (fx_at _ IH).
    + apply (keeps_out o _ IH).
Qed.
Lemma handed_used s a : reachable env s -> handed env s a -> used env a.
Proof.
  intros R. induction 1 as [outp junk Ro|c a U IH|sd o a U IH N]; [now apply used_new|now apply used_call|now apply used_op].
Qed.

(** ** The view of the emissions *)
Variables (u : string) (tps : list Z) (xs : list R).
Hypothesis (Ty : p_type q = Some AVERAGE_TIMESERIES) (Un : p_unit q = Some u) (Tm : p_time q = Some (mkTP 1 tps))
  (Dt : p_data q = Some (PArr (map Some xs))) (Rd : p_read q = true) (Ch : p_children q = []).

Lemma request_E s U tpa vi s' : nth_error (st_params s) p = Some q -> param_at s ["World"] EC = Some p ->
  step env (OTimeseries (HSeq EC) U (mkTP 1 tpa) World_ (AStr "average") (AEnum ILINEAR) (AEnum XNONE)) s = (s', Ok (VView vi)) ->
  exists uc tc, unit_converter env (Some u) (Some U) = Ok uc /\ timeseries_converter tps tpa AVERAGE_TIMESERIES XNONE = Ok tc /\
    nth_error (st_views s') vi = Some (mkView true KTimeseries p U uc tc None false None false None).
Proof.
  intros Q At. cbn [step]. unfold ps_timeseries. change (from_timeseries_type (AStr "average")) with (Ok AVERAGE_TIMESERIES).
  cbn [from_interpolation_type from_extrapolation_type].
  rewrite (locate_found s (HSeq EC) World_ p At). unfold on_param. rewrite Q. unfold attempt_read. rewrite Ty. cbn [ptype_eqb].
  assert (Sr : p_set_read q = q) by (revert Rd; destruct q; cbn; intros ->; reflexivity). rewrite Sr.
  assert (Ss : set_param s p q = s).
  { unfold set_param. replace (upd (st_params s) p q) with (st_params s); [now destruct s|].
    clear -Q. revert p Q. induction (st_params s) as [|x l IH]; intros [|i] Q; cbn in *; try discriminate; [congruence|]. f_equal. auto. }
  rewrite Ss. unfold build_view. rewrite Q. unfold ts_leaf_view. rewrite Q, Un, Tm. cbn [tp_ticks].
  destruct (unit_converter env (Some u) (Some U)) as [uc|]; [|discriminate].
  destruct (timeseries_converter tps tpa AVERAGE_TIMESERIES XNONE) as [tc|] eqn:T; [|discriminate].
  unfold has_children. rewrite Ch. intros E. inversion E; subst. exists uc, tc. split; [reflexivity|]. split; [reflexivity|].
  apply nth_app_new.
Qed.

Definition E_view (w : world) (U : string) (tpa : list Z) : Prop := exists vi uc tc,
  alookup "E" (w_views w) = Some vi /\ unit_converter env (Some u) (Some U) = Ok uc /\
  timeseries_converter tps tpa AVERAGE_TIMESERIES XNONE = Ok tc /\
  nth_error (st_views (w_in w)) vi = Some (mkView true KTimeseries p U uc tc None false None false None).

Lemma generic_of_views n w w' g : w_in w' = w_in w -> w_views w' = w_views w -> snd (generic env n w) = Ok g -> snd (generic env n w') = Ok g.
Proof. intros E1 E2. rewrite !generic_view, E1, E2. auto. Qed.
Lemma time_of_generic n w t : snd (time_of env n w) = Ok t -> snd (generic env n w) = Ok (GTime t).
Proof.
  unfold time_of, bind. destruct (generic env n w) as [w1 [g|e]]; [|discriminate]. cbn. destruct g; try discriminate. cbn. now intros [= ->].
Qed.
Lemma delta_of_generic n w t : snd (delta_of env n w) = Ok t -> snd (generic env n w) = Ok (GDelta t).
Proof.
  unfold delta_of, bind. destruct (generic env n w) as [w1 [g|e]]; [|discriminate]. cbn. destruct g; try discriminate. cbn. now intros [= ->].
Qed.
Lemma out_series_in n full U tp ty w w' : out_series env n full U tp ty w = (w', Ok tt) -> n <> "E" ->
  w_in w' = w_in w /\ alookup "E" (w_views w') = alookup "E" (w_views w) /\ w_count w' = w_count w.
Proof.
  intros H N. unfold out_series in H. apply bind_ok in H. destruct H as (v & w1 & A & H).
  unfold set_view_of in H. inversion H; subst w'; clear H. unfold a_view in A. apply bind_ok in A. destruct A as (y & w2 & O & A).
  destruct y; try discriminate. inversion A; subst; clear A. unfold op_on in O. destruct (step _ _ _) as [s1 r1]. inversion O; subst.
  cbn [w_in w_views w_count alookup]. destruct (String.eqb_spec "E" n); [congruence|auto].
Qed.

Lemma params_E w w1 : fixed w -> Dice.initialize_run_parameters env w = (w1, Ok tt) ->
  exists start period n rounding tpa, snd (generic env "start_time" w) = Ok (GTime start) /\
    snd (generic env "period_length" w) = Ok (GDelta period) /\ snd (generic env "original_rounding" w) = Ok rounding /\
    w_count w1 = Some n /\ create_time_points start period n (AEnum AVERAGE_TIMESERIES) = Ok tpa /\
    E_view w1 (emissions_unit rounding) tpa.
Proof.
  intros F H. unfold Dice.initialize_run_parameters in H. unfold bind at 1, set_timestep in H.
  set (w1' := mkWorld (w_in w) (w_out w) (w_views w) (w_coef w) (w_time w) (Some 0%Z) (w_count w) (w_junk w)) in H.
  assert (G : forall n g, snd (generic env n w1') = Ok g -> snd (generic env n w) = Ok g) by (intros n g; now apply generic_of_views).
  apply bind_ok in H. destruct H as (stop & w2 & E1 & H). pose proof (time_of_id env _ _ _ _ E1); subst w2.
  apply bind_ok in H. destruct H as (start & w2 & E2 & H). pose proof (time_of_id env _ _ _ _ E2); subst w2.
  apply bind_ok in H. destruct H as (period & w2 & E3 & H). pose proof (delta_of_id env _ _ _ _ E3); subst w2.
  apply bind_ok in H. destruct H as (n & w2 & E4 & H). unfold lift_res in E4. inversion E4; subst w2; clear E4.
  apply (f_equal snd) in E2, E3. apply time_of_generic, G in E2. apply delta_of_generic, G in E3.
  unfold bind at 1, set_count at 1 in H. simpl in H.
  apply bind_ok in H. destruct H as (tp & w2 & E5 & H). unfold lift_res in E5. inversion E5; subst w2; clear E5.
  apply bind_ok in H. destruct H as (tpa & w2 & E5 & H). unfold lift_res in E5. inversion E5 as [[E6 E7]]; subst w2; clear E5.
  apply bind_ok in H. destruct H as (rounding & w2 & E5 & H). pose proof (generic_id env _ _ _ _ E5). subst w2.
  assert (E8 : snd (generic env "original_rounding" w) = Ok rounding) by (apply (f_equal snd) in E5; revert E5; now apply generic_of_views).
  apply bind_ok in H. destruct H as (v & w2 & E9 & H).
  assert (V : exists uc tc, unit_converter env (Some u) (Some (emissions_unit rounding)) = Ok uc /\
     timeseries_converter tps tpa AVERAGE_TIMESERIES XNONE = Ok tc /\
     nth_error (st_views (w_in w2)) v = Some (mkView true KTimeseries p (emissions_unit rounding) uc tc None false None false None) /\
     w_count w2 = Some n).
  { unfold a_view in E9. apply bind_ok in E9. destruct E9 as (y & w3 & E9 & E10). destruct y; inversion E10; subst w3 v0.
    unfold op_on in E9. cbn [w_in] in E9. destruct F as [_ F1 F2].
    match type of E9 with context [step env ?o ?s] => destruct (step env o s) as [s1 r1] eqn:St end. inversion E9; subst. cbn [w_in w_count].
    destruct (request_E _ _ _ _ _ F1 F2 St) as (uc & tc & A1 & A2 & A3). exists uc, tc. auto. }
  destruct V as (uc & tc & V1 & V2 & V3 & V4).
  unfold bind at 1, set_view_of at 1 in H.
  match type of H with _ ?w3 = _ => set (w3' := w3) in H end.
  assert (K : w_in w3' = w_in w2 /\ alookup "E" (w_views w3') = Some v /\ w_count w3' = Some n) by (repeat split; auto).
  destruct K as (K1 & K2 & K3).
  repeat (apply bind_ok in H; let w' := fresh "w" in let A := fresh "A" in destruct H as ([] & w' & A & H);
    apply out_series_in in A; [|discriminate]; let A1 := fresh in let A2 := fresh in let A3 := fresh in destruct A as (A1 & A2 & A3)).
  apply out_series_in in H; [|discriminate]. destruct H as (L1 & L2 & L3).
  exists start, period, n, rounding, tpa. repeat (split; [assumption|]).
  split; [congruence|]. split; [assumption|]. exists v, uc, tc.
  split; [congruence|]. split; [assumption|]. split; [assumption|].
  replace (w_in w1) with (w_in w2) by congruence. exact V3.
Qed.

(** Calls that only request leave it in place. *)
Lemma E_view_start w w' U tpa : E_view w U tpa -> start_time env w = (w', Ok tt) -> E_view w' U tpa.
Proof.
  intros (vi & uc & tc & A & B & C & D) H. unfold start_time in H. apply bind_ok in H. destruct H as (v & w1 & Q & H).
  unfold a_view in Q. apply bind_ok in Q. destruct Q as (y & w2 & O & Q). destruct y; try discriminate. inversion Q; subst w2 v0; clear Q.
  apply op_in in O. destruct O as (I1 & _ & _ & I4 & _).
  apply bind_ok in H. destruct H as (x & w2 & O & H). apply op_in in O. destruct O as (J1 & _ & _ & J4 & _).
  destruct x; try discriminate. destruct g; try discriminate. unfold bind, as_time, ret, set_time in H. inversion H; subst w'; clear H.
  exists vi, uc, tc. cbn [w_views w_in]. split; [congruence|]. split; auto. split; auto.
  assert (Same : after env (OGetGeneric v) (w_in w1) = w_in w1).
  { unfold after. cbn [step]. unfold with_view. destruct (nth_error (st_views (w_in w1)) v) as [c|]; auto.
    destruct (v_public c); auto. destruct (v_kind c); auto. unfold lift. destruct (generic_get (w_in w1) c); auto. }
  rewrite J1, Same, I1. destruct (request_appends env (OGeneric (HStr "Start Time") World_) (w_in w) _ eq_refl) as (l & Al & _).
  rewrite Al. now apply nth_app_old.
Qed.

Lemma map_some_from uc : map (option_map (uconvert_from uc)) (map Some xs) = map Some (map (uconvert_from uc) xs).
Proof. now rewrite !map_map. Qed.

Lemma read_E_is w U tpa : fixed w -> E_view w U tpa -> exists uc r, unit_converter env (Some u) (Some U) = Ok uc /\
  conversion AVERAGE_TIMESERIES XNONE tps (map (uconvert_from uc) xs) tpa r /\
  read_E env w = match r with Ok ys => Ok (map Some ys) | Err e => Err e end.
Proof.
  intros [_ Q At] (vi & uc & tc & A & B & C & D). exists uc, (tconvert_from tc (map (uconvert_from uc) xs)).
  split; [exact B|]. split; [left; exists tc; auto|].
  unfold read_E. rewrite A. unfold answer. cbn [step]. unfold with_view. rewrite D. cbn [v_public v_kind].
  unfold ts_get, read_with. rewrite D. cbn [v_param]. rewrite Q. cbn [v_data]. unfold get_values. cbn [v_param]. rewrite Q.
  unfold has_children. rewrite Ch. unfold ts_own. rewrite Wr, Dt. unfold from_param. cbn [v_tconv v_uconv].
  rewrite map_some_from, (nconvert_some _ _ _ eq_refl). destruct (tconvert_from tc _); reflexivity.
Qed.
End U.
