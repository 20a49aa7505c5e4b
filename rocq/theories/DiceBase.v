(** After a successful reset the adapter is a machine state. *)
From Coq Require Import String List ZArith Reals Bool Arith Lia.
From Verif Require Import Base ListFacts Units TimeModel Calendar Core CoreEvo CoreTree CoreNames
  CoreInv CoreStep Spec_Core CoreReq CoreView CoreP1 CoreP2 Adapters Dice DiceInit DiceSim.
Import ListNotations.
Local Open Scope string_scope.
Local Open Scope list_scope.

Definition full (x : series) : list string :=
  match x with
  | Mat => ["Pool"; "CO2"; "Atmosphere"]
  | Ml => ["Pool"; "CO2"; "Ocean"; "lower"]
  | Mu => ["Pool"; "CO2"; "Ocean"; "shallow"]
  | Tatm => ["Surface Temperature"; "Increase"]
  | Tocean => ["Ocean Temperature"; "Increase"]
  | Forc => ["Radiative Forcing"; "CO2"]
  end.
Lemma full_inj x y : full x = full y -> x = y.
Proof. destruct x, y; simpl; congruence. Qed.
Lemma nm_inj x y : nm x = nm y -> x = y.
Proof. destruct x, y; simpl; congruence. Qed.

Lemma bind_ok {A C} (m : M A) (f : A -> M C) w w' c : bind m f w = (w', Ok c) ->
  exists a w1, m w = (w1, Ok a) /\ f a w1 = (w', Ok c).
Proof. unfold bind. destruct (m w) as [w1 [a|e]]; intros H; [eauto|discriminate]. Qed.

Section Base.
Variable env : uenv.
Notation wf := (wf env).

(** *** Operations of the input side do not touch the output side. *)
Record in_only (w w' : world) : Prop := {
  io_out : w_out w' = w_out w;
  io_views : w_views w' = w_views w;
  io_coef : w_coef w' = w_coef w;
  io_time : w_time w' = w_time w;
  io_t : w_timestep w' = w_timestep w;
  io_count : w_count w' = w_count w;
  io_junk : w_junk w' = w_junk w }.
Lemma op_in_only o w w' r : op_on env In_ o w = (w', r) -> in_only w w'.
Proof.
  unfold op_on. destruct (step env o (w_in w)). intros H. inversion H; subst. constructor; auto.
Qed.
Lemma a_view_in_only o w w' r : a_view env In_ o w = (w', r) -> in_only w w'.
Proof.
  unfold a_view, bind. destruct (op_on env In_ o w) as [w1 [x|e]] eqn:O; intros H.
  - apply op_in_only in O. destruct x; inversion H; subst; auto.
  - inversion H; subst. eapply op_in_only; eauto.
Qed.

Lemma set_parameter_out name f value u w w' r : set_parameter env name f value u w = (w', r) ->
  w_out w' = w_out w /\ w_time w' = w_time w /\ w_timestep w' = w_timestep w /\ w_junk w' = w_junk w.
Proof.
  unfold set_parameter. unfold bind at 1. destruct (a_view env In_ _ w) as [w1 [p|e]] eqn:A.
  2: { intros H. inversion H; subst. apply a_view_in_only in A. destruct A. auto. }
  apply a_view_in_only in A. unfold bind at 1. unfold is_empty. destruct (param_of_view (w_in w1) p) as [q|].
  2: { intros H. inversion H; subst. destruct A. auto. }
  intros H. unfold bind at 1 in H.
  assert (X : exists w2 (x : res unit), in_only w1 w2 /\
    (match x with Ok _ => set_view_of name p w2 | Err e => (w2, Err e) end) = (w', r)).
  { destruct value as [x|g|]; destruct (param_empty q);
    try (exists w1, (Ok tt); split; [constructor; auto|exact H]).
    - revert H. unfold bind. destruct (op_on env In_ (OSetValue p (Some x)) w1) as [w2 y] eqn:O. intros H. exists w2.
      apply op_in_only in O. destruct y as [y|e]; [exists (Ok tt)|exists (Err e)]; auto.
    - revert H. unfold bind. destruct (op_on env In_ (OSetGeneric p g) w1) as [w2 y] eqn:O. intros H. exists w2.
      apply op_in_only in O. destruct y as [y|e]; [exists (Ok tt)|exists (Err e)]; auto. }
  destruct X as (w2 & x & Io & E). destruct A, Io.
  destruct x as [[]|e]; [|inversion E; subst; repeat split; congruence].
  unfold set_view_of in E. inversion E; subst. simpl. repeat split; congruence.
Qed.
Lemma for_each_out {A} (l : list A) f : (forall a w w' r, f a w = (w', r) ->
    w_out w' = w_out w /\ w_time w' = w_time w /\ w_timestep w' = w_timestep w /\ w_junk w' = w_junk w) ->
  forall w w' r, for_each l f w = (w', r) ->
  w_out w' = w_out w /\ w_time w' = w_time w /\ w_timestep w' = w_timestep w /\ w_junk w' = w_junk w.
Proof.
  intros Hf. induction l as [|a l IH]; simpl; intros w w' r H.
  - inversion H; subst; auto.
  - unfold bind in H. destruct (f a w) as [w1 [x|e]] eqn:F; apply Hf in F.
    + apply IH in H. destruct F as (F1 & F2 & F3 & F4), H as (H1 & H2 & H3 & H4). repeat split; congruence.
    + inversion H; subst. auto.
Qed.
Lemma initialize_model_out w w' r : initialize_model env w = (w', r) ->
  w_out w' = w_out w /\ w_time w' = w_time w /\ w_timestep w' = w_timestep w /\ w_junk w' = w_junk w.
Proof.
  unfold initialize_model. unfold bind at 1. unfold clear_values at 1. unfold bind.
  match goal with |- context [for_each MODEL_PARAMETER_DEFAULTS ?f ?w1] =>
    destruct (for_each MODEL_PARAMETER_DEFAULTS f w1) as [w2 [x|e]] eqn:F end;
  apply for_each_out in F; try (intros [n0 [d0 u0]]; apply set_parameter_out);
  destruct F as (F1 & F2 & F3 & F4); cbn [w_out w_time w_timestep w_junk] in F1, F2, F3, F4.
  - intros H. apply for_each_out in H; [|intros [n0 [[st0 d0] u0]]; apply set_parameter_out].
    destruct H as (H1 & H2 & H3 & H4). repeat split; congruence.
  - intros H. inversion H; subst. auto.
Qed.

(** *** The output views *)
Record sview (s : state) (x : series) (v p : nat) : Prop := {
  sv_at : param_at s ["World"] (full x) = Some p;
  sv_cells : exists c q, nth_error (st_views s) v = Some c /\ v_param c = p /\ nth_error (st_params s) p = Some q /\
    v_public c = true /\ v_kind c = KTimeseries /\ v_data c = None /\ v_locked c = false }.

Lemma requests_series x u tp ty o : (ty = "point" \/ ty = "average") ->
  o = OTimeseries (HSeq (full x)) u (mkTP 1 tp) World_ (AStr ty) (AEnum ILINEAR) (AEnum XNONE) ->
  exists t, is_ts t /\ requests o (HSeq (full x)) World_ t (Some u) (Some (mkTP 1 tp)).
Proof.
  intros [-> | ->] ->; simpl; eexists; (split; [|split; [reflexivity|split; [reflexivity|split; [reflexivity|
    split; [reflexivity|split; [reflexivity|split; eexists; reflexivity]]]]]]); unfold is_ts; auto.
Qed.

Lemma sview_keep o s x v p : wf s -> is_request o <> None -> sview s x v p -> sview (after env o s) x v p.
Proof.
  intros W Rq [At (c & q & V & Pv & Q & Pb & K & D & L)].
  pose proof (evo_after env o s) as Ev. constructor; [eapply param_at_evo; eauto|].
  destruct (is_request o) as [nr|] eqn:E; [|congruence].
  destruct (request_appends env o s nr E) as (l & Al & _).
  destruct (ev_params _ _ Ev _ _ Q) as (q' & Q' & _).
  exists c, q'. rewrite Al. split; [apply nth_app_old; auto|]. auto 10.
Qed.

Definition sviews (w : world) (xs : list series) : Prop :=
  forall x, In x xs -> exists v p, alookup (nm x) (w_views w) = Some v /\ sview (w_out w) x v p.

Lemma out_series_spec x u tp ty w w' xs : wf (w_out w) -> (ty = "point" \/ ty = "average") ->
  out_series env (nm x) (full x) u tp ty w = (w', Ok tt) -> sviews w xs -> ~ In x xs ->
  w_in w' = w_in w /\ w_coef w' = w_coef w /\ w_time w' = w_time w /\ w_timestep w' = w_timestep w /\
  w_count w' = w_count w /\ w_junk w' = w_junk w /\ wf (w_out w') /\ sviews w' (x :: xs) /\
  exists v, w_views w' = (nm x, v) :: w_views w.
Proof.
  intros W Ty H Sv Nx. unfold out_series in H. apply bind_ok in H. destruct H as (v & w1 & A & H).
  unfold set_view_of in H. inversion H; subst w'; clear H.
  unfold a_view in A. apply bind_ok in A. destruct A as (y & w2 & O & A).
  destruct y; try discriminate. inversion A; subst; clear A.
  set (o := OTimeseries _ _ _ _ _ _ _) in O.
  destruct (requests_series x u tp ty o Ty eq_refl) as (t & Ts & Rq).
  unfold op_on in O. rewrite (after_eq env o) in O. inversion O; subst w1; clear O. simpl.
  destruct (request_ok_reports env _ _ _ _ _ _ _ _ W Rq H1) as (p & q & At & Q & T & Rd & c & V & Pb & Pv & Vt & Nv & _ & Un).
  assert (W' : wf (after env o (w_out w))) by (apply wf_after; auto).
  repeat (split; [reflexivity|]). split; [exact W'|].
  assert (Fr : fresh c).
  { destruct (request_appends env o (w_out w) (HSeq (full x), World_) eq_refl) as (l & El & Fl).
    rewrite El in V. rewrite nth_error_app2 in V by (apply nth_error_None; auto). apply Fl. eapply nth_error_In; eauto. }
  split; [|exists v; reflexivity]. intros z [<-|Iz].
  - exists v, p. simpl. rewrite String.eqb_refl. split; auto. constructor; [exact At|].
    exists c, q. destruct Fr as (F1 & F2 & F3 & F4). repeat (split; auto).
    destruct (Un _ eq_refl) as [Ng _]. revert Vt. unfold vtype. destruct (v_kind c); auto; [|congruence].
    intros <-. destruct Ts; discriminate.
  - destruct (Sv z Iz) as (v' & p' & Al & Sw). exists v', p'. simpl.
    destruct (String.eqb_spec (nm z) (nm x)) as [E|E]; [apply nm_inj in E; subst; contradiction|].
    split; auto. apply sview_keep; auto. discriminate.
Qed.

Definition vi_of (w : world) (x : series) : nat :=
  match alookup (nm x) (w_views w) with Some v => v | None => O end.
Definition pi_of (w : world) (x : series) : nat :=
  match nth_error (st_views (w_out w)) (vi_of w x) with Some v => v_param v | None => O end.

Lemma base_of w : wf (w_out w) -> sviews w [Forc; Tocean; Tatm; Mu; Ml; Mat] ->
  base env w (vi_of w) (pi_of w).
Proof.
  intros W Sv.
  assert (S : forall x, exists v p, alookup (nm x) (w_views w) = Some v /\ sview (w_out w) x v p).
  { intros x. apply Sv. destruct x; simpl; auto 10. }
  assert (Pi : forall x v p, alookup (nm x) (w_views w) = Some v -> sview (w_out w) x v p -> pi_of w x = p).
  { intros x v p Al [_ (c & q & V & Pv & _)]. unfold pi_of, vi_of. rewrite Al, V. auto. }
  constructor; auto.
  - intros x. destruct (S x) as (v & p & Al & _). unfold vi_of. now rewrite Al.
  - intros x y E. destruct (S x) as (v & p & Al & Sx), (S y) as (v' & p' & Al' & Sy).
    rewrite (Pi _ _ _ Al Sx), (Pi _ _ _ Al' Sy) in E. subst p'. apply full_inj.
    eapply same_place; [exact W|apply Sx|apply Sy].
  - intros x. destruct (S x) as (v & p & Al & Sx). rewrite (Pi _ _ _ Al Sx).
    destruct Sx as [_ (c & q & V & Pv & R)]. exists c, q. unfold vi_of. rewrite Al. auto.
Qed.

Lemma scalar_id n w w' r : scalar env n w = (w', r) -> w' = w.
Proof. rewrite scalar_pure. congruence. Qed.
Lemma generic_id n w w' r : generic env n w = (w', r) -> w' = w.
Proof. rewrite generic_pure. congruence. Qed.
Lemma delta_of_id n w w' r : delta_of env n w = (w', r) -> w' = w.
Proof.
  unfold delta_of, bind. rewrite generic_pure. destruct (snd (generic env n w)) as [g|e]; [|congruence].
  destruct g; unfold as_delta, ret, raise; congruence.
Qed.
Lemma time_of_id n w w' r : time_of env n w = (w', r) -> w' = w.
Proof.
  unfold time_of, bind. rewrite generic_pure. destruct (snd (generic env n w)) as [g|e]; [|congruence].
  destruct g; unfold as_time, ret, raise; congruence.
Qed.

(** What [_initialize_run_parameters] leaves behind. *)
Record run_params (w w' : world) : Prop := {
  rp_wf : wf (w_out w');
  rp_views : sviews w' [Forc; Tocean; Tatm; Mu; Ml; Mat];
  rp_t : w_timestep w' = Some 0%Z;
  rp_time : w_time w' = w_time w;
  rp_coef : w_coef w' = w_coef w;
  rp_junk : w_junk w' = w_junk w;
  rp_in : exists o, write_target o = None /\ w_in w' = after env o (w_in w);
  rp_attr : forall n, ~ In n ["E"; "mat"; "ml"; "mu"; "tatm"; "tocean"; "forc"] ->
    alookup n (w_views w') = alookup n (w_views w);
  rp_count : exists stop start period n, snd (time_of env "stop_time" w) = Ok stop /\
    snd (time_of env "start_time" w) = Ok start /\ snd (delta_of env "period_length" w) = Ok period /\
    timestep_count start stop period = Ok n /\ w_count w' = Some n }.

Lemma time_of_keep n w t : snd (time_of env n (fst (set_timestep t w))) = snd (time_of env n w).
Proof.
  unfold time_of, bind. rewrite (generic_pure env n (fst _)), (generic_pure env n w).
  change (snd (generic env n (fst (set_timestep t w)))) with (snd (generic env n (fst (set_timestep t w)))).
  rewrite (proj2 (scalar_rd env n w (fst (set_timestep t w)) (rd_refl _) eq_refl)).
  destruct (snd (generic env n w)) as [g|e]; auto. destruct g; reflexivity.
Qed.
Lemma delta_of_keep n w t : snd (delta_of env n (fst (set_timestep t w))) = snd (delta_of env n w).
Proof.
  unfold delta_of, bind. rewrite (generic_pure env n (fst _)), (generic_pure env n w).
  rewrite (proj2 (scalar_rd env n w (fst (set_timestep t w)) (rd_refl _) eq_refl)).
  destruct (snd (generic env n w)) as [g|e]; auto. destruct g; reflexivity.
Qed.

Lemma initialize_run_parameters_spec w w' : wf (w_out w) ->
  Dice.initialize_run_parameters env w = (w', Ok tt) -> run_params w w'.
Proof.
  intros W H. unfold Dice.initialize_run_parameters in H. unfold bind at 1, set_timestep in H.
  set (w1 := mkWorld (w_in w) (w_out w) (w_views w) (w_coef w) (w_time w) (Some 0%Z) (w_count w) (w_junk w)) in H.
  change w1 with (fst (set_timestep 0 w)) in H.
  apply bind_ok in H. destruct H as (stop & w2 & E1 & H). pose proof (time_of_id _ _ _ _ E1); subst w2.
  apply bind_ok in H. destruct H as (start & w2 & E2 & H). pose proof (time_of_id _ _ _ _ E2); subst w2.
  apply bind_ok in H. destruct H as (period & w2 & E3 & H). pose proof (delta_of_id _ _ _ _ E3); subst w2.
  apply bind_ok in H. destruct H as (n & w2 & E4 & H). unfold lift_res in E4. inversion E4; subst w2; clear E4. rename H2 into E4.
  apply (f_equal snd) in E1, E2, E3. rewrite time_of_keep in E1, E2. rewrite delta_of_keep in E3.
  cbn [snd] in E1, E2, E3.
  unfold bind at 1, set_count at 1 in H. simpl in H.
  apply bind_ok in H. destruct H as (tp & w2 & E5 & H). unfold lift_res in E5. inversion E5; subst w2; clear E5.
  apply bind_ok in H. destruct H as (tpa & w2 & E5 & H). unfold lift_res in E5. inversion E5; subst w2; clear E5.
  apply bind_ok in H. destruct H as (rounding & w2 & E5 & H). apply generic_id in E5. subst w2.
  apply bind_ok in H. destruct H as (v & w2 & E5 & H).
  assert (Ei : exists o, write_target o = None /\ w_in w2 = after env o (w_in w)).
  { unfold a_view in E5. apply bind_ok in E5. destruct E5 as (y & w3 & E5 & E6). destruct y; inversion E6; subst w3.
    unfold op_on in E5. match type of E5 with context [step env ?o _] => set (oE := o) in E5; exists oE end. split; [reflexivity|].
    rewrite (after_eq env oE) in E5. inversion E5; subst. reflexivity. }
  apply a_view_in_only in E5. destruct E5. simpl in *.
  unfold bind at 1, set_view_of at 1 in H. 
  assert (W2 : wf (w_out w2)) by congruence.
  match type of H with _ ?w3 = _ => set (w3' := w3) in H; assert (S0 : sviews w3' []) by (intros x []);
    assert (W3 : wf (w_out w3')) by exact W2 end.
  apply bind_ok in H. destruct H as ([] & w4 & A1 & H).
  apply (out_series_spec Mat _ _ _ _ _ []) in A1; auto. destruct A1 as (IB & B1 & B2 & B3 & B4 & B5 & B6 & B7 & VB & UB).
  apply bind_ok in H. destruct H as ([] & w5 & A1 & H).
  apply (out_series_spec Ml _ _ _ _ _ [Mat]) in A1; auto; [|simpl; intuition discriminate].
  destruct A1 as (IC & C1 & C2 & C3 & C4 & C5 & C6 & C7 & VC & UC).
  apply bind_ok in H. destruct H as ([] & w6 & A1 & H).
  apply (out_series_spec Mu _ _ _ _ _ [Ml; Mat]) in A1; auto; [|simpl; intuition discriminate].
  destruct A1 as (ID & D1 & D2 & D3 & D4 & D5 & D6 & D7 & VD & UD).
  apply bind_ok in H. destruct H as ([] & w7 & A1 & H).
  apply (out_series_spec Tatm _ _ _ _ _ [Mu; Ml; Mat]) in A1; auto; [|simpl; intuition discriminate].
  destruct A1 as (IF & F1 & F2 & F3 & F4 & F5 & F6 & F7 & VF & UF).
  apply bind_ok in H. destruct H as ([] & w8 & A1 & H).
  apply (out_series_spec Tocean _ _ _ _ _ [Tatm; Mu; Ml; Mat]) in A1; auto; [|simpl; intuition discriminate].
  destruct A1 as (IG & G1 & G2 & G3 & G4 & G5 & G6 & G7 & VG & UG).
  apply (out_series_spec Forc _ _ _ _ _ [Tocean; Tatm; Mu; Ml; Mat]) in H; auto; [|simpl; intuition discriminate].
  destruct H as (IL & L1 & L2 & L3 & L4 & L5 & L6 & L7 & VL & UL).
  assert (K : w_timestep w3' = Some 0%Z /\ w_time w3' = w_time w /\ w_coef w3' = w_coef w /\ w_junk w3' = w_junk w /\
    w_count w3' = Some n) by (unfold w3'; simpl; repeat split; congruence).
  destruct K as (K1 & K2 & K3 & K4 & K5).
  constructor; auto; try congruence.
  { destruct Ei as (o & No & Eo). exists o. split; auto. rewrite IL, IG, IF, ID, IC, IB. exact Eo. }
  { intros m Nm. rewrite UL, UG, UF, UD, UC, UB. unfold w3'. cbn [w_views].
    cbn [alookup]. simpl in Nm. cbn [nm].
    repeat match goal with |- context [String.eqb m ?z] => destruct (String.eqb_spec m z); [subst m; exfalso; apply Nm; tauto|] end.
    congruence. }
  exists stop, start, period, n.
  split; [exact E1|]. split; [exact E2|]. split; [exact E3|]. split; auto. congruence.
Qed.

Lemma start_time_spec w w' : start_time env w = (w', Ok tt) ->
  w_out w' = w_out w /\ w_views w' = w_views w /\ w_coef w' = w_coef w /\ w_timestep w' = w_timestep w /\
  w_count w' = w_count w /\ w_junk w' = w_junk w.
Proof.
  intros H. unfold start_time in H. apply bind_ok in H. destruct H as (v & w1 & A & H). apply a_view_in_only in A.
  apply bind_ok in H. destruct H as (x & w2 & O & H). apply op_in_only in O.
  destruct x; try discriminate. destruct g; try discriminate. unfold bind, as_time, ret, set_time in H.
  inversion H; subst. destruct A, O. simpl. repeat split; congruence.
Qed.

(** The machine state before [_reset]. *)
Definition d_start (w : world) : dstate :=
  mkD 0 (w_time w) (w_coef w) (w_junk w) (fun _ => []).

Notation H := (dice_hooks env).
Notation Sim w0 := (J env w0 (vi_of w0) (pi_of w0) (fun _ => Some false)).
Notation In w0 := (I env w0 (vi_of w0)).

(** The adapter [a] is a machine state [d] with inputs [In w0]. *)
Record running (w0 : world) (a : adapter world) (d : dstate) : Prop := {
  ru_base : base env w0 (vi_of w0) (pi_of w0);
  ru_init : a_initialized _ a = true;
  ru_sim : Sim w0 (a_world _ a) d }.

Lemma ensure_out a a' : ensure_initialized world H a = (a', Ok tt) ->
  a_initialized _ a' = true /\ w_out (a_world _ a') = w_out (a_world _ a).
Proof.
  unfold ensure_initialized. destruct (a_initialized world a) eqn:E.
  - intros X. inversion X; subst. auto.
  - unfold then_do, call. simpl. destruct (initialize_model env (a_world world a)) as [w [[]|e]] eqn:Im; intros X; inversion X; subst.
    simpl. split; auto. now apply initialize_model_out in Im.
Qed.

(** The world after the views have been requested. *)
Definition prepared_world (a : adapter world) (w0 : world) : Prop :=
  exists a1 w1, ensure_initialized world H a = (a1, Ok tt) /\
    Dice.initialize_run_parameters env (a_world _ a1) = (w1, Ok tt) /\ start_time env w1 = (w0, Ok tt).

Lemma reset_stepping_inv a a' : scm_reset_stepping world H a = (a', Ok tt) ->
  exists w0, prepared_world a w0 /\ reset_model env w0 = (a_world _ a', Ok tt) /\ a_initialized _ a' = true.
Proof.
  intros X. unfold scm_reset_stepping, Adapters.initialize_model_input, Adapters.initialize_run_parameters in X.
  destruct (ensure_initialized world H a) as [a1 [[]|e]] eqn:E; simpl in X; [|discriminate].
  assert (E2 : ensure_initialized world H (mkAdapter world (a_world world a1) (a_initialized world a1) (a_log world a1 ++ [(EvModelInput, true)])) =
    (mkAdapter world (a_world world a1) (a_initialized world a1) (a_log world a1 ++ [(EvModelInput, true)]), Ok tt)).
  { unfold ensure_initialized. simpl. destruct (ensure_out _ _ E) as [-> _]. reflexivity. }
  unfold call at 1 in X. simpl in X. rewrite E2 in X. simpl in X.
  destruct (Dice.initialize_run_parameters env (a_world world a1)) as [w1 [[]|e]] eqn:Rp; simpl in X; [|discriminate].
  unfold adapter_reset in X. simpl in X. destruct (start_time env w1) as [w0 [[]|e]] eqn:St; [|discriminate].
  unfold call in X. simpl in X. destruct (reset_model env w0) as [w2 [[]|e]] eqn:Re; inversion X; subst.
  exists w0. split; [exists a1, w1; auto|]. split; auto. simpl. apply (ensure_out _ _ E).
Qed.

Lemma prepared_base a w0 : wf (w_out (a_world _ a)) -> prepared_world a w0 ->
  base env w0 (vi_of w0) (pi_of w0) /\ J env w0 (vi_of w0) (pi_of w0) (fun _ => None) w0 (d_start w0).
Proof.
  intros W (a1 & w1 & E & Rp & St). destruct (ensure_out _ _ E) as [In1 Eo].
  apply initialize_run_parameters_spec in Rp; [|congruence]. destruct Rp as [R1 R2 R3 R4 R5 R6 R7].
  apply start_time_spec in St. destruct St as (S1 & S2 & S3 & S4 & S5 & S6).
  assert (B : base env w0 (vi_of w0) (pi_of w0)).
  { apply base_of; [congruence|]. intros x Ix. destruct (R2 x Ix) as (v & p & Al & Sv). exists v, p.
    rewrite S1, S2. auto. }
  split; auto. apply J_start; auto. simpl. congruence.
Qed.

Lemma reset_running a a' : wf (w_out (a_world _ a)) -> scm_reset_stepping world H a = (a', Ok tt) ->
  exists w0 d, prepared_world a w0 /\ running w0 a' d /\ p_reset (In w0) (d_start w0) = (d, Ok tt).
Proof.
  intros W X. apply reset_stepping_inv in X. destruct X as (w0 & Pw & Re & In1).
  destruct (prepared_base _ _ W Pw) as [B Js].
  pose proof (ref_reset env w0 (vi_of w0) (pi_of w0) B w0 (d_start w0) Js) as R.
  destruct (p_reset (In w0) (d_start w0)) as [d [[]|e]] eqn:Pr.
  - destruct R as (w' & E & Jw). exists w0, d. split; auto. rewrite E in Re. split; auto. constructor; auto. congruence.
  - destruct R as (w' & E). congruence.
Qed.

(** Steps and runs of such an adapter. *)
Lemma step_running w0 a d : running w0 a d ->
  match p_calc_step (In w0) d with
  | (d', Ok _) => exists a', adapter_step world H a = (a', Ok tt) /\ running w0 a' d'
  | (d', Err e) => exists a', adapter_step world H a = (a', Err e)
  end.
Proof.
  intros [B Ai Jw]. pose proof (ref_calc_step env w0 (vi_of w0) (pi_of w0) B false _ _ Jw) as R.
  unfold adapter_step, call. simpl.
  destruct (p_calc_step (In w0) d) as [d' [[]|e]].
  - destruct R as (w' & -> & J'). eexists. split; [reflexivity|]. constructor; auto.
  - destruct R as (w' & ->). eauto.
Qed.
Lemma run_running w0 a d : running w0 a d ->
  match p_run env w0 (vi_of w0) d with
  | (d', Ok _) => exists a', adapter_run world H a = (a', Ok tt) /\ running w0 a' d'
  | (d', Err e) => exists a', adapter_run world H a = (a', Err e)
  end.
Proof.
  intros [B Ai Jw]. pose proof (ref_run env w0 (vi_of w0) (pi_of w0) B _ _ Jw) as R.
  unfold adapter_run, call. simpl.
  destruct (p_run env w0 (vi_of w0) d) as [d' [[]|e]].
  - destruct R as (w' & -> & J'). eexists. split; [reflexivity|]. constructor; auto.
  - destruct R as (w' & ->). eauto.
Qed.

(** What can be read from such an adapter. *)
Lemma running_item w0 a d x i : running w0 a d ->
  snd (item env Out_ (nm x) i (a_world _ a)) = at_index (d_get d x) i.
Proof.
  intros [B Ai Jw]. pose proof (ref_item env w0 (vi_of w0) (pi_of w0) B _ x i false eq_refl _ _ Jw) as R.
  unfold p_item in R. destruct (at_index (d_get d x) i).
  - destruct R as (w' & -> & _). auto.
  - destruct R as (w' & ->). auto.
Qed.
Lemma running_scalar w0 a d n : running w0 a d ->
  snd (scalar env n (a_world _ a)) = i_scalar (In w0) n.
Proof. intros [B Ai Jw]. apply (J_scalar _ _ _ _ _ _ _ n Jw). Qed.
Lemma running_generic w0 a d n : running w0 a d ->
  snd (generic env n (a_world _ a)) = i_generic (In w0) n.
Proof. intros [B Ai Jw]. apply (J_scalar _ _ _ _ _ _ _ n Jw). Qed.
Lemma running_E w0 a d i : running w0 a d ->
  snd (item env In_ "E" i (a_world _ a)) = match i_E (In w0) with Ok l => at_index l i | Err e => Err e end.
Proof.
  intros [B Ai Jw]. pose proof (ref_E env w0 (vi_of w0) (pi_of w0) _ i _ _ Jw) as R.
  unfold p_E, pbind, plift in R. destruct (i_E (In w0)) as [l|e].
  - destruct (at_index l i).
    + destruct R as (w' & -> & _). auto.
    + destruct R as (w' & ->). auto.
  - destruct R as (w' & ->). auto.
Qed.
End Base.
