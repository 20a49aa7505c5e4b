(** What every adapter in use satisfies. *)
From Coq Require Import String List ZArith Reals Bool Arith Lia.
From Verif Require Import Base ListFacts Units TimeModel Calendar Core CoreEvo CoreTree CoreNames
  CoreInv CoreStep Spec_Core CoreReq CoreP1 CoreP2 Adapters Dice DiceInit DiceSim DiceBase Spec_Dice.
Import ListNotations.
Local Open Scope string_scope.
Local Open Scope list_scope.

Section U.
Variable env : uenv.

(** [View v] of the inputs is a view of "Start Time". *)
Definition of_start (w : world) (v : nat) : Prop :=
  exists c p, nth_error (st_views (w_in w)) v = Some c /\ v_param c = p /\ v_public c = true /\ v_kind c = KGeneric /\
    param_at (w_in w) ["World"] ["Start Time"] = Some p.

Record sane (w : world) : Prop := {
  sn_in : reachable env (w_in w);
  sn_out : reachable env (w_out w);
  sn_start : forall v, alookup "start_time" (w_views w) = Some v -> of_start w v }.

Definition keeps {A} (m : M A) : Prop := forall w, sane w -> sane (fst (m w)).

Lemma of_start_after o w v : of_start w v ->
  forall w', w_in w' = after env o (w_in w) -> of_start w' v.
Proof.
  intros (c & p & V & Pv & Pb & Kd & At) w' E. pose proof (evo_after env o (w_in w)) as Ev. rewrite <- E in Ev.
  destruct (ev_views _ _ Ev _ _ V) as (c' & V' & Vv).
  exists c', p. split; auto. destruct Vv. split; [congruence|]. split; [congruence|]. split; [congruence|].
  eapply param_at_evo; eauto.
Qed.
Lemma keeps_ret {A} (a : A) : keeps (ret a). Proof. intros w Hw. exact Hw. Qed.
Lemma keeps_raise {A} e : keeps (@raise A e). Proof. intros w Hw. exact Hw. Qed.
Lemma keeps_lift {A} (r : res A) : keeps (lift_res r). Proof. intros w Hw. exact Hw. Qed.
Lemma keeps_bind {A C} (m : M A) (f : A -> M C) : keeps m -> (forall a, keeps (f a)) -> keeps (bind m f).
Proof.
  intros Hm Hf w Hw. unfold bind. specialize (Hm w Hw). destruct (m w) as [w' [a|e]]; simpl in *; auto.
  apply Hf; auto.
Qed.
Lemma keeps_op sd o : keeps (op_on env sd o).
Proof.
  intros w [Si So Ss]. unfold op_on. destruct sd.
  - destruct (step env o (w_in w)) as [s r] eqn:E. simpl.
    assert (Es : s = after env o (w_in w)) by (unfold after; now rewrite E). subst s.
    constructor; simpl; auto; [apply reachable_after; auto|]. intros v Al. apply (of_start_after o w); [apply Ss; auto|reflexivity].
  - destruct (step env o (w_out w)) as [s r] eqn:E. simpl.
    assert (Es : s = after env o (w_out w)) by (unfold after; now rewrite E). subst s.
    constructor; simpl; auto. apply reachable_after; auto.
Qed.
Lemma keeps_view_of n : keeps (view_of n). Proof. intros w Hw. exact Hw. Qed.
Lemma keeps_coef n : keeps (coef n). Proof. intros w Hw. exact Hw. Qed.
Lemma keeps_same {A} (m : M A) : (forall w, w_in (fst (m w)) = w_in w /\ w_out (fst (m w)) = w_out w /\
  w_views (fst (m w)) = w_views w) -> keeps m.
Proof.
  intros E w [Si So Ss]. destruct (E w) as (E1 & E2 & E3). constructor; try congruence.
  intros v Al. rewrite E3 in Al. unfold of_start. rewrite E1. apply Ss; auto.
Qed.
Lemma keeps_set_coef n x : keeps (set_coef n x). Proof. apply keeps_same. auto. Qed.
Lemma keeps_timestep : keeps timestep. Proof. apply keeps_same. auto. Qed.
Lemma keeps_set_timestep n : keeps (set_timestep n). Proof. apply keeps_same. auto. Qed.
Lemma keeps_count : keeps count. Proof. apply keeps_same. auto. Qed.
Lemma keeps_set_count n : keeps (set_count n). Proof. apply keeps_same. auto. Qed.
Lemma keeps_time : keeps current_time. Proof. apply keeps_same. auto. Qed.
Lemma keeps_set_time n : keeps (set_time n). Proof. apply keeps_same. auto. Qed.
Lemma keeps_is_empty n : keeps (is_empty n). Proof. apply keeps_same. auto. Qed.
Lemma keeps_np_empty n : keeps (np_empty n).
Proof. apply keeps_same. intros w. unfold np_empty. destruct (n <? 0)%Z; auto. Qed.
Lemma keeps_set_view n v : n <> "start_time" -> keeps (set_view_of n v).
Proof.
  intros N w [Si So Ss]. constructor; cbn [fst w_in w_out w_views set_view_of alookup]; auto. intros v'.
  destruct (String.eqb_spec "start_time" n); [congruence|]. apply Ss.
Qed.

Ltac keep :=
  repeat (intros; cbv zeta; first
    [ assumption
    | simple apply keeps_bind; [|intros] | simple apply keeps_ret | simple apply keeps_raise | simple apply keeps_lift | simple apply keeps_op
    | simple apply keeps_view_of | simple apply keeps_coef | simple apply keeps_set_coef | simple apply keeps_timestep | simple apply keeps_set_timestep
    | simple apply keeps_count | simple apply keeps_set_count | simple apply keeps_time | simple apply keeps_set_time | simple apply keeps_is_empty
    | simple apply keeps_np_empty | simple apply keeps_set_view; discriminate
    | match goal with |- keeps (match ?x with _ => _ end) => destruct x end ]).

Lemma keeps_scalar n : keeps (scalar env n). Proof. unfold scalar. keep. Qed.
Lemma keeps_generic n : keeps (generic env n). Proof. unfold generic. keep. Qed.
Lemma keeps_time_of n : keeps (time_of env n).
Proof. unfold time_of. apply keeps_bind; [apply keeps_generic|]. intros. unfold as_time. keep. Qed.
Lemma keeps_delta_of n : keeps (delta_of env n).
Proof. unfold delta_of. apply keeps_bind; [apply keeps_generic|]. intros. unfold as_delta. keep. Qed.
Lemma keeps_item sd n i : keeps (item env sd n i). Proof. unfold item. keep. Qed.
Lemma keeps_set_item n i x : keeps (set_item env n i x). Proof. unfold set_item. keep. Qed.
Lemma keeps_set_values n x : keeps (set_values env n x). Proof. unfold set_values. keep. Qed.
Lemma keeps_lock n : keeps (lock env n). Proof. unfold lock. keep. Qed.
Lemma keeps_unlock n : keeps (unlock env n). Proof. unfold unlock. keep. Qed.
Lemma keeps_a_view sd o : keeps (a_view env sd o). Proof. unfold a_view. keep. Qed.

Ltac keep2 :=
  repeat (intros; cbv zeta; first
    [ simple apply keeps_scalar | simple apply keeps_generic | simple apply keeps_time_of | simple apply keeps_delta_of | simple apply keeps_item
    | simple apply keeps_set_item | simple apply keeps_set_values | simple apply keeps_lock | simple apply keeps_unlock | simple apply keeps_a_view
    | assumption
    | simple apply keeps_bind; [|intros] | simple apply keeps_ret | simple apply keeps_raise | simple apply keeps_lift | simple apply keeps_op
    | simple apply keeps_view_of | simple apply keeps_coef | simple apply keeps_set_coef | simple apply keeps_timestep | simple apply keeps_set_timestep
    | simple apply keeps_count | simple apply keeps_set_count | simple apply keeps_time | simple apply keeps_set_time | simple apply keeps_is_empty
    | simple apply keeps_np_empty | simple apply keeps_set_view; discriminate
    | match goal with |- keeps (match ?x with _ => _ end) => destruct x end ]).

Lemma keeps_start : keeps (start_time env).
Proof. unfold start_time. keep2. unfold as_time. keep2. Qed.
Lemma keeps_params : keeps (initialize_run_parameters env).
Proof. unfold initialize_run_parameters, out_series. keep2. Qed.
Lemma keeps_reset : keeps (reset_model env).
Proof. unfold reset_model, start_series, initial_forcing. keep2. Qed.
Lemma keeps_step : keeps (calc_step env).
Proof. unfold calc_step. keep2. Qed.
Lemma keeps_repeat n : keeps (repeat_m n (calc_step env)).
Proof. induction n; simpl; [apply keeps_ret|]. apply keeps_bind; [apply keeps_step|auto]. Qed.
Lemma keeps_run : keeps (run_model env).
Proof. unfold run_model. keep2. apply keeps_repeat. Qed.

Lemma keeps_parameter n full v u : n <> "start_time" -> keeps (set_parameter env n full v u).
Proof. intros N. unfold set_parameter. keep2. now apply keeps_set_view. Qed.
Lemma keeps_each {A} (l : list A) f : (forall a, In a l -> keeps (f a)) -> keeps (for_each l f).
Proof.
  induction l as [|a l IH]; simpl; intros Hf; [apply keeps_ret|].
  apply keeps_bind; [apply Hf; auto|]. intros _. apply IH. auto.
Qed.
Lemma keeps_start_parameter : keeps (set_parameter env "start_time" ["Start Time"] DNone None).
Proof.
  unfold set_parameter. intros w Sw. unfold bind at 1, a_view, bind at 1.
  pose proof (keeps_op In_ (OGeneric (HSeq ["Start Time"]) World_) w Sw) as S1.
  unfold op_on in *. rewrite (after_eq env) in *. cbn [fst] in S1.
  destruct (answer env (OGeneric (HSeq ["Start Time"]) World_) (w_in w)) as [x|e] eqn:An; [|exact S1].
  destruct x; try exact S1. unfold ret at 1. unfold bind, is_empty. 
  match goal with |- context [match ?m with Some _ => _ | None => _ end] => destruct m as [q|] eqn:Pq end; [|exact S1].
  unfold ret. cbv iota. cbn [fst set_view_of]. destruct S1 as [Si So Ss]. constructor; cbn [fst w_in w_out w_views set_view_of alookup]; auto.
  intros v'. destruct (String.eqb_spec "start_time" "start_time"); [|congruence].
  intros Ev. inversion Ev; subst v'.
  assert (Rq : requests (OGeneric (HSeq ["Start Time"]) World_) (HSeq ["Start Time"]) World_ GENERIC None None).
  { simpl. auto. }
  destruct (request_ok_reports env _ _ _ _ _ _ _ _ (reachable_wf env _ (sn_in _ Sw)) Rq An) as
    (p & q' & At & Q & T & Rd & c & V & Pb & Pv & Vt & Nv & Kg & _).
  exists c, p. simpl. rewrite <- Pv at 1. repeat (split; auto).
Qed.
Lemma keeps_model : keeps (initialize_model env).
Proof.
  unfold initialize_model. apply keeps_bind.
  { intros w [Si So Ss]. constructor; simpl; auto. discriminate. }
  intros _. apply keeps_bind.
  - apply keeps_each. intros [n [d u]] Hi. apply keeps_parameter. intros ->.
    revert Hi. unfold MODEL_PARAMETER_DEFAULTS. simpl. intuition discriminate.
  - intros _. apply keeps_each. intros [n [[sn d] u]] Hi. unfold STANDARD_PARAMETER_DEFAULTS in Hi.
    simpl in Hi. repeat (destruct Hi as [Hi|Hi]; [inversion Hi; subst|]); try contradiction;
      try (apply keeps_parameter; discriminate). apply keeps_start_parameter.
Qed.

Notation H := (dice_hooks env).
Definition asane (a : adapter world) : Prop := sane (a_world _ a).

Lemma call_sane h e a : keeps h -> asane a -> asane (fst (call world h e a)).
Proof. intros K Sa. unfold call. specialize (K _ Sa). destruct (h (a_world world a)). exact K. Qed.
Lemma then_sane x f : asane (fst x) -> (forall a, asane a -> asane (fst (f a))) -> asane (fst (then_do world x f)).
Proof. intros Hx Hf. unfold then_do. destruct x as [a [[]|e]]; simpl in *; auto. Qed.
Lemma ensure_sane a : asane a -> asane (fst (ensure_initialized world H a)).
Proof.
  intros Sa. unfold ensure_initialized. destruct (a_initialized world a); auto.
  apply then_sane; [apply call_sane; auto; apply keeps_model|]. intros b Sb. exact Sb.
Qed.
Lemma input_sane a : asane a -> asane (fst (Adapters.initialize_model_input world H a)).
Proof. intros Sa. apply then_sane; [now apply ensure_sane|]. intros. apply call_sane; auto. apply keeps_ret. Qed.
Lemma params_sane a : asane a -> asane (fst (Adapters.initialize_run_parameters world H a)).
Proof. intros Sa. apply then_sane; [now apply ensure_sane|]. intros. apply call_sane; auto. apply keeps_params. Qed.
Lemma reset_sane a : asane a -> asane (fst (adapter_reset world H a)).
Proof.
  intros Sa. unfold adapter_reset. simpl. pose proof (keeps_start _ Sa) as K.
  destruct (start_time env (a_world world a)) as [w [[]|e]]; auto. apply call_sane; auto. apply keeps_reset.
Qed.
Lemma stepping_sane a : asane a -> asane (fst (scm_reset_stepping world H a)).
Proof. intros Sa. apply then_sane; [|apply reset_sane]. apply then_sane; [now apply input_sane|]. apply params_sane. Qed.
Lemma used_sane a : used env a -> asane a.
Proof.
  induction 1 as [inp outp junk Ri Ro|c a U IH|sd o a U IH].
  - constructor; simpl; auto. discriminate.
  - destruct c; simpl; auto using input_sane, params_sane, reset_sane, stepping_sane.
    + apply call_sane; auto. apply keeps_run.
    + apply call_sane; auto. apply keeps_step.
    + apply then_sane; [now apply stepping_sane|]. intros. apply call_sane; auto. apply keeps_run.
    + apply call_sane; auto. apply keeps_step.
  - apply (keeps_op sd o _ IH).
Qed.
Lemma used_wf a : used env a -> wf env (w_out (a_world _ a)).
Proof. intros U. apply reachable_wf, used_sane, U. Qed.
Lemma used_wf_in a : used env a -> wf env (w_in (a_world _ a)).
Proof. intros U. apply reachable_wf, used_sane, U. Qed.

(** Requests do not change what the generic attributes read as. *)
Lemma generic_view n w g : snd (generic env n w) = Ok g <-> exists v c q, alookup n (w_views w) = Some v /\
  nth_error (st_views (w_in w)) v = Some c /\ v_public c = true /\ v_kind c = KGeneric /\
  nth_error (st_params (w_in w)) (v_param c) = Some q /\ p_written q = true /\ p_data q = Some (PGen g).
Proof.
  unfold generic, view_of, bind, op_on. destruct (alookup n (w_views w)) as [v|].
  2: { split; [discriminate|]. intros (v & c & q & X & _). discriminate. }
  cbn [step]. unfold with_view. split.
  - destruct (nth_error (st_views (w_in w)) v) as [c|] eqn:V; [|discriminate].
    destruct (v_public c) eqn:Pb; [|discriminate]. destruct (v_kind c) eqn:Kd; try discriminate.
    unfold lift, generic_get. destruct (nth_error (st_params (w_in w)) (v_param c)) as [q|] eqn:Q; [|discriminate].
    destruct (p_written q) eqn:Wr; [|discriminate].
    destruct (p_data q) as [d|] eqn:D; [|discriminate]. destruct d; try discriminate.
    simpl. intros E. inversion E; subst. exists v, c, q. repeat (split; auto).
  - intros (v' & c & q & Ev & V & Pb & Kd & Q & Wr & D). inversion Ev; subst v'. rewrite V, Pb, Kd.
    unfold lift, generic_get. rewrite Q, Wr, D. reflexivity.
Qed.
Lemma cell_request o s p q : wf env s -> write_target o = None -> nth_error (st_params s) p = Some q ->
  p_written q = true -> nth_error (st_params (after env o s)) p = Some q.
Proof.
  intros W N Q Wr. apply frame_step; auto.
  - eapply written_read; eauto.
  - intros (x & E & _). congruence.
Qed.
Lemma generic_request o n w w' g : wf env (w_in w) -> write_target o = None ->
  w_in w' = after env o (w_in w) -> alookup n (w_views w') = alookup n (w_views w) ->
  snd (generic env n w) = Ok g -> snd (generic env n w') = Ok g.
Proof.
  intros W N E Ea. rewrite !generic_view. intros (v & c & q & Al & V & Pb & Kd & Q & Wr & D).
  pose proof (evo_after env o (w_in w)) as Ev. destruct (ev_views _ _ Ev _ _ V) as (c' & V' & Vv). destruct Vv.
  exists v, c', q. rewrite Ea, E. repeat (split; [congruence|]). split; [|auto].
  rewrite ve_param. apply cell_request; auto.
Qed.

(** The time after [Adapter.reset] has read it. *)
Lemma start_time_now w w' : sane w -> start_time env w = (w', Ok tt) -> forall st,
  snd (generic env "start_time" w) = Ok (GTime st) ->
  w_time w' = dt_ns st /\ exists o, write_target o = None /\ w_in w' = after env o (w_in w) /\ w_views w' = w_views w.
Proof.
  intros Sw E st G. unfold start_time in E. apply bind_ok in E. destruct E as (v & w1 & A & E).
  unfold a_view in A. apply bind_ok in A. destruct A as (x & w2 & O & A). destruct x; try discriminate.
  inversion A; subst w2 v0; clear A. apply op_in in O. destruct O as (Ei & Ex & _ & Ev & _).
  set (o := OGeneric (HStr "Start Time") World_) in *. symmetry in Ex.
  apply bind_ok in E. destruct E as (y & w2 & O & E). apply op_in in O. destruct O as (Ei2 & Ex2 & _ & Ev2 & _).
  destruct y; try discriminate. destruct g; try discriminate. unfold bind, as_time, ret, set_time in E.
  inversion E; subst w'; clear E. cbn [w_time w_in w_views].
  assert (Same : after env (OGetGeneric v) (w_in w1) = w_in w1).
  { unfold after. cbn [step]. unfold with_view. destruct (nth_error (st_views (w_in w1)) v) as [c|]; auto.
    destruct (v_public c); auto. destruct (v_kind c); auto. unfold lift. destruct (generic_get (w_in w1) c); auto. }
  split.
  2: { exists o. split; auto. split; congruence. }
  assert (Rq : requests o (HStr "Start Time") World_ GENERIC None None) by (unfold o; simpl; auto).
  assert (W : wf env (w_in w)) by (apply reachable_wf, Sw).
  destruct (request_ok_reports env _ _ _ _ _ _ _ _ W Rq Ex) as
    (p & q' & At & Q & T & Rd & c & V & Pb & Pv & Vt & Nv & Kg & _).
  apply (generic_request o "start_time" w w1) in G; auto; [|congruence].
  apply generic_view in G. destruct G as (v0 & c0 & q0 & Al & V0 & Pb0 & Kd0 & Q0 & Wr0 & D0).
  rewrite Ev in Al. apply (sn_start _ Sw) in Al. apply (of_start_after o w _) with (w' := w1) in Al; auto.
  destruct Al as (c1' & p1 & V1 & Pv1 & _ & _ & At1). rewrite V0 in V1. inversion V1; subst c1'.
  rewrite Ei in At1. assert (p1 = p) by (change (hcomponents World_) with ["World"] in At; change (hcomponents (HStr "Start Time")) with ["Start Time"] in At; congruence).
  subst p1. rewrite Ei in *.
  unfold answer in Ex2. cbn [step] in Ex2. unfold with_view in Ex2. rewrite V, Pb, (Kg eq_refl) in Ex2.
  unfold lift, generic_get in Ex2. replace (v_param c) with (v_param c0) in Ex2 by congruence. rewrite Q0, Wr0, D0 in Ex2. simpl in Ex2. inversion Ex2. reflexivity.
Qed.
End U.
