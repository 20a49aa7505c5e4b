(** Parameters that have been requested and not yet written (for C91), as [StoreHolds.v] for those that have been. *)
From Coq Require Import String Ascii List Arith Lia Bool ZArith Reals.
From Verif Require DiceInit.
From Verif Require Import Base ListFacts Units TimeModel Core CoreEvo CoreTree CoreNames CoreInv CoreStep Spec_Core CoreReq CoreP1 CoreP2 CoreView CoreView Spec_Time TimeProps StoreHolds StoreCalls.
Import ListNotations.
Local Open Scope string_scope.
Local Open Scope list_scope.

Definition requested (q : param) (e : entry) : Prop :=
  p_type q = Some (e_type e) /\ p_unit q = e_unit e /\ p_time q = e_time e /\ p_read q = true /\ p_children q = [].
Record kept (env : uenv) (s : state) (E : list entry) : Prop := {
  k_wf : wf env s;
  k_root : region_at s ["World"] = Some 0;
  k_in : forall e, In e E -> exists p q, param_at s (e_region e) (e_name e) = Some p /\
    nth_error (st_params s) p = Some q /\ requested q e;
  k_all : forall rs l p, param_at s rs l = Some p -> exists e rest, In e E /\ e_region e = rs /\ e_name e = l ++ rest;
  k_typed : forall p q, nth_error (st_params s) p = Some q -> p_type q <> None ->
    exists e, In e E /\ param_at s (e_region e) (e_name e) = Some p }.

Lemma kept_init env : kept env (init_state "World") [].
Proof. destruct (holds_init env) as [A B C D E]. constructor; auto. intros e []. Qed.

(** A new parameter, away from those that are held. *)
Lemma kept_locate env s E e n r rest : kept env s E -> apart e E -> hcomponents r = "World" :: rest ->
  hcomponents r = e_region e -> hcomponents n = e_name e -> e_name e <> [] ->
  exists s1 p q, locate s n r = (s1, Ok p) /\ nth_error (st_params s1) p = Some q /\
    p_type q = None /\ p_children q = [] /\ wf env s1 /\ evo s s1 /\
    param_at s1 (e_region e) (e_name e) = Some p /\
    (forall rs l i, param_at s1 rs l = Some i -> param_at s rs l = Some i \/ rs = e_region e /\ prefix l (e_name e)) /\
    (forall i q', nth_error (st_params s1) i = Some q' -> p_type q' <> None -> nth_error (st_params s) i = Some q') /\
    (forall i q', nth_error (st_params s) i = Some q' -> p_read q' = true -> nth_error (st_params s1) i = Some q').
Proof.
  intros H A HR ER EN NE. pose proof (k_wf _ _ _ H) as W. pose proof (wf_tree _ _ W) as WT.
  assert (NOT : forall m p, param_at s (e_region e) (e_name e ++ m) = Some p -> False).
  { intros m p P. destruct (k_all _ _ _ H _ _ _ P) as (e' & m' & I & R' & N').
    apply (proj1 (A e' I R')). exists (m ++ m'). now rewrite app_assoc. }
  destruct (locate_ok s n r rest WT (k_root _ _ _ H) HR) as (s1 & p & L); [congruence| |].
  { intros l m p q En M P Q. rewrite ER in P.
    assert (T : p_type q = None).
    { destruct (p_type q) eqn:T; [|reflexivity].
      destruct (k_typed _ _ _ H _ _ Q) as (e' & I & P'); [congruence|].
      apply (param_at_names s WT) in P, P'. destruct P as [P1 P2], P' as [P1' P2'].
      exfalso. apply (proj2 (A e' I ltac:(congruence))). exists m. congruence. }
    pose proof (pi_untyped _ (wf_params _ _ W _ _ Q) T). tauto. }
  pose proof (wf_locate env _ _ _ _ _ W L) as W1. pose proof (evo_locate _ _ _ _ _ L) as Ev.
  pose proof (locate_created _ _ _ _ _ L) as P. rewrite ER, EN in P.
  destruct (param_at_valid _ _ _ _ (wf_tree _ _ W1) P) as [q Q].
  assert (OLD : forall rs l i, param_at s1 rs l = Some i -> param_at s rs l = Some i \/ rs = e_region e /\ prefix l (e_name e)).
  { intros rs l i X. destruct (param_at_valid _ _ _ _ (wf_tree _ _ W1) X) as [qi Qi].
    destruct (locate_prefix _ _ _ _ _ i qi L Qi) as [[q0 Q0]|(l1 & l2 & E1 & E2)].
    - left. eapply (at_back s s1); eauto using wf_tree.
    - right. apply (param_at_names s1 (wf_tree _ _ W1)) in X, E2. destruct X as [X1 X2], E2 as [Y1 Y2].
      split; [congruence|]. exists l2. congruence. }
  assert (TY : forall i q', nth_error (st_params s1) i = Some q' -> p_type q' <> None -> nth_error (st_params s) i = Some q').
  { intros i q' Q' T. destruct (locate_untyped _ _ _ _ _ i q' L Q' T) as (q0 & Q0 & T0 & _).
    destruct (k_typed _ _ _ H _ _ Q0) as (e' & I & P'); [congruence|].
    destruct (k_in _ _ _ H e' I) as (p' & q1 & P1 & Q1 & _ & _ & _ & RD & _).
    assert (p' = i) by congruence. subst p'. assert (q1 = q0) by congruence. subst q1.
    pose proof (locate_keeps _ _ _ _ _ i q0 L Q0 (or_introl RD)) as K. congruence. }
  exists s1, p, q. repeat (split; [assumption|]).
  assert (T : p_type q = None).
  { destruct (p_type q) eqn:T; [|reflexivity]. exfalso.
    assert (Q0 : nth_error (st_params s) p = Some q) by (apply TY; congruence).
    apply (NOT [] p). rewrite app_nil_r. eapply (at_back s s1); eauto using wf_tree. }
  split; [exact T|]. split.
  { destruct (p_children q) as [|[c i] cs] eqn:C; [reflexivity|]. exfalso.
    assert (X : param_at s1 (e_region e) (e_name e ++ [c]) = Some i).
    { rewrite (param_at_snoc s1 _ _ c p q P Q), C. cbn. now rewrite String.eqb_refl. }
    destruct (OLD _ _ _ X) as [Y|[_ [m Y]]]; [now apply (NOT [c] i)|].
    apply (f_equal (@length string)) in Y. rewrite !app_length in Y. cbn in Y. lia. }
  repeat (split; [assumption|]).
  intros i q' Q' RD. exact (locate_keeps _ _ _ _ _ i q' L Q' (or_introl RD)).
Qed.

Lemma kept_add env s E e n r rest s1 p q s' qf :
  kept env s E -> apart e E -> hcomponents r = "World" :: rest ->
  hcomponents r = e_region e -> hcomponents n = e_name e -> e_name e <> [] ->
  locate s n r = (s1, Ok p) -> nth_error (st_params s1) p = Some q ->
  wf env s' -> st_regions s' = st_regions s1 -> st_params s' = upd (st_params s1) p qf ->
  p_children qf = p_children q -> requested qf e -> kept env s' (E ++ [e]).
Proof.
  intros H A HR ER EN NE L Q W' R' P' CH IE.
  destruct (kept_locate env s E e n r rest H A HR ER EN NE)
    as (s1' & p' & q' & L' & Q' & T & C & W1 & Ev & PA & OLD & TY & KEEP).
  rewrite L in L'. injection L' as <- <-. rewrite Q in Q'. injection Q' as <-.
  pose proof (nth_lt _ _ _ Q) as LT.
  assert (S : same_shape s1 s').
  { split; [exact R'|]. intros i. rewrite P', nth_upd. destruct (Nat.eqb_spec p i) as [<-|]; [|reflexivity].
    rewrite Q. cbn. now rewrite CH. }
  constructor.
  - exact W'.
  - rewrite (shape_region_at _ _ _ S). eapply region_at_evo; [exact Ev|apply H].
  - intros e' I. apply in_app_iff in I. destruct I as [I|[<-|[]]].
    + destruct (k_in _ _ _ H e' I) as (i & qi & Pi & Qi & IEi).
      pose proof IEi as (_ & _ & _ & RD & _).
      exists i, qi. rewrite (shape_at _ _ _ _ S). split; [eapply param_at_evo; eauto|]. split; [|exact IEi].
      rewrite P', nth_upd_neq; [now apply KEEP|]. intros ->.
      pose proof (KEEP _ _ Qi RD) as K. rewrite Q in K. injection K as ->. destruct IEi as [TT _]. congruence.
    + exists p, qf. rewrite (shape_at _ _ _ _ S). split; [exact PA|]. split; [|exact IE].
      rewrite P'. now apply nth_upd_eq.
  - intros rs l i X. rewrite (shape_at _ _ _ _ S) in X. destruct (OLD _ _ _ X) as [Y|[-> [m Y]]].
    + destruct (k_all _ _ _ H _ _ _ Y) as (e' & m & I & Z1 & Z2). exists e', m.
      split; [apply in_app_iff; now left|]. auto.
    + exists e, m. split; [apply in_app_iff; right; now left|]. auto.
  - intros i qi Qi Ti. rewrite P' in Qi. destruct (Nat.eq_dec i p) as [->|N].
    + exists e. split; [apply in_app_iff; right; now left|]. now rewrite (shape_at _ _ _ _ S).
    + rewrite nth_upd_neq in Qi by auto. pose proof (TY _ _ Qi Ti) as Q0.
      destruct (k_typed _ _ _ H _ _ Q0 Ti) as (e' & I & X). exists e'.
      split; [apply in_app_iff; now left|]. rewrite (shape_at _ _ _ _ S). eapply param_at_evo; eauto.
Qed.

(** A request of a new timeseries. *)
Lemma kept_request env s E nm u tps ty tyname s' vi : timeseries ty -> from_timeseries_type (AStr tyname) = Ok ty ->
  kept env s E -> nm <> [] ->
  let e := mkEntry ["World"] nm ty (Some u) (Some (mkTP 1 tps)) (PArr []) in
  apart e E ->
  step env (OTimeseries (HSeq nm) u (mkTP 1 tps) (HSeq ["World"]) (AStr tyname) (AEnum ILINEAR) (AEnum XNONE)) s = (s', Ok (VView vi)) ->
  kept env s' (E ++ [e]) /\ st_views s' = st_views s ++ skipn (length (st_views s)) (st_views s') /\ evo s s' /\
  exists v, nth_error (st_views s') vi = Some v /\ param_at s' ["World"] nm = Some (v_param v) /\
    unit_converter env (Some u) (Some u) = Ok (v_uconv v) /\ timeseries_converter tps tps ty XNONE = Ok (v_tconv v).
Proof.
  intros T FT H NE e A St.
  destruct (kept_locate env s E e (HSeq nm) (HSeq ["World"]) [] H A eq_refl eq_refl eq_refl NE)
    as (s1 & p & q & L & Q & TY & CH & W1 & Ev & PA & _).
  pose proof (wf_step env _ _ _ _ (k_wf _ _ _ H) St) as W'.
  match type of St with step env ?o _ = _ => pose proof (DiceInit.evo_after env o s) as Ev'; unfold after in Ev'; rewrite St in Ev'; cbn [fst] in Ev' end.
  assert (Ap : st_views s' = st_views s ++ skipn (length (st_views s)) (st_views s')).
  { destruct (request_appends env (OTimeseries (HSeq nm) u (mkTP 1 tps) (HSeq ["World"]) (AStr tyname) (AEnum ILINEAR) (AEnum XNONE)) s _ eq_refl) as (l & Al & _).
    unfold after in Al. rewrite St in Al. cbn [fst] in Al. rewrite Al, skipn_app, skipn_all, Nat.sub_diag. reflexivity. }
  cbn [step] in St. unfold ps_timeseries in St. rewrite FT in St. cbn [from_interpolation_type from_extrapolation_type] in St.
  rewrite L in St. unfold on_param at 1 in St. rewrite Q in St. unfold attempt_read in St. rewrite TY in St.
  cbn [tp_ticks] in St.
  set (q1 := p_set_read (p_set_time (p_set_data (p_set_type q ty (Some u)) (PArr (repeat None (Z.to_nat (series_length ty (length tps)))))) (mkTP 1 tps))) in *.
  assert (NN : (series_length ty (length tps) <? 0)%Z = false).
  { destruct (series_length ty (length tps) <? 0)%Z eqn:X; [exfalso|reflexivity].
    clear -St T. destruct T as [->| ->]; discriminate St. }
  rewrite NN in St.
  assert (Q2 : nth_error (st_params (set_param s1 p q1)) p = Some q1) by (apply nth_upd_eq; eapply nth_lt; eauto).
  assert (St' : lift VView (build_view (set_param s1 p q1) (ts_leaf_view env (set_param s1 p q1) u tps ty XNONE) p) = (s', Ok (VView vi))).
  { clear -St T. destruct T as [->| ->]; exact St. }
  clear St. unfold lift, build_view in St'. rewrite Q2 in St'. unfold ts_leaf_view in St'. rewrite Q2 in St'.
  unfold q1 at 1 2 in St'. cbn [p_unit p_set_read p_set_time p_set_data p_set_type p_time tp_ticks] in St'.
  destruct (unit_converter env (Some u) (Some u)) as [uc|er] eqn:UC; [|discriminate].
  destruct (timeseries_converter tps tps ty XNONE) as [tc|er] eqn:TC; [|discriminate].
  unfold has_children in St'. change (p_children q1) with (p_children q) in St'. rewrite CH in St'. cbv iota in St'.
  injection St' as <- <-.
  split; [|split; [exact Ap|split; [exact Ev'|]]].
  - apply (kept_add env s E e (HSeq nm) (HSeq ["World"]) [] s1 p q _ q1 H A eq_refl eq_refl eq_refl NE L Q W'); try reflexivity.
    unfold requested, q1, e. cbn. rewrite CH. repeat split; reflexivity.
  - eexists. split; [apply nth_app_new|]. cbn [v_param v_uconv v_tconv v_set_public]. split; [|auto].
    rewrite (shape_at s1); [exact PA|]. split; [reflexivity|]. intros i. cbn [st_params set_param]. rewrite nth_upd. destruct (Nat.eqb_spec p i) as [<-|]; [|reflexivity].
    rewrite Q. reflexivity.
Qed.
