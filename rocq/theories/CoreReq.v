(** Requests: what they leave behind. Proofs for C01-C03, C05, C06. *)
From Coq Require Import String List Arith Lia Bool ZArith Reals.
From Verif Require Import Base ListFacts Units TimeModel Core CoreEvo CoreTree CoreNames CoreInv
  CoreStep Spec_Core.
Import ListNotations.

Section R.
Variable env : uenv.
Notation wf := (wf env).

Lemma reachable_wf s : reachable env s -> wf s.
Proof. intros (root & h & ->). apply wf_reachable. Qed.
Lemma reachable_after o s : reachable env s -> reachable env (after env o s).
Proof.
  intros (root & h & ->). exists root, (h ++ [o]). rewrite run_app. reflexivity.
Qed.
Lemma reachable_run h s : reachable env s -> reachable env (run env s h).
Proof. intros (root & h0 & ->). exists root, (h0 ++ h). now rewrite run_app. Qed.
Lemma reachable_init root : reachable env (init_state root).
Proof. exists root, []. reflexivity. Qed.
Lemma after_eq o s : step env o s = (after env o s, answer env o s).
Proof. unfold after, answer. now destruct (step env o s). Qed.

Lemma requests_is o n r t u tp : requests o n r t u tp -> is_request o = Some (n, r).
Proof. destruct o; simpl; intuition congruence. Qed.
Lemma requests_type o n r t u tp : requests o n r t u tp ->
  (t = SCALAR /\ exists w, u = Some w /\ tp = None) \/
  (is_ts t /\ exists w tps, u = Some w /\ tp = Some tps) \/
  (t = GENERIC /\ u = None /\ tp = None).
Proof.
  destruct o; simpl; try tauto.
  - intros (_ & _ & -> & -> & ->). left. eauto.
  - intros (_ & _ & H & -> & -> & _). right. left. split; eauto using from_timeseries_type_ts.
Qed.

(** New view returned by a request. *)
Definition fresh_view (s2 s' : state) (vi p : nat) (t : ptype) (u : option string) : Prop :=
  exists v, nth_error (st_views s') vi = Some v /\ nth_error (st_views s2) vi = None /\
    v_public v = true /\ v_param v = p /\ vtype v = t /\
    (u = None -> v_kind v = KGeneric) /\ (forall w, u = Some w -> v_kind v <> KGeneric /\ v_unit v = w) /\
    v_writable v = false /\ v_data v = None /\ v_locked v = false /\ v_version v = None.

Lemma build_view_inv s mk p s' x k u tgt t ex : mkspec env s mk k u tgt t ex ->
  build_view s mk p = (s', x) ->
  st_params s' = st_params s /\ st_regions s' = st_regions s /\
  match x with
  | Ok vi => exists v, mk p = Ok v /\ nth_error (st_views s) vi = None /\ vi < length (st_views s') /\
      exists cs, nth_error (st_views s') vi = Some
        (mkView true (v_kind v) (v_param v) (v_unit v) (v_uconv v) (v_tconv v) cs
           (v_writable v) (v_data v) (v_locked v) (v_version v))
  | Err _ => s' = s
  end.
Proof.
  intros M H. unfold build_view in H.
  destruct (nth_error (st_params s) p) as [q|]; [|inversion H; subst; auto].
  destruct (mk p) as [v|e] eqn:Mk; [|inversion H; subst; auto].
  destruct (M _ _ Mk) as [L _].
  destruct (has_children q).
  - destruct (param_leaves s p) as [ls|]; [|inversion H; subst; auto].
    destruct (rmap mk ls) as [cvs|]; [|inversion H; subst; auto].
    inversion H; subst. simpl. split; auto. split; auto. exists v. split; auto.
    split; [apply nth_error_None; lia|]. split; [rewrite !app_length; simpl; lia|].
    eexists. rewrite app_assoc. rewrite <- (app_length). rewrite nth_app_new. reflexivity.
  - inversion H; subst. simpl. split; auto. split; auto. exists v. split; auto.
    split; [apply nth_error_None; lia|]. split; [rewrite !app_length; simpl; lia|].
    eexists. rewrite nth_app_new. reflexivity.
Qed.

Lemma request_inv o n r t u tp s s' x : wf s -> requests o n r t u tp ->
  step env o s = (s', x) ->
  (exists s1 e, locate s n r = (s1, Err e) /\ s' = s1 /\ x = Err e) \/
  exists s1 p, locate s n r = (s1, Ok p) /\
  ((exists e, on_param s1 p (fun q => attempt_read q t u tp) = (s', Err e) /\ x = Err e) \/
   (exists s2, on_param s1 p (fun q => attempt_read q t u tp) = (s2, Ok tt) /\
      st_params s' = st_params s2 /\ st_regions s' = st_regions s2 /\
      match x with
      | Ok y => exists vi, y = VView vi /\ fresh_view s2 s' vi p t u
      | Err _ => st_views s' = st_views s2
      end)).
Proof.
  intros W Rq H. destruct o; simpl in Rq; try tauto; cbn [step] in H;
    apply lift_inv2 in H; destruct H as (z & H & X).
  - destruct Rq as (-> & -> & -> & -> & ->). unfold ps_scalar in H.
    destruct (locate s n r) as [s1 [p|e]] eqn:L.
    2: { left. inversion H; subst. exists s', e. auto. }
    right. exists s1, p. split; auto.
    destruct (on_param s1 p _) as [s2 [[]|e]] eqn:O.
    2: { left. inversion H; subst. eauto. }
    right. exists s2. split; auto.
    assert (W2 : wf s2). { eapply wf_on_read; [|exact O]. eapply wf_locate; eauto. }
    pose proof (mkspec_scalar env s2 unit W2) as M.
    eapply build_view_inv in H; [|exact M].
    destruct H as (A & B & C). split; auto. split; auto.
    destruct z as [vi|e]; subst x; [|subst; auto].
    destruct C as (v & Mk & N & Lt & cs & V). exists vi. split; auto.
    destruct (M _ _ Mk) as [Lf _]. destruct Lf.
    eexists. split; [exact V|]. simpl. split; auto. split; auto. split; auto.
    unfold vtype; simpl. rewrite lf_kind. split; auto.
    split; [discriminate|]. split; [intros w E; inversion E; subst; split; [discriminate|auto]|].
    auto.
  - destruct Rq as (-> & -> & Ty & -> & -> & (i & Ip) & (ex' & Ex)). unfold ps_timeseries in H.
    rewrite Ty, Ip, Ex in H.
    destruct (locate s n r) as [s1 [p|e]] eqn:L.
    2: { left. inversion H; subst. exists s', e. auto. }
    right. exists s1, p. split; auto.
    destruct (on_param s1 p _) as [s2 [[]|e]] eqn:O.
    2: { left. inversion H; subst. eauto. }
    right. exists s2. split; auto.
    assert (W2 : wf s2). { eapply wf_on_read; [|exact O]. eapply wf_locate; eauto. }
    pose proof (mkspec_ts env s2 unit (tp_ticks tps) t ex' W2 (from_timeseries_type_ts _ _ Ty)) as M.
    eapply build_view_inv in H; [|exact M].
    destruct H as (A & B & C). split; auto. split; auto.
    destruct z as [vi|e]; subst x; [|subst; auto].
    destruct C as (v & Mk & N & Lt & cs & V). exists vi. split; auto.
    destruct (M _ _ Mk) as [Lf _]. destruct Lf.
    eexists. split; [exact V|]. simpl. split; auto. split; auto. split; auto.
    unfold vtype; simpl. rewrite lf_kind. split; auto.
    split; [discriminate|]. split; [intros w E; inversion E; subst; split; [discriminate|auto]|].
    auto.
  - destruct Rq as (-> & -> & -> & -> & ->). unfold ps_generic in H.
    destruct (locate s n r) as [s1 [p|e]] eqn:L.
    2: { left. inversion H; subst. exists s', e. auto. }
    right. exists s1, p. split; auto.
    destruct (on_param s1 p _) as [s2 [[]|e]] eqn:O.
    2: { left. inversion H; subst. eauto. }
    right. exists s2. split; auto. inversion H; subst. simpl in X. subst x. simpl. split; auto. split; auto.
    exists (length (st_views s2)). split; auto.
    eexists. simpl. split; [apply nth_app_new|]. split; [apply nth_error_None; lia|].
    simpl. split; auto. split; auto. split; auto. split; auto.
    split; [intros; discriminate|]. auto.
Qed.

(** A request with invalid enum arguments does nothing. *)
Lemma request_cases o n r : is_request o = Some (n, r) ->
  (exists t u tp, requests o n r t u tp) \/
  (forall s, exists e, step env o s = (s, Err e)).
Proof.
  destruct o; simpl; try discriminate; intros H; inversion H; subst.
  - left. exists SCALAR, (Some unit), None. auto.
  - destruct (from_timeseries_type ty) as [t|e] eqn:A.
    2: { right. intros s. exists e. unfold ps_timeseries. now rewrite A. }
    destruct (from_interpolation_type ip) as [i|e] eqn:B.
    2: { right. intros s. exists e. unfold ps_timeseries. now rewrite A, B. }
    destruct (from_extrapolation_type ex) as [x|e] eqn:C.
    2: { right. intros s. exists e. unfold ps_timeseries. now rewrite A, B, C. }
    left. exists t, (Some unit), (Some tps). repeat split; eauto.
  - left. exists GENERIC, None, None. auto.
Qed.

(** ** [reports] *)

Lemma reports_at s n r q : reports env s n r q ->
  exists p, hempty n = false /\ param_at s (hcomponents r) (hcomponents n) = Some p /\
    nth_error (st_params s) p = Some q.
Proof.
  intros (p & A & Q). unfold answer in A. cbn [step] in A.
  destruct (info s n r) as [y|e] eqn:I; simpl in A; [|discriminate]. inversion A; subst.
  apply info_at in I. destruct I. exists p. auto.
Qed.
Lemma at_reports s n r p q : hempty n = false ->
  param_at s (hcomponents r) (hcomponents n) = Some p ->
  nth_error (st_params s) p = Some q -> reports env s n r q.
Proof.
  intros E A Q. exists p. split; auto. unfold answer. cbn [step].
  rewrite (at_info _ _ _ _ E A). reflexivity.
Qed.

Lemma reports_run s n r q h : reports env s n r q ->
  exists q', reports env (run env s h) n r q' /\ pevo q q'.
Proof.
  intros H. apply reports_at in H. destruct H as (p & E & A & Q).
  pose proof (evo_run env h s) as Ev.
  destruct (ev_params _ _ Ev _ _ Q) as (q' & Q' & Pe). exists q'. split; auto.
  eapply at_reports; eauto. eapply param_at_evo; eauto.
Qed.

Lemma type_stable s h n r q t : reports env s n r q -> p_type q = Some t ->
  exists q', reports env (run env s h) n r q' /\ p_type q' = Some t /\
    p_unit q' = p_unit q /\ p_time q' = p_time q.
Proof.
  intros H T. destruct (reports_run s n r q h H) as (q' & R & Pe).
  destruct (pe_type _ _ Pe) as (A & B & C); [congruence|].
  exists q'. repeat split; congruence.
Qed.

Lemma type_conflict s n r q t o n' r' t' u tp : wf s -> reports env s n r q -> p_type q = Some t ->
  requests o n' r' t' u tp -> same_name n' n -> same_name r' r -> t' <> t ->
  step env o s = (s, Err EParameterType).
Proof.
  intros W H T Rq Sn Sr Ne. apply reports_at in H. destruct H as (p & E & A & Q).
  unfold same_name in *. rewrite <- Sn, <- Sr in A. apply locate_found in A.
  destruct (step env o s) as [s' x] eqn:St.
  pose proof (request_inv _ _ _ _ _ _ _ _ _ W Rq St) as [(s1 & e & L & _)|(s1 & p' & L & K)].
  - congruence.
  - assert (s1 = s /\ p' = p) by (split; congruence). destruct H; subst s1 p'.
    unfold on_param in K. rewrite Q in K. unfold attempt_read in K. rewrite T in K.
    destruct (ptype_eqb t t') eqn:B; [apply ptype_eqb_eq in B; congruence|].
    destruct K as [(e & K & ->)|(s2 & K & _)]; inversion K; subst.
    unfold set_param. rewrite upd_same by auto. now destruct s.
Qed.

(** A successful request leaves its parameter reported with the requested type. *)
Lemma request_ok_reports s n r t u tp o vi : wf s -> requests o n r t u tp ->
  answer env o s = Ok (VView vi) ->
  exists p q', param_at (after env o s) (hcomponents r) (hcomponents n) = Some p /\
    nth_error (st_params (after env o s)) p = Some q' /\ p_type q' = Some t /\ p_read q' = true /\
    exists v, nth_error (st_views (after env o s)) vi = Some v /\ v_public v = true /\
      v_param v = p /\ vtype v = t /\ nth_error (st_views s) vi = None /\
      (u = None -> v_kind v = KGeneric) /\ (forall w, u = Some w -> v_kind v <> KGeneric /\ v_unit v = w).
Proof.
  intros W Rq A. pose proof (after_eq o s) as St.
  destruct (request_inv _ _ _ _ _ _ _ _ _ W Rq St) as [(s1 & e & L & _ & X)|(s1 & p & L & K)].
  - congruence.
  - destruct K as [(e & K & X)|(s2 & K & P & Rg & X)]; [congruence|]. rewrite A in X.
    destruct X as (vi' & X & F). inversion X; subst vi'. exists p.
    pose proof (locate_created _ _ _ _ _ L) as At.
    assert (At' : param_at (after env o s) (hcomponents r) (hcomponents n) = Some p).
    { eapply param_at_evo; [|exact At]. eapply evo_trans; [eapply evo_on_read; eauto|].
      constructor; [rewrite Rg|rewrite P|]; try (apply levo_refl; auto with evo; fail).
      (* views *)
      intros i w Hi. pose proof (evo_step env _ _ _ _ St) as Ev.
      pose proof (on_param_views _ _ _ _ _ K) as Vw.
      destruct (pcells_locate _ _ _ _ _ L) as [Vl _]. rewrite Vw, Vl in Hi.
      apply (ev_views _ _ Ev); auto. }
    assert (W1 : wf s1) by (eapply wf_locate; eauto).
    destruct (wf_on_read env _ _ _ _ _ _ _ W1 K) as (_ & Vw & B).
    destruct (B _ eq_refl) as (q' & Q' & T' & Rd). exists q'.
    rewrite P. split; auto. split; auto. split; auto. split; auto.
    destruct F as (v & V & N & F1 & F2 & F3 & F4 & F5 & _). exists v.
    destruct (pcells_locate _ _ _ _ _ L) as [Vl _]. rewrite Vw, Vl in N.
    tauto.
Qed.

(** ** C02: which operation types a parameter *)

Lemma new_params_untyped_sub l : forall s p s' x, subparameters s p l = (s', x) ->
  forall i q', nth_error (st_params s') i = Some q' -> p_type q' <> None ->
  exists q, nth_error (st_params s) i = Some q /\ p_type q = p_type q' /\ p_unit q = p_unit q' /\ p_time q = p_time q'.
Proof.
  induction l; simpl; intros s p s' x H i q' Hi T; [inversion H; subst; eauto|].
  assert (X : forall s1 y, get_or_create_child_parameter s p a = (s1, y) ->
    forall i q', nth_error (st_params s1) i = Some q' -> p_type q' <> None ->
    exists q, nth_error (st_params s) i = Some q /\ p_type q = p_type q' /\ p_unit q = p_unit q' /\ p_time q = p_time q').
  { clear. unfold get_or_create_child_parameter. intros s1 y H i q' Hi T.
    destruct (nth_error (st_params s) p) as [q|] eqn:Q; [|inversion H; subst; eauto].
    destruct (alookup a (p_children q)); [inversion H; subst; eauto|].
    destruct (p_written q); [inversion H; subst; eauto|].
    destruct (p_read q); inversion H; subst; [eauto|]. simpl in Hi.
    apply nth_app_inv in Hi. destruct Hi as [Hi|[_ ->]]; [|simpl in T; congruence].
    rewrite nth_upd in Hi. destruct (Nat.eqb_spec p i); [subst|eauto].
    rewrite Q in Hi. inversion Hi; subst. exists q. auto. }
  destruct (get_or_create_child_parameter s p a) as [s1 [c|e]] eqn:G.
  - destruct (IHl _ _ _ _ H _ _ Hi T) as (q1 & Q1 & T1 & U1 & M1).
    destruct (X _ _ eq_refl _ _ Q1) as (q & Q & T2 & U2 & M2); [congruence|].
    exists q. repeat split; congruence.
  - inversion H; subst. eapply X; eauto.
Qed.
Lemma locate_untyped s n r s' x i q' : locate s n r = (s', x) ->
  nth_error (st_params s') i = Some q' -> p_type q' <> None ->
  exists q, nth_error (st_params s) i = Some q /\ p_type q = p_type q' /\ p_unit q = p_unit q' /\ p_time q = p_time q'.
Proof.
  intros H Hi T. unfold locate in H.
  destruct (get_or_create_region s r) as [s1 [rr|e]] eqn:G.
  - assert (P : st_params s1 = st_params s).
    { clear - G. unfold get_or_create_region in G. destruct (hcomponents r); [inversion G; auto|].
      destruct (nth_error (st_regions s) 0); [|inversion G].
      destruct (String.eqb s0 (r_name r0)); [|inversion G].
      revert G. generalize 0 at 1. revert s. induction l; simpl; intros s k G; [inversion G; auto|].
      destruct (get_or_create_subregion s k a) as [s2 [c|e]] eqn:E; [|inversion G].
      rewrite (IHl _ _ G). clear - E. unfold get_or_create_subregion in E.
      destruct (nth_error (st_regions s) k); [|inversion E].
      destruct (alookup a (r_children r)); [inversion E; auto|].
      destruct (r_aggregated r); inversion E; auto. }
    rewrite <- P. unfold get_or_create_parameter in H.
    destruct (hcomponents n); [inversion H; subst; eauto|].
    destruct (get_or_create_root_parameter s1 rr s0) as [s2 [p0|e]] eqn:E.
    + destruct (new_params_untyped_sub _ _ _ _ _ H _ _ Hi T) as (q1 & Q1 & T1 & U1 & M1).
      assert (T1' : p_type q1 <> None) by congruence.
      unfold get_or_create_root_parameter in E.
      destruct (nth_error (st_regions s1) rr); [|inversion E].
      destruct (alookup s0 (r_params r0)); inversion E; subst; [eauto|].
      simpl in Q1. apply nth_app_inv in Q1. destruct Q1 as [Q1|[_ ->]]; [eauto|simpl in T1'; congruence].
    + unfold get_or_create_root_parameter in E.
      destruct (nth_error (st_regions s1) rr); [|inversion E; inversion H; subst; eauto].
      destruct (alookup s0 (r_params r0)); inversion E.
  - inversion H; subst. 
    assert (P : st_params s' = st_params s).
    { clear - G. unfold get_or_create_region in G. destruct (hcomponents r); [inversion G; auto|].
      destruct (nth_error (st_regions s) 0); [|inversion G; auto].
      destruct (String.eqb s0 (r_name r0)); [|inversion G; auto].
      revert G. generalize 0 at 1. revert s. induction l; simpl; intros s k G; [inversion G; auto|].
      assert (E' : forall s2 y, get_or_create_subregion s k a = (s2, y) -> st_params s2 = st_params s).
      { clear. unfold get_or_create_subregion. intros s2 y E.
        destruct (nth_error (st_regions s) k); [|inversion E; auto].
        destruct (alookup a (r_children r)); [inversion E; auto|].
        destruct (r_aggregated r); inversion E; auto. }
      destruct (get_or_create_subregion s k a) as [s2 [c|e']] eqn:E.
      - rewrite (IHl _ _ G). eapply E'; eauto.
      - inversion G; subst. eapply E'; eauto. }
    rewrite P in Hi. eauto.
Qed.

Lemma typing_step o s s' x i q' : wf s -> step env o s = (s', x) ->
  nth_error (st_params s') i = Some q' -> p_type q' <> None ->
  (forall q, nth_error (st_params s) i = Some q -> p_type q = None) ->
  exists n r t u tp, requests o n r t u tp /\
    param_at s' (hcomponents r) (hcomponents n) = Some i /\
    p_type q' = Some t /\ p_unit q' = u /\
    (p_time q' = tp \/ (p_time q' = None /\ exists e, x = Err e)).
Proof.
  intros W St Hi T U.
  destruct (is_request o) as [[n r]|] eqn:Rq.
  - destruct (request_cases _ _ _ Rq) as [(t & u & tp & R)|R].
    2: { destruct (R s) as (e & R'). rewrite R' in St. inversion St; subst.
         apply U in Hi. congruence. }
    exists n, r, t, u, tp. split; auto.
    destruct (request_inv _ _ _ _ _ _ _ _ _ W R St) as [(s1 & e & L & -> & X)|(s1 & p & L & K)].
    { destruct (locate_untyped _ _ _ _ _ _ _ L Hi T) as (q & Q & T' & _).
      apply U in Q. congruence. }
    assert (Ev : forall s2 y, on_param s1 p (fun q => attempt_read q t u tp) = (s2, y) ->
       param_at s2 (hcomponents r) (hcomponents n) = Some p).
    { intros s2 y O. eapply param_at_evo; [eapply evo_on_read; eauto|].
      eapply locate_created; eauto. }
    assert (X : forall s2 y q2, on_param s1 p (fun q => attempt_read q t u tp) = (s2, y) ->
       nth_error (st_params s2) i = Some q2 -> p_type q2 <> None ->
       i = p /\ p_type q2 = Some t /\ p_unit q2 = u /\
       (p_time q2 = tp \/ p_time q2 = None /\ exists e, y = Err e)).
    { intros s2 y q2 O Q2 T2. unfold on_param in O.
      assert (W1 : wf s1) by (eapply wf_locate; eauto).
      assert (Z : nth_error (st_params s1) i = Some q2 -> False).
      { intros Q1. destruct (locate_untyped _ _ _ _ _ _ _ L Q1 T2) as (q & Q & T' & _).
        apply U in Q. congruence. }
      destruct (nth_error (st_params s1) p) as [q1|] eqn:Q1; [|inversion O; subst; tauto].
      destruct (attempt_read q1 t u tp) as [q1' z] eqn:A. inversion O; subst. clear O.
      simpl in Q2. rewrite nth_upd in Q2. destruct (Nat.eqb_spec p i); [subst|tauto].
      rewrite Q1 in Q2. inversion Q2; subst. split; auto.
      assert (Tq : p_type q1 = None).
      { destruct (p_type q1) eqn:Tq; auto. exfalso.
        destruct (locate_untyped _ _ _ _ _ _ _ L Q1) as (q & Q & T' & _); [congruence|].
        apply U in Q. congruence. }
      unfold attempt_read in A. rewrite Tq in A.
      destruct (pi_untyped _ (wf_params _ _ W1 _ _ Q1) Tq) as (_ & Ti & _).
      destruct (requests_type _ _ _ _ _ _ R) as [(-> & w & -> & ->)|[(Ht & w & tps & -> & ->)|(-> & -> & ->)]].
      - inversion A; subst; simpl. auto.
      - destruct Ht as [->| ->]; destruct (_ <? 0)%Z; inversion A; subst; simpl; eauto 6.
      - destruct (has_children q1); inversion A; subst; simpl; auto. }
    destruct K as [(e & K & ->)|(s2 & K & P & Rg & Y)].
    + destruct (X _ _ _ K Hi T) as (-> & A & B & C). split; eauto. repeat split; auto.
      destruct C as [C|(C & e' & C')]; auto. right. split; eauto.
    + rewrite P in Hi. destruct (X _ _ _ K Hi T) as (-> & A & B & C).
      split; [|repeat split; auto].
      * unfold param_at, region_at, param_in in *.
        assert (Gs : forall l k, get_subregion s' k l = get_subregion s2 k l).
        { induction l; simpl; intros; auto. rewrite Rg. destruct (nth_error (st_regions s2) k); auto.
          destruct (alookup a (r_children r0)); auto. }
        assert (Gp : forall l k, get_subparameter s' k l = get_subparameter s2 k l).
        { induction l; simpl; intros; auto. rewrite P. destruct (nth_error (st_params s2) k); auto.
          destruct (alookup a (p_children p0)); auto. }
        pose proof (Ev _ _ K) as Ev'. rewrite Rg.
        destruct (hcomponents r); [discriminate|].
        destruct (nth_error (st_regions s2) 0); [|discriminate].
        destruct (String.eqb s0 (r_name r0)); [|discriminate]. rewrite Gs.
        destruct (get_subregion s2 0 l); [|discriminate].
        destruct (hcomponents n); [discriminate|].
        destruct (nth_error (st_regions s2) n0); [|discriminate].
        destruct (alookup s3 (r_params r1)); [|discriminate]. rewrite Gp. auto.
      * destruct C as [C|(C & e' & C')]; auto. congruence.
  - exfalso. destruct (op_view o) as [vi|] eqn:Ov.
    + destruct (nth_error (st_views s) vi) as [v|] eqn:V.
      * pose proof (write_step env _ _ _ _ _ _ W Ov V St) as Ws.
        destruct (Nat.eq_dec i (v_param v)) as [->|N].
        -- destruct (view_cell env _ _ _ W V) as (q & Q & I).
           pose proof (U _ Q). apply (vi_typed _ _ _ _ _ I). auto.
        -- rewrite (ws_params _ _ _ _ _ Ws) in Hi by auto. apply U in Hi. congruence.
      * assert (s' = s).
        { destruct o; simpl in Ov; try discriminate; inversion Ov; subst; cbn [step] in St;
          unfold with_view in St; rewrite V in St; inversion St; auto. }
        subst. apply U in Hi. congruence.
    + destruct (other_step env _ _ _ _ Rq Ov St) as (_ & P & _). rewrite P in Hi.
      apply U in Hi. congruence.
Qed.

Lemma step_after o s : step env o s = (after env o s, answer env o s).
Proof. apply after_eq. Qed.

(** ** C06 *)

(** Every parameter that exists was named by some earlier request, directly or as an
    ancestor. *)
Lemma child_created_prefix s p n s' x : get_or_create_child_parameter s p n = (s', x) ->
  forall i q, nth_error (st_params s') i = Some q ->
  (exists q0, nth_error (st_params s) i = Some q0) \/ x = Ok i.
Proof.
  unfold get_or_create_child_parameter. intros H i q Hi.
  destruct (nth_error (st_params s) p) as [q0|] eqn:Q; [|inversion H; subst; eauto].
  destruct (alookup n (p_children q0)); [inversion H; subst; eauto|].
  destruct (p_written q0); [inversion H; subst; eauto|].
  destruct (p_read q0); inversion H; subst; [eauto|]. simpl in Hi.
  apply nth_app_inv in Hi. destruct Hi as [Hi|[-> _]].
  - left. rewrite nth_upd in Hi. destruct (Nat.eqb_spec p i); subst; eauto.
  - right. rewrite upd_length. auto.
Qed.
Lemma subs_created_prefix l : forall s p s' x, subparameters s p l = (s', x) ->
  forall i q, nth_error (st_params s') i = Some q ->
  (exists q0, nth_error (st_params s) i = Some q0) \/
  exists l1 l2, l = l1 ++ l2 /\ get_subparameter s' p l1 = Some i.
Proof.
  induction l as [|a l]; simpl; intros s p s' x H i q Hi; [inversion H; subst; eauto|].
  destruct (get_or_create_child_parameter s p a) as [s1 [c|e]] eqn:G.
  - destruct (child_parameter_created _ _ _ _ _ G) as (q1 & Q1 & A1).
    assert (C : exists q2, nth_error (st_params s') p = Some q2 /\ alookup a (p_children q2) = Some c).
    { pose proof (evo_subparameters _ _ _ _ _ H) as Ev.
      destruct (ev_params _ _ Ev _ _ Q1) as (q2 & Q2 & Pe). exists q2. split; auto.
      destruct (pe_children _ _ Pe) as [l' ->]. now rewrite alookup_app, A1. }
    destruct C as (q2 & Q2 & A2).
    destruct (IHl _ _ _ _ H _ _ Hi) as [[q0 Q0]|(l1 & l2 & -> & Gs)].
    + destruct (child_created_prefix _ _ _ _ _ G _ _ Q0) as [?|E]; auto.
      inversion E; subst. right. exists [a], l. split; auto. simpl. rewrite Q2, A2. auto.
    + right. exists (a :: l1), l2. split; auto. simpl. rewrite Q2, A2. auto.
  - inversion H; subst. destruct (child_created_prefix _ _ _ _ _ G _ _ Hi) as [?|E]; auto.
    discriminate.
Qed.
Lemma region_params_same s n s' x : get_or_create_region s n = (s', x) ->
  st_params s' = st_params s.
Proof.
  intros G. unfold get_or_create_region in G. destruct (hcomponents n); [inversion G; auto|].
  destruct (nth_error (st_regions s) 0); [|inversion G; auto].
  destruct (String.eqb s0 (r_name r)); [|inversion G; auto].
  revert G. generalize 0 at 1. revert s. induction l; simpl; intros s k G; [inversion G; auto|].
  assert (E' : forall s2 y, get_or_create_subregion s k a = (s2, y) -> st_params s2 = st_params s).
  { clear. unfold get_or_create_subregion. intros s2 y E.
    destruct (nth_error (st_regions s) k); [|inversion E; auto].
    destruct (alookup a (r_children r)); [inversion E; auto|].
    destruct (r_aggregated r); inversion E; auto. }
  destruct (get_or_create_subregion s k a) as [s2 [c|e']] eqn:E.
  - rewrite (IHl _ _ G). eapply E'; eauto.
  - inversion G; subst. eapply E'; eauto.
Qed.
Lemma locate_prefix s n r s' x i q : locate s n r = (s', x) ->
  nth_error (st_params s') i = Some q ->
  (exists q0, nth_error (st_params s) i = Some q0) \/
  exists l1 l2, hcomponents n = l1 ++ l2 /\ param_at s' (hcomponents r) l1 = Some i.
Proof.
  intros H Hi. unfold locate in H.
  destruct (get_or_create_region s r) as [s1 [rr|e]] eqn:G;
    pose proof (region_params_same _ _ _ _ G) as P.
  2: { inversion H; subst. rewrite P in Hi. eauto. }
  rewrite <- P. pose proof (get_or_create_region_created _ _ _ _ G) as Ra.
  pose proof (region_at_evo _ _ _ _ (evo_parameter _ _ _ _ _ H) Ra) as Ra'.
  unfold get_or_create_parameter in H. unfold param_at. rewrite Ra'.
  destruct (hcomponents n) as [|n0 rest]; [inversion H; subst; eauto|].
  destruct (get_or_create_root_parameter s1 rr n0) as [s2 [p0|e]] eqn:E.
  - destruct (root_parameter_created _ _ _ _ _ E) as (rg & R1 & R2).
    assert (C : exists rg', nth_error (st_regions s') rr = Some rg' /\ alookup n0 (r_params rg') = Some p0).
    { pose proof (evo_subparameters _ _ _ _ _ H) as Ev.
      destruct (ev_regions _ _ Ev _ _ R1) as (rg' & R1' & Re). exists rg'. split; auto.
      destruct (re_params _ _ Re) as [l' ->]. now rewrite alookup_app, R2. }
    destruct C as (rg' & R1' & R2').
    destruct (subs_created_prefix _ _ _ _ _ H _ _ Hi) as [[q0 Q0]|(l1 & l2 & -> & Gs)].
    + assert (D : (exists q1, nth_error (st_params s1) i = Some q1) \/ i = p0).
      { unfold get_or_create_root_parameter in E.
        destruct (nth_error (st_regions s1) rr); [|inversion E].
        destruct (alookup n0 (r_params r0)); inversion E; subst; [eauto|].
        simpl in Q0. apply nth_app_inv in Q0. destruct Q0 as [?|[-> _]]; eauto. }
      destruct D as [?| ->]; auto. right. exists [n0], rest. split; auto. simpl.
      now rewrite R1', R2'.
    + right. exists (n0 :: l1), l2. split; auto. simpl. now rewrite R1', R2'.
  - unfold get_or_create_root_parameter in E.
    destruct (nth_error (st_regions s1) rr); [|inversion E; inversion H; subst; eauto].
    destruct (alookup n0 (r_params r0)); inversion E.
Qed.

Lemma created_step o s s' x i q : wf s -> step env o s = (s', x) ->
  nth_error (st_params s') i = Some q ->
  (exists q0, nth_error (st_params s) i = Some q0) \/
  exists n r l1 l2, is_request o = Some (n, r) /\ hcomponents n = l1 ++ l2 /\
    param_at s' (hcomponents r) l1 = Some i.
Proof.
  intros W St Hi. pose proof (tsame_step env _ _ _ _ St) as T.
  destruct (is_request o) as [[n r]|].
  - destruct T as [->|(s1 & y & L & T)]; [eauto|].
    destruct (tsame_nth _ _ _ _ T Hi) as (q1 & Q1 & _).
    destruct (locate_prefix _ _ _ _ _ _ _ L Q1) as [?|(l1 & l2 & A & B)]; auto.
    right. exists n, r, l1, l2. split; auto. split; auto.
    (* same tree *)
    assert (W1 : wft s1) by (eapply wft_locate; eauto; apply W).
    assert (W' : wft s') by (eapply wft_tsame; eauto).
    destruct (proj1 (param_at_names s1 W1 _ _ _) B) as [N1 N2].
    apply (param_at_names s' W').
    assert (Fp : forall f k, param_full_name f s' k = param_full_name f s1 k).
    { induction f; intros k; auto. rewrite !pfn_S.
      destruct (nth_error (st_params s') k) as [a|] eqn:Ea.
      - destruct (tsame_nth _ _ _ _ T Ea) as (b & Eb & Pr & _). rewrite Eb.
        unfold tproj in Pr. inversion Pr. rewrite H0, H1.
        destruct (p_parent b); auto. now rewrite IHf.
      - destruct (nth_error (st_params s1) k) as [b|] eqn:Eb; auto.
        destruct (tsame_nth' _ _ _ _ T Eb) as (a & Ea' & _). congruence. }
    assert (Fr : forall f k, region_full_name f s' k = region_full_name f s1 k).
    { induction f; intros k; auto. rewrite !rfn_S. rewrite (ts_regions _ _ T).
      destruct (nth_error (st_regions s1) k); auto. destruct (r_parent r0); auto. now rewrite IHf. }
    unfold info_region, info_name in *.
    assert (Ln : length (st_params s') = length (st_params s1)).
    { pose proof (ts_params _ _ T) as X. apply (f_equal (@length _)) in X. now rewrite !map_length in X. }
    rewrite Ln, Fp. split; auto.
    rewrite Hi. rewrite Q1 in N1. destruct (tsame_nth _ _ _ _ T Hi) as (b & Eb & Pr & _).
    assert (b = q1) by congruence; subst b. unfold tproj in Pr. inversion Pr.
    rewrite H2, (ts_regions _ _ T), Fr. auto.
  - left. destruct (tsame_nth _ _ _ _ T Hi) as (q1 & Q1 & _). eauto.
Qed.

End R.
