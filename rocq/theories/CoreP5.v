(** Proof of C15. *)
From Coq Require Import String List Arith Lia Bool ZArith Reals Lra.
From Verif Require Import Base ListFacts Units TimeModel Core CoreEvo CoreTree CoreNames CoreInv
  CoreStep Spec_Core CoreReq CoreP1 CoreP2 CoreLeaves CoreP3 CoreP4 CoreView Spec_View.
Import ListNotations.

(** ** Reads and the caches of leaf views *)

(** [v'] is [v], or [v] with a fresh copy of the data of its parameter. *)
Inductive recached (q : param) (v : view) : view -> Prop :=
| rc_same : recached q v v
| rc_new xs : p_children q = [] -> ts_own v q = Ok xs -> recached q v (v_cache v xs (p_version q)).

Lemma recached_trans q a b c : recached q a b -> recached q b c -> recached q a c.
Proof.
  intros H K. destruct H as [|xs C O]; auto. inversion K as [|ys C' O']; subst; [constructor; auto|].
  change (ts_own (v_cache a xs (p_version q)) q) with (ts_own a q) in O'.
  change (v_cache (v_cache a xs (p_version q)) ys (p_version q)) with (v_cache a ys (p_version q)). constructor; auto.
Qed.

(** All private views, except possibly [vi], are recached. *)
Definition leafrd (s s' : state) : Prop :=
  st_params s' = st_params s /\
  forall c v q, nth_error (st_views s) c = Some v -> v_public v = false ->
    nth_error (st_params s) (v_param v) = Some q ->
    exists v', nth_error (st_views s') c = Some v' /\ recached q v v'.

Lemma leafrd_refl s : leafrd s s.
Proof. split; auto. intros c v q V _ _. exists v. split; auto. constructor. Qed.
Lemma recached_param q v v' : recached q v v' -> v_param v' = v_param v /\ v_public v' = v_public v.
Proof. destruct 1; auto. Qed.
Lemma leafrd_trans a b c : leafrd a b -> leafrd b c -> leafrd a c.
Proof.
  intros [P1 H1] [P2 H2]. split; [congruence|]. intros i v q V Pb Q.
  destruct (H1 _ _ _ V Pb Q) as (v1 & V1 & R1). destruct (recached_param _ _ _ R1) as [E1 E2].
  destruct (H2 i v1 q) as (v2 & V2 & R2); auto; try congruence.
  exists v2. split; auto. eapply recached_trans; eauto.
Qed.

Lemma leafrd_read s c s' x : read_with leaf_values s c = (s', x) -> leafrd s s'.
Proof.
  unfold read_with, leaf_values. intros H. destruct (nth_error (st_views s) c) as [v|] eqn:V; [|inversion H; apply leafrd_refl].
  destruct (nth_error (st_params s) (v_param v)) as [q|] eqn:Q; [|inversion H; apply leafrd_refl].
  assert (X : forall xs, p_children q = [] -> ts_own v q = Ok xs -> leafrd s (set_view s c (v_cache v xs (p_version q)))).
  { intros xs C O. split; auto. intros i w qw Vw Pb Qw. simpl. destruct (Nat.eq_dec i c) as [->|N].
    - assert (w = v) by congruence; subst. assert (qw = q) by congruence; subst.
      exists (v_cache v xs (p_version q)). split; [apply nth_upd_eq; eapply nth_lt; eauto|constructor; auto].
    - exists w. rewrite nth_upd_neq by auto. split; auto. constructor. }
  unfold has_children in H. destruct (p_children q) eqn:C.
  - destruct (v_data v).
    + destruct (v_version v); [|inversion H; apply leafrd_refl].
      destruct (_ =? _); [inversion H; apply leafrd_refl|].
      destruct (ts_own v q) eqn:O; [|inversion H; apply leafrd_refl].
      destruct (a_int a); inversion H; [apply leafrd_refl|apply X; auto].
    + destruct (ts_own v q) eqn:O; inversion H; [apply X; auto|apply leafrd_refl].
  - destruct (v_data v); [destruct (v_version v); [destruct (_ =? _)|]|]; inversion H; apply leafrd_refl.
Qed.
Lemma leafrd_sum cs : forall s acc s' x, sum_children s cs acc = (s', x) -> leafrd s s'.
Proof.
  induction cs as [|c cs]; simpl; intros s acc s' x H; [inversion H; apply leafrd_refl|].
  destruct (read_with leaf_values s c) as [s1 [xs|e]] eqn:R; apply leafrd_read in R; [|inversion H; subst; auto].
  destruct acc as [a|].
  - destruct (arr_add a xs); [|inversion H; subst; auto]. eapply leafrd_trans; eauto.
  - eapply leafrd_trans; eauto.
Qed.
Lemma leafrd_set s vi v v' : nth_error (st_views s) vi = Some v -> v_public v = true -> leafrd s (set_view s vi v').
Proof.
  intros V Pb. split; auto. intros c w q W P Q. exists w. simpl. rewrite nth_upd_neq by congruence. split; auto. constructor.
Qed.
Lemma leafrd_get s vi v s' x : nth_error (st_views s) vi = Some v -> v_public v = true ->
  ts_get s vi = (s', x) -> leafrd s s'.
Proof.
  intros V Pb H. unfold ts_get, read_with in H. rewrite V in H.
  destruct (nth_error (st_params s) (v_param v)) as [q|] eqn:Q; [|inversion H; apply leafrd_refl].
  assert (G : forall s1 y, get_values s v = (s1, y) -> leafrd s s1).
  { intros s1 y G. unfold get_values in G. rewrite Q in G. destruct (has_children q); [|inversion G; apply leafrd_refl].
    destruct (v_children v); [eapply leafrd_sum; eauto|inversion G; apply leafrd_refl]. }
  assert (X : forall s1 y v', get_values s v = (s1, y) -> leafrd s (set_view s1 vi v')).
  { intros s1 y v' E. eapply leafrd_trans; [eapply G; eauto|].
    apply rd_get_values in E. destruct (rd_views _ _ E _ _ V) as (w & W & R).
    eapply leafrd_set; eauto. rewrite (vr_public _ _ R). auto. }
  destruct (v_data v).
  - destruct (v_version v); [|inversion H; apply leafrd_refl].
    destruct (_ =? _); [inversion H; apply leafrd_refl|].
    destruct (get_values s v) as [s1 [xs|e]]; [|inversion H; subst; eapply G; eauto].
    destruct (a_int a); inversion H; subst; [eapply G; eauto|eapply X; eauto].
  - destruct (get_values s v) as [s1 [xs|e]]; inversion H; subst; [eapply X; eauto|eapply G; eauto].
Qed.

(** Writes touch the cell of their own view only. *)
Lemma ts_write_views s vi s' x c : ts_write s vi = (s', x) -> c <> vi ->
  nth_error (st_views s') c = nth_error (st_views s) c.
Proof.
  unfold ts_write. intros H N. destruct (nth_error (st_views s) vi) as [v|]; [|inversion H; auto].
  destruct (v_locked v); [inversion H; auto|]. destruct (v_data v); [|inversion H; auto].
  destruct (nth_error (st_params s) (v_param v)); [|inversion H; auto].
  destruct (to_param v (a_val a)); inversion H; subst; auto. simpl. apply nth_upd_neq; auto.
Qed.
Lemma handle_set_views s vi i y s' x c : handle_set s vi i y = (s', x) -> c <> vi ->
  nth_error (st_views s') c = nth_error (st_views s) c.
Proof.
  unfold handle_set. intros H N. destruct (nth_error (st_views s) vi) as [v|]; [|inversion H; auto].
  destruct (v_data v); [|inversion H; auto]. destruct (pyindex _ _); [|inversion H; auto].
  destruct (cast_item _ _); [|inversion H; auto]. rewrite (ts_write_views _ _ _ _ _ H N). simpl. apply nth_upd_neq; auto.
Qed.
Lemma check_write_views s vi v t u tp s' x c : check_write s vi v t u tp = (s', x) -> c <> vi ->
  nth_error (st_views s') c = nth_error (st_views s) c.
Proof.
  unfold check_write, on_param. intros H N. destruct (v_writable v); [inversion H; auto|].
  destruct (nth_error (st_params s) (v_param v)) as [q|]; [|inversion H; auto].
  destruct (attempt_write q t u tp) as [q' [z|e]]; inversion H; auto. simpl. apply nth_upd_neq; auto.
Qed.
Lemma ts_set_views s vi v a s' x c : ts_set s vi v a = (s', x) -> c <> vi ->
  nth_error (st_views s') c = nth_error (st_views s) c.
Proof.
  unfold ts_set. intros H N. destruct (check_write s vi v _ _ _) as [s1 [z|e]] eqn:C;
    pose proof (check_write_views _ _ _ _ _ _ _ _ _ C N) as E; [|inversion H; subst; auto].
  destruct (_ =? _)%Z; [|inversion H; subst; auto]. destruct (nth_error (st_views s1) vi) as [v1|]; [|inversion H; subst; auto].
  destruct (v_data v1).
  - destruct (_ && _); [inversion H; subst; auto|]. rewrite (ts_write_views _ _ _ _ _ H N). simpl. rewrite nth_upd_neq; auto.
  - rewrite (ts_write_views _ _ _ _ _ H N). simpl. rewrite nth_upd_neq; auto.
Qed.

Lemma Forall2_impl {A B} (P Q : A -> B -> Prop) l l' : (forall a b, P a b -> Q a b) -> Forall2 P l l' -> Forall2 Q l l'.
Proof. intros H. induction 1; constructor; auto. Qed.

Section P.
Variable env : uenv.
Notation wf := (wf env).

Lemma private_step o s c v q : wf s -> nth_error (st_views s) c = Some v -> v_public v = false ->
  nth_error (st_params s) (v_param v) = Some q ->
  exists v', nth_error (st_views (after env o s)) c = Some v' /\ recached q v v'.
Proof.
  intros W V Pb Q.
  assert (Same : forall s', nth_error (st_views s') c = nth_error (st_views s) c ->
    exists v', nth_error (st_views s') c = Some v' /\ recached q v v').
  { intros s' E. exists v. split; [congruence|constructor]. }
  destruct (is_request o) as [nr|] eqn:Rq.
  { destruct (request_appends env o s nr Rq) as (l & E & _). apply Same. rewrite E. rewrite V. apply nth_app_old; auto. }
  unfold after. destruct o; try discriminate; cbn [step];
    try match goal with |- context [with_view ?s ?vi ?k ?f] =>
      destruct (with_view s vi k f) as [s' x'] eqn:H; apply with_view_inv in H;
      destruct H as [[-> _]|(v1 & V1 & Pb1 & K1 & H)]; [apply Same; auto|];
      assert (N : c <> vi) by congruence end;
    try (apply lift_inv in H; destruct H as [z H]); simpl; try (inversion H; subst; apply Same; auto; fail).
  - destruct (info s name region); apply Same; auto.
  - unfold scalar_set in H. destruct (check_write s v0 v1 _ _ _) as [s1 [y|e]] eqn:Cw;
      pose proof (check_write_views _ _ _ _ _ _ _ _ _ Cw N); inversion H; subst; apply Same; auto.
    unfold store. destruct (nth_error (st_params s1) (v_param v1)); auto.
  - unfold generic_set in H. destruct (check_write s v0 v1 _ _ _) as [s1 [y|e]] eqn:Cw;
      pose proof (check_write_views _ _ _ _ _ _ _ _ _ Cw N); inversion H; subst; apply Same; auto.
    unfold store. destruct (nth_error (st_params s1) (v_param v1)); auto.
  - eapply leafrd_get in H; eauto. eapply H; eauto.
  - apply Same. eapply ts_set_views; eauto.
  - unfold ts_setitem in H. destruct (ts_get s v0) as [s1 [xs|e]] eqn:G; eapply leafrd_get in G; eauto;
      destruct G as [_ G]; destruct (G _ _ _ V Pb Q) as (v' & V' & R).
    + exists v'. split; auto. rewrite <- V'. eapply handle_set_views; eauto.
    + inversion H; subst. eauto.
  - destruct (v_data v1); [|inversion H; subst; apply Same; auto].
    destruct (ts_get s v0) as [s1 [xs|e]] eqn:G; eapply leafrd_get in G; eauto; inversion H; subst; eapply G; eauto.
  - apply Same. eapply handle_set_views; eauto.
  - unfold handle_iadd in H. rewrite V1 in H. destruct (v_data v1); [|inversion H; subst; apply Same; auto].
    destruct (ts_get s v0) as [s1 [xs|e]] eqn:G; eapply leafrd_get in G; eauto;
      destruct G as [_ G]; destruct (G _ _ _ V Pb Q) as (v' & V' & R); [|inversion H; subst; eauto].
    exists v'. split; auto. rewrite <- V'.
    destruct (nth_error (st_views s1) v0); [|inversion H; subst; auto]. destruct (v_data v2); [|inversion H; subst; auto].
    destruct (a_int a0); [inversion H; subst; auto|]. rewrite (ts_write_views _ _ _ _ _ H N). simpl. apply nth_upd_neq; auto.
  - inversion H; subst. apply Same. simpl. apply nth_upd_neq; auto.
  - unfold ts_unlock in H. apply Same. rewrite (ts_write_views _ _ _ _ _ H N). simpl. apply nth_upd_neq; auto.
Qed.

(** Timeseries parameters with time points have been requested before. *)
Lemma time_read root h : forall i q, nth_error (st_params (run env (init_state root) h)) i = Some q ->
  p_time q <> None -> p_read q = true.
Proof.
  induction h as [|o h] using rev_ind; intros i q Q T.
  { destruct i; discriminate. }
  set (s := run env (init_state root) h) in *.
  assert (W : wf s) by apply wf_reachable.
  assert (W' : wf (run env (init_state root) (h ++ [o]))) by apply wf_reachable.
  assert (T' : p_type q <> None).
  { intros X. destruct (pi_untyped _ (wf_params _ _ W' _ _ Q) X) as (_ & Y & _). congruence. }
  rewrite run_app in Q. fold s in Q. change (run env s [o]) with (after env o s) in Q.
  pose proof (evo_step env _ _ _ _ (after_eq env o s)) as Ev.
  assert (Old : forall q0, nth_error (st_params s) i = Some q0 -> p_type q0 <> None -> p_read q = true).
  { intros q0 Q0 T0. destruct (ev_params _ _ Ev _ _ Q0) as (q1 & Q1 & Pe).
    assert (q1 = q) by congruence; subst q1. destruct (pe_type _ _ Pe T0) as (_ & _ & E).
    apply (pe_read _ _ Pe). eapply IHh; eauto. congruence. }
  assert (D : (exists q0, nth_error (st_params s) i = Some q0 /\ p_type q0 <> None) \/
              (forall q0, nth_error (st_params s) i = Some q0 -> p_type q0 = None)).
  { destruct (nth_error (st_params s) i) as [q0|]; [|right; intros; discriminate].
    destruct (p_type q0) eqn:T0; [left; exists q0; split; [auto|congruence]|].
    right. intros q1 E. inversion E; subst; auto. }
  destruct D as [(q0 & Q0 & T0)|U]; [eapply Old; eauto|].
  pose proof (after_eq env o s) as St.
  destruct (typing_step env _ _ _ _ _ _ W St Q T' U) as (n & r & t & u & tp & Rq & _ & Tq & _).
  destruct (request_inv env _ _ _ _ _ _ _ _ _ W Rq St) as [(s1 & e & L & E & X)|(s1 & p & L & K)].
  { rewrite E in Q. destruct (locate_untyped _ _ _ _ _ _ _ L Q T') as (q0 & Q0 & T0 & _).
    apply U in Q0. congruence. }
  assert (C : forall s2 x, on_param s1 p (fun q => attempt_read q t u tp) = (s2, x) ->
    nth_error (st_params s2) i = Some q -> p_read q = true).
  { clear K. intros s2 x O Q2. unfold on_param in O.
    destruct (nth_error (st_params s1) p) as [q1|] eqn:Q1.
    2: { inversion O; subst. destruct (locate_untyped _ _ _ _ _ _ _ L Q2 T') as (q0 & Q0 & T0 & _).
         apply U in Q0. congruence. }
    destruct (attempt_read q1 t u tp) as [q1' y] eqn:A. inversion O; subst. simpl in Q2.
    destruct (Nat.eq_dec i p) as [->|N].
    - rewrite nth_upd_eq in Q2 by (eapply nth_lt; eauto). inversion Q2; subst.
      unfold attempt_read in A. destruct (p_type q1) eqn:T1.
      + assert (T1' : p_type q1 <> None) by congruence.
        destruct (locate_untyped _ _ _ _ _ _ _ L Q1 T1') as (q0 & Q0 & T0 & _). apply U in Q0. congruence.
      + assert (W1 : wf s1) by (exact (wf_locate env _ _ _ _ _ W L)).
        destruct (pi_untyped _ (wf_params _ _ W1 _ _ Q1) T1) as (_ & Tn & _).
        destruct t; try (destruct tp as [tp|]; [destruct (_ <? _)%Z|]); try destruct (has_children q1);
          inversion A; subst; simpl in *; auto; congruence.
    - rewrite nth_upd_neq in Q2 by auto.
      destruct (locate_untyped _ _ _ _ _ _ _ L Q2 T') as (q0 & Q0 & T0 & _). apply U in Q0. congruence. }
  destruct K as [(e & O & X)|(s2 & O & Ps & _)].
  - eapply C; eauto.
  - eapply C; eauto. rewrite <- Ps. auto.
Qed.
Lemma time_read' s i q : reachable env s -> nth_error (st_params s) i = Some q -> p_time q <> None -> p_read q = true.
Proof. intros (root & h & ->). apply time_read. Qed.

(** Only timeseries parameters have time points. *)
Lemma time_typed root h : forall i q, nth_error (st_params (run env (init_state root) h)) i = Some q ->
  p_type q = Some SCALAR \/ p_type q = Some GENERIC -> p_time q = None.
Proof.
  induction h as [|o h] using rev_ind; intros i q Q T.
  { destruct i; discriminate. }
  set (s := run env (init_state root) h) in *.
  assert (W : wf s) by apply wf_reachable.
  rewrite run_app in Q. fold s in Q. change (run env s [o]) with (after env o s) in Q.
  pose proof (evo_step env _ _ _ _ (after_eq env o s)) as Ev.
  assert (D : (exists q0, nth_error (st_params s) i = Some q0 /\ p_type q0 <> None) \/
              (forall q0, nth_error (st_params s) i = Some q0 -> p_type q0 = None)).
  { destruct (nth_error (st_params s) i) as [q0|]; [|right; intros; discriminate].
    destruct (p_type q0) eqn:T0; [left; exists q0; split; [auto|congruence]|].
    right. intros q1 E. inversion E; subst; auto. }
  destruct D as [(q0 & Q0 & T0)|U].
  - destruct (ev_params _ _ Ev _ _ Q0) as (q1 & Q1 & Pe).
    assert (q1 = q) by congruence; subst q1. destruct (pe_type _ _ Pe T0) as (E1 & _ & E).
    rewrite E. eapply IHh; eauto. rewrite <- E1. auto.
  - destruct (typing_step env _ _ _ _ _ _ W (after_eq env o s) Q) as (n & r & t & u & tp & Rq & _ & Tq & _ & [E|[E _]]); auto.
    { destruct T; congruence. }
    rewrite E. destruct o; simpl in Rq; try tauto; try (decompose [and] Rq; congruence).
    destruct Rq as (_ & _ & Ty & _). destruct (from_timeseries_type_ts _ _ Ty); destruct T; congruence.
Qed.

Lemma time_typed' s i q : reachable env s -> nth_error (st_params s) i = Some q ->
  p_type q = Some SCALAR \/ p_type q = Some GENERIC -> p_time q = None.
Proof. intros (root & h & ->). apply time_typed. Qed.

(** The data of a parameter changes with its version only. *)
Lemma data_kept o s p q : wf s -> nth_error (st_params s) p = Some q -> p_read q = true ->
  exists q', nth_error (st_params (after env o s)) p = Some q' /\ p_version q <= p_version q' /\
    (p_version q' = p_version q -> p_data q' = p_data q).
Proof.
  intros W Q Rd.
  assert (D : writes_to s o p \/ ~ writes_to s o p).
  { unfold writes_to. destruct (write_target o) as [vi|].
    - destruct (nth_error (st_views s) vi) as [v|] eqn:V.
      + destruct (v_public v) eqn:Pb.
        * destruct (Nat.eq_dec (v_param v) p).
          -- left. exists vi. split; auto. exists v. auto.
          -- right. intros (x & E & v' & V' & _ & P). inversion E; subst. congruence.
        * right. intros (x & E & v' & V' & P & _). inversion E; subst. congruence.
      + right. intros (x & E & v' & V' & P & _). inversion E; subst. congruence.
    - right. intros (x & E & _). discriminate. }
  destruct D as [(vi & T & v & V & Pb & Vp)|N].
  - assert (Ov : op_view o = Some vi) by (rewrite op_view_target; auto).
    pose proof (write_step env _ _ _ _ _ _ W Ov V (after_eq env o s)) as WS.
    rewrite <- Vp in Q. destruct (ws_param _ _ _ _ _ WS _ Q) as (q' & Q' & Pw). rewrite Vp in Q'.
    exists q'. split; auto. destruct Pw; simpl; split; auto; lia.
  - exists q. split; [|split; auto]. apply frame_step; auto.
Qed.

(** ** The invariant on the caches of leaf views *)
Definition leaf_ok (s : state) : Prop :=
  forall c v q d, nth_error (st_views s) c = Some v -> v_public v = false ->
    nth_error (st_params s) (v_param v) = Some q -> v_data v = Some d ->
    a_int d = false /\ exists k, v_version v = Some k /\ (k = p_version q -> ts_own v q = Ok (a_val d)).

Lemma leafrd_ok s s' : leafrd s s' -> rd s s' -> leaf_ok s -> leaf_ok s'.
Proof.
  intros [Ps L] R H c v' q d V' Pb Q D.
  assert (Ex : exists v, nth_error (st_views s) c = Some v).
  { destruct (nth_error (st_views s) c) eqn:N; eauto. apply nth_error_None in N. apply nth_lt in V'.
    rewrite (rd_len _ _ R) in V'. lia. }
  destruct Ex as [v V]. destruct (rd_views _ _ R _ _ V) as (w & W & Vr). assert (w = v') by congruence; subst w.
  rewrite Ps in Q. rewrite (vr_param _ _ Vr) in Q. rewrite (vr_public _ _ Vr) in Pb.
  destruct (L _ _ _ V Pb Q) as (w & W' & Rc). assert (w = v') by congruence; subst w.
  destruct Rc as [|xs C O]; [eapply H; eauto|]. simpl in D. inversion D; subst. split; auto.
  exists (p_version q). split; auto.
Qed.

Lemma leaf_ok_step o s : reachable env s -> leaf_ok s -> leaf_ok (after env o s).
Proof.
  intros Rs H c v' q' d V' Pb' Q' D. pose proof (reachable_wf _ _ Rs) as W.
  pose proof (evo_step env _ _ _ _ (after_eq env o s)) as Ev.
  destruct (nth_error (st_views s) c) as [v|] eqn:V.
  2: { destruct (is_request o) as [nr|] eqn:Rq.
       - destruct (request_appends env o s nr Rq) as (l & E & F). rewrite E in V'.
         rewrite nth_error_app2 in V' by (apply nth_error_None; auto). apply nth_error_In in V'.
         destruct (F _ V') as (F1 & _). congruence.
       - apply nth_lt in V'. rewrite (views_length env _ _ W Rq) in V'. apply nth_error_None in V. lia. }
  destruct (ev_views _ _ Ev _ _ V) as (w & W0 & Ve). assert (w = v') by congruence; subst w.
  assert (Pb : v_public v = false) by (rewrite <- (ve_public _ _ Ve); auto).
  destruct (view_cell _ _ _ _ W V) as (q & Q & I).
  destruct (private_step o s c v q W V Pb Q) as (w & W1 & Rc). assert (w = v') by congruence; subst w.
  rewrite (ve_param _ _ Ve) in Q'. destruct (ev_params _ _ Ev _ _ Q) as (q1 & Q1 & Pe). assert (q1 = q') by congruence; subst q1.
  assert (Z : forall xs k, k <= p_version q -> v_kind v = KTimeseries -> (k = p_version q -> ts_own v q = Ok xs) ->
              k = p_version q' -> ts_own v' q' = Ok xs).
  { intros xs k Lk Kv O Ek. pose proof (pe_version _ _ Pe) as Le. assert (Ek' : k = p_version q) by lia.
    specialize (O Ek'). unfold ts_own, from_param in O |- *. rewrite (ve_uconv _ _ Ve), (ve_tconv _ _ Ve).
    destruct (p_written q) eqn:Wr; [|discriminate]. rewrite (pe_written _ _ Pe Wr).
    assert (Rd : p_read q = true) by (apply (wf_params _ _ W _ _ Q); auto).
    destruct (data_kept o s _ q W Q Rd) as (q2 & Q2 & _ & Dk). assert (q2 = q') by congruence; subst q2.
    rewrite Dk by congruence. auto. }
  destruct Rc as [|xs C O].
  - destruct (H _ _ _ _ V Pb Q D) as (Fi & k & Vk & O). split; auto. exists k. split; auto.
    apply Z; auto.
    + eapply vi_version; eauto.
    + apply (vi_data _ _ _ _ _ I). congruence.
  - simpl in D. inversion D; subst d. split; auto. exists (p_version q). split; auto. simpl. apply Z; auto.
    destruct (view_cell _ _ _ _ (wf_after env o s W) V') as (q2 & _ & I2). destruct (vi_data _ _ _ _ _ I2) as [K _]; [discriminate|auto].
Qed.
Lemma leaf_ok_reachable s : reachable env s -> leaf_ok s.
Proof.
  intros (root & h & ->). induction h as [|o h] using rev_ind.
  - intros [|c] v q d V; discriminate.
  - rewrite run_app. apply leaf_ok_step; auto. exists root, h. auto.
Qed.

(** ** The sum over the leaves *)
Lemma leaf_read_own s c v q s' x : leaf_ok s -> nth_error (st_views s) c = Some v -> v_public v = false ->
  nth_error (st_params s) (v_param v) = Some q -> p_children q = [] ->
  read_with leaf_values s c = (s', x) -> x = ts_own v q.
Proof.
  intros L V Pb Q C H. unfold read_with, leaf_values in H. rewrite V, Q in H. unfold has_children in H. rewrite C in H.
  destruct (v_data v) as [d|] eqn:D.
  - destruct (L _ _ _ _ V Pb Q D) as (Fi & k & Vk & O). rewrite Vk in H.
    destruct (Nat.eqb_spec k (p_version q)).
    + inversion H; subst. symmetry. auto.
    + destruct (ts_own v q); [rewrite Fi in H|]; inversion H; auto.
  - destruct (ts_own v q); inversion H; auto.
Qed.

Fixpoint addres (acc : option (list num)) (rs : list (res (list num))) : res (list num) :=
  match rs with
  | [] => match acc with Some a => Ok a | None => Err EMistyped end
  | Err e :: _ => Err e
  | Ok xs :: rs' => match acc with
                    | None => addres (Some (map (nadd (Some 0%R)) xs)) rs'
                    | Some a => match arr_add a xs with Ok a' => addres (Some a') rs' | Err e => Err e end
                    end
  end.

Lemma sum_own cs : forall s acc rs, leaf_ok s ->
  Forall2 (fun c r => exists v q, nth_error (st_views s) c = Some v /\ v_public v = false /\
     nth_error (st_params s) (v_param v) = Some q /\ p_children q = [] /\ r = ts_own v q) cs rs ->
  snd (sum_children s cs acc) = addres acc rs.
Proof.
  induction cs as [|c cs IH]; intros s acc rs L F; inversion F as [|? r ? rs' (v & q & V & Pb & Q & C & ->) F']; subst; auto.
  simpl. destruct (read_with leaf_values s c) as [s1 x] eqn:R. rewrite (leaf_read_own _ _ _ _ _ _ L V Pb Q C R).
  pose proof (leafrd_read _ _ _ _ R) as Lr. pose proof (rd_leaf_read _ _ _ _ R) as Rd.
  assert (F1 : Forall2 (fun c r => exists v q, nth_error (st_views s1) c = Some v /\ v_public v = false /\
     nth_error (st_params s1) (v_param v) = Some q /\ p_children q = [] /\ r = ts_own v q) cs rs').
  { eapply Forall2_impl; [|exact F']. intros c1 r1 (v1 & q1 & V1 & Pb1 & Q1 & C1 & ->).
    destruct (rd_views _ _ Rd _ _ V1) as (v2 & V2 & Vr). exists v2, q1. rewrite (rd_params _ _ Rd), (vr_param _ _ Vr), (vr_public _ _ Vr).
    repeat (split; auto). unfold ts_own, from_param. now rewrite (vr_uconv _ _ Vr), (vr_tconv _ _ Vr). }
  assert (L1 : leaf_ok s1) by (eapply leafrd_ok; eauto).
  destruct (ts_own v q) as [xs|e]; auto. destruct acc as [a|].
  - destruct (arr_add a xs); auto.
  - auto.
Qed.


Lemma nadd_assoc a b c : nadd (nadd a b) c = nadd a (nadd b c).
Proof. destruct a, b, c; simpl; auto. now rewrite Rplus_assoc. Qed.
Lemma nadd_0_l a : nadd (Some 0%R) a = a.
Proof. destruct a; simpl; auto. now rewrite Rplus_0_l. Qed.
Lemma nadd_0_r a : nadd a (Some 0%R) = a.
Proof. destruct a; simpl; auto. now rewrite Rplus_0_r. Qed.
Lemma total_cons a l : total (a :: l) = nadd a (total l).
Proof. reflexivity. Qed.
Lemma arr_add_nth a : forall b, length b = length a -> exists r, arr_add a b = Ok r /\ length r = length a /\
  forall j, j < length a -> nth_error r j = Some (nadd (nth j a None) (nth j b None)).
Proof.
  induction a as [|x a IH]; intros [|y b] L; try discriminate; cbn [arr_add].
  - exists []. repeat split; auto. simpl. lia.
  - destruct (IH b) as (r & E & Lr & N); [simpl in L; lia|]. rewrite E. exists (nadd x y :: r).
    split; auto. split; [simpl; lia|]. intros [|j] Hj; simpl; auto. apply N. simpl in Hj. lia.
Qed.

Lemma addres_some rs : forall a, (forall xs, In (Ok xs) rs -> length xs = length a) ->
  (exists ok e rest, rs = map Ok ok ++ Err e :: rest /\ addres (Some a) rs = Err e) \/
  (exists ok xs, rs = map Ok ok /\ addres (Some a) rs = Ok xs /\ length xs = length a /\
     forall j, j < length a -> nth_error xs j = Some (nadd (nth j a None) (total (map (fun ys => nth j ys None) ok)))).
Proof.
  induction rs as [|[x|e] rs IH]; intros a L; cbn [addres].
  - right. exists [], a. repeat split; auto. intros j Hj. simpl total. rewrite nadd_0_r. apply nth_error_nth'. auto.
  - destruct (arr_add_nth a x) as (r & E & Lr & N); [apply L; left; auto|]. rewrite E.
    destruct (IH r) as [(ok & e & rest & -> & A)|(ok & xs & -> & A & Lx & Nx)].
    { intros xs I. rewrite Lr. apply L. right; auto. }
    + left. exists (x :: ok), e, rest. auto.
    + right. exists (x :: ok), xs. split; auto. split; auto. split; [congruence|]. intros j Hj.
      rewrite Nx by congruence. cbn [map]. rewrite total_cons, <- nadd_assoc. f_equal. f_equal.
      apply nth_error_nth. auto.
  - left. exists [], e, rs. auto.
Qed.
Lemma addres_none n rs : rs <> [] -> (forall xs, In (Ok xs) rs -> length xs = n) -> summed rs (addres None rs).
Proof.
  destruct rs as [|[x|e] rs]; intros Ne L; [congruence| |left; exists [], e, rs; auto].
  cbn [addres]. destruct (addres_some rs (map (nadd (Some 0%R)) x)) as [(ok & e & rest & -> & A)|(ok & xs & -> & A & Lx & Nx)].
  - intros xs I. rewrite map_length, (L xs), (L x); auto; [left|right]; auto.
  - left. exists (x :: ok), e, rest. auto.
  - right. exists (x :: ok), xs. split; auto. split; auto. rewrite map_length in Lx, Nx.
    intros ys I. split.
    + rewrite Lx, (L x), (L ys); auto; [|left; auto]. destruct I as [->|I]; [left; auto|right]. apply in_map; auto.
    + intros j Hj. rewrite Nx by lia. cbn [map]. rewrite total_cons. f_equal. f_equal.
      change (@None R) with (nadd (Some 0%R) None) at 1. rewrite map_nth. apply nadd_0_l.
Qed.

Lemma leaves_nonempty f : forall ps p ls, leaves f ps p = Some ls -> ls <> [].
Proof.
  induction f; intros ps p ls H; [discriminate|]. rewrite leaves_S in H.
  destruct (nth_error ps p) as [q|]; [|discriminate]. destruct (p_children q) as [|c cs]; [inversion H; discriminate|].
  simpl in H. destruct (leaves f ps (snd c)) as [a|] eqn:A; [|discriminate].
  destruct (opt_concat _) as [b|]; [|discriminate]. inversion H; subst. apply IHf in A. destruct a; [congruence|discriminate].
Qed.

Lemma C15_proof s o n r t u tp vi : reachable env s ->
  requests o n r t (Some u) (Some tp) -> answer env o s = Ok (VView vi) ->
  let s1 := after env o s in
  forall p q, views s1 vi p -> nth_error (st_params s1) p = Some q -> p_children q <> [] ->
  exists ls, NoDup ls /\ (forall i, In i ls <-> leaf_of s1 p i) /\
  forall h, Forall (fun o => works_on o <> Some vi) h -> let s2 := run env s1 h in
    exists v rs x, nth_error (st_views s2) vi = Some v /\ v_unit v = u /\ tc_target (v_tconv v) = tp_ticks tp /\
      tc_type (v_tconv v) = t /\
      Forall2 (shows env s2 v) ls rs /\ summed rs x /\
      answer env (OGetValues vi) s2 = match x with Ok xs => Ok (VArr xs) | Err e => Err e end.
Proof.
  intros R Rq A s1 p q Vw Q C.
  pose proof (reachable_wf _ _ R) as W.
  assert (R1 : reachable env s1) by (apply reachable_after; auto).
  pose proof (reachable_wf _ _ R1) as W1.
  pose proof (request_views env _ _ _ _ _ _ _ W Rq) as RR. unfold request_result in RR. rewrite A in RR.
  fold s1 in RR. destruct RR as (p' & q' & cvs & v & Pa & Q' & Vs & Y & Vp & Pb & Vt & Cv & _ & Ch).
  inversion Y; subst vi.
  assert (V : nth_error (st_views s1) (length (st_views s) + length cvs) = Some v).
  { rewrite Vs, nth_error_app2 by lia. replace (_ - _) with (length cvs) by lia.
    rewrite nth_error_app2 by lia. rewrite Nat.sub_diag. auto. }
  destruct Vw as (v0 & V0 & _ & Vp0). assert (v0 = v) by congruence; subst v0.
  assert (p' = p) by congruence; subst p'. assert (q' = q) by congruence; subst q'.
  assert (Tt : is_ts t).
  { destruct o; simpl in Rq; try tauto; try (destruct Rq as (_ & _ & _ & _ & X); discriminate).
    destruct Rq as (_ & _ & Ty & _). apply (from_timeseries_type_ts _ _ Ty). }
  destruct Ch as [Chv Lv]; auto; [destruct Tt; congruence|].
  rewrite Vp0 in *. destruct (param_leaves_spec s1 p _ (wf_tree _ _ W1) Lv) as [Nd Sp].
  exists (map v_param cvs). split; auto. split; auto.
  assert (K : v_kind v = KTimeseries).
  { unfold vtype in Vt. destruct (v_kind v) eqn:K; auto; destruct Tt; congruence. }
  assert (UT : v_unit v = u /\ tc_target (v_tconv v) = tp_ticks tp).
  { clear - W Rq A V. unfold s1 in V. generalize dependent (length (st_views s) + length cvs). intros vi A V.
    destruct o; simpl in Rq; try tauto; try (destruct Rq as (_ & _ & _ & _ & X); discriminate).
    destruct Rq as (-> & -> & Ty & Eu & Et & (i & Ip) & (ex' & Ex)). injection Eu as Eu; injection Et as Et; subst u tp.
    unfold answer, after in *. cbn [step] in *. unfold ps_timeseries in *. rewrite Ty, Ip, Ex in *.
    destruct (locate s n r) as [a [p|e]] eqn:L; [|discriminate].
    destruct (on_param a p _) as [s2 [[]|e]] eqn:O; [|discriminate].
    assert (W2 : wf s2). { eapply wf_on_read; [|exact O]. eapply wf_locate; eauto. }
    pose proof (mkspec_ts env s2 unit (tp_ticks tps) t ex' W2 (from_timeseries_type_ts _ _ Ty)) as M.
    destruct (build_view s2 _ p) as [s3 [vi'|e]] eqn:B; [|discriminate]. simpl in *. inversion A; subst vi'.
    destruct (build_view_views env _ _ _ _ _ _ _ _ _ _ W2 M B) as (q & cvs' & v' & _ & E & -> & _ & _ & _ & Hu & _ & Ht & _).
    rewrite E, nth_error_app2 in V by lia. replace (_ - _) with (length cvs') in V by lia.
    rewrite nth_error_app2, Nat.sub_diag in V by lia. simpl in V. inversion V; subst. auto. }
  assert (Dn : v_data v = None).
  { assert (Rn : exists nr, is_request o = Some nr) by (destruct o; simpl in Rq; try tauto; simpl; eauto).
    destruct Rn as [nr Rn]. destruct (request_appends env o s nr Rn) as (l & E & F).
    fold s1 in E. rewrite Vs in E. apply app_inv_head in E. apply (F v). rewrite <- E. apply in_app_iff. right. left; auto. }
  intros h Hh s2.
  assert (R2 : reachable env s2) by (apply reachable_run; auto).
  pose proof (reachable_wf _ _ R2) as W2.
  assert (V2 : nth_error (st_views s2) (length (st_views s) + length cvs) = Some v).
  { clear - W1 V Pb Hh. unfold s2. clear s2. revert W1 V. generalize s1 as a. induction Hh as [|x h Hx Hh IH]; intros a W1 V; auto.
    apply (IH (after env x a)); [apply wf_after; auto|]. apply others_kept; auto. }
  assert (Ev : evo s1 s2) by apply evo_run.
  destruct (ev_params _ _ Ev _ _ Q) as (q2 & Q2 & Pe).
  assert (C2 : has_children q2 = true).
  { unfold has_children. destruct (pe_children _ _ Pe) as [l El]. destruct (p_children q2); auto.
    symmetry in El. apply app_eq_nil in El. tauto. }
  set (cs := seq (length (st_views s)) (length cvs)) in *.
  assert (F : Forall2 (fun c i => exists cv qi, nth_error (st_views s2) c = Some cv /\ v_public cv = false /\
     v_param cv = i /\ nth_error (st_params s2) i = Some qi /\ p_children qi = [] /\ v_kind cv = KTimeseries /\
     v_unit cv = v_unit v /\ tc_target (v_tconv cv) = tc_target (v_tconv v) /\
      tc_type (v_tconv cv) = tc_type (v_tconv v) /\ tc_extra (v_tconv cv) = tc_extra (v_tconv v)) cs (map v_param cvs)).
  { assert (X : forall j cv, nth_error cvs j = Some cv -> exists cv2 qi, nth_error (st_views s2) (length (st_views s) + j) = Some cv2 /\
     v_public cv2 = false /\ v_param cv2 = v_param cv /\ nth_error (st_params s2) (v_param cv) = Some qi /\ p_children qi = [] /\ v_kind cv2 = KTimeseries /\
     v_unit cv2 = v_unit v /\ tc_target (v_tconv cv2) = tc_target (v_tconv v) /\
      tc_type (v_tconv cv2) = tc_type (v_tconv v) /\ tc_extra (v_tconv cv2) = tc_extra (v_tconv v)).
    { intros j cv Hj.
      assert (Vj : nth_error (st_views s1) (length (st_views s) + j) = Some cv).
      { rewrite Vs, nth_error_app2 by lia. replace (_ - _) with j by lia.
        rewrite nth_error_app1; auto. eapply nth_lt; eauto. }
      destruct (Cv cv) as (Pc & Cc & Kc & Uc & Dc); [eapply nth_error_In; eauto|].
      destruct (ev_views _ _ Ev _ _ Vj) as (cv2 & Vj2 & Vje).
      destruct (view_cell _ _ _ _ W1 Vj) as (qi & Qi & Ii).
      assert (Lf : leaf_of s1 p (v_param cv)).
      { apply Sp. apply in_map. eapply nth_error_In; eauto. }
      destruct Lf as (_ & qi' & Qi' & Ci). assert (qi' = qi) by congruence; subst qi'.
      assert (Kt : v_kind cv = KTimeseries) by congruence.
      destruct (vi_tconv _ _ _ _ _ Ii Kt) as (tpi & Tpi & _).
      assert (Ri : p_read qi = true) by (apply (time_read' _ _ _ R1 Qi); congruence).
      destruct (ev_params _ _ Ev _ _ Qi) as (qi2 & Qi2 & Pei).
      exists cv2, qi2. rewrite (ve_public _ _ Vje), (ve_param _ _ Vje), (ve_kind _ _ Vje), (ve_unit _ _ Vje), (ve_tconv _ _ Vje).
      split; auto. split; auto. split; auto. split; auto. split; [rewrite (pe_frozen _ _ Pei); auto|]. split; auto. split; auto.
      destruct (view_cell _ _ _ _ W1 V) as (q1 & _ & I1).
      assert (Ic : In (length (st_views s) + j) cs).
      { apply in_seq. apply nth_lt in Hj. lia. }
      destruct (vi_children _ _ _ _ _ I1 _ _ Chv Ic) as (_ & cw & Cw & _ & _ & _ & X1 & X2 & X3).
      assert (cw = cv) by congruence; subst cw. auto. }
    clear - X. unfold cs. clear cs. revert X. generalize (length (st_views s)) as m.
    induction cvs as [|cv cvs IH]; intros m X; simpl; constructor.
    - specialize (X 0 cv eq_refl). rewrite Nat.add_0_r in X. auto.
    - apply IH. intros j cv' Hj. specialize (X (S j) cv' Hj). rewrite Nat.add_succ_r in X. auto. }
  assert (G : exists rs, Forall2 (fun c r => exists v q, nth_error (st_views s2) c = Some v /\ v_public v = false /\
     nth_error (st_params s2) (v_param v) = Some q /\ p_children q = [] /\ r = ts_own v q) cs rs /\
     Forall2 (shows env s2 v) (map v_param cvs) rs /\ (forall xs, In (Ok xs) rs -> Z.of_nat (length xs) = target_length (v_tconv v))).
  { clear - F W2 R2. induction F as [|c i cs ls (cv & qi & Vc & Pc & Pi & Qi & Ci & Kc & Uc & T1 & T2 & T3) F (rs & F1 & F2 & F3)].
    - exists []. repeat split; auto. intros xs [].
    - exists (ts_own cv qi :: rs). rewrite <- Pi in Qi.
      destruct (view_cell _ _ _ _ W2 Vc) as (q0 & Q0 & I). assert (q0 = qi) by congruence; subst q0.
      split; [constructor; auto; exists cv, qi; auto|]. split.
      + constructor; auto. exists qi. rewrite <- Pi. split; auto. unfold ts_own. split; [intros ->; auto|]. intros Wr. rewrite Wr.
        destruct (vi_tconv _ _ _ _ _ I Kc) as (tpi & Tpi & Tc).
        assert (Dt : exists d, p_data qi = Some (PArr d)).
        { destruct (p_type qi) as [ty|] eqn:Ty.
          2: { destruct (pi_untyped _ (wf_params _ _ W2 _ _ Qi) Ty) as (_ & X & _). congruence. }
          assert (Its : is_ts ty).
          { destruct ty; [|left; auto|right; auto|]; exfalso;
             pose proof (time_typed' _ _ _ R2 Qi); intuition congruence. }
          destruct (pi_ts _ (wf_params _ _ W2 _ _ Qi) _ Ty Its) as [[X _]|(tp' & l & _ & Dl & _)]; [congruence|eauto]. }
        destruct Dt as [d Dd]. exists d. split; auto. rewrite Dd. exists (v_uconv cv), tpi, (v_tconv cv).
        split; [rewrite <- Uc; apply (vi_uconv _ _ _ _ _ I); congruence|]. split; auto. split; [rewrite <- T1, <- T2, <- T3; auto|auto].
      + intros xs [E|I']; auto. destruct (ts_own_length _ _ _ _ _ _ I Kc E) as [_ L].
        rewrite L. unfold target_length. now rewrite T1, T2. }
  destruct G as (rs & F1 & F2 & F3).
  assert (Ne : rs <> []).
  { intros ->. inversion F2 as [Em|]. symmetry in Em. apply (leaves_nonempty _ _ _ _ Lv). auto. }
  exists v, rs, (addres None rs). destruct UT as [U1 U2].
  split; auto. split; auto. split; auto. split; [unfold vtype in Vt; rewrite K in Vt; auto|]. split; auto. split.
  - eapply addres_none with (n := Z.to_nat (target_length (v_tconv v))); auto. intros xs I. rewrite <- (F3 _ I). lia.
  - unfold answer. cbn [step]. unfold with_view. rewrite V2, Pb, K. unfold ts_get, read_with. rewrite V2, Vp0, Q2, Dn.
    unfold get_values. rewrite Vp0, Q2, C2, Chv.
    pose proof (sum_own cs s2 None rs (leaf_ok_reachable _ R2) F1) as S.
    destruct (sum_children s2 cs None) as [s3 x]. simpl in S. subst x. destruct (addres None rs); auto.
Qed.

(** Once read, it never changes again. *)
Lemma C15_frozen h : forall s vi p q xs, reachable env s -> ts_view s vi p -> nth_error (st_params s) p = Some q ->
  p_children q <> [] -> answer env (OGetValues vi) s = Ok (VArr xs) ->
  no_sneaky env (after env (OGetValues vi) s) h p ->
  answer env (OGetValues vi) (run env (after env (OGetValues vi) s) h) = Ok (VArr xs).
Proof.
  intros s vi p q xs R (v & V & Pb & Vp & K) Q C A Ns.
  assert (X : forall h s, reachable env s -> forall v, nth_error (st_views s) vi = Some v -> v_public v = true -> v_kind v = KTimeseries ->
    v_param v = p -> nth_error (st_params s) p = Some q -> v_version v = Some (p_version q) ->
    (exists d, v_data v = Some d /\ a_val d = xs) -> no_sneaky env s h p -> answer env (OGetValues vi) (run env s h) = Ok (VArr xs)).
  { clear - C. induction h as [|o h IH]; intros s R v V Pb K Vp Q Ve (d & D & Dx) Ns.
    - simpl. unfold answer. cbn [step]. unfold with_view. rewrite V, Pb, K. unfold ts_get, read_with.
      rewrite V, Vp, Q, D, Ve, Nat.eqb_refl. simpl. congruence.
    - destruct Ns as [N1 N2]. pose proof (reachable_wf _ _ R) as W.
      assert (Q' : nth_error (st_params (after env o s)) p = Some q).
      { change (after env o s) with (run env s [o]). apply (C04_frame env _ _ vi _ _ R); auto; [exists v; auto|]. split; [auto|exact I]. }
      set (P := fun a => exists v', nth_error (st_views a) vi = Some v' /\ v_public v' = true /\ v_kind v' = KTimeseries /\
         v_param v' = p /\ v_version v' = Some (p_version q) /\ v_data v' = Some d).
      assert (Same : P s) by (exists v; auto 8).
      assert (G : P (after env o s)).
      { destruct (option_eq_dec (works_on o) vi) as [Eo|Eo].
        2: { exists v. split; [apply others_kept; auto|]. auto 8. }
        assert (Get : ts_get s vi = (s, Ok (a_val d))).
        { unfold ts_get, read_with. rewrite V, Vp, Q, D, Ve, Nat.eqb_refl. auto. }
        assert (Vw : views s vi p) by (exists v; auto).
        assert (Wt : write_target o = Some vi -> sneaky o = true -> False).
        { intros T S. apply (N1 S). exists vi; auto. }
        destruct o; simpl in Eo; try discriminate; injection Eo as ->;
          try (exfalso; apply Wt; reflexivity); unfold after; cbn [step]; unfold with_view; rewrite V, Pb, K; simpl; auto.
        - rewrite Get. auto.
        - assert (S : step env (OSetValues vi a) s = (s, Err EParameterReadonly)).
          { apply (C04_setters env s vi p q R); auto. exists v; auto. }
          cbn [step] in S. unfold with_view in S. rewrite V, Pb, K in S. rewrite S. auto.
        - rewrite D. rewrite Get. auto.
        - unfold P. simpl. rewrite nth_upd_eq by (eapply nth_lt; eauto). eexists. split; [reflexivity|]. simpl. auto 8. }
      destruct G as (v' & V' & Pb' & K' & Vp' & Ve' & D').
      apply (IH (after env o s)) with (v := v'); auto.
      + apply reachable_after; auto.
      + exists d; auto. }
  unfold answer, after in *. cbn [step] in *. unfold with_view in *. rewrite V, Pb, K in *.
  destruct (ts_get s vi) as [s1 [ys|e]] eqn:G; simpl in A; [|discriminate]. inversion A; subst ys.
  rewrite <- Vp in Q. destruct (ts_get_cached _ _ _ _ _ _ V Q G) as (v' & V' & Vr & Ve & d & D & Dx & _).
  pose proof (rd_ts_get _ _ _ _ G) as Rd. simpl in *.
  apply (X h s1) with (v := v'); auto.
  - assert (E : s1 = after env (OGetValues vi) s).
    { unfold after. cbn [step]. unfold with_view. rewrite V, Pb, K, G. auto. }
    rewrite E. apply reachable_after; auto.
  - rewrite (vr_public _ _ Vr); auto.
  - rewrite (vr_kind _ _ Vr); auto.
  - rewrite (vr_param _ _ Vr); auto.
  - rewrite (rd_params _ _ Rd), <- Vp; auto.
  - exists d; auto.
Qed.
End P.
