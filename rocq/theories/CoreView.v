(** How single views evolve: caches, versions and locks. *)
From Coq Require Import String List Arith Lia Bool ZArith Reals.
From Coquelicot Require Import Coquelicot.
From Verif Require Import Base ListFacts Units TimeModel Core CoreEvo CoreTree CoreNames CoreInv
  CoreStep Spec_Core CoreReq CoreP2 CoreLeaves CoreP3.
Import ListNotations.

Lemma option_eq_dec (a : option nat) (b : nat) : {a = Some b} + {a <> Some b}.
Proof. decide equality. apply Nat.eq_dec. Defined.

Definition fresh (v : view) : Prop :=
  v_data v = None /\ v_locked v = false /\ v_version v = None /\ v_writable v = false.

Section V.
Variable env : uenv.
Notation wf := (wf env).

Lemma build_view_fresh s mk p s' x : (forall i v, mk i = Ok v -> fresh v) -> build_view s mk p = (s', x) ->
  exists l, st_views s' = st_views s ++ l /\ forall v, In v l -> fresh v.
Proof.
  intros M H. unfold build_view in H.
  assert (Z : exists l, st_views s = st_views s ++ l /\ forall v, In v l -> fresh v)
    by (exists []; rewrite app_nil_r; split; [auto|intros v []]).
  destruct (nth_error (st_params s) p) as [q|]; [|inversion H; subst; auto].
  destruct (mk p) as [v|e] eqn:Mk; [|inversion H; subst; auto].
  pose proof (M _ _ Mk) as F.
  destruct (has_children q).
  - destruct (param_leaves s p) as [ls|]; [|inversion H; subst; auto].
    destruct (rmap mk ls) as [cvs|] eqn:Rm; inversion H; subst; auto. simpl.
    eexists. split; [reflexivity|]. intros w I. apply in_app_iff in I. destruct I as [I|[<-|[]]].
    + apply In_nth_error in I. destruct I as [j I].
      destruct (rmap_nth_inv _ _ _ _ _ Rm I) as (p' & _ & P2). eauto.
    + destruct F as (A & B & C & D). repeat split; auto.
  - inversion H; subst. simpl. eexists. split; [reflexivity|]. intros w [<-|[]].
    destruct F as (A & B & C & D). repeat split; auto.
Qed.
Lemma scalar_leaf_fresh s u i v : scalar_leaf_view env s u i = Ok v -> fresh v.
Proof.
  unfold scalar_leaf_view. destruct (nth_error _ _); [|discriminate].
  destruct (unit_converter _ _ _); intros H; inversion H; subst. repeat split; auto.
Qed.
Lemma ts_leaf_fresh s u tg t ex i v : ts_leaf_view env s u tg t ex i = Ok v -> fresh v.
Proof.
  unfold ts_leaf_view. destruct (nth_error _ _) as [q|]; [|discriminate].
  destruct (unit_converter _ _ _); [|discriminate]. destruct (p_time q); [|discriminate].
  destruct (timeseries_converter _ _ _ _); intros H; inversion H; subst. repeat split; auto.
Qed.

Lemma request_appends o s nr : is_request o = Some nr ->
  exists l, st_views (after env o s) = st_views s ++ l /\ forall v, In v l -> fresh v.
Proof.
  assert (Z : exists l, st_views s = st_views s ++ l /\ forall v, In v l -> fresh v)
    by (exists []; rewrite app_nil_r; split; [auto|intros v []]).
  intros Rq. unfold after. destruct o; try discriminate; cbn [step].
  - unfold ps_scalar. destruct (locate s name region) as [s1 [p|e]] eqn:L;
      destruct (pcells_locate _ _ _ _ _ L) as [E1 _]; [|simpl; rewrite E1; auto].
    destruct (on_param s1 p _) as [s2 [y|e]] eqn:O; pose proof (on_read_views _ _ _ _ _ _ _ O) as E2;
      [|simpl; rewrite E2, E1; auto].
    destruct (build_view s2 _ p) as [s3 y3] eqn:B.
    apply build_view_fresh in B; [|intros; eapply scalar_leaf_fresh; eauto].
    destruct B as (l & E & F). exists l. split; auto. rewrite <- E1, <- E2, <- E. destruct y3; auto.
  - unfold ps_timeseries. destruct (from_timeseries_type ty) as [t|]; [|simpl; auto].
    destruct (from_interpolation_type ip); [|simpl; auto].
    destruct (from_extrapolation_type ex); [|simpl; auto].
    destruct (locate s name region) as [s1 [p|e]] eqn:L;
      destruct (pcells_locate _ _ _ _ _ L) as [E1 _]; [|simpl; rewrite E1; auto].
    destruct (on_param s1 p _) as [s2 [y|e]] eqn:O; pose proof (on_read_views _ _ _ _ _ _ _ O) as E2;
      [|simpl; rewrite E2, E1; auto].
    destruct (build_view s2 _ p) as [s3 y3] eqn:B.
    apply build_view_fresh in B; [|intros; eapply ts_leaf_fresh; eauto].
    destruct B as (l & E & F). exists l. split; auto. rewrite <- E1, <- E2, <- E. destruct y3; auto.
  - unfold ps_generic. destruct (locate s name region) as [s1 [p|e]] eqn:L;
      destruct (pcells_locate _ _ _ _ _ L) as [E1 _]; [|simpl; rewrite E1; auto].
    destruct (on_param s1 p _) as [s2 [y|e]] eqn:O; pose proof (on_read_views _ _ _ _ _ _ _ O) as E2;
      simpl; rewrite E2, E1; auto.
    eexists. split; [reflexivity|]. intros v [<-|[]]. repeat split; auto.
Qed.

(** Operations on other views (and requests) leave a view the user holds alone. *)
Lemma not_touched s vi v w wv : wf s -> nth_error (st_views s) vi = Some v ->
  nth_error (st_views s) w = Some wv -> v_public wv = true -> vi <> w -> ~ touched vi v w.
Proof.
  intros W V Wv Pb N [E|(cs & C & I)]; [congruence|].
  destruct (view_cell _ _ _ _ W V) as (q & Q & Iv).
  destruct (vi_children _ _ _ _ _ Iv _ _ C I) as (_ & cv & C1 & C2 & _). congruence.
Qed.

Lemma others_kept o s w wv : wf s -> nth_error (st_views s) w = Some wv -> v_public wv = true ->
  works_on o <> Some w -> nth_error (st_views (after env o s)) w = Some wv.
Proof.
  intros W V Pb N. destruct (is_request o) as [nr|] eqn:Rq.
  { destruct (request_appends o s nr Rq) as (l & E & _). rewrite E. apply nth_app_old; auto. }
  destruct (write_target o) as [vi|] eqn:T.
  - destruct (nth_error (st_views s) vi) as [v|] eqn:V1.
    2: { unfold after. erewrite missing_noop; eauto. }
    assert (Ov : op_view o = Some vi) by (rewrite op_view_target; auto).
    pose proof (write_step env _ _ _ _ _ _ W Ov V1 (after_eq env o s)) as WS.
    rewrite (ws_views _ _ _ _ _ WS); auto. eapply not_touched; eauto.
    intros ->. apply N. destruct o; inversion T; subst; auto.
  - unfold after. destruct o; try discriminate; cbn [step]; cbn [works_on] in N;
    try match goal with |- context [with_view ?s ?vi ?k ?f] =>
      destruct (with_view s vi k f) as [s' x] eqn:H; apply with_view_inv in H;
      destruct H as [[-> _]|(v1 & V1 & Pb1 & K1 & H)]; [auto|] end;
    try (apply lift_inv in H; destruct H as [z H]); simpl; auto; try (inversion H; subst; auto; fail).
    + destruct (info s name region); auto.
    + rewrite (ts_get_views _ _ _ _ _ w V1 H); auto. apply (not_touched _ _ _ _ _ W V1 V Pb); intros ->; apply N; auto.
    + destruct (v_data v1); [|inversion H; subst; auto].
      destruct (ts_get s v) as [s1 [z|e]] eqn:G; inversion H; subst;
        rewrite (ts_get_views _ _ _ _ _ w V1 G); auto; apply (not_touched _ _ _ _ _ W V1 V Pb); intros ->; apply N; auto.
    + inversion H; subst. simpl. rewrite nth_upd_neq; auto.
Qed.

(** Children of a parameter that has been read are final. *)
Lemma read_frozen o s p q : wf s -> nth_error (st_params s) p = Some q -> p_read q = true ->
  exists q', nth_error (st_params (after env o s)) p = Some q' /\ p_read q' = true /\
    p_children q' = p_children q /\ p_unit q' = p_unit q /\ p_time q' = p_time q.
Proof.
  intros W Q Rd.
  assert (D : writes_to s o p \/ ~ writes_to s o p).
  { unfold writes_to. destruct (write_target o) as [vi|].
    - destruct (nth_error (st_views s) vi) as [v|] eqn:V.
      + destruct (v_public v) eqn:Pb.
        * destruct (Nat.eq_dec (v_param v) p).
          -- left. exists vi. split; auto. exists v. auto.
          -- right. intros (x & E & v' & V' & _ & P). inversion E; subst. congruence.
        * right. intros (x & E & v' & V' & P & _). inversion E; subst. congruence.
      + right. intros (x & E & v' & V' & P & _). inversion E; subst. congruence.
    - right. intros (x & E & _). discriminate. }
  destruct D as [(vi & T & v & V & Pb & Vp)|N].
  - assert (Ov : op_view o = Some vi) by (rewrite op_view_target; auto).
    pose proof (write_step env _ _ _ _ _ _ W Ov V (after_eq env o s)) as WS.
    rewrite <- Vp in Q. destruct (ws_param _ _ _ _ _ WS _ Q) as (q' & Q' & Pw). rewrite Vp in Q'.
    exists q'. split; auto. destruct Pw; simpl; auto.
  - exists q. split; auto. apply frame_step; auto.
Qed.

(** ** Histories without locks, integer arrays and writes lacking data *)

Definition sound (v : view) : Prop :=
  v_locked v = false /\ forall d, v_data v = Some d -> a_int d = false /\ v_version v <> None.

Inductive own (v : view) (q : param) (v' : view) (q' : param) : Prop :=
| own_same : v_data v' = v_data v -> v_version v' = v_version v -> p_data q' = p_data q ->
    p_version q' = p_version q -> own v q v' q'
| own_read xs : v_data v' = Some (mkArr false xs) -> v_version v' = Some (p_version q) ->
    ts_own v q = Ok xs -> v_data v = None \/ v_version v <> Some (p_version q) -> p_data q' = p_data q ->
    p_version q' = p_version q -> own v q v' q'
| own_store d l : v_data v' = Some d -> v_version v' = Some (S (p_version q)) ->
    to_param v (a_val d) = Ok l -> p_data q' = Some (PArr l) -> p_version q' = S (p_version q) ->
    own v q v' q'.

(** Reading a view of a leaf that is [sound]. *)
Lemma read_own s w v q s' x : nth_error (st_views s) w = Some v ->
  nth_error (st_params s) (v_param v) = Some q -> p_children q = [] -> sound v ->
  ts_get s w = (s', x) ->
  exists v', nth_error (st_views s') w = Some v' /\ nth_error (st_params s') (v_param v) = Some q /\
    own v q v' q /\ sound v' /\ vread v v' /\
    match x with
    | Ok xs => v_version v' = Some (p_version q) /\ (exists d, v_data v' = Some d /\ a_val d = xs)
    | Err _ => True
    end.
Proof.
  intros V Q C (Lk & S) H. rewrite (ts_get_leaf _ _ _ _ V Q C) in H.
  assert (Same : own v q v q) by (apply own_same; auto).
  assert (Sv : sound v) by (split; auto).
  assert (Cch : forall xs, ts_own v q = Ok xs -> v_data v = None \/ v_version v <> Some (p_version q) -> exists v', nth_error (st_views (set_view s w (v_cache v xs (p_version q)))) w = Some v' /\
     nth_error (st_params (set_view s w (v_cache v xs (p_version q)))) (v_param v) = Some q /\
     own v q v' q /\ sound v' /\ vread v v' /\
     v_version v' = Some (p_version q) /\ (exists d, v_data v' = Some d /\ a_val d = xs)).
  { intros xs O Cond. exists (v_cache v xs (p_version q)). split; [apply (set_view_nth _ _ _ _ V)|]. split; [auto|].
    split; [eapply own_read; eauto; reflexivity|].
    split. { split; simpl; auto. intros d E; inversion E; subst. split; auto. discriminate. }
    split. { constructor; simpl; auto. discriminate. }
    split; auto. eexists. split; [reflexivity|auto]. }
  destruct (v_data v) as [d|] eqn:D.
  - destruct (S d eq_refl) as [Fi Ve]. destruct (v_version v) as [k|] eqn:Vk; [|congruence].
    destruct (Nat.eqb_spec k (p_version q)) as [->|Nk].
    + inversion H; subst. exists v. split; auto. split; auto. split; auto. split; auto. split; [constructor; auto|].
      split; auto. eauto.
    + destruct (ts_own v q) as [xs|e] eqn:O.
      * rewrite Fi in H. inversion H; subst. apply Cch; auto. right. congruence.
      * inversion H; subst. exists v. split; auto. split; auto. split; auto. split; auto. split; [constructor; auto|auto].
  - destruct (ts_own v q) as [xs|e] eqn:O; inversion H; subst.
    + apply Cch; auto.
    + exists v. split; auto. split; auto. split; auto. split; auto. split; [constructor; auto|auto].
Qed.

Lemma convert_R_err_ts ty ex l a b e : is_ts ty -> convert_R ty ex l a b = Err e -> e = EInsufficientData.
Proof.
  unfold convert_R. intros T. destruct (length l <? 3); [intros H; inversion H; auto|].
  unfold convert_unsafe, continuous_representation. destruct T as [-> | ->].
  - destruct (_ =? _); cbn [rbind]; [|intros H; inversion H; auto].
    set (f := {| ip_knots := _ |}).
    assert (Y : forall t r, interval_averages f t = Err r -> r = EValueError).
    { clearbody f. clear. induction t as [|x [|y t]]; try discriminate. intros r.
      change (interval_averages f (x :: y :: t)) with (if ip_ok f x y then match interval_averages f (y :: t) with Ok r => Ok (RInt (ip_val f) x y / (y - x) :: r)%R | Err e => Err e end else Err EValueError).
      destruct (ip_ok f x y); [|congruence]. destruct (interval_averages f (y :: t)) eqn:E; [discriminate|].
      intros H. assert (r = e) by congruence. subst. apply IHt. auto. }
    destruct (interval_averages f b) eqn:E; [discriminate|]. rewrite (Y _ _ E). intros H; inversion H; auto.
  - destruct (_ =? _); cbn [rbind]; [|intros H; inversion H; auto].
    set (f := {| ip_knots := _ |}).
    assert (Y : forall t r, rmap (ip_eval f) t = Err r -> r = EValueError).
    { clearbody f. clear. induction t as [|x t]; cbn [rmap]; try discriminate. intros r.
      unfold ip_eval at 1. destruct (ip_ok f x x); [|congruence].
      destruct (rmap (ip_eval f) t) eqn:E; [discriminate|].
      intros H. assert (r = e) by congruence. subst. apply IHt. auto. }
    destruct (rmap (ip_eval f) b) eqn:E; [discriminate|]. rewrite (Y _ _ E). intros H; inversion H; auto.
Qed.
Lemma nconvert_err_ts ty ex a b l e : is_ts ty -> nconvert (fun xs => convert_R ty ex xs a b) l = Err e ->
  e = EInsufficientData.
Proof.
  unfold nconvert. intros T. destruct (all_some l).
  - destruct (convert_R ty ex l0 a b) eqn:E; [discriminate|]. intros H; inversion H; subst. eapply convert_R_err_ts; eauto.
  - destruct (convert_R _ _ _ _ _) eqn:E; [discriminate|]. intros H; inversion H; subst. eapply convert_R_err_ts; eauto.
Qed.
Lemma to_param_err v l e : is_ts (tc_type (v_tconv v)) -> to_param v l = Err e -> e = EInsufficientData.
Proof. intros T H. eapply nconvert_err_ts; eauto. Qed.

(** Operations on [w] that keep it [sound]. *)
Definition tidy_on (s : state) (o : op) (w : nat) : Prop :=
  works_on o = Some w -> tidy_call env s o.

Lemma own_trans_read v q v1 v2 q2 : own v q v1 q -> vread v v1 -> own v1 q v2 q2 -> own v q v2 q2.
Proof.
  intros A R B. assert (Tp : forall l, to_param v1 l = to_param v l).
  { intros l. unfold to_param. now rewrite (vr_uconv _ _ R), (vr_tconv _ _ R). }
  assert (To : ts_own v1 q = ts_own v q).
  { unfold ts_own, from_param. now rewrite (vr_uconv _ _ R), (vr_tconv _ _ R). }
  destruct B as [D V Pd Pv|xs D V O Cd Pd Pv|d l D V O Pd Pv].
  - destruct A as [D' V' _ _|xs D' V' O Cd _ _|d l D' V' O Pd' Pv'].
    + apply own_same; congruence.
    + eapply own_read; eauto; congruence.
    + exfalso. lia.
  - destruct A as [D' V' _ _|xs' D' V' O' Cd' _ _|d l D' V' O' Pd' Pv'].
    + apply own_read with (xs := xs); try congruence.
    + destruct Cd; congruence.
    + exfalso. lia.
  - eapply own_store; eauto. congruence.
Qed.

Definition owned (s' : state) (w : nat) (v : view) (q : param) : Prop :=
  exists v' q', nth_error (st_views s') w = Some v' /\ nth_error (st_params s') (v_param v) = Some q' /\
    own v q v' q' /\ sound v'.

Lemma owned_refl s w v q : nth_error (st_views s) w = Some v -> nth_error (st_params s) (v_param v) = Some q ->
  sound v -> owned s w v q.
Proof. intros. exists v, q. repeat (split; auto). apply own_same; auto. Qed.
Lemma owned_put s w v q v' q' : nth_error (st_views s) w = Some v -> nth_error (st_params s) (v_param v) = Some q ->
  own v q v' q' -> sound v' -> owned (put s (v_param v) q' w v') w v q.
Proof.
  intros V Q O S. exists v', q'. split; [eapply put_view; eauto|]. split; [eapply put_param; eauto|]. auto.
Qed.

Lemma handle_set_own s w v q i y s' x : nth_error (st_views s) w = Some v ->
  nth_error (st_params s) (v_param v) = Some q -> is_ts (tc_type (v_tconv v)) -> sound v ->
  handle_set s w i y = (s', x) -> x <> Err EInsufficientData -> owned s' w v q.
Proof.
  intros V Q T S H N. destruct (v_data v) as [d|] eqn:D.
  2: { unfold handle_set in H. rewrite V, D in H. inversion H; subst. apply owned_refl; auto. }
  pose proof S as [Lk S']. destruct (S' _ D) as [Fi Ve].
  apply handle_set_eff with (v := v) (q := q) (d := d) in H; auto. destruct x as [z|e].
  - destruct H as (j & y' & _ & _ & [(X & _)|(_ & xs & TP & ->)]); [congruence|].
    apply owned_put; auto.
    + eapply own_store; simpl; eauto.
    + split; simpl; auto. intros d' E. inversion E; subst. split; auto. discriminate.
  - destruct H as [->|(j & y' & _ & _ & _ & TP & _)]; [apply owned_refl; auto|].
    apply to_param_err in TP; auto. congruence.
Qed.

Lemma ts_write_own s w v q d s' x : nth_error (st_views s) w = Some v ->
  nth_error (st_params s) (v_param v) = Some q -> is_ts (tc_type (v_tconv v)) -> sound v -> a_int d = false ->
  ts_write (set_view s w (v_set_data v d)) w = (s', x) -> x <> Err EInsufficientData -> owned s' w v q.
Proof.
  intros V Q T S Fi H N. rewrite (set_view_put _ _ _ _ _ Q) in H. pose proof S as [Lk S'].
  unfold ts_write in H. rewrite (put_view _ _ _ _ _ _ V) in H. cbn [v_locked v_set_data v_data v_param] in H.
  rewrite Lk, (put_param _ _ _ _ _ _ Q) in H.
  change (to_param (v_set_data v d) ?l) with (to_param v l) in H.
  destruct (to_param v (a_val d)) as [xs|e] eqn:TP.
  - inversion H; subst. exists (v_set_version (v_set_data v d) (Datatypes.S (p_version q))), (p_store q (PArr xs)).
    split. { simpl. rewrite nth_upd_eq; auto. rewrite upd_length. eapply nth_lt; eauto. }
    split. { simpl. rewrite nth_upd_eq; auto. rewrite upd_length. eapply nth_lt; eauto. }
    split; [eapply own_store; simpl; eauto|].
    split; simpl; auto. intros d' E. inversion E; subst. split; auto. discriminate.
  - apply to_param_err in TP; auto. inversion H; subst. congruence.
Qed.


Lemma owned_trans s1 s2 w v q v1 : own v q v1 q -> vread v v1 -> nth_error (st_views s1) w = Some v1 ->
  owned s2 w v1 q -> owned s2 w v q.
Proof.
  intros O R V1 (v2 & q2 & A & B & C & D). exists v2, q2. rewrite (vr_param _ _ R) in B.
  repeat (split; auto). eapply own_trans_read; eauto.
Qed.

Lemma own_step o s w v q : wf s -> nth_error (st_views s) w = Some v -> v_public v = true ->
  v_kind v = KTimeseries -> nth_error (st_params s) (v_param v) = Some q -> p_children q = [] ->
  sound v -> works_on o = Some w -> tidy_on s o w -> owned (after env o s) w v q.
Proof.
  intros W V Pb K Q C S O T. specialize (T O). unfold tidy_call in T.
  destruct (view_cell _ _ _ _ W V) as (q0 & Q0 & I). assert (q0 = q) by congruence; subst q0.
  pose proof (vi_ktype _ _ _ _ _ I K) as Ty.
  assert (Same : forall s', after env o s = s' -> s' = s -> owned (after env o s) w v q).
  { intros s' -> ->. apply owned_refl; auto. }
  unfold answer in T. unfold after in *.
  destruct o; try discriminate; inversion O; subst; clear O; cbn [step] in *; unfold with_view in *; rewrite V, Pb, K in *;
    simpl fst; simpl snd; try tauto; try (apply owned_refl; auto; fail).
  - (* get *)
    destruct (ts_get s w) as [s1 x] eqn:G. destruct (read_own _ _ _ _ _ _ V Q C S G) as (v' & V' & Q' & Ow & S' & R & _).
    assert (fst (lift VArr (s1, x)) = s1) as -> by (destruct x; auto). exists v', q. auto.
  - (* set *)
    destruct T as [Fi N]. destruct (ts_set s w v a) as [s1 x] eqn:H.
    apply ts_set_eff with (q := q) (env := env) in H; auto. cbv zeta in H. pose proof S as [Lk S'].
    assert (Fn : a_int (newdata v a) = false).
    { unfold newdata. destruct (v_data v) as [d|]; auto. simpl. apply (S' d); auto. }
    assert (Dn : a_val (newdata v a) = a_val a) by (unfold newdata; destruct (v_data v); auto).
    destruct x as [z|e]; simpl in N |- *.
    + destruct H as (_ & _ & [(X & _)|(_ & xs & TP & ->)]); [congruence|].
      apply owned_put; auto.
      * eapply own_store; simpl; eauto. rewrite Dn. auto.
      * split; simpl; auto. intros d' E. inversion E; subst. split; auto. discriminate.
    + destruct H as [(_ & _ & ->)|(_ & [(_ & _ & ->)|(_ & [(d & D & A & _)|(_ & TP & _)])])].
      * apply owned_refl; auto.
      * apply owned_put; auto. apply own_same; auto.
      * destruct (S' _ D). congruence.
      * apply to_param_err in TP; auto. congruence.
  - (* set item *)
    unfold ts_setitem in *. destruct (ts_get s w) as [s1 [xr|e]] eqn:G;
      destruct (read_own _ _ _ _ _ _ V Q C S G) as (v' & V' & Q' & Ow & S' & R & _).
    + destruct (handle_set s1 w i x) as [s2 y] eqn:H.
      apply handle_set_own with (v := v') (q := q) in H; auto.
      * assert (fst (lift (fun _ : unit => VUnit) (s2, y)) = s2) as -> by (destruct y; auto).
        eapply owned_trans; eauto.
      * rewrite (vr_param _ _ R). auto.
      * rewrite (vr_tconv _ _ R). auto.
      * destruct y; simpl in T; congruence.
    + simpl. exists v', q. auto.
  - (* handle get *)
    destruct (v_data v) as [d|] eqn:D; [|apply owned_refl; auto].
    destruct (ts_get s w) as [s1 x] eqn:G. destruct (read_own _ _ _ _ _ _ V Q C S G) as (v' & V' & Q' & Ow & S' & R & _).
    destruct x; simpl; exists v', q; auto.
  - (* handle set *)
    destruct (handle_set s w i x) as [s2 y] eqn:H.
    apply handle_set_own with (v := v) (q := q) in H; auto.
    + destruct y; auto.
    + destruct y; simpl in T; congruence.
  - (* iadd *)
    unfold handle_iadd in *. rewrite V in *. destruct (v_data v) as [d|] eqn:D; [|simpl; apply owned_refl; auto].
    destruct (ts_get s w) as [s1 [xs|e]] eqn:G;
      destruct (read_own _ _ _ _ _ _ V Q C S G) as (v' & V' & Q' & Ow & S' & R & _).
    + rewrite V' in *. destruct (v_data v') as [d'|] eqn:D'; [|simpl; exists v', q; auto].
      destruct (a_int d') eqn:Fi; [simpl; exists v', q; auto|].
      match type of T with context [ts_write ?a ?b] => destruct (ts_write a b) as [s2 y] eqn:H end.
      apply ts_write_own with (q := q) in H; auto.
      * assert (fst (lift (fun _ : unit => VUnit) (s2, y)) = s2) as -> by (destruct y; auto).
        eapply owned_trans; eauto.
      * rewrite (vr_param _ _ R). auto.
      * rewrite (vr_tconv _ _ R). auto.
      * destruct y; simpl in T; congruence.
    + simpl. exists v', q. auto.
Qed.

(** The number of views only grows by requests. *)
Lemma views_length o s : wf s -> is_request o = None -> length (st_views (after env o s)) = length (st_views s).
Proof.
  intros W Rq. destruct (write_target o) as [vi|] eqn:T.
  - destruct (nth_error (st_views s) vi) as [v|] eqn:V.
    + assert (Ov : op_view o = Some vi) by (rewrite op_view_target; auto).
      pose proof (write_step env _ _ _ _ _ _ W Ov V (after_eq env o s)) as WS. apply WS.
    + unfold after. erewrite missing_noop; eauto.
  - rewrite <- op_view_target in T. destruct (other_step env _ _ _ _ Rq T (after_eq env o s)) as (_ & _ & E). auto.
Qed.

Definition leaf_view (s : state) (p w : nat) (v : view) (q : param) : Prop :=
  nth_error (st_views s) w = Some v /\ v_public v = true /\ v_kind v = KTimeseries /\ v_param v = p /\
  nth_error (st_params s) p = Some q /\ p_children q = [].

(** A view after a call existed before or is fresh. *)
Lemma leaf_view_before o s p w v q : wf s -> leaf_view (after env o s) p w v q ->
  (nth_error (st_views s) w = None /\ fresh v) \/ exists v0 q0, leaf_view s p w v0 q0 /\ vevo v0 v.
Proof.
  intros W (V & Pb & K & Vp & Q & C).
  destruct (nth_error (st_views s) w) as [v0|] eqn:V0.
  - right. destruct (ev_views _ _ (evo_step env _ _ _ _ (after_eq env o s)) _ _ V0) as (v1 & V1 & E).
    assert (v1 = v) by congruence; subst v1.
    destruct (view_cell _ _ _ _ W V0) as (q0 & Q0 & I).
    exists v0, q0. split; auto. destruct E.
    assert (Ep : v_param v0 = p) by congruence. rewrite Ep in Q0.
    split; auto. split; [congruence|]. split; [congruence|]. split; [auto|]. split; [auto|].
    destruct (ev_params _ _ (evo_step env _ _ _ _ (after_eq env o s)) _ _ Q0) as (q1 & Q1 & Pe).
    assert (q1 = q) by congruence; subst q1. destruct (pe_children _ _ Pe) as [l El].
    rewrite C in El. destruct (p_children q0); auto; discriminate.
  - left. split; auto. destruct (is_request o) as [nr|] eqn:Rq.
    + destruct (request_appends o s nr Rq) as (l & E & F). rewrite E in V.
      rewrite nth_error_app2 in V by (apply nth_error_None; auto). apply F. eapply nth_error_In; eauto.
    + apply nth_lt in V. rewrite (views_length _ _ W Rq) in V. apply nth_error_None in V0. lia.
Qed.

Definition all_sound (s : state) (p : nat) : Prop := forall w v q, leaf_view s p w v q -> sound v.

Lemma sound_step o s p : wf s -> all_sound s p -> tidy env s o p -> all_sound (after env o s) p.
Proof.
  intros W A T w v q L. destruct (leaf_view_before _ _ _ _ _ _ W L) as [(_ & D & Lk & _)|(v0 & q0 & L0 & E)].
  { split; auto. congruence. }
  pose proof (A _ _ _ L0) as S. destruct L0 as (V0 & Pb & K & Vp & Q & C).
  destruct L as (V & _). destruct (option_eq_dec (works_on o) w) as [Eo|No].
  - assert (To : tidy_on s o w). { intros _. apply (T w); auto. exists v0. auto. }
    rewrite <- Vp in Q. destruct (own_step o s w v0 q0 W V0 Pb K Q C S Eo To) as (v' & q' & V' & _ & _ & S').
    congruence.
  - rewrite (others_kept _ _ _ _ W V0 Pb No) in V. inversion V; subst. auto.
Qed.

Lemma sound_run h : forall s p, wf s -> all_sound s p -> tidy_run env s h p -> all_sound (run env s h) p.
Proof.
  induction h as [|o h IH]; intros s p W A T; auto. destruct T as [T1 T2].
  apply (IH (after env o s)); auto; [apply wf_after; auto|apply sound_step; auto].
Qed.
Lemma sound_init root p : all_sound (init_state root) p.
Proof. intros w v q (V & _). destruct w; discriminate. Qed.

(** After a store through [v0], as long as nothing else is stored. *)
Definition settled (s : state) (p v0 : nat) (q : param) (xs l : list num) : Prop :=
  nth_error (st_params s) p = Some q /\ p_children q = [] /\ p_read q = true /\ p_written q = true /\
  p_data q = Some (PArr l) /\
  (exists v, leaf_view s p v0 v q) /\
  forall w v, leaf_view s p w v q ->
    (w = v0 -> exists d, v_data v = Some d /\ a_val d = xs /\ v_version v = Some (p_version q)) /\
    (w <> v0 -> forall d, v_data v = Some d -> v_version v = Some (p_version q) -> from_param v l = Ok (a_val d)).

Lemma settled_step o s p v0 q xs l : wf s -> settled s p v0 q xs l -> all_sound s p -> tidy env s o p ->
  ~ writes_to s o p -> settled (after env o s) p v0 q xs l.
Proof.
  intros W (Q & C & Rd & Wr & Da & (vv & LV) & A) S T N.
  pose proof (frame_step env o s p q W Q Rd N) as Q'.
  split; auto. split; auto. split; auto. split; auto. split; auto. split.
  { destruct LV as (V & Pb & K & Vp & _).
    destruct (ev_views _ _ (evo_step env _ _ _ _ (after_eq env o s)) _ _ V) as (v' & V' & E). destruct E.
    exists v'. split; auto. split; [congruence|]. split; [congruence|]. split; [congruence|]. split; auto. }
  intros w v L. destruct (leaf_view_before _ _ _ _ _ _ W L) as [(No & D & Lk & _)|(w0 & q0 & L0 & E)].
  { split.
    - intros ->. destruct LV as (V0 & _). congruence.
    - congruence. }
  assert (q0 = q) by (destruct L0 as (_ & _ & _ & _ & Q0 & _); congruence); subst q0.
  destruct (A _ _ L0) as [A1 A2]. pose proof (S _ _ _ L0) as So.
  destruct L0 as (V0 & Pb & K & Vp & _ & _). pose proof L as (V & _).
  destruct (option_eq_dec (works_on o) w) as [Eo|Nk].
  2: { rewrite (others_kept _ _ _ _ W V0 Pb Nk) in V. inversion V; subst. auto. }
  assert (To : tidy_on s o w). { intros _. apply (T w); auto. exists w0. auto. }
  pose proof Q as Qp. rewrite <- Vp in Qp.
  destruct (own_step o s w w0 q W V0 Pb K Qp C So Eo To) as (v' & q' & V' & Qn & Ow & S').
  assert (v' = v) by congruence; subst v'. rewrite Vp in Qn. assert (q' = q) by congruence; subst q'.
  assert (Fp : from_param v l = from_param w0 l).
  { unfold from_param. now rewrite (ve_uconv _ _ E), (ve_tconv _ _ E). }
  destruct Ow as [D Ve _ _|ys D Ve O Cd _ _|d l' D Ve O Pd Pv].
  - split.
    + intros Ew. destruct (A1 Ew) as (d & X & Y & Z). exists d. split; [congruence|]. split; congruence.
    + intros Ew d X Y. rewrite Fp. apply (A2 Ew); congruence.
  - split.
    + intros Ew. destruct (A1 Ew) as (d & X & Y & Z). destruct Cd; congruence.
    + intros Ew d X Y. rewrite Fp. unfold ts_own in O. rewrite Wr, Da in O. rewrite D in X. inversion X; subst. auto.
  - exfalso. lia.
Qed.

Lemma settled_run h : forall s p v0 q xs l, wf s -> settled s p v0 q xs l -> all_sound s p -> tidy_run env s h p ->
  no_writes env s h p -> settled (run env s h) p v0 q xs l.
Proof.
  induction h as [|o h IH]; intros s p v0 q xs l W St S T N; auto. destruct T as [T1 T2], N as [N1 N2].
  apply (IH (after env o s)); auto; [apply wf_after; auto|apply settled_step; auto|apply sound_step; auto].
Qed.

(** The store itself. *)
Lemma settled_store o s p v0 v q : wf s -> leaf_view s p v0 v q -> all_sound s p -> tidy env s o p ->
  write_target o = Some v0 -> stores env s o p = true ->
  exists xs l q', settled (after env o s) p v0 q' xs l /\ to_param v xs = Ok l /\
    (forall a, o = OSetValues v0 a -> xs = a_val a).
Proof.
  intros W L S T Wt St. pose proof (S _ _ _ L) as So. pose proof L as (V & Pb & K & Vp & Q & C).
  assert (Wo : works_on o = Some v0) by (destruct o; inversion Wt; subst; auto).
  assert (To : tidy_on s o v0). { intros _. apply (T v0); auto. exists v. auto. }
  pose proof Q as Qp. rewrite <- Vp in Qp.
  destruct (own_step o s v0 v q W V Pb K Qp C So Wo To) as (v' & q' & V' & Qn & Ow & S').
  rewrite Vp in Qn.
  destruct (view_cell _ _ _ _ W V) as (q1 & Q1 & I). assert (q1 = q) by congruence; subst q1.
  destruct (vi_public _ _ _ _ _ I Pb) as (Rd & Ty & _).
  destruct (read_frozen o s p q W Q Rd) as (q2 & Q2 & R2 & C2 & _). assert (q2 = q') by congruence; subst q2.
  pose proof (vw_step env o s p q' W Qn) as Vw. rewrite Q, St in Vw. destruct Vw as [Vv _].
  assert (Wr : p_written q' = true).
  { destruct (success_written env s o p q' W) as [E|E]; auto; [| |congruence].
    - exists v0. split; auto. exists v; auto.
    - unfold stores in St. rewrite Wt, V, Pb in St. unfold succeeds. destruct (answer env o s) as [z|z]; [exists z; auto|].
      rewrite andb_false_r in St. discriminate. }
  destruct Ow as [D Ve Pd Pv|ys D Ve O Cd Pd Pv|d l D Ve O Pd Pv]; [lia|lia|].
  exists (a_val d), l, q'. split; [|split].
  - split; auto. split; [congruence|]. split; auto. split; auto. split; auto.
    pose proof (evo_step env _ _ _ _ (after_eq env o s)) as Ev. split.
    { destruct (ev_views _ _ Ev _ _ V) as (v2 & V2 & E). destruct E. assert (v2 = v') by congruence; subst.
      exists v'. split; auto. split; [congruence|]. split; [congruence|]. split; [congruence|]. split; [auto|congruence]. }
    intros w wv Lw. split.
    + intros ->. destruct Lw as (Vw & _). assert (wv = v') by congruence; subst. exists d. split; auto. split; auto. congruence.
    + intros Nw d' D' Ve'. exfalso.
      destruct (leaf_view_before _ _ _ _ _ _ W Lw) as [(No & F & _)|(w0 & q0 & L0 & E)]; [congruence|].
      destruct L0 as (V0 & Pb0 & K0 & Vp0 & Q0 & _). destruct Lw as (Vw & _).
      rewrite (others_kept _ _ _ _ W V0 Pb0) in Vw by congruence. inversion Vw; subst w0.
      destruct (view_cell _ _ _ _ W V0) as (q1 & Q1' & I1). rewrite Vp0 in Q1'. assert (q1 = q) by congruence; subst q1.
      pose proof (vi_version _ _ _ _ _ I1 _ Ve'). lia.
  - auto.
  - intros a ->. unfold after in V'. cbn [step] in V'. unfold with_view in V'. rewrite V, Pb, K in V'.
    unfold stores in St. simpl in St. rewrite V, Pb in St. unfold answer in St. cbn [step] in St.
    unfold with_view in St. rewrite V, Pb, K in St.
    destruct (ts_set s v0 v a) as [s1 [z|e]] eqn:H; simpl in St; [|rewrite andb_false_r in St; discriminate].
    apply ts_set_eff with (q := q) (env := env) in H; auto. cbv zeta in H. destruct So as [Lk So].
    destruct H as (_ & _ & [(X & _)|(_ & xs & TP & ->)]); [congruence|]. simpl in V'.
    rewrite nth_upd_eq in V' by (eapply nth_lt; eauto). inversion V'; subst. simpl in D. inversion D; subst.
    unfold newdata. destruct (v_data v); auto.
Qed.

(** Reading in a settled state. *)
Lemma settled_read s p v0 q xs l w v : settled s p v0 q xs l -> all_sound s p -> leaf_view s p w v q ->
  answer env (OGetValues w) s =
    (if Nat.eq_dec w v0 then Ok (VArr xs)
     else match from_param v l with Ok ys => Ok (VArr ys) | Err e => Err e end).
Proof.
  intros (Q & C & Rd & Wr & Da & _ & A) S L. destruct (A _ _ L) as [A1 A2]. destruct (S _ _ _ L) as [Lk Sd].
  destruct L as (V & Pb & K & Vp & _ & _). unfold answer. cbn [step]. unfold with_view. rewrite V, Pb, K.
  rewrite <- Vp in Q. rewrite (ts_get_leaf _ _ _ _ V Q C).
  assert (To : ts_own v q = from_param v l) by (unfold ts_own; rewrite Wr, Da; auto).
  destruct (Nat.eq_dec w v0) as [->|Nw].
  - destruct (A1 eq_refl) as (d & D & X & Ve). rewrite D, Ve, Nat.eqb_refl. simpl. congruence.
  - destruct (v_data v) as [d|] eqn:D.
    + destruct (Sd _ eq_refl) as [Fi Nv]. destruct (v_version v) as [k|]; [|congruence]. rewrite Fi.
      destruct (Nat.eqb_spec k (p_version q)) as [->|].
      * rewrite (A2 Nw _ eq_refl eq_refl). auto.
      * rewrite To. destruct (from_param v l); auto.
    + rewrite To. destruct (from_param v l); auto.
Qed.

Lemma from_shown s w v q l : wf s -> nth_error (st_views s) w = Some v -> v_kind v = KTimeseries ->
  nth_error (st_params s) (v_param v) = Some q ->
  shown_as env q v l (from_param v l) /\ kept_as env q v l (to_param v l).
Proof.
  intros W V K Q. destruct (view_cell _ _ _ _ W V) as (q0 & Q0 & I). assert (q0 = q) by congruence; subst.
  assert (U : unit_converter env (p_unit q) (Some (v_unit v)) = Ok (v_uconv v)) by (apply (vi_uconv _ _ _ _ _ I); congruence).
  destruct (vi_tconv _ _ _ _ _ I K) as (tp & Tp & Tc).
  split; exists (v_uconv v), tp, (v_tconv v); repeat (split; auto).
Qed.

Lemma C14_proof root h1 o h2 p v0 : 
  let s1 := run env (init_state root) h1 in let s2 := after env o s1 in let s3 := run env s2 h2 in
  tidy_run env (init_state root) (h1 ++ o :: h2) p ->
  ts_view s1 v0 p -> write_target o = Some v0 -> stores env s1 o p = true -> no_writes env s2 h2 p ->
  (exists q, nth_error (st_params s1) p = Some q /\ p_children q = []) ->
  exists xs l q vv, nth_error (st_views s3) v0 = Some vv /\ nth_error (st_params s3) p = Some q /\
    (forall a, o = OSetValues v0 a -> xs = a_val a) /\
    kept_as env q vv xs (Ok l) /\
    answer env (OGetValues v0) s3 = Ok (VArr xs) /\
    forall w wv, nth_error (st_views s3) w = Some wv -> ts_view s3 w p -> w <> v0 ->
      exists r, shown_as env q wv l r /\
        answer env (OGetValues w) s3 = match r with Ok ys => Ok (VArr ys) | Err e => Err e end.
Proof.
  intros s1 s2 s3 T (v & V & Pb & Vp & K) Wt St N (q & Q & C).
  assert (X : forall h a s, tidy_run env s (h ++ a) p -> tidy_run env s h p /\ tidy_run env (run env s h) a p).
  { induction h as [|x h IH]; simpl; intros a s H; auto. destruct H as [H1 H2]. apply IH in H2. tauto. }
  apply X in T. destruct T as [T1 T2]. fold s1 in T2. destruct T2 as [T2 T3]. fold s2 in T3.
  assert (W1 : wf s1) by apply wf_reachable.
  assert (S1 : all_sound s1 p). { apply sound_run; auto; [apply wf_init|apply sound_init]. }
  assert (L : leaf_view s1 p v0 v q) by (repeat (split; auto)).
  destruct (settled_store o s1 p v0 v q W1 L S1 T2 Wt St) as (xs & l & q' & Se & TP & Ha). fold s2 in Se.
  assert (W2 : wf s2) by (apply wf_after; auto).
  assert (S2 : all_sound s2 p) by (apply sound_step; auto).
  pose proof (settled_run h2 s2 p v0 q' xs l W2 Se S2 T3 N) as Sf. fold s3 in Sf.
  assert (W3 : wf s3) by (apply wf_run'; auto).
  assert (S3 : all_sound s3 p) by (apply sound_run; auto).
  pose proof Sf as (Q3 & C3 & _ & _ & _ & (vv & Lv) & _). pose proof Lv as (V3 & Pb3 & K3 & Vp3 & _).
  exists xs, l, q', vv. split; auto. split; auto. split; auto.
  assert (Ev : evo s1 s3). { eapply evo_trans; [apply (evo_step env _ _ _ _ (after_eq env o s1))|apply evo_run]. }
  destruct (ev_views _ _ Ev _ _ V) as (v' & V' & E). assert (v' = vv) by congruence; subst v'.
  split.
  - rewrite <- Vp3 in Q3. destruct (from_shown s3 v0 vv q' xs W3 V3 K3 Q3) as [_ Kp].
    assert (Et : to_param vv xs = to_param v xs) by (unfold to_param; now rewrite (ve_uconv _ _ E), (ve_tconv _ _ E)).
    rewrite Et, TP in Kp. auto.
  - split.
    + rewrite (settled_read _ _ _ _ _ _ _ _ Sf S3 Lv). destruct (Nat.eq_dec v0 v0); congruence.
    + intros w wv Vw (wv' & Vw' & Pbw & Vpw & Kw) Nw. assert (wv' = wv) by congruence; subst wv'.
      assert (Lw : leaf_view s3 p w wv q') by (repeat (split; auto)).
      exists (from_param wv l). split.
      * apply (from_shown s3 w wv q' l W3 Vw Kw). congruence.
      * rewrite (settled_read _ _ _ _ _ _ _ _ Sf S3 Lw). destruct (Nat.eq_dec w v0); congruence.
Qed.

End V.
