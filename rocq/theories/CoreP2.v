(** Frame lemmas and proofs of C07, C08, C09, C10. *)
From Coq Require Import String List Arith Lia Bool ZArith Reals Lra.
From Verif Require Import Base ListFacts Units TimeModel Core CoreEvo CoreTree CoreNames CoreInv
  CoreStep Spec_Core CoreReq.
Import ListNotations.

(** Cells and the children lists under creation of names. *)
Lemma child_keeps s p n s' x i q : get_or_create_child_parameter s p n = (s', x) ->
  nth_error (st_params s) i = Some q -> p_read q = true \/ p_written q = true ->
  nth_error (st_params s') i = Some q.
Proof.
  unfold get_or_create_child_parameter. intros H Q R.
  destruct (nth_error (st_params s) p) as [q0|] eqn:Q0; [|inversion H; subst; auto].
  destruct (alookup n (p_children q0)); [inversion H; subst; auto|].
  destruct (p_written q0) eqn:A; [inversion H; subst; auto|].
  destruct (p_read q0) eqn:B; inversion H; subst; auto. simpl. apply nth_app_old.
  rewrite nth_upd_neq; auto. intros ->. assert (q = q0) by congruence. subst. intuition congruence.
Qed.
Lemma subs_keeps l : forall s p s' x i q, subparameters s p l = (s', x) ->
  nth_error (st_params s) i = Some q -> p_read q = true \/ p_written q = true ->
  nth_error (st_params s') i = Some q.
Proof.
  induction l; simpl; intros s p s' x i q H Q R; [inversion H; subst; auto|].
  destruct (get_or_create_child_parameter s p a) as [s1 [c|e]] eqn:G.
  - eapply IHl; eauto. eapply child_keeps; eauto.
  - inversion H; subst. eapply child_keeps; eauto.
Qed.
Lemma locate_keeps s n r s' x i q : locate s n r = (s', x) ->
  nth_error (st_params s) i = Some q -> p_read q = true \/ p_written q = true ->
  nth_error (st_params s') i = Some q.
Proof.
  unfold locate. intros H Q R.
  destruct (get_or_create_region s r) as [s1 [rr|e]] eqn:G;
    pose proof (region_params_same _ _ _ _ G) as P; rewrite <- P in Q.
  2: { inversion H; subst; auto. }
  unfold get_or_create_parameter in H. destruct (hcomponents n); [inversion H; subst; auto|].
  unfold get_or_create_root_parameter in H.
  destruct (nth_error (st_regions s1) rr); [|inversion H; subst; auto].
  destruct (alookup s0 (r_params r0)).
  - eapply subs_keeps; eauto.
  - eapply subs_keeps; eauto. simpl. apply nth_app_old; auto.
Qed.

Section P.
Variable env : uenv.

Lemma pinv_read_typed q : pinv q -> p_read q = true -> p_type q <> None.
Proof. intros I R T. destruct (pi_untyped _ I T) as (_ & _ & _ & A & _). congruence. Qed.

(** A step that is not a write to [p] does not touch a parameter cell that was read. *)
Lemma frame_step o s p q : wf env s -> nth_error (st_params s) p = Some q -> p_read q = true ->
  ~ writes_to s o p -> nth_error (st_params (after env o s)) p = Some q.
Proof.
  intros W Q R N. pose proof (after_eq env o s) as St.
  destruct (is_request o) as [[n r]|] eqn:Rq.
  - destruct (request_cases env _ _ _ Rq) as [(t & u & tp & Rt)|F].
    2: { destruct (F s) as (e & F'). unfold after. rewrite F'. auto. }
    destruct (request_inv env _ _ _ _ _ _ _ _ _ W Rt St) as [(s1 & e & L & E1 & _)|(s1 & p1 & L & K)].
    { rewrite E1. eapply locate_keeps; eauto. }
    assert (Q1 : nth_error (st_params s1) p = Some q) by (eapply locate_keeps; eauto).
    assert (W1 : wf env s1) by (eapply wf_locate; eauto).
    assert (X : forall s2 y, on_param s1 p1 (fun q0 => attempt_read q0 t u tp) = (s2, y) ->
      nth_error (st_params s2) p = Some q).
    { intros s2 y O. unfold on_param in O. destruct (nth_error (st_params s1) p1) as [q1|] eqn:Q2.
      - destruct (attempt_read q1 t u tp) as [q1' y'] eqn:Ar. inversion O; subst. simpl.
        destruct (Nat.eq_dec p1 p) as [->|Ne]; [|rewrite nth_upd_neq; auto].
        assert (q1 = q) by congruence; subst q1.
        rewrite nth_upd_eq by (eapply nth_lt; eauto). f_equal.
        unfold attempt_read in Ar. pose proof (pinv_read_typed _ (wf_params _ _ W1 _ _ Q1) R) as Ty.
        destruct (p_type q); [|congruence].
        destruct (ptype_eqb p0 t); inversion Ar; subst; auto. now rewrite p_set_read_id.
      - inversion O; subst; auto. }
    destruct K as [(e & O & _)|(s2 & O & E1 & _)]; [eauto|]. rewrite E1. eauto.
  - destruct (op_view o) as [vi|] eqn:Ov.
    + destruct (nth_error (st_views s) vi) as [v|] eqn:V.
      * destruct (v_public v) eqn:Pb.
        -- destruct (write_step env _ _ _ _ _ _ W Ov V St). rewrite ws_params; auto.
           intros E. apply N. exists vi. split; [destruct o; auto|]. exists v. auto.
        -- assert (after env o s = s); [|congruence].
           unfold after. destruct o; inversion Ov; subst; cbn [step]; unfold with_view; rewrite V, Pb; auto.
      * assert (after env o s = s); [|congruence].
        unfold after. destruct o; inversion Ov; subst; cbn [step]; unfold with_view; rewrite V; auto.
    + destruct (other_step env _ _ _ _ Rq Ov St) as (_ & E & _). rewrite E. auto.
Qed.

Lemma frame_run h : forall s p q, wf env s -> nth_error (st_params s) p = Some q -> p_read q = true ->
  no_writes env s h p -> nth_error (st_params (run env s h)) p = Some q.
Proof.
  induction h; simpl; intros s p q W Q R N; auto. destruct N as [N1 N2].
  apply (IHh (after env a s)); auto.
  - eapply wf_step; [exact W|apply after_eq].
  - apply frame_step; auto.
Qed.

Lemma wf_after o s : wf env s -> wf env (after env o s).
Proof. intros W. eapply wf_step; [exact W|apply after_eq]. Qed.
Lemma wf_run' h s : wf env s -> wf env (run env s h).
Proof. revert s. induction h; simpl; intros s W; auto. apply IHh. apply wf_after; auto. Qed.

(** ** C07 *)

Lemma unit_converter_inv a b c : unit_converter env a b = Ok c ->
  exists u w x y, a = Some u /\ b = Some w /\ env u = Some x /\ env w = Some y /\
    u_dim x = u_dim y /\
    uc_scaling c = ((pint_to x y (-1) - pint_to x y 1) / (-1 - 1))%R /\
    uc_offset c = (pint_to x y 1 - uc_scaling c * 1)%R.
Proof.
  unfold unit_converter. destruct a as [u|]; [|discriminate]. destruct b as [w|]; [|discriminate].
  destruct (env u) as [x|] eqn:Ex; [|discriminate]. destruct (env w) as [y|] eqn:Ey; [|discriminate].
  unfold dim_eqb. destruct (list_eq_dec _ _ _) as [D|]; [|discriminate].
  intros H; inversion H; subst. exists u, w, x, y. repeat split; auto.
Qed.

Lemma uconv_phys a b c : good_env env -> unit_converter env (Some a) (Some b) = Ok c ->
  forall x, same_quantity env a x b (uconvert_from c x) /\
            same_quantity env b x a (uconvert_to c x).
Proof.
  intros G H x. destruct (unit_converter_inv _ _ _ H) as (u & w & ua & ub & E1 & E2 & A & B & _ & S & O).
  inversion E1; inversion E2; subst.
  assert (u_scale ua <> 0 /\ u_scale ub <> 0)%R as [Na Nb] by (split; eauto).
  assert (Sc : uc_scaling c = (u_scale ua / u_scale ub)%R).
  { rewrite S. unfold pint_to. field. auto. }
  assert (Of : uc_offset c = ((u_offset ua - u_offset ub) / u_scale ub)%R).
  { rewrite O, Sc. unfold pint_to. field. auto. }
  split.
  - exists ua, ub. repeat split; auto. unfold uconvert_from. rewrite Sc, Of. field. auto.
  - exists ub, ua. repeat split; auto. unfold uconvert_to. rewrite Sc, Of. field. auto.
Qed.

Lemma same_quantity_trans a x b y c z : same_quantity env a x b y -> same_quantity env b y c z ->
  same_quantity env a x c z.
Proof.
  intros (p & q & A & B & E) (q' & r & B' & C & F). assert (q' = q) by congruence; subst.
  exists p, r. repeat split; auto. congruence.
Qed.
Lemma same_quantity_unique a y z : good_env env -> same_quantity env a y a z -> y = z.
Proof.
  intros G (p & q & A & B & E). assert (q = p) by congruence; subst. apply G in A.
  assert (y * u_scale p = z * u_scale p)%R by lra. eapply Rmult_eq_reg_r; eauto.
Qed.

Lemma scalar_view_get s vi v : nth_error (st_views s) vi = Some v -> v_public v = true ->
  v_kind v = KScalar -> answer env (OGetValue vi) s =
    match scalar_get s v with Ok x => Ok (VNum x) | Err e => Err e end.
Proof.
  intros V Pb K. unfold answer. cbn [step]. unfold with_view. rewrite V, Pb, K.
  destruct (scalar_get s v); auto.
Qed.

(** What a scalar write does. *)
Lemma scalar_write s vi v q x : wf env s -> nth_error (st_views s) vi = Some v ->
  v_public v = true -> v_kind v = KScalar -> nth_error (st_params s) (v_param v) = Some q ->
  succeeds env (OSetValue vi x) s ->
  p_children q = [] /\
  after env (OSetValue vi x) s =
    put s (v_param v) (p_store (p_set_written q) (PScalar (option_map (uconvert_to (v_uconv v)) x)))
      vi (v_set_writable v).
Proof.
  intros W V Pb K Q [y A]. unfold answer in A. unfold after. cbn [step] in *. unfold with_view in *.
  rewrite V, Pb, K in *.
  destruct (scalar_set s vi v x) as [s1 [z|e]] eqn:S; [|discriminate].
  pose proof (scalar_set_eff env _ _ _ _ _ _ _ W V Pb K Q S) as [C E]. split; auto.
Qed.
Lemma generic_write s vi v q x : wf env s -> nth_error (st_views s) vi = Some v ->
  v_public v = true -> v_kind v = KGeneric -> nth_error (st_params s) (v_param v) = Some q ->
  succeeds env (OSetGeneric vi x) s ->
  p_children q = [] /\
  after env (OSetGeneric vi x) s =
    put s (v_param v) (p_store (p_set_written q) (PGen x)) vi (v_set_writable v).
Proof.
  intros W V Pb K Q [y A]. unfold answer in A. unfold after. cbn [step] in *. unfold with_view in *.
  rewrite V, Pb, K in *.
  destruct (generic_set s vi v x) as [s1 [z|e]] eqn:S; [|discriminate].
  pose proof (generic_set_eff env _ _ _ _ _ _ _ W V Pb K Q S) as [C E]. split; auto.
Qed.

Lemma C07_proof s v p u x h w u2 : good_env env -> reachable env s ->
  scalar_view s v p u -> succeeds env (OSetValue v x) s ->
  let s1 := after env (OSetValue v x) s in
  no_writes env s1 h p -> scalar_view (run env s1 h) w p u2 ->
  exists y, answer env (OGetValue w) (run env s1 h) = Ok (VNum y) /\ same_num env u x u2 y /\
            (w = v -> y = x).
Proof.
  intros G R (vv & V & Pb & Vp & K & Vu) Su s1 N (ww & V2 & Pb2 & Wp & K2 & Wu).
  pose proof (reachable_wf _ _ R) as W.
  destruct (view_cell _ _ _ _ W V) as (q & Q & I). rewrite Vp in Q.
  destruct (vi_public _ _ _ _ _ I Pb) as (Rd & Ty & _).
  assert (Q' : nth_error (st_params s) (v_param vv) = Some q) by congruence.
  destruct (scalar_write _ _ _ _ _ W V Pb K Q' Su) as [C E]. fold s1 in E.
  set (q1 := p_store (p_set_written q) (PScalar (option_map (uconvert_to (v_uconv vv)) x))) in *.
  assert (W1 : wf env s1) by (apply wf_after; auto).
  assert (Q1 : nth_error (st_params s1) p = Some q1).
  { rewrite E, Vp. eapply put_param; eauto. }
  pose proof (frame_run h _ _ _ W1 Q1 Rd N) as Q2.
  rewrite (scalar_view_get _ _ _ V2 Pb2 K2). unfold scalar_get. rewrite Wp, Q2.
  unfold has_children. simpl (p_children q1). rewrite C. unfold scalar_own. simpl.
  eexists. split; [reflexivity|].
  assert (W2 : wf env (run env s1 h)) by (apply wf_run'; auto).
  destruct (view_cell _ _ _ _ W2 V2) as (q2 & Q2' & I2). rewrite Wp in Q2'.
  assert (q2 = q1) by congruence; subst q2.
  assert (U1 : unit_converter env (p_unit q) (Some u) = Ok (v_uconv vv)).
  { rewrite <- Vu. apply (vi_uconv _ _ _ _ _ I). congruence. }
  assert (U2 : unit_converter env (p_unit q) (Some u2) = Ok (v_uconv ww)).
  { rewrite <- Wu. apply (vi_uconv _ _ _ _ _ I2). congruence. }
  destruct (p_unit q) as [pu|] eqn:Pu; [|discriminate].
  split.
  - destruct x as [x|]; simpl; auto.
    eapply same_quantity_trans; [apply (uconv_phys _ _ _ G U1)|apply (uconv_phys _ _ _ G U2)].
  - intros ->. destruct x as [x|]; simpl; auto.
    pose proof (evo_run env h s1) as Ev. 
    assert (V1 : nth_error (st_views s1) v = Some (v_set_writable vv)).
    { rewrite E. eapply put_view; eauto. }
    destruct (ev_views _ _ Ev _ _ V1) as (w' & V1' & Ve). assert (w' = ww) by congruence; subst w'.
    assert (Eu : v_uconv ww = v_uconv vv) by (apply (ve_uconv _ _ Ve)). rewrite Eu.
    f_equal. symmetry. apply (same_quantity_unique u); auto.
    eapply same_quantity_trans; [apply (uconv_phys _ _ _ G U1)|apply (uconv_phys _ _ _ G U1)].
Qed.

Lemma C08_proof s v p x h w : reachable env s ->
  generic_view s v p -> succeeds env (OSetGeneric v x) s ->
  let s1 := after env (OSetGeneric v x) s in
  no_writes env s1 h p -> generic_view (run env s1 h) w p ->
  answer env (OGetGeneric w) (run env s1 h) = Ok (VGen x).
Proof.
  intros R (vv & V & Pb & Vp & K) Su s1 N (ww & V2 & Pb2 & Wp & K2).
  pose proof (reachable_wf _ _ R) as W.
  destruct (view_cell _ _ _ _ W V) as (q & Q & I). 
  destruct (vi_public _ _ _ _ _ I Pb) as (Rd & Ty & _).
  destruct (generic_write _ _ _ _ _ W V Pb K Q Su) as [C E]. fold s1 in E.
  rewrite Vp in *.
  assert (W1 : wf env s1) by (apply wf_after; auto).
  assert (Q1 : nth_error (st_params s1) p = Some (p_store (p_set_written q) (PGen x))).
  { rewrite E. eapply put_param; eauto. }
  pose proof (frame_run h _ _ _ W1 Q1 Rd N) as Q2.
  unfold answer. cbn [step]. unfold with_view. rewrite V2, Pb2, K2.
  unfold generic_get. rewrite Wp, Q2. reflexivity.
Qed.

(** ** C10 *)

Lemma op_view_target o : op_view o = write_target o.
Proof. destruct o; reflexivity. Qed.
Lemma stored_stores o s vi v : write_target o = Some vi -> nth_error (st_views s) vi = Some v ->
  stores env s o (v_param v) = v_public v && stored o v (answer env o s).
Proof.
  intros T V. unfold stores. rewrite T, V, Nat.eqb_refl, andb_true_r.
  unfold stored. destruct o; try discriminate; auto.
Qed.
Lemma private_noop o s vi v : write_target o = Some vi -> nth_error (st_views s) vi = Some v ->
  v_public v = false -> step env o s = (s, Err EInvalid).
Proof.
  intros T V Pb. destruct o; inversion T; subst; cbn [step]; unfold with_view; now rewrite V, Pb.
Qed.
Lemma missing_noop o s vi : write_target o = Some vi -> nth_error (st_views s) vi = None ->
  step env o s = (s, Err EInvalid).
Proof.
  intros T V. destruct o; inversion T; subst; cbn [step]; unfold with_view; now rewrite V.
Qed.
Lemma pwrite_version q b q' : pwrite q b q' -> p_version q' = (if b then 1 else 0) + p_version q.
Proof. intros []; simpl; auto. Qed.

Lemma locate_version s n r s' x : locate s n r = (s', x) ->
  forall i q', nth_error (st_params s') i = Some q' ->
  match nth_error (st_params s) i with
  | Some q => p_version q' = p_version q /\ p_written q' = p_written q
  | None => p_version q' = 0 /\ p_written q' = false
  end.
Proof.
  unfold locate. intros H.
  assert (Ch : forall s p n s' x, get_or_create_child_parameter s p n = (s', x) ->
    forall i q', nth_error (st_params s') i = Some q' ->
    match nth_error (st_params s) i with
    | Some q => p_version q' = p_version q /\ p_written q' = p_written q
    | None => p_version q' = 0 /\ p_written q' = false
    end).
  { clear. unfold get_or_create_child_parameter. intros s p n s' x H i q' Q.
    destruct (nth_error (st_params s) p) as [q0|] eqn:Q0; [|inversion H; subst; rewrite Q; auto].
    destruct (alookup n (p_children q0)); [inversion H; subst; rewrite Q; auto|].
    destruct (p_written q0); [inversion H; subst; rewrite Q; auto|].
    destruct (p_read q0); inversion H; subst; [rewrite Q; auto|]. simpl in Q.
    apply nth_app_inv in Q. destruct Q as [Q|[-> ->]].
    - rewrite nth_upd in Q. destruct (Nat.eqb_spec p i); subst.
      + rewrite Q0 in *. inversion Q; subst. auto.
      + rewrite Q. auto.
    - rewrite upd_length. destruct (nth_error (st_params s) (length (st_params s))) eqn:E; auto.
      apply nth_lt in E. lia. }
  assert (Sub : forall l s p s' x, subparameters s p l = (s', x) ->
    forall i q', nth_error (st_params s') i = Some q' ->
    match nth_error (st_params s) i with
    | Some q => p_version q' = p_version q /\ p_written q' = p_written q
    | None => p_version q' = 0 /\ p_written q' = false
    end).
  { clear - Ch. induction l; simpl; intros s p s' x H i q' Q; [inversion H; subst; rewrite Q; auto|].
    destruct (get_or_create_child_parameter s p a) as [s1 [c|e]] eqn:G.
    - pose proof (IHl _ _ _ _ H _ _ Q) as B. destruct (nth_error (st_params s1) i) as [q1|] eqn:Q1.
      + pose proof (Ch _ _ _ _ _ G _ _ Q1) as A. destruct (nth_error (st_params s) i); intuition congruence.
      + assert (nth_error (st_params s) i = None) as ->; auto.
        destruct (nth_error (st_params s) i) eqn:E; auto.
        destruct (ev_params _ _ (evo_child_parameter _ _ _ _ _ G) _ _ E) as (? & ? & _). congruence.
    - inversion H; subst. eapply Ch; eauto. }
  destruct (get_or_create_region s r) as [s1 [rr|e]] eqn:G;
    pose proof (region_params_same _ _ _ _ G) as P; rewrite <- P.
  2: { inversion H; subst. intros i q' ->. auto. }
  unfold get_or_create_parameter in H. destruct (hcomponents n); [inversion H; subst; intros i q' ->; auto|].
  unfold get_or_create_root_parameter in H.
  destruct (nth_error (st_regions s1) rr); [|inversion H; subst; intros i q' ->; auto].
  destruct (alookup s0 (r_params r0)).
  - eapply Sub; eauto.
  - intros i q' Q. pose proof (Sub _ _ _ _ _ H _ _ Q) as B. simpl in B.
    destruct (nth_error (st_params s1) i) as [q1|] eqn:Q1.
    + rewrite (nth_app_old _ _ _ _ Q1) in B. auto.
    + destruct (nth_error (st_params s1 ++ _) i) eqn:E; auto.
      apply nth_app_inv in E. destruct E as [E|[_ ->]]; [congruence|]. simpl in B. auto.
Qed.

Lemma attempt_read_vw q t u tp q' x : attempt_read q t u tp = (q', x) ->
  p_version q' = p_version q /\ p_written q' = p_written q.
Proof.
  unfold attempt_read. intros H. destruct (p_type q).
  - destruct (ptype_eqb p t); inversion H; auto.
  - destruct t; try (inversion H; auto; fail).
    + destruct tp; [destruct (_ <? _)%Z|]; inversion H; auto.
    + destruct tp; [destruct (_ <? _)%Z|]; inversion H; auto.
    + destruct (has_children q); inversion H; auto.
Qed.

(** Version and written flag of every cell after one call. *)
Lemma vw_step o s i q' : wf env s -> nth_error (st_params (after env o s)) i = Some q' ->
  match nth_error (st_params s) i with
  | Some q => p_version q' = (if stores env s o i then 1 else 0) + p_version q /\
      (p_written q' = true -> p_written q = true \/ writes_to s o i)
  | None => p_version q' = 0 /\ p_written q' = false /\ stores env s o i = false
  end.
Proof.
  intros W Q. pose proof (after_eq env o s) as St.
  assert (NS : write_target o = None -> stores env s o i = false).
  { unfold stores. intros ->. auto. }
  assert (Same : after env o s = s -> stores env s o i = false ->
     match nth_error (st_params s) i with
  | Some q => p_version q' = (if stores env s o i then 1 else 0) + p_version q /\
      (p_written q' = true -> p_written q = true \/ writes_to s o i)
  | None => p_version q' = 0 /\ p_written q' = false /\ stores env s o i = false
  end).
  { intros E ->. rewrite E in Q. rewrite Q. auto. }
  destruct (is_request o) as [[n r]|] eqn:Rq.
  - assert (NT : write_target o = None) by (destruct o; auto; discriminate).
    destruct (request_cases env _ _ _ Rq) as [(t & u & tp & Rt)|F].
    2: { destruct (F s) as (e & F'). apply Same; auto. unfold after. now rewrite F'. }
    rewrite (NS NT).
    assert (Fin : forall s1, (forall i q', nth_error (st_params s1) i = Some q' -> match nth_error (st_params s) i with
      | Some q => p_version q' = p_version q /\ p_written q' = p_written q
      | None => p_version q' = 0 /\ p_written q' = false end) ->
      nth_error (st_params s1) i = Some q' ->
      match nth_error (st_params s) i with
      | Some q => p_version q' = 0 + p_version q /\ (p_written q' = true -> p_written q = true \/ writes_to s o i)
      | None => p_version q' = 0 /\ p_written q' = false /\ false = false end).
    { intros s1 H H1. specialize (H _ _ H1). destruct (nth_error (st_params s) i); intuition congruence. }
    destruct (request_inv env _ _ _ _ _ _ _ _ _ W Rt St) as [(s1 & e & L & E1 & _)|(s1 & p1 & L & K)].
    { rewrite E1 in Q. eapply Fin; eauto. apply (locate_version _ _ _ _ _ L). }
    assert (X : exists s2 y, on_param s1 p1 (fun q0 => attempt_read q0 t u tp) = (s2, y) /\
       st_params (after env o s) = st_params s2).
    { destruct K as [(e & O & _)|(s2 & O & E1 & _)]; eauto. }
    destruct X as (s2 & y & O & E). rewrite E in Q. unfold on_param in O.
    pose proof (locate_version _ _ _ _ _ L) as LV.
    destruct (nth_error (st_params s1) p1) as [q1|] eqn:Q1.
    + destruct (attempt_read q1 t u tp) as [q1' y'] eqn:Ar. inversion O; subst. simpl in Q.
      apply attempt_read_vw in Ar. eapply (Fin (set_param s1 p1 q1')); [|simpl; eauto].
      intros j qj Hj. simpl in Hj. rewrite nth_upd in Hj. destruct (Nat.eqb_spec p1 j); subst; [|apply LV; auto].
      rewrite Q1 in Hj. inversion Hj; subst. pose proof (LV _ _ Q1).
      destruct (nth_error (st_params s) j); intuition congruence.
    + inversion O; subst. eapply Fin; eauto.
  - destruct (write_target o) as [vi|] eqn:T.
    + destruct (nth_error (st_views s) vi) as [v|] eqn:V.
      2: { apply Same; [unfold after; erewrite missing_noop; eauto|]. unfold stores. now rewrite T, V. }
      destruct (v_public v) eqn:Pb.
      2: { apply Same; [unfold after; erewrite private_noop; eauto|]. unfold stores. now rewrite T, V, Pb. }
      assert (Ov : op_view o = Some vi) by (rewrite op_view_target; auto).
      pose proof (write_step env _ _ _ _ _ _ W Ov V St) as WS.
      destruct (Nat.eq_dec i (v_param v)) as [->|Ne].
      * destruct (view_cell _ _ _ _ W V) as (q & Q0 & _). rewrite Q0.
        destruct (ws_param _ _ _ _ _ WS _ Q0) as (q1 & Q1 & Pw).
        assert (q1 = q') by congruence; subst q1.
        rewrite (stored_stores _ _ _ _ T V), Pb. simpl. split.
        -- rewrite (pwrite_version _ _ _ Pw). auto.
        -- intros _. right. exists vi. split; auto. exists v. auto.
      * rewrite (ws_params _ _ _ _ _ WS _ Ne) in Q. rewrite Q.
        assert (stores env s o i = false) as ->; [|auto].
        unfold stores. rewrite T, V. destruct (Nat.eqb_spec (v_param v) i); [congruence|].
        now rewrite andb_false_r.
    + rewrite <- op_view_target in T. destruct (other_step env _ _ _ _ Rq T St) as (_ & E & _).
      rewrite E in Q. rewrite Q. rewrite NS by (rewrite op_view_target in T; auto). auto.
Qed.

Lemma count_app h1 : forall s h2 p,
  count_stores env s (h1 ++ h2) p = count_stores env s h1 p + count_stores env (run env s h1) h2 p.
Proof.
  induction h1; simpl; intros; auto. rewrite IHh1.
  rewrite <- Nat.add_assoc. reflexivity.
Qed.

Lemma count_none h : forall s p, nth_error (st_params s) p = None -> wf env s ->
  nth_error (st_params (run env s h)) p = None -> count_stores env s h p = 0.
Proof.
  induction h; simpl; intros s p N W F; auto.
  assert (N' : nth_error (st_params (after env a s)) p = None).
  { destruct (nth_error (st_params (after env a s)) p) eqn:E; auto.
    destruct (ev_params _ _ (evo_run env h (after env a s)) _ _ E) as (q' & Q' & _).
    unfold run in Q'. unfold run in F. unfold after in Q'. congruence. }
  rewrite (IHh (after env a s)); auto; [|apply wf_after; auto].
  assert (stores env s a p = false) as ->; auto.
  unfold stores. destruct (write_target a) eqn:T; auto. destruct (nth_error (st_views s) n) eqn:V; auto.
  destruct (Nat.eqb_spec (v_param v) p); [|now rewrite andb_false_r].
  destruct (view_cell _ _ _ _ W V) as (q & Q & _). congruence.
Qed.

Lemma C10_proof root h : forall p q,
  nth_error (st_params (run env (init_state root) h)) p = Some q ->
  p_version q = count_stores env (init_state root) h p.
Proof.
  induction h as [|o h] using rev_ind; intros p q Q.
  { simpl in Q. destruct p; discriminate. }
  rewrite count_app. set (s := run env (init_state root) h) in *.
  assert (W : wf env s) by apply wf_reachable.
  rewrite run_app in Q. fold s in Q. change (run env s [o]) with (after env o s) in Q.
  pose proof (vw_step o s p q W Q) as X. simpl.
  destruct (nth_error (st_params s) p) as [q0|] eqn:Q0.
  - rewrite <- (IHh _ _ Q0). destruct X as [-> _]. lia.
  - destruct X as (-> & _ & ->).
    rewrite count_none; auto; [destruct p; auto|apply wf_init].
Qed.

End P.
