(** Proofs of C04, C09, C11, C12, C13. *)
From Coq Require Import String List Arith Lia Bool ZArith Reals Lra.
From Coquelicot Require Import Coquelicot.
From Verif Require Import Base ListFacts Units TimeModel Core CoreEvo CoreTree CoreNames CoreInv
  CoreStep Spec_Core CoreReq CoreP2 CoreLeaves.
Import ListNotations.

Section P.
Variable env : uenv.

(** ** C04 *)

Lemma readonly_set o s vi p q x a g : wf env s -> views s vi p ->
  nth_error (st_params s) p = Some q -> p_children q <> [] ->
  o = OSetValue vi x \/ o = OSetValues vi a \/ o = OSetGeneric vi g ->
  step env o s = (s, Err EParameterReadonly) \/ step env o s = (s, Err EInvalid).
Proof.
  intros W (v & V & Pb & Vp) Q C Ho. rewrite <- Vp in Q.
  destruct Ho as [-> | [-> | ->]]; cbn [step]; unfold with_view; rewrite V, Pb; destruct (v_kind v) eqn:K; auto; left.
  - destruct (scalar_set s vi v x) as [s1 [z|e]] eqn:S;
      pose proof (scalar_set_eff env _ _ _ _ _ _ _ W V Pb K Q S) as X; simpl in X.
    + tauto.
    + destruct X as (_ & -> & ->). reflexivity.
  - destruct (ts_set s vi v a) as [s1 [z|e]] eqn:S;
      pose proof (ts_set_eff env _ _ _ _ _ _ _ W V Pb K Q S) as X; simpl in X.
    + tauto.
    + destruct X as [(_ & -> & ->)|(X & _)]; [reflexivity|tauto].
  - destruct (generic_set s vi v g) as [s1 [z|e]] eqn:S;
      pose proof (generic_set_eff env _ _ _ _ _ _ _ W V Pb K Q S) as X; simpl in X.
    + tauto.
    + destruct X as (_ & -> & ->). reflexivity.
Qed.

Lemma C04_setters s vi p q : reachable env s -> views s vi p ->
  nth_error (st_params s) p = Some q -> p_children q <> [] ->
  (forall u x, scalar_view s vi p u -> step env (OSetValue vi x) s = (s, Err EParameterReadonly)) /\
  (forall a, ts_view s vi p -> step env (OSetValues vi a) s = (s, Err EParameterReadonly)) /\
  (forall g, generic_view s vi p -> step env (OSetGeneric vi g) s = (s, Err EParameterReadonly)).
Proof.
  intros R Vw Q C. pose proof (reachable_wf _ _ R) as W.
  split; [|split].
  - intros u x (v & V & Pb & Vp & K & _). cbn [step]; unfold with_view; rewrite V, Pb, K.
    rewrite <- Vp in Q. destruct (scalar_set s vi v x) as [s1 [z|e]] eqn:S;
      pose proof (scalar_set_eff env _ _ _ _ _ _ _ W V Pb K Q S) as X; simpl in X; [tauto|].
    destruct X as (_ & -> & ->). reflexivity.
  - intros a (v & V & Pb & Vp & K). cbn [step]; unfold with_view; rewrite V, Pb, K.
    rewrite <- Vp in Q. destruct (ts_set s vi v a) as [s1 [z|e]] eqn:S;
      pose proof (ts_set_eff env _ _ _ _ _ _ _ W V Pb K Q S) as X; simpl in X; [tauto|].
    destruct X as [(_ & -> & ->)|(X & _)]; [reflexivity|tauto].
  - intros g (v & V & Pb & Vp & K). cbn [step]; unfold with_view; rewrite V, Pb, K.
    rewrite <- Vp in Q. destruct (generic_set s vi v g) as [s1 [z|e]] eqn:S;
      pose proof (generic_set_eff env _ _ _ _ _ _ _ W V Pb K Q S) as X; simpl in X; [tauto|].
    destruct X as (_ & -> & ->). reflexivity.
Qed.

(** Operations on a view that bypass the write check. *)
Definition sneaky (o : op) : bool :=
  match o with OSetItem _ _ _ | OHandleSet _ _ _ | OHandleIAdd _ _ | OUnlock _ => true | _ => false end.

Lemma C04_frame_step o s p q : wf env s -> nth_error (st_params s) p = Some q ->
  p_children q <> [] -> p_read q = true -> (sneaky o = true -> ~ writes_to s o p) ->
  nth_error (st_params (after env o s)) p = Some q.
Proof.
  intros W Q C R N. destruct (sneaky o) eqn:Sn; [apply frame_step; auto|].
  assert (D : writes_to s o p \/ ~ writes_to s o p).
  { unfold writes_to. destruct (write_target o) as [vi|]; [|right; intros (x & ? & _); discriminate].
    unfold views. destruct (nth_error (st_views s) vi) as [v|] eqn:V.
    - destruct (v_public v) eqn:Pb; [destruct (Nat.eq_dec (v_param v) p)|].
      + left. exists vi. split; auto. exists v. auto.
      + right. intros (x & E & w & A & B & D). inversion E; subst. congruence.
      + right. intros (x & E & w & A & B & D). inversion E; subst. congruence.
    - right. intros (x & E & w & A & B & D). inversion E; subst. congruence. }
  destruct D as [(vi & T & Vw)|D]; [|apply frame_step; auto].
  destruct o; inversion T; subst; try discriminate; unfold after.
  - destruct (readonly_set (OSetValue vi x) s vi p q x (mkArr false []) GNone W Vw Q C) as [-> | ->]; auto.
  - destruct (readonly_set (OSetGeneric vi g) s vi p q None (mkArr false []) g W Vw Q C) as [-> | ->]; auto.
  - destruct (readonly_set (OSetValues vi a) s vi p q None a GNone W Vw Q C) as [-> | ->]; auto.
Qed.

Fixpoint no_sneaky (s : state) (h : list op) (p : nat) : Prop :=
  match h with
  | [] => True
  | o :: h' => (sneaky o = true -> ~ writes_to s o p) /\ no_sneaky (after env o s) h' p
  end.

Lemma C04_frame h : forall s vi p q, reachable env s -> views s vi p ->
  nth_error (st_params s) p = Some q -> p_children q <> [] -> no_sneaky s h p ->
  nth_error (st_params (run env s h)) p = Some q.
Proof.
  induction h; simpl; intros s vi p q R Vw Q C N; auto. destruct N as [N1 N2].
  pose proof (reachable_wf _ _ R) as W. destruct Vw as (v & V & Pb & Vp).
  destruct (view_cell _ _ _ _ W V) as (q0 & Q0 & I). rewrite Vp in Q0.
  assert (q0 = q) by congruence; subst q0.
  destruct (vi_public _ _ _ _ _ I Pb) as (Rd & _).
  pose proof (ev_views _ _ (evo_step env _ _ _ _ (after_eq env a s)) _ _ V) as (v' & V' & Ve).
  apply (IHh (after env a s) vi); auto.
  - apply reachable_after; auto.
  - exists v'. rewrite (ve_public _ _ Ve), (ve_param _ _ Ve). auto.
  - apply C04_frame_step; auto.
Qed.

(** ** C09 *)

Lemma with_view_wrong s vi k f v : nth_error (st_views s) vi = Some v -> v_kind v <> k ->
  exists e, with_view s vi k f = (s, Err e).
Proof.
  intros V K. unfold with_view. rewrite V. destruct (v_public v); [|eauto].
  destruct (v_kind v), k; try congruence; eauto.
Qed.

(** A failing write to a scalar or generic parameter changes nothing. *)
Lemma fail_write s o p q e : wf env s -> nth_error (st_params s) p = Some q ->
  p_type q = Some SCALAR \/ p_type q = Some GENERIC -> writes_to s o p -> answer env o s = Err e ->
  after env o s = s.
Proof.
  intros W Q T (vi & Tg & v & V & Pb & Vp) A.
  destruct (view_cell _ _ _ _ W V) as (q0 & Q0 & I). rewrite Vp in Q0.
  assert (q0 = q) by congruence; subst q0.
  destruct (vi_public _ _ _ _ _ I Pb) as (_ & Ty & _).
  assert (Kt : v_kind v <> KTimeseries).
  { intros K. pose proof (vi_ktype _ _ _ _ _ I K) as Ts. unfold vtype in Ty. rewrite K in Ty.
    destruct Ts as [E|E]; rewrite E in Ty; destruct T; congruence. }
  rewrite <- Vp in Q.
  unfold answer, after in *. destruct o; inversion Tg; subst; cbn [step] in *;
    try (destruct (with_view_wrong _ _ _ (fun v0 => lift (fun _ => VUnit) (ts_set s vi v0 a)) _ V Kt) as (e' & ->); reflexivity);
    try (match goal with |- fst (with_view s vi KTimeseries ?f) = s =>
           destruct (with_view_wrong s vi KTimeseries f v V Kt) as (e' & ->); reflexivity end).
  - unfold with_view in *. rewrite V, Pb in *. destruct (v_kind v) eqn:K; auto.
    destruct (scalar_set s vi v x) as [s1 [z|e1]] eqn:S; [discriminate|].
    pose proof (scalar_set_eff env _ _ _ _ _ _ _ W V Pb K Q S) as (_ & _ & ->). auto.
  - unfold with_view in *. rewrite V, Pb in *. destruct (v_kind v) eqn:K; auto.
    destruct (generic_set s vi v g) as [s1 [z|e1]] eqn:S; [discriminate|].
    pose proof (generic_set_eff env _ _ _ _ _ _ _ W V Pb K Q S) as (_ & _ & ->). auto.
Qed.

(** A successful write marks the parameter as written (or it has sub-parameters). *)
Lemma success_written s o p q : wf env s -> writes_to s o p -> succeeds env o s ->
  nth_error (st_params (after env o s)) p = Some q -> p_written q = true \/ p_children q <> [].
Proof.
  intros W (vi & Tg & v & V & Pb & Vp) [z A] Q.
  destruct (view_cell _ _ _ _ W V) as (q0 & Q0 & I).
  pose proof (after_eq env o s) as St.
  assert (W' : wf env (after env o s)) by (eapply wf_step; [exact W|exact St]).
  assert (D : forall v', nth_error (st_views (after env o s)) vi = Some v' -> v_data v' <> None ->
    v_param v' = p -> p_written q = true \/ p_children q <> []).
  { intros v' V' Dt Vp'. destruct (view_cell _ _ _ _ W' V') as (q1 & Q1 & I1). rewrite Vp' in Q1.
    assert (q1 = q) by congruence; subst. destruct (vi_data _ _ _ _ _ I1 Dt); auto. }
  assert (D' : forall s1 v1, evo s1 (after env o s) -> nth_error (st_views s1) vi = Some v1 -> v_data v1 <> None ->
    v_param v1 = p -> p_written q = true \/ p_children q <> []).
  { intros s1 v1 E V1 Dt P1. destruct (ev_views _ _ E _ _ V1) as (v' & V' & Ve).
    eapply D; [exact V'|apply (ve_data _ _ Ve); auto|]. rewrite (ve_param _ _ Ve); auto. }
  destruct o; inversion Tg; subst; rewrite A in St; cbn [step] in St; apply with_view_inv in St;
    destruct St as [[_ St]|(w & V0 & _ & K & St)]; try discriminate;
    assert (w = v) by congruence; subst w; clear V0;
    apply lift_inv2 in St; destruct St as (y & St & X); destruct y as [y|e]; try discriminate.
  - apply (scalar_set_eff env) with (q := q0) in St; auto. destruct St as [C E]. rewrite E in Q.
    rewrite (put_param _ _ _ _ _ _ Q0) in Q. inversion Q; subst. auto.
  - apply (generic_set_eff env) with (q := q0) in St; auto. destruct St as [C E]. rewrite E in Q.
    rewrite (put_param _ _ _ _ _ _ Q0) in Q. inversion Q; subst. auto.
  - apply (ts_set_eff env) with (q := q0) in St; auto. simpl in St.
    destruct St as (_ & _ & [[_ E]|(_ & xs & _ & E)]); rewrite E in Q;
      rewrite (put_param _ _ _ _ _ _ Q0) in Q; inversion Q; subst; auto.
  - unfold ts_setitem in St. destruct (ts_get s vi) as [s1 [ys|e]] eqn:G; [|discriminate].
    destruct (ts_get_cached _ _ _ _ _ _ V Q0 G) as (v1 & V1 & Vr & _ & d & Dd & _).
    eapply D'; [eapply evo_handle_set; eauto|exact V1|congruence|apply Vr].
  - assert (exists d, v_data v = Some d) as [d Dd].
    { unfold handle_set in St. rewrite V in St. destruct (v_data v); [eauto|discriminate]. }
    eapply D'; [eapply evo_handle_set; eauto|exact V|congruence|auto].
  - assert (exists d, v_data v = Some d) as [d Dd].
    { unfold handle_iadd in St. rewrite V in St. destruct (v_data v); [eauto|discriminate]. }
    eapply D'; [eapply evo_handle_iadd; eauto|exact V|congruence|auto].
  - assert (exists d, v_data v = Some d) as [d Dd].
    { unfold ts_unlock, ts_write in St. rewrite (set_view_nth _ _ _ _ V) in St. simpl in St.
      destruct (v_data v); [eauto|discriminate]. }
    eapply D'; [eapply evo_ts_unlock; eauto|exact V|congruence|auto].
Qed.

Lemma C09_success root h p q :
  nth_error (st_params (run env (init_state root) h)) p = Some q -> p_children q = [] ->
  (exists h1 o h2, h = h1 ++ o :: h2 /\ writes_to (run env (init_state root) h1) o p /\
     succeeds env o (run env (init_state root) h1)) -> p_written q = true.
Proof.
  intros Q C (h1 & o & h2 & -> & Wt & Su).
  set (s := run env (init_state root) h1) in *.
  assert (W : wf env s) by apply wf_reachable.
  rewrite run_app in Q. fold s in Q. change (run env s (o :: h2)) with (run env (after env o s) h2) in Q.
  assert (exists q1, nth_error (st_params (after env o s)) p = Some q1) as [q1 Q1].
  { destruct Wt as (vi & _ & v & V & _ & Vp). destruct (view_cell _ _ _ _ W V) as (q0 & Q0 & _).
    rewrite Vp in Q0. destruct (ev_params _ _ (evo_step env _ _ _ _ (after_eq env o s)) _ _ Q0) as (q1 & Q1 & _). eauto. }
  destruct (ev_params _ _ (evo_run env h2 (after env o s)) _ _ Q1) as (q' & Q' & Pe).
  assert (q' = q) by congruence; subst q'.
  destruct (success_written _ _ _ _ W Wt Su Q1) as [E|E]; [apply Pe; auto|].
  destruct (pe_children _ _ Pe) as [l L]. rewrite C in L. symmetry in L. apply app_eq_nil in L. tauto.
Qed.

Lemma C09_scalar root h : forall p q,
  nth_error (st_params (run env (init_state root) h)) p = Some q ->
  p_type q = Some SCALAR \/ p_type q = Some GENERIC ->
  p_written q = true ->
  exists h1 o h2, h = h1 ++ o :: h2 /\ writes_to (run env (init_state root) h1) o p /\
     succeeds env o (run env (init_state root) h1).
Proof.
  induction h as [|o h] using rev_ind; intros p q Q T Wr.
  { simpl in Q. destruct p; discriminate. }
  set (s := run env (init_state root) h) in *.
  assert (W : wf env s) by apply wf_reachable.
  rewrite run_app in Q. fold s in Q. change (run env s [o]) with (after env o s) in Q.
  pose proof (vw_step env o s p q W Q) as X.
  destruct (nth_error (st_params s) p) as [q0|] eqn:Q0; [|destruct X as (_ & X & _); congruence].
  assert (Old : p_written q0 = true -> exists h1 o' h2, h ++ [o] = h1 ++ o' :: h2 /\
    writes_to (run env (init_state root) h1) o' p /\ succeeds env o' (run env (init_state root) h1)).
  { intros W0. destruct (IHh _ _ Q0) as (h1 & o' & h2 & E & B); auto.
    - destruct (ev_params _ _ (evo_step env _ _ _ _ (after_eq env o s)) _ _ Q0) as (q1 & Q1 & Pe).
      assert (q1 = q) by congruence; subst q1.
      assert (Ty : p_type q0 <> None).
      { intros N. destruct (pi_untyped _ (wf_params _ _ W _ _ Q0) N) as (_ & _ & _ & _ & B & _). congruence. }
      destruct (pe_type _ _ Pe Ty) as (E & _). rewrite <- E. auto.
    - exists h1, o', (h2 ++ [o]). rewrite E, <- app_assoc. auto. }
  destruct X as [_ X]. destruct (X Wr) as [W0|Wt]; [auto|].
  destruct (answer env o s) as [z|e] eqn:A.
  - exists h, o, []. split; auto. split; auto. exists z. auto.
  - assert (Ty : p_type q0 <> None).
    { destruct Wt as (vi & _ & v & V & _ & Vp). destruct (view_cell _ _ _ _ W V) as (q1 & Q1 & I).
      rewrite Vp in Q1. assert (q1 = q0) by congruence; subst. apply (vi_typed _ _ _ _ _ I). }
    destruct (ev_params _ _ (evo_step env _ _ _ _ (after_eq env o s)) _ _ Q0) as (q1 & Q1 & Pe).
    assert (q1 = q) by congruence; subst q1. destruct (pe_type _ _ Pe Ty) as (E & _).
    rewrite E in T. rewrite (fail_write _ _ _ _ _ W Q0 T Wt A) in Q.
    assert (q0 = q) by congruence; subst. auto.
Qed.

Lemma scalar_readonly_children root h p q :
  nth_error (st_params (run env (init_state root) h)) p = Some q -> p_written q = true -> p_children q = [].
Proof. intros. eapply wt_written; eauto. apply (wf_tree env). apply wf_reachable. Qed.

(** A successful write finds a parameter without sub-parameters if it is scalar or generic. *)
Lemma C09_scalar_conv root h p q :
  nth_error (st_params (run env (init_state root) h)) p = Some q ->
  p_type q = Some SCALAR \/ p_type q = Some GENERIC ->
  (exists h1 o h2, h = h1 ++ o :: h2 /\ writes_to (run env (init_state root) h1) o p /\
     succeeds env o (run env (init_state root) h1)) -> p_written q = true.
Proof.
  intros Q T (h1 & o & h2 & -> & Wt & Su).
  set (s := run env (init_state root) h1) in *.
  assert (W : wf env s) by apply wf_reachable.
  rewrite run_app in Q. fold s in Q. change (run env s (o :: h2)) with (run env (after env o s) h2) in Q.
  pose proof Wt as (vi & Tg & v & V & Pb & Vp). destruct (view_cell _ _ _ _ W V) as (q0 & Q0 & I).
  destruct (vi_public _ _ _ _ _ I Pb) as (_ & Ty & _).
  assert (Ev : evo s (run env (after env o s) h2)).
  { eapply evo_trans; [eapply evo_step, after_eq|apply evo_run]. }
  pose proof Q0 as Q0'. rewrite Vp in Q0'.
  destruct (ev_params _ _ Ev _ _ Q0') as (q' & Q' & Pe). assert (q' = q) by congruence; subst q'.
  destruct (pe_type _ _ Pe) as (E & _); [congruence|]. rewrite E, Ty in T.
  assert (exists q1, nth_error (st_params (after env o s)) p = Some q1 /\ p_written q1 = true) as (q1 & Q1 & W1).
  { assert (Kt : v_kind v <> KTimeseries).
    { intros K. pose proof (vi_ktype _ _ _ _ _ I K) as Ts. unfold vtype in T. rewrite K in T.
      destruct Ts as [X|X]; rewrite X in T; destruct T; congruence. }
    destruct o; inversion Tg; subst;
    try (destruct Su as [z Su]; unfold answer in Su; cbn [step] in Su;
         match type of Su with snd (with_view s vi KTimeseries ?f) = _ =>
           destruct (with_view_wrong s vi KTimeseries f v V Kt) as (e' & X); rewrite X in Su; discriminate end).
    - destruct (v_kind v) eqn:K; try congruence.
      + destruct (scalar_write env _ _ _ _ _ W V Pb K Q0 Su) as [_ ->]. eexists. split; [eapply put_param; eauto|auto].
      + destruct Su as [z Su]. unfold answer in Su. cbn [step] in Su. unfold with_view in Su. rewrite V, Pb, K in Su. discriminate.
    - destruct (v_kind v) eqn:K; try congruence.
      + destruct Su as [z Su]. unfold answer in Su. cbn [step] in Su. unfold with_view in Su. rewrite V, Pb, K in Su. discriminate.
      + destruct (generic_write env _ _ _ _ _ W V Pb K Q0 Su) as [_ ->]. eexists. split; [eapply put_param; eauto|auto]. }
  destruct (ev_params _ _ (evo_run env h2 (after env o s)) _ _ Q1) as (q2 & Q2 & Pe2).
  assert (q2 = q) by congruence; subst q2. apply Pe2; auto.
Qed.

Lemma convert_R_err ty ex l a b e : convert_R ty ex l a b = Err e -> e = EInsufficientData \/ e = ENotImplemented.
Proof.
  unfold convert_R. destruct (length l <? 3); [intros H; inversion H; auto|].
  unfold convert_unsafe, continuous_representation. destruct ty; try (intros H; inversion H; auto; fail).
  - destruct (_ =? _); cbn [rbind]; [|intros H; inversion H; auto].
    set (f := {| ip_knots := _ |}).
    assert (Y : forall t r, interval_averages f t = Err r -> r = EValueError).
    { clearbody f. clear. induction t as [|x [|y t]]; try discriminate. intros r.
      change (interval_averages f (x :: y :: t)) with (if ip_ok f x y then match interval_averages f (y :: t) with Ok r => Ok (RInt (ip_val f) x y / (y - x) :: r)%R | Err e => Err e end else Err EValueError).
      destruct (ip_ok f x y); [|congruence]. destruct (interval_averages f (y :: t)) eqn:E; [discriminate|].
      intros H. assert (r = e) by congruence. subst. apply IHt. auto. }
    destruct (interval_averages f b) eqn:E; [discriminate|]. rewrite (Y _ _ E). intros H; inversion H; auto.
  - destruct (_ =? _); cbn [rbind]; [|intros H; inversion H; auto].
    set (f := {| ip_knots := _ |}).
    assert (Y : forall t r, rmap (ip_eval f) t = Err r -> r = EValueError).
    { clearbody f. clear. induction t as [|x t]; cbn [rmap]; try discriminate. intros r.
      unfold ip_eval at 1. destruct (ip_ok f x x); [|congruence].
      destruct (rmap (ip_eval f) t) eqn:E; [discriminate|].
      intros H. assert (r = e) by congruence. subst. apply IHt. auto. }
    destruct (rmap (ip_eval f) b) eqn:E; [discriminate|]. rewrite (Y _ _ E). intros H; inversion H; auto.
Qed.
Lemma nconvert_err ty ex a b l e : nconvert (fun xs => convert_R ty ex xs a b) l = Err e ->
  e = EInsufficientData \/ e = ENotImplemented.
Proof.
  unfold nconvert. destruct (all_some l).
  - destruct (convert_R ty ex l0 a b) eqn:E; [discriminate|]. intros H; inversion H; subst. eapply convert_R_err; eauto.
  - destruct (convert_R _ _ _ _ _) eqn:E; [discriminate|]. intros H; inversion H; subst. eapply convert_R_err; eauto.
Qed.

Lemma C09_read s vi p q : reachable env s -> nth_error (st_params s) p = Some q -> p_children q = [] ->
  (forall u, scalar_view s vi p u ->
     (p_written q = false -> answer env (OGetValue vi) s = Err EParameterEmpty) /\
     (p_written q = true -> exists x, answer env (OGetValue vi) s = Ok (VNum x))) /\
  (generic_view s vi p ->
     (p_written q = false -> answer env (OGetGeneric vi) s = Err EParameterEmpty) /\
     (p_written q = true -> exists x, answer env (OGetGeneric vi) s = Ok (VGen x))) /\
  (ts_view s vi p ->
     (p_written q = false -> answer env (OGetValues vi) s = Err EParameterEmpty) /\
     (p_written q = true -> answer env (OGetValues vi) s <> Err EParameterEmpty)).
Proof.
  intros Re Q C. pose proof (reachable_wf _ _ Re) as W. split; [|split].
  - intros u (v & V & Pb & Vp & K & _). rewrite (scalar_view_get env _ _ _ V Pb K).
    unfold scalar_get. rewrite Vp, Q. unfold has_children. rewrite C. unfold scalar_own. split.
    + intros ->. auto.
    + intros ->. destruct (view_cell _ _ _ _ W V) as (q0 & Q0 & I). rewrite Vp in Q0.
      assert (q0 = q) by congruence; subst. destruct (vi_public _ _ _ _ _ I Pb) as (_ & Ty & _).
      unfold vtype in Ty. rewrite K in Ty.
      destruct (pi_scalar _ (wf_params _ _ W _ _ Q) Ty) as [x ->]. eauto.
  - intros (v & V & Pb & Vp & K). unfold answer. cbn [step]. unfold with_view. rewrite V, Pb, K.
    unfold generic_get. rewrite Vp, Q. split.
    + intros ->. auto.
    + intros ->. destruct (view_cell _ _ _ _ W V) as (q0 & Q0 & I). rewrite Vp in Q0.
      assert (q0 = q) by congruence; subst. destruct (vi_public _ _ _ _ _ I Pb) as (_ & Ty & _).
      unfold vtype in Ty. rewrite K in Ty.
      destruct (pi_gen _ (wf_params _ _ W _ _ Q) Ty) as [X|[x ->]]; [congruence|]. simpl; eauto.
  - intros (v & V & Pb & Vp & K). unfold answer. cbn [step]. unfold with_view. rewrite V, Pb, K.
    destruct (view_cell _ _ _ _ W V) as (q0 & Q0 & I). rewrite <- Vp in Q.
    assert (q0 = q) by congruence; subst q0.
    rewrite (ts_get_leaf _ _ _ _ V Q C). split.
    + intros Wr. destruct (v_data v) eqn:D.
      * destruct (vi_data _ _ _ _ _ I) as (_ & [X|X]); [congruence| |]; congruence.
      * unfold ts_own. rewrite Wr. auto.
    + intros Wr.
      assert (To : ts_own v q <> Err EParameterEmpty).
      { unfold ts_own. rewrite Wr.
        destruct (p_data q) as [[| |]|]; try discriminate. unfold from_param. intros E.
        apply nconvert_err in E. destruct E; discriminate. }
      destruct (v_data v) as [d|].
      * destruct (v_version v); [|discriminate]. destruct (n =? p_version q); [discriminate|].
        destruct (ts_own v q); [destruct (a_int d); discriminate|]. simpl. congruence.
      * destruct (ts_own v q); simpl; congruence.
Qed.
End P.

Section P'.
Variable env : uenv.
Lemma C09_iff root h p q :
  nth_error (st_params (run env (init_state root) h)) p = Some q ->
  p_type q = Some SCALAR \/ p_type q = Some GENERIC ->
  param_empty q = false <->
  exists h1 o h2, h = h1 ++ o :: h2 /\ writes_to (run env (init_state root) h1) o p /\
    succeeds env o (run env (init_state root) h1).
Proof.
  intros Q T. unfold param_empty. rewrite negb_false_iff. split.
  - eapply C09_scalar; eauto.
  - eapply C09_scalar_conv; eauto.
Qed.
Lemma C09_success_empty root h p q :
  nth_error (st_params (run env (init_state root) h)) p = Some q -> p_children q = [] ->
  (exists h1 o h2, h = h1 ++ o :: h2 /\ writes_to (run env (init_state root) h1) o p /\
     succeeds env o (run env (init_state root) h1)) -> param_empty q = false.
Proof. intros Q C H. unfold param_empty. rewrite negb_false_iff. eapply C09_success; eauto. Qed.
Lemma C09_read_iff s vi p q :
  reachable env s -> nth_error (st_params s) p = Some q -> p_children q = [] ->
  (forall u, scalar_view s vi p u ->
     (answer env (OGetValue vi) s = Err EParameterEmpty <-> param_empty q = true) /\
     (param_empty q = false -> exists x, answer env (OGetValue vi) s = Ok (VNum x))) /\
  (generic_view s vi p ->
     (answer env (OGetGeneric vi) s = Err EParameterEmpty <-> param_empty q = true) /\
     (param_empty q = false -> exists x, answer env (OGetGeneric vi) s = Ok (VGen x))) /\
  (ts_view s vi p -> (answer env (OGetValues vi) s = Err EParameterEmpty <-> param_empty q = true)).
Proof.
  intros Re Q C. destruct (C09_read env s vi p q Re Q C) as (A & B & D).
  unfold param_empty. destruct (p_written q) eqn:Wr; simpl; split; [|split| |split]; intros.
  - destruct (A _ H) as [_ X]. destruct (X eq_refl) as [x E]. rewrite E. split; [split; discriminate|eauto].
  - destruct (B H) as [_ X]. destruct (X eq_refl) as [x E]. rewrite E. split; [split; discriminate|eauto].
  - destruct (D H) as [_ X]. specialize (X eq_refl). split; [tauto|discriminate].
  - destruct (A _ H) as [X _]. rewrite (X eq_refl). split; [tauto|discriminate].
  - destruct (B H) as [X _]. rewrite (X eq_refl). split; [tauto|discriminate].
  - destruct (D H) as [X _]. rewrite (X eq_refl). tauto.
Qed.
End P'.
