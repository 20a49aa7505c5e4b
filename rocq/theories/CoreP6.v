(** Proofs of C16, C17 and C18. *)
From Coq Require Import String List Arith Lia Bool ZArith Reals Lra.
From Verif Require Import Base ListFacts Units TimeModel Core CoreEvo CoreTree CoreNames CoreInv
  CoreStep Spec_Core CoreReq CoreP1 CoreP2 CoreLeaves CoreP3 CoreP4 CoreView CoreErase Spec_View CoreP5.
Import ListNotations.

Section P.
Variable env : uenv.
Notation wf := (wf env).

(** States that differ in [_writable] flags only. *)
Lemma E_answers h : forall s s', wf s -> wf s' -> E s = E s' -> answers env s h = answers env s' h.
Proof.
  induction h as [|o h IH]; intros s s' W W' H; auto. simpl.
  destruct (E_same env s s' o W W' H) as [A B]. rewrite A. f_equal.
  apply IH; auto; apply wf_after; auto.
Qed.
Lemma E_put s p q vi v : E (put s p q vi v) = put (E s) p q vi (ev v).
Proof. unfold E, put. simpl. now rewrite map_upd. Qed.
Lemma E_put_eq s p q vi v v' : ev v = ev v' -> E (put s p q vi v) = E (put s p q vi v').
Proof. intros H. rewrite !E_put, H. auto. Qed.

(** ** C16 *)
Lemma answer_set s vi v a : nth_error (st_views s) vi = Some v -> v_public v = true -> v_kind v = KTimeseries ->
  step env (OSetValues vi a) s = lift (fun _ => VUnit) (ts_set s vi v a).
Proof. intros V Pb K. cbn [step]. unfold with_view. now rewrite V, Pb, K. Qed.

Lemma C16_raises s vi v q a : reachable env s -> nth_error (st_views s) vi = Some v -> v_public v = true ->
  v_kind v = KTimeseries -> nth_error (st_params s) (v_param v) = Some q -> p_children q = [] ->
  (answer env (OSetValues vi a) s = Err ETimeseriesMismatch <-> Z.of_nat (length (a_val a)) <> view_length v).
Proof.
  intros R V Pb K Q C. pose proof (reachable_wf _ _ R) as W. destruct (view_cell _ _ _ _ W V) as (q0 & Q0 & I).
  change (view_length v) with (target_length (v_tconv v)).
  unfold answer. rewrite (answer_set _ _ _ _ V Pb K). destruct (ts_set s vi v a) as [s1 x] eqn:S.
  pose proof (ts_set_eff env _ _ _ _ _ _ _ W V Pb K Q S) as X. destruct x as [z|e]; simpl in *.
  - split; [discriminate|]. intros N. tauto.
  - destruct X as [(X & _)|(_ & [(L & -> & _)|(L & X)])]; [congruence|tauto|].
    split; [|congruence]. intros H. inversion H; subst.
    destruct X as [(d & _ & _ & _ & X & _)|(_ & X & _)]; [discriminate|].
    apply to_param_err in X; [discriminate|]. apply (vi_ktype _ _ _ _ _ I K).
Qed.

Lemma C16_state s vi v q a : reachable env s -> nth_error (st_views s) vi = Some v -> v_public v = true ->
  v_kind v = KTimeseries -> nth_error (st_params s) (v_param v) = Some q -> p_children q = [] ->
  Z.of_nat (length (a_val a)) <> view_length v ->
  after env (OSetValues vi a) s = put s (v_param v) (p_set_written q) vi (v_set_writable v).
Proof.
  intros R V Pb K Q C N. pose proof (reachable_wf _ _ R) as W.
  change (view_length v) with (target_length (v_tconv v)) in N.
  unfold after. rewrite (answer_set _ _ _ _ V Pb K). destruct (ts_set s vi v a) as [s1 x] eqn:S.
  pose proof (ts_set_eff env _ _ _ _ _ _ _ W V Pb K Q S) as X. destruct x as [z|e]; simpl in *.
  - tauto.
  - destruct X as [(X & _)|(_ & [(L & _ & ->)|(L & X)])]; [congruence|auto|tauto].
Qed.

Lemma p_set_written_id q : p_written q = true -> p_set_written q = q.
Proof. destruct q; simpl. intros ->. reflexivity. Qed.

Lemma C16_no_effect s vi v q a : reachable env s -> nth_error (st_views s) vi = Some v -> v_public v = true ->
  v_kind v = KTimeseries -> nth_error (st_params s) (v_param v) = Some q -> p_children q = [] ->
  Z.of_nat (length (a_val a)) <> view_length v -> p_written q = true ->
  st_params (after env (OSetValues vi a) s) = st_params s /\
  forall h, answers env (after env (OSetValues vi a) s) h = answers env s h.
Proof.
  intros R V Pb K Q C N Wr.
  assert (W' : wf (after env (OSetValues vi a) s)) by (apply wf_after; apply (reachable_wf _ _ R)).
  rewrite (C16_state _ _ _ _ _ R V Pb K Q C N) in *. rewrite p_set_written_id in * by auto.
  split. { simpl. now rewrite upd_same. }
  intros h. apply E_answers; auto; [apply (reachable_wf _ _ R)|].
  rewrite <- (put_same _ _ _ _ _ Q V) at 2. apply E_put_eq. reflexivity.
Qed.

Lemma C16_first s vi v q a : reachable env s -> nth_error (st_views s) vi = Some v -> v_public v = true ->
  v_kind v = KTimeseries -> nth_error (st_params s) (v_param v) = Some q -> p_children q = [] ->
  Z.of_nat (length (a_val a)) <> view_length v ->
  let s' := after env (OSetValues vi a) s in
  (exists q', nth_error (st_params s') (v_param v) = Some q' /\ p_written q' = true /\ p_data q' = p_data q /\
     p_version q' = p_version q /\ p_type q' = p_type q /\ p_unit q' = p_unit q /\ p_time q' = p_time q /\
     p_children q' = p_children q) /\
  (forall i, i <> v_param v -> nth_error (st_params s') i = nth_error (st_params s) i) /\
  st_regions s' = st_regions s /\
  (exists v', nth_error (st_views s') vi = Some v' /\ v_data v' = v_data v /\ v_version v' = v_version v /\
     v_locked v' = v_locked v) /\
  (forall i, i <> vi -> nth_error (st_views s') i = nth_error (st_views s) i).
Proof.
  intros R V Pb K Q C N s'. unfold s'. rewrite (C16_state _ _ _ _ _ R V Pb K Q C N).
  split. { eexists. split; [eapply put_param; eauto|]. simpl. auto 10. }
  split. { intros i Hi. apply put_param_other; auto. }
  split; auto. split. { eexists. split; [eapply put_view; eauto|]. auto. }
  intros i Hi. apply put_view_other; auto.
Qed.

(** ** Integer caches come from assigned integer arrays *)
Definition plain (v : view) : Prop := forall d, v_data v = Some d -> a_int d = false.

Lemma ts_get_int s vi v q s' x : wf s -> nth_error (st_views s) vi = Some v -> nth_error (st_params s) (v_param v) = Some q ->
  ts_get s vi = (s', x) -> plain v -> exists v', nth_error (st_views s') vi = Some v' /\ plain v'.
Proof.
  intros W V Q H P. destruct (view_cell _ _ _ _ W V) as (q0 & Q0 & I).
  unfold ts_get, read_with in H. rewrite V, Q in H.
  assert (G : forall s1 y, get_values s v = (s1, y) -> nth_error (st_views s1) vi = Some v).
  { intros s1 y G. rewrite (get_values_views _ _ _ _ vi G); auto. intros cs C Ic.
    destruct (vi_children _ _ _ _ _ I _ _ C Ic) as (L & _). lia. }
  assert (Pc : forall xs k, plain (v_set_version (v_set_data v (mkArr false xs)) k)).
  { intros xs k d. simpl. intros E. inversion E. auto. }
  destruct (v_data v) as [d|] eqn:D.
  - destruct (v_version v); [|inversion H; subst; eauto]. destruct (_ =? _); [inversion H; subst; eauto|].
    destruct (get_values s v) as [s1 [xs|e]] eqn:Gv; [destruct (a_int d)|]; inversion H; subst; eauto.
    eexists. split; [simpl; apply nth_upd_eq; eapply nth_lt; eauto|]. apply Pc.
  - destruct (get_values s v) as [s1 [xs|e]] eqn:Gv; inversion H; subst; eauto.
    eexists. split; [simpl; apply nth_upd_eq; eapply nth_lt; eauto|]. apply Pc.
Qed.

Lemma ts_write_int s vi v s' x : nth_error (st_views s) vi = Some v -> ts_write s vi = (s', x) -> plain v ->
  exists v', nth_error (st_views s') vi = Some v' /\ plain v'.
Proof.
  intros V H P. unfold ts_write in H. rewrite V in H. destruct (v_locked v); [inversion H; subst; eauto|].
  destruct (v_data v) as [d|] eqn:D; [|inversion H; subst; eauto].
  destruct (nth_error (st_params s) (v_param v)) as [q|]; [|inversion H; subst; eauto].
  destruct (to_param v (a_val d)); inversion H; subst; eauto.
  eexists. split; [simpl; apply nth_upd_eq; eapply nth_lt; eauto|]. intros d' E. simpl in E. auto.
Qed.

Lemma plain_set v d : a_int d = false -> plain (v_set_data v d).
Proof. intros A d' E. simpl in E. inversion E; subst; auto. Qed.
Lemma set_view_get s vi v v' : nth_error (st_views s) vi = Some v -> nth_error (st_views (set_view s vi v')) vi = Some v'.
Proof. intros V. simpl. apply nth_upd_eq. eapply nth_lt; eauto. Qed.

Lemma handle_set_int s vi v i y s' x : nth_error (st_views s) vi = Some v -> handle_set s vi i y = (s', x) -> plain v ->
  exists v', nth_error (st_views s') vi = Some v' /\ plain v'.
Proof.
  intros V H P. unfold handle_set in H. rewrite V in H. destruct (v_data v) as [d|] eqn:D; [|inversion H; subst; eauto].
  destruct (pyindex _ _); [|inversion H; subst; eauto]. destruct (cast_item _ _); [|inversion H; subst; eauto].
  eapply ts_write_int; [|exact H|]; [eapply set_view_get; eauto|]. apply plain_set. simpl. auto.
Qed.

Lemma plain_step o s vi v : wf s -> nth_error (st_views s) vi = Some v -> v_public v = true ->
  v_kind v = KTimeseries -> plain v -> (forall a, o = OSetValues vi a -> a_int a = false) ->
  exists v', nth_error (st_views (after env o s)) vi = Some v' /\ plain v'.
Proof.
  intros W V Pb K P F. destruct (option_eq_dec (works_on o) vi) as [Eo|Eo].
  2: { exists v. split; auto. apply others_kept; auto. }
  destruct (view_cell _ _ _ _ W V) as (q & Q & I).
  destruct o; simpl in Eo; try discriminate; injection Eo as ->; unfold after; cbn [step]; unfold with_view;
    rewrite V, Pb, K; simpl; eauto.
  - destruct (ts_get s vi) as [s1 [xs|e]] eqn:G; simpl; eapply ts_get_int; eauto.
  - destruct (ts_set s vi v a) as [s1 x] eqn:S. specialize (F a eq_refl).
    assert (fst (lift (fun _ : unit => VUnit) (s1, x)) = s1) as -> by (destruct x; auto).
    pose proof (ts_set_eff env _ _ _ _ _ _ _ W V Pb K Q S) as X. simpl in X.
    assert (N : a_int (newdata v a) = false).
    { unfold newdata. destruct (v_data v) eqn:D; auto. simpl. apply P; auto. }
    assert (G1 : forall q', exists v', nth_error (st_views (put s (v_param v) q' vi (v_set_writable v))) vi = Some v' /\ plain v').
    { intros q'. eexists. split; [eapply put_view; eauto|]. exact P. }
    assert (G2 : forall q' v', v_data v' = Some (newdata v a) -> exists v'', nth_error (st_views (put s (v_param v) q' vi v')) vi = Some v'' /\ plain v'').
    { intros q' v' E. eexists. split; [eapply put_view; eauto|]. intros d D. congruence. }
    destruct x as [z|e].
    + destruct X as (_ & _ & [(_ & ->)|(_ & xs & _ & ->)]); apply G2; auto.
    + destruct X as [(_ & _ & ->)|(_ & [(_ & _ & ->)|(_ & [(d & _ & _ & _ & _ & ->)|(_ & _ & ->)])])]; eauto.
  - unfold ts_setitem. destruct (ts_get s vi) as [s1 [xs|e]] eqn:G; destruct (ts_get_int _ _ _ _ _ _ W V Q G P) as (v1 & V1 & P1); simpl; eauto.
    destruct (handle_set s1 vi i x) as [s2 y] eqn:H. destruct (handle_set_int _ _ _ _ _ _ _ V1 H P1) as (v2 & V2).
    exists v2. destruct y; auto.
  - destruct (v_data v); simpl; eauto. destruct (ts_get s vi) as [s1 [xs|e]] eqn:G; simpl; eapply ts_get_int; eauto.
  - destruct (handle_set s vi i x) as [s2 y] eqn:H. destruct (handle_set_int _ _ _ _ _ _ _ V H P) as (v2 & V2).
    exists v2. destruct y; auto.
  - destruct (handle_iadd s vi x) as [s2 y] eqn:H.
    assert (G : exists v', nth_error (st_views s2) vi = Some v' /\ plain v').
    { unfold handle_iadd in H. rewrite V in H. destruct (v_data v); [|inversion H; subst; eauto].
      destruct (ts_get s vi) as [s1 [xs|e]] eqn:G; destruct (ts_get_int _ _ _ _ _ _ W V Q G P) as (v1 & V1 & P1); [|inversion H; subst; eauto].
      rewrite V1 in H. destruct (v_data v1) as [d|]; [|inversion H; subst; eauto]. destruct (a_int d); [inversion H; subst; eauto|].
      eapply ts_write_int; [|exact H|]; [eapply set_view_get; eauto|]. apply plain_set. auto. }
    destruct G as (v' & G). exists v'. destruct y; auto.
  - eexists. split; [apply nth_upd_eq; eapply nth_lt; eauto|]. auto.
  - unfold ts_unlock. destruct (ts_write _ vi) as [s2 y] eqn:H.
    eapply ts_write_int in H; [|eapply set_view_get; eauto|exact P]. destruct H as (v' & H). exists v'. destruct y; auto.
Qed.

Lemma plain_run root h vi v : floats h vi -> nth_error (st_views (run env (init_state root) h)) vi = Some v ->
  v_public v = true -> v_kind v = KTimeseries -> plain v.
Proof.
  revert v. induction h as [|o h IH] using rev_ind; intros v F V Pb K.
  { destruct vi; discriminate. }
  rewrite run_app in V. set (s := run env (init_state root) h) in *. change (run env s [o]) with (after env o s) in V.
  assert (W : wf s) by apply wf_reachable.
  destruct (nth_error (st_views s) vi) as [v0|] eqn:V0.
  - destruct (ev_views _ _ (evo_step env _ _ _ _ (after_eq env o s)) _ _ V0) as (v1 & V1 & Ve).
    assert (v1 = v) by congruence; subst v1.
    assert (P0 : plain v0).
    { apply IH; auto; [|rewrite <- (ve_public _ _ Ve); auto|rewrite <- (ve_kind _ _ Ve); auto].
      intros a Ia. apply F. apply in_app_iff; auto. }
    destruct (plain_step o s vi v0 W V0) as (v2 & V2 & P2); auto.
    + rewrite <- (ve_public _ _ Ve); auto.
    + rewrite <- (ve_kind _ _ Ve); auto.
    + intros a ->. apply F. apply in_app_iff. right. left. auto.
    + assert (v2 = v) by congruence. subst; auto.
  - destruct (is_request o) as [nr|] eqn:Rq.
    + destruct (request_appends env o s nr Rq) as (l & E & D). rewrite E in V. rewrite nth_error_app2 in V by (apply nth_error_None; auto).
      intros d Dd. apply nth_error_In in V. rewrite (proj1 (D v V)) in Dd. discriminate.
    + exfalso. apply nth_lt in V. apply nth_error_None in V0. rewrite (views_length env) in V; auto. lia.
Qed.

(** ** C17 *)
Lemma upd_app {A} (a : list A) y b x : upd (a ++ y :: b) (length a) x = a ++ x :: b.
Proof. induction a; simpl; auto. now rewrite IHa. Qed.
Lemma position_pyindex n i j : position n i j -> pyindex n i = Some j.
Proof.
  intros (L & H). unfold pyindex.
  destruct (Z.ltb_spec i 0); [destruct (Z.leb_spec 0 (i + Z.of_nat n)), (Z.ltb_spec (i + Z.of_nat n) (Z.of_nat n))|
    destruct (Z.leb_spec 0 i), (Z.ltb_spec i (Z.of_nat n))]; simpl; try (f_equal; lia); exfalso; lia.
Qed.
Lemma pyindex_position n i j : pyindex n i = Some j -> position n i j.
Proof.
  unfold pyindex, position.
  destruct (Z.ltb_spec i 0); [destruct (Z.leb_spec 0 (i + Z.of_nat n)), (Z.ltb_spec (i + Z.of_nat n) (Z.of_nat n))|
    destruct (Z.leb_spec 0 i), (Z.ltb_spec i (Z.of_nat n))]; simpl; try discriminate; intros E; injection E as <-; lia.
Qed.

Lemma C17_proof root h vi v q xs i j x ys : let s := run env (init_state root) h in
  floats h vi -> nth_error (st_views s) vi = Some v -> v_public v = true -> v_kind v = KTimeseries ->
  nth_error (st_params s) (v_param v) = Some q -> p_children q = [] -> v_locked v = false ->
  answer env (OGetValues vi) s = Ok (VArr xs) -> position (length xs) i j -> replaced xs j x ys ->
  answer env (OSetItem vi i x) s = answer env (OSetValues vi (mkArr false ys)) s /\
  (succeeds env (OSetItem vi i x) s ->
     st_params (after env (OSetItem vi i x) s) = st_params (after env (OSetValues vi (mkArr false ys)) s) /\
     answer env (OGetValues vi) (after env (OSetItem vi i x) s) = Ok (VArr ys) /\
     forall h', answers env (after env (OSetItem vi i x) s) h' =
                answers env (after env (OSetValues vi (mkArr false ys)) s) h').
Proof.
  intros s F V Pb K Q C Lk A Po (a & y & b & -> & <- & ->).
  assert (W : wf s) by apply wf_reachable. assert (R : reachable env s) by (exists root, h; auto).
  pose proof (plain_run _ _ _ _ F V Pb K) as P. apply position_pyindex in Po.
  destruct (view_cell _ _ _ _ W V) as (q0 & Q0 & I). assert (q0 = q) by congruence; subst q0.
  unfold answer in A. cbn [step] in A. unfold with_view in A. rewrite V, Pb, K in A.
  destruct (ts_get s vi) as [s1 [zs|e]] eqn:G; [|discriminate]. simpl in A. inversion A; subst zs. clear A.
  destruct (wf_ts_get env _ _ _ _ _ W V K G) as [W1 Len]. specialize (Len _ eq_refl).
  destruct (ts_get_cached _ _ _ _ _ _ V Q G) as (v1 & V1 & Vr & Ve & d & D & Dx & Hd).
  assert (Di : a_int d = false).
  { destruct Hd as [[_ ->]|]; auto. }
  assert (S1 : s1 = put s (v_param v) q vi v1).
  { rewrite (ts_get_leaf _ _ _ _ V Q C) in G.
    assert (X : forall w, s1 = set_view s vi w -> s1 = put s (v_param v) q vi v1).
    { intros w ->. rewrite (set_view_get _ _ _ _ V) in V1. injection V1 as ->. unfold set_view, put. rewrite (upd_same _ _ _ Q). auto. }
    destruct (v_data v) as [d0|].
    - destruct (v_version v); [|discriminate]. destruct (_ =? _).
      + inversion G; subst. rewrite V in V1. inversion V1; subst. symmetry; apply put_same; auto.
      + destruct (ts_own v q); [|discriminate]. destruct (a_int d0); [discriminate|]. injection G as G1 G2; eapply X; symmetry; exact G1.
    - destruct (ts_own v q); [|discriminate]. injection G as G1 G2; eapply X; symmetry; exact G1. }
  assert (Wr : p_written q = true).
  { rewrite (ts_get_leaf _ _ _ _ V Q C) in G. destruct (v_data v) eqn:Dv.
    - destruct (vi_data _ _ _ _ _ I) as [_ [X|X]]; auto; congruence.
    - unfold ts_own in G. destruct (p_written q); auto. discriminate. }
  assert (V1' : exists w0, nth_error (st_views s1) vi = Some w0) by eauto.
  assert (Q1 : nth_error (st_params s1) (v_param v1) = Some q).
  { rewrite (vr_param _ _ Vr). rewrite (rd_params _ _ (rd_ts_get _ _ _ _ G)). auto. }
  assert (Tp : forall l, to_param v1 l = to_param v l).
  { intros l. unfold to_param. now rewrite (vr_uconv _ _ Vr), (vr_tconv _ _ Vr). }
  set (ys := a ++ x :: b).
  assert (Si : step env (OSetItem vi i x) s = lift (fun _ => VUnit) (handle_set s1 vi i x)).
  { cbn [step]. unfold with_view. rewrite V, Pb, K. unfold ts_setitem. rewrite G. auto. }
  assert (H : handle_set s1 vi i x = match to_param v ys with
    | Err e => (put s (v_param v) q vi (v_set_data v1 (mkArr false ys)), Err e)
    | Ok l => (put s (v_param v) (p_store q (PArr l)) vi (v_set_version (v_set_data v1 (mkArr false ys)) (S (p_version q))), Ok tt)
    end).
  { unfold handle_set. rewrite V1, D, Dx, Po, Di. simpl. rewrite upd_app. unfold ts_write. rewrite (set_view_get _ _ _ _ V1).
    simpl. rewrite (vr_locked _ _ Vr), Lk. fold ys.
    change (to_param (v_set_data v1 {| a_int := false; a_val := ys |}) ys) with (to_param v1 ys). rewrite Tp.
    rewrite Q1. rewrite S1. rewrite (vr_param _ _ Vr). unfold set_view, set_param, put. simpl. rewrite !upd_upd. destruct (to_param v ys); rewrite ?upd_upd; auto. }
  rewrite H in Si. clear H.
  pose proof (answer_set s vi v (mkArr false ys) V Pb K) as Sv. destruct (ts_set s vi v (mkArr false ys)) as [s3 z'] eqn:S.
  pose proof (ts_set_eff env _ _ _ _ _ _ _ W V Pb K Q S) as Y.
  assert (Ly : Z.of_nat (length ys) = target_length (v_tconv v)).
  { rewrite <- Len. unfold ys. rewrite !app_length. auto. }
  assert (Nd : newdata v (mkArr false ys) = mkArr false ys).
  { unfold newdata. destruct (v_data v) eqn:Dv; auto. simpl. rewrite (P _ Dv). auto. }
  rewrite Nd in Y. simpl in Y. rewrite (p_set_written_id _ Wr) in Y.
  destruct (to_param v ys) as [l|e] eqn:T.
  - destruct z' as [u|e].
    2: { destruct Y as [(Y & _)|(_ & [(Y & _)|(_ & [(d0 & D0 & Y & _)|(_ & Y & _)])])]; try congruence.
         rewrite (P _ D0) in Y. discriminate. }
    destruct Y as (_ & _ & [(Y & _)|(_ & l' & Y & E)]); [congruence|]. inversion Y; subst l'.
    assert (W2 : wf (after env (OSetItem vi i x) s)) by (apply wf_after; auto).
    assert (W3 : wf (after env (OSetValues vi (mkArr false ys)) s)) by (apply wf_after; auto).
    unfold answer, after, succeeds in *. rewrite Si, Sv in *. simpl in *. split; auto. intros _.
    split. { rewrite E. auto. }
    split.
    + unfold with_view. rewrite (put_view _ _ _ _ _ _ V). simpl. rewrite (vr_public _ _ Vr), (vr_kind _ _ Vr), Pb, K.
      unfold ts_get, read_with. rewrite (put_view _ _ _ _ _ _ V). simpl. rewrite (vr_param _ _ Vr).
      rewrite nth_upd_eq by (eapply nth_lt; eauto). simpl; rewrite Nat.eqb_refl. auto.
    + intros h'. apply E_answers; auto. rewrite E. apply E_put_eq. unfold ev; simpl.
      rewrite (vr_public _ _ Vr), (vr_kind _ _ Vr), (vr_param _ _ Vr), (vr_unit _ _ Vr), (vr_uconv _ _ Vr), (vr_tconv _ _ Vr),
        (vr_children _ _ Vr), (vr_locked _ _ Vr). auto.
  - destruct z' as [u|e'].
    + destruct Y as (_ & _ & [(Y & _)|(_ & l' & Y & E)]); congruence.
    + unfold answer, succeeds, answer. rewrite Si, Sv. simpl. split; [|intros [z Z]; discriminate].
      destruct Y as [(Y & _)|(_ & [(Y & _)|(_ & [(d0 & D0 & Y & _)|(_ & Y & _)])])]; try congruence.
      rewrite (P _ D0) in Y. discriminate.
Qed.

(** ** C18 *)
(** A view that has just been read successfully keeps showing the same array while nobody
    writes to the parameter. *)
Lemma fresh_run h : forall s vi p q v xs, wf s -> nth_error (st_views s) vi = Some v -> v_public v = true ->
  v_kind v = KTimeseries -> v_param v = p -> nth_error (st_params s) p = Some q -> v_version v = Some (p_version q) ->
  (exists d, v_data v = Some d /\ a_val d = xs) -> no_writes env s h p ->
  exists v', nth_error (st_views (run env s h)) vi = Some v' /\ v_public v' = true /\ v_kind v' = KTimeseries /\
    v_param v' = p /\ nth_error (st_params (run env s h)) p = Some q /\ v_version v' = Some (p_version q) /\
    v_data v' = v_data v.
Proof.
  induction h as [|o h IH]; intros s vi p q v xs W V Pb K Vp Q Ve (d & D & Dx) N.
  { exists v. simpl. auto 10. }
  destruct N as [N1 N2].
  destruct (view_cell _ _ _ _ W V) as (q0 & Q0 & I). rewrite Vp in Q0. assert (q0 = q) by congruence; subst q0.
  assert (Q' : nth_error (st_params (after env o s)) p = Some q).
  { apply frame_step; auto. apply (vi_public _ _ _ _ _ I Pb). }
  assert (G : exists v', nth_error (st_views (after env o s)) vi = Some v' /\ v_public v' = true /\ v_kind v' = KTimeseries /\
         v_param v' = p /\ v_version v' = Some (p_version q) /\ v_data v' = v_data v).
  { destruct (option_eq_dec (works_on o) vi) as [Eo|Eo].
    2: { exists v. split; [apply others_kept; auto|]. auto 8. }
    assert (Get : ts_get s vi = (s, Ok (a_val d))).
    { unfold ts_get, read_with. rewrite V, Vp, Q, D, Ve, Nat.eqb_refl. auto. }
    assert (Wt : write_target o = Some vi -> False).
    { intros T. apply N1. exists vi. split; auto. exists v; auto. }
    assert (Same : exists v', nth_error (st_views s) vi = Some v' /\ v_public v' = true /\ v_kind v' = KTimeseries /\
         v_param v' = p /\ v_version v' = Some (p_version q) /\ v_data v' = v_data v) by (exists v; auto 8).
    destruct o; simpl in Eo; try discriminate; injection Eo as ->;
      try (exfalso; apply Wt; reflexivity); unfold after; cbn [step]; unfold with_view; rewrite V, Pb, K; simpl; auto.
    - rewrite Get. auto.
    - rewrite D, Get. rewrite D in Same. auto.
    - rewrite nth_upd_eq by (eapply nth_lt; eauto). eexists. split; [reflexivity|]. simpl. auto 8. }
  destruct G as (v' & V' & Pb' & K' & Vp' & Ve' & D').
  destruct (IH (after env o s) vi p q v' xs) as (v2 & A1 & A2 & A3 & A4 & A5 & A6 & A7); auto.
  - apply wf_after; auto.
  - exists d. split; congruence.
  - exists v2. rewrite <- D'. auto 10.
Qed.

Lemma C18_fresh s vi p xs h : reachable env s -> ts_view s vi p ->
  answer env (OGetValues vi) s = Ok (VArr xs) ->
  let s1 := after env (OGetValues vi) s in
  no_writes env s1 h p ->
  let s2 := run env s1 h in
  answer env (OHandleArray vi) s2 = Ok (VArr xs) /\ answer env (OGetValues vi) s2 = Ok (VArr xs) /\
  after env (OHandleArray vi) s2 = s2 /\ after env (OGetValues vi) s2 = s2 /\
  (forall i x, step env (OHandleSet vi i x) s2 = step env (OSetItem vi i x) s2).
Proof.
  intros R (v & V & Pb & Vp & K) A s1 N s2. pose proof (reachable_wf _ _ R) as W.
  assert (W1 : wf s1) by (apply wf_after; auto).
  destruct (view_cell _ _ _ _ W V) as (q & Q & I).
  assert (St : step env (OGetValues vi) s = lift VArr (ts_get s vi)).
  { cbn [step]. unfold with_view. now rewrite V, Pb, K. }
  assert (E1 : s1 = fst (ts_get s vi)).
  { unfold s1, after. rewrite St. destruct (ts_get s vi) as [? []]; auto. }
  unfold answer in A. rewrite St in A. clear St.
  destruct (ts_get s vi) as [s' [ys|e]] eqn:G; [|discriminate]. simpl in A. inversion A; subst ys. simpl in E1.
  clearbody s1. subst s'.
  destruct (ts_get_cached _ _ _ _ _ _ V Q G) as (v1 & V1 & Vr & Ve & d & D & Dx & Hd).
  destruct (fresh_run h s1 vi p q v1 xs) as (v2 & V2 & Pb2 & K2 & Vp2 & Q2 & Ve2 & D2); auto.
  - rewrite (vr_public _ _ Vr); auto.
  - rewrite (vr_kind _ _ Vr); auto.
  - rewrite (vr_param _ _ Vr); auto.
  - rewrite (rd_params _ _ (rd_ts_get _ _ _ _ G)). rewrite <- Vp; auto.
  - exists d; auto.
  - fold s2 in V2, Q2. clearbody s2. unfold answer, after. cbn [step]. unfold with_view.
    assert (Get : ts_get s2 vi = (s2, Ok xs)).
    { unfold ts_get, read_with. rewrite V2, Vp2, Q2, D2, D, Ve2, Nat.eqb_refl. congruence. }
    rewrite V2, Pb2, K2, D2, D, Get. simpl. rewrite Dx. split; auto. split; auto. split; auto. split; auto.
    intros i x. unfold ts_setitem. rewrite Get. auto.
Qed.

Lemma C18_index s vi p i : reachable env s -> ts_view s vi p -> succeeds env (OHandleArray vi) s ->
  after env (OHandleGet vi i) s = after env (OGetValues vi) s /\
  (forall e, answer env (OGetValues vi) s = Err e -> answer env (OHandleGet vi i) s = Err e) /\
  (forall xs, answer env (OGetValues vi) s = Ok (VArr xs) ->
     (forall j, position (length xs) i j -> exists x, nth_error xs j = Some x /\ answer env (OHandleGet vi i) s = Ok (VNum x)) /\
     ((forall j, ~ position (length xs) i j) -> answer env (OHandleGet vi i) s = Err EIndexError)).
Proof.
  intros R (v & V & Pb & Vp & K) (z & A). unfold answer, after in *. cbn [step] in *. unfold with_view in *. rewrite V, Pb, K in *.
  simpl in A. destruct (v_data v); [|discriminate].
  destruct (ts_get s vi) as [s1 [ys|e]]; simpl; split; auto; split; try discriminate; try (intros; congruence).
  intros xs E. inversion E; subst ys. split.
  - intros j Hp. rewrite (position_pyindex _ _ _ Hp). destruct Hp as (L & _). apply nth_error_Some in L.
    destruct (nth_error xs j); [eauto|congruence].
  - intros Np. destruct (pyindex (length xs) i) as [j|] eqn:Pi; auto. exfalso. apply (Np j). apply pyindex_position; auto.
Qed.
End P.
