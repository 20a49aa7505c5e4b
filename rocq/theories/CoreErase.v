(** The flag [_writable] of views is not observable. *)
From Coq Require Import String List Arith Lia Bool ZArith Reals.
From Verif Require Import Base ListFacts Units TimeModel Core CoreEvo CoreTree CoreNames CoreInv
  CoreStep Spec_Core CoreReq CoreP1 CoreP2.
Import ListNotations.

Definition ev (v : view) : view :=
  mkView (v_public v) (v_kind v) (v_param v) (v_unit v) (v_uconv v) (v_tconv v) (v_children v)
    false (v_data v) (v_locked v) (v_version v).
Definition E (s : state) : state := mkState (st_regions s) (st_params s) (map ev (st_views s)).
Definition Em {A} (x : state * A) : state * A := (E (fst x), snd x).

Lemma map_upd {A B} (f : A -> B) l i x : map f (upd l i x) = upd (map f l) i (f x).
Proof. revert i; induction l; intros [|i]; simpl; auto. now rewrite IHl. Qed.
Lemma E_view s i : nth_error (st_views (E s)) i = option_map ev (nth_error (st_views s) i).
Proof. simpl. apply nth_error_map. Qed.
Lemma E_set_view s i v : E (set_view s i v) = set_view (E s) i (ev v).
Proof. unfold E, set_view. simpl. now rewrite map_upd. Qed.
Lemma E_set_param s i q : E (set_param s i q) = set_param (E s) i q.
Proof. reflexivity. Qed.
Lemma E_len s : length (st_views (E s)) = length (st_views s).
Proof. simpl. apply map_length. Qed.

Ltac em := unfold Em; simpl; rewrite ?E_view; simpl; auto.

Lemma E_subregion s r n : get_or_create_subregion (E s) r n = Em (get_or_create_subregion s r n).
Proof.
  unfold get_or_create_subregion, Em. simpl. destruct (nth_error (st_regions s) r); auto.
  destruct (alookup n (r_children r0)); auto. destruct (r_aggregated r0); auto.
Qed.
Lemma E_subregions ns : forall s r, subregions (E s) r ns = Em (subregions s r ns).
Proof.
  induction ns; intros s r; auto. simpl. rewrite E_subregion.
  destruct (get_or_create_subregion s r a) as [s' [c|e]]; simpl; auto.
Qed.
Lemma E_get_region s n : get_or_create_region (E s) n = Em (get_or_create_region s n).
Proof.
  unfold get_or_create_region. destruct (hcomponents n); auto. simpl.
  change (match st_regions s with [] => None | x :: _ => Some x end) with (nth_error (st_regions s) 0).
  destruct (nth_error (st_regions s) 0); auto. destruct (s0 =? r_name r)%string; auto. apply E_subregions.
Qed.
Lemma E_root s r n : get_or_create_root_parameter (E s) r n = Em (get_or_create_root_parameter s r n).
Proof.
  unfold get_or_create_root_parameter, Em. simpl. destruct (nth_error (st_regions s) r); auto.
  destruct (alookup n (r_params r0)); auto.
Qed.
Lemma E_child s r n : get_or_create_child_parameter (E s) r n = Em (get_or_create_child_parameter s r n).
Proof.
  unfold get_or_create_child_parameter, Em. simpl. destruct (nth_error (st_params s) r); auto.
  destruct (alookup n (p_children p)); auto. destruct (p_written p); auto. destruct (p_read p); auto.
Qed.
Lemma E_subparams ns : forall s r, subparameters (E s) r ns = Em (subparameters s r ns).
Proof.
  induction ns; intros s r; auto. simpl. rewrite E_child.
  destruct (get_or_create_child_parameter s r a) as [s' [c|e]]; simpl; auto.
Qed.
Lemma E_get_param s n r : get_or_create_parameter (E s) n r = Em (get_or_create_parameter s n r).
Proof.
  unfold get_or_create_parameter. destruct (hcomponents n); auto. rewrite E_root.
  destruct (get_or_create_root_parameter s r s0) as [s' [c|e]]; simpl; auto. apply E_subparams.
Qed.
Lemma E_locate s n r : locate (E s) n r = Em (locate s n r).
Proof.
  unfold locate. rewrite E_get_region. destruct (get_or_create_region s r) as [s' [c|e]]; simpl; auto.
  apply E_get_param.
Qed.
Lemma E_on_param s p f : on_param (E s) p f = Em (on_param s p f).
Proof. unfold on_param, Em. simpl. destruct (nth_error (st_params s) p); auto. destruct (f p0); auto. Qed.

Lemma E_get_subregion ns : forall s r, get_subregion (E s) r ns = get_subregion s r ns.
Proof. induction ns; intros s r; simpl; auto. destruct (nth_error _ _); auto. destruct (alookup _ _); auto. Qed.
Lemma E_get_subparameter ns : forall s r, get_subparameter (E s) r ns = get_subparameter s r ns.
Proof. induction ns; intros s r; simpl; auto. destruct (nth_error _ _); auto. destruct (alookup _ _); auto. Qed.
Lemma E_info s n r : info (E s) n r = info s n r.
Proof.
  unfold info, get_region. destruct (hcomponents r); auto. simpl.
  change (match st_regions s with [] => None | x :: _ => Some x end) with (nth_error (st_regions s) 0).
  destruct (nth_error (st_regions s) 0); auto. destruct (_ =? _)%string; auto.
  rewrite E_get_subregion. destruct (get_subregion s 0 l); auto.
  unfold get_parameter. destruct (hempty n); auto. destruct (hcomponents n); auto. simpl.
  destruct (nth_error (st_regions s) n0); auto. destruct (alookup _ _); auto. now rewrite E_get_subparameter.
Qed.

Section P.
Variable env : uenv.
Notation wf := (wf env).

Lemma ev_id v : v_writable v = false -> ev v = v.
Proof. destruct v; simpl. intros ->. reflexivity. Qed.
Lemma rmap_ev (mk : nat -> res view) l : (forall p v, mk p = Ok v -> v_writable v = false) ->
  forall cvs, rmap mk l = Ok cvs -> map ev cvs = cvs.
Proof.
  intros M. induction l; cbn [rmap]; intros cvs H; [inversion H; auto|].
  destruct (mk a) eqn:A; [|discriminate]. destruct (rmap mk l) as [w|]; [|discriminate]. inversion H; subst.
  simpl. rewrite (IHl w); auto. f_equal. apply ev_id. eapply M; eauto.
Qed.
Lemma E_build s mk p : (forall p v, mk p = Ok v -> v_writable v = false) ->
  build_view (E s) mk p = Em (build_view s mk p).
Proof.
  intros M. unfold build_view, Em. change (param_leaves (E s) p) with (param_leaves s p). simpl. destruct (nth_error (st_params s) p); auto.
  destruct (mk p) as [v|] eqn:Mp; auto. pose proof (M _ _ Mp) as Wv. destruct (has_children p0).
  - destruct (param_leaves s p) as [ls|]; auto.
    destruct (rmap mk ls) eqn:R; auto. simpl. rewrite map_length. unfold E. simpl. rewrite !map_app. simpl.
    rewrite (rmap_ev _ _ M _ R). rewrite ev_id; auto.
  - simpl. unfold E. simpl. rewrite map_app, map_length. simpl. rewrite ev_id; auto.
Qed.
Lemma scalar_leaf_w s u p v : scalar_leaf_view env s u p = Ok v -> v_writable v = false.
Proof.
  unfold scalar_leaf_view. destruct (nth_error _ _); [|discriminate]. destruct (unit_converter _ _ _); [|discriminate].
  intros H; inversion H; auto.
Qed.
Lemma ts_leaf_w s u tg t ex p v : ts_leaf_view env s u tg t ex p = Ok v -> v_writable v = false.
Proof.
  unfold ts_leaf_view. destruct (nth_error _ _); [|discriminate]. destruct (unit_converter _ _ _); [|discriminate].
  destruct (p_time _); [|discriminate]. destruct (timeseries_converter _ _ _ _); [|discriminate].
  intros H; inversion H; auto.
Qed.

Lemma E_scalar s n u r : ps_scalar env (E s) n u r = Em (ps_scalar env s n u r).
Proof.
  unfold ps_scalar. rewrite E_locate. destruct (locate s n r) as [s1 [p|e]]; simpl; auto.
  rewrite E_on_param. destruct (on_param s1 p _) as [s2 [x|e]]; simpl; auto.
  apply (E_build s2 (scalar_leaf_view env s2 u)). intros; eapply scalar_leaf_w; eauto.
Qed.
Lemma E_timeseries s n u tp r a b c : ps_timeseries env (E s) n u tp r a b c = Em (ps_timeseries env s n u tp r a b c).
Proof.
  unfold ps_timeseries. destruct (from_timeseries_type a); auto. destruct (from_interpolation_type b); auto.
  destruct (from_extrapolation_type c); auto.
  rewrite E_locate. destruct (locate s n r) as [s1 [p|e]]; simpl; auto.
  rewrite E_on_param. destruct (on_param s1 p _) as [s2 [x|e]]; simpl; auto.
  apply (E_build s2 (ts_leaf_view env s2 u _ _ _)). intros; eapply ts_leaf_w; eauto.
Qed.
Lemma E_generic s n r : ps_generic (E s) n r = Em (ps_generic s n r).
Proof.
  unfold ps_generic. rewrite E_locate. destruct (locate s n r) as [s1 [p|e]]; simpl; auto.
  rewrite E_on_param. destruct (on_param s1 p _) as [s2 [x|e]]; simpl; auto.
  unfold Em. simpl. unfold E. simpl. rewrite map_app, map_length. auto.
Qed.

(** Reads *)
Lemma E_read_with g g' s vi : (forall v, g' (E s) (ev v) = Em (g s v)) ->
  read_with g' (E s) vi = Em (read_with g s vi).
Proof.
  intros G. unfold read_with, Em. rewrite E_view. destruct (nth_error (st_views s) vi) as [v|]; auto. simpl.
  destruct (nth_error (st_params s) (v_param v)) as [q|]; auto. rewrite (G v).
  destruct (v_data v).
  - destruct (v_version v); auto. destruct (_ =? _); auto. destruct (g s v) as [s1 [xs|e]]; simpl; auto.
    destruct (a_int a); auto. simpl. rewrite E_set_view. auto.
  - destruct (g s v) as [s1 [xs|e]]; simpl; auto. rewrite E_set_view. auto.
Qed.
Lemma E_leaf_values s v : leaf_values (E s) (ev v) = Em (leaf_values s v).
Proof. unfold leaf_values, Em. simpl. destruct (nth_error (st_params s) (v_param v)); auto. Qed.
Lemma E_sum cs : forall s acc, sum_children (E s) cs acc = Em (sum_children s cs acc).
Proof.
  induction cs; intros s acc; simpl; auto.
  rewrite (E_read_with leaf_values leaf_values) by (intros; apply E_leaf_values).
  destruct (read_with leaf_values s a) as [s1 [xs|e]]; simpl; auto.
  destruct acc as [ac|]; auto. destruct (arr_add ac xs); auto.
Qed.
Lemma E_get_values s v : get_values (E s) (ev v) = Em (get_values s v).
Proof.
  unfold get_values. simpl. destruct (nth_error (st_params s) (v_param v)); auto.
  destruct (has_children p); auto. destruct (v_children v); auto. apply E_sum.
Qed.
Lemma E_ts_get s vi : ts_get (E s) vi = Em (ts_get s vi).
Proof. apply E_read_with. intros; apply E_get_values. Qed.

Lemma E_leaf_get s c : scalar_leaf_get (E s) c = scalar_leaf_get s c.
Proof.
  unfold scalar_leaf_get. rewrite E_view. destruct (nth_error (st_views s) c) as [v|]; auto.
Qed.
Lemma E_scalar_get s v : scalar_get (E s) (ev v) = scalar_get s v.
Proof.
  unfold scalar_get. simpl. destruct (nth_error (st_params s) (v_param v)); auto.
  destruct (has_children p); auto. destruct (v_children v); auto.
  assert (X : forall l, rmap (scalar_leaf_get (E s)) l = rmap (scalar_leaf_get s) l).
  { induction l0; cbn [rmap]; auto. now rewrite E_leaf_get, IHl0. }
  now rewrite X.
Qed.

(** Writes *)
Lemma E_ts_write s vi : ts_write (E s) vi = Em (ts_write s vi).
Proof.
  unfold ts_write, Em. rewrite E_view. destruct (nth_error (st_views s) vi) as [v|]; auto. simpl.
  destruct (v_locked v); auto. destruct (v_data v); auto. destruct (nth_error (st_params s) (v_param v)); auto.
  change (to_param (ev v)) with (to_param v). destruct (to_param v (a_val a)); auto. simpl.
  rewrite E_set_view, E_set_param. auto.
Qed.
Lemma E_handle_set s vi i x : handle_set (E s) vi i x = Em (handle_set s vi i x).
Proof.
  unfold handle_set. rewrite E_view. destruct (nth_error (st_views s) vi) as [v|]; auto. simpl.
  destruct (v_data v); auto. destruct (pyindex _ _); auto. destruct (cast_item _ _); auto.
  rewrite <- E_ts_write, E_set_view. auto.
Qed.
Lemma E_iadd s vi x : handle_iadd (E s) vi x = Em (handle_iadd s vi x).
Proof.
  unfold handle_iadd. rewrite E_view. destruct (nth_error (st_views s) vi) as [v|]; auto. simpl.
  destruct (v_data v); auto. rewrite E_ts_get. destruct (ts_get s vi) as [s1 [xs|e]]; simpl; auto.
  change (map ev (st_views s1)) with (st_views (E s1)). rewrite E_view.
  destruct (nth_error (st_views s1) vi) as [v1|]; auto. simpl. destruct (v_data v1); auto.
  destruct (a_int a0); auto. rewrite <- E_ts_write, E_set_view. auto.
Qed.

(** [check_write]: the flag makes no difference. *)
Lemma wft_E s : wft s -> wft (E s).
Proof. intros []. constructor; auto. Qed.
Lemma wf_E s : wf s -> wf (E s).
Proof.
  intros W. constructor; [apply wft_E, W|apply W|].
  intros vi v V. rewrite E_view in V. destruct (nth_error (st_views s) vi) as [v0|] eqn:V0; inversion V; subst.
  destruct (wf_views _ _ W _ _ V0) as (q & Q & []). exists q. split; auto.
  constructor; simpl; auto; try discriminate.
  - intros Pb. destruct (vi_private Pb) as (A & _ & B). auto.
  - intros cs c Cs I. destruct (vi_children _ _ Cs I) as (Lt & cv & Cv & X). split; auto.
    exists (ev cv). split; auto. rewrite nth_error_map, Cv. auto.
Qed.
Lemma ev_ev v : ev (ev v) = ev v. Proof. reflexivity. Qed.
Lemma E_E s : E (E s) = E s.
Proof. unfold E. simpl. rewrite map_map. f_equal. Qed.
Lemma Em_Em {A} (x : state * A) : Em (Em x) = Em x.
Proof. unfold Em. simpl. now rewrite E_E. Qed.

Lemma E_check_write s vi v u tp : wf s -> nth_error (st_views s) vi = Some v -> v_public v = true ->
  Em (check_write (E s) vi (ev v) (vtype v) u tp) = Em (check_write s vi v (vtype v) u tp).
Proof.
  intros W V Pb. destruct (view_cell _ _ _ _ W V) as (q & Q & I).
  destruct (check_write s vi v (vtype v) u tp) as [s1 x] eqn:H1.
  destruct (check_write (E s) vi (ev v) (vtype v) u tp) as [s2 y] eqn:H2.
  assert (V2 : nth_error (st_views (E s)) vi = Some (ev v)) by (rewrite E_view, V; auto).
  apply check_write_eff with (env := env) (q := q) in H1; auto.
  change (vtype v) with (vtype (ev v)) in H2.
  apply check_write_eff with (env := env) (q := q) in H2; auto using wf_E.
  unfold Em. simpl. destruct x as [[]|e], y as [[]|e'].
  - destruct H1 as (_ & ->), H2 as (_ & ->). f_equal. unfold E, put. simpl. f_equal.
    rewrite !map_upd, map_map. f_equal.
  - destruct H1, H2; congruence.
  - destruct H1, H2; congruence.
  - destruct H1 as (_ & -> & ->), H2 as (_ & -> & ->). now rewrite E_E.
Qed.

Lemma E_set s vi v x : wf s -> nth_error (st_views s) vi = Some v -> v_public v = true -> v_kind v = KScalar ->
  Em (scalar_set (E s) vi (ev v) x) = Em (scalar_set s vi v x).
Proof.
  intros W V Pb K. unfold scalar_set. simpl.
  assert (T : SCALAR = vtype v) by (unfold vtype; rewrite K; auto). rewrite T.
  pose proof (E_check_write s vi v (Some (v_unit v)) None W V Pb) as C.
  destruct (check_write s vi v _ _ _) as [s1 r], (check_write (E s) vi (ev v) _ _ _) as [s2 r2].
  unfold Em in C. simpl in C. assert (Es : E s2 = E s1) by congruence. assert (r2 = r) by congruence. subst r2.
  destruct r; unfold Em; simpl; [|congruence]. f_equal.
  assert (X : forall s p d, E (store s p d) = store (E s) p d).
  { intros s0 p d. unfold store. simpl. destruct (nth_error (st_params s0) p); auto. }
  rewrite !X. congruence.
Qed.
Lemma E_gset s vi v x : wf s -> nth_error (st_views s) vi = Some v -> v_public v = true -> v_kind v = KGeneric ->
  Em (generic_set (E s) vi (ev v) x) = Em (generic_set s vi v x).
Proof.
  intros W V Pb K. unfold generic_set. simpl.
  assert (T : GENERIC = vtype v) by (unfold vtype; rewrite K; auto). rewrite T.
  pose proof (E_check_write s vi v None None W V Pb) as C.
  destruct (check_write s vi v _ _ _) as [s1 r], (check_write (E s) vi (ev v) _ _ _) as [s2 r2].
  unfold Em in C. simpl in C. assert (Es : E s2 = E s1) by congruence. assert (r2 = r) by congruence. subst r2.
  destruct r; unfold Em; simpl; [|congruence]. f_equal.
  assert (X : forall s p d, E (store s p d) = store (E s) p d).
  { intros s0 p d. unfold store. simpl. destruct (nth_error (st_params s0) p); auto. }
  rewrite !X. congruence.
Qed.
Lemma E_tset s vi v a : wf s -> nth_error (st_views s) vi = Some v -> v_public v = true -> v_kind v = KTimeseries ->
  Em (ts_set (E s) vi (ev v) a) = Em (ts_set s vi v a).
Proof.
  intros W V Pb K. unfold ts_set. simpl.
  assert (T : tc_type (v_tconv v) = vtype v) by (unfold vtype; rewrite K; auto). rewrite T.
  pose proof (E_check_write s vi v (Some (v_unit v)) (Some {| tp_res := 1; tp_ticks := tc_target (v_tconv v) |}) W V Pb) as C.
  destruct (check_write s vi v _ _ _) as [s1 r], (check_write (E s) vi (ev v) _ _ _) as [s2 r2].
  unfold Em in C. simpl in C. assert (Es : E s2 = E s1) by congruence. assert (r2 = r) by congruence. subst r2.
  destruct r; [|unfold Em; simpl; congruence]. destruct (_ =? _)%Z; [|unfold Em; simpl; congruence].
  set (F := fun s => match nth_error (st_views s) vi with
     | Some v1 => match v_data v1 with
        | Some d => if a_int d && negb (a_int a) then (s, Err ETypeError)
           else ts_write (set_view s vi (v_set_data v1 {| a_int := a_int d; a_val := a_val a |})) vi
        | None => ts_write (set_view s vi (v_set_data v1 a)) vi end
     | None => (s, Err EInvalid) end).
  change (Em (F s2) = Em (F s1)).
  assert (X : forall s, F (E s) = Em (F s)).
  { clear. intros s. unfold F. rewrite E_view. destruct (nth_error (st_views s) vi) as [v|]; auto. simpl.
    destruct (v_data v); [destruct (_ && _); auto|]; rewrite <- E_ts_write, E_set_view; auto. }
  rewrite <- !X. congruence.
Qed.

Lemma Em_lift {A} (g : A -> val) x : Em (lift g x) = lift g (Em x).
Proof. destruct x as [s [a|e]]; auto. Qed.
Lemma E_step s o : wf s -> Em (step env o (E s)) = Em (step env o s).
Proof.
  intros W.
  assert (WV : forall vi k f g, (forall v, nth_error (st_views s) vi = Some v -> v_public v = true -> v_kind v = k ->
     Em (f (ev v)) = Em (g v)) -> Em (with_view (E s) vi k f) = Em (with_view s vi k g)).
  { intros vi k f g H. unfold with_view. rewrite E_view. destruct (nth_error (st_views s) vi) as [v|] eqn:V; simpl.
    - destruct (v_public v) eqn:Pb; [|unfold Em; simpl; now rewrite E_E].
      assert (N : Em (E s, @Err val EInvalid) = Em (s, Err EInvalid)) by (unfold Em; simpl; now rewrite E_E).
      destruct (v_kind v) eqn:K, k; auto.
    - unfold Em; simpl; now rewrite E_E. }
  assert (IE : forall {A} (x : A), Em (E s, x) = Em (s, x)) by (intros; unfold Em; simpl; now rewrite E_E).
  destruct o; cbn [step]; try (apply WV; intros w V Pb K).
  - rewrite E_scalar, !Em_lift, Em_Em; auto.
  - rewrite E_timeseries, !Em_lift, Em_Em; auto.
  - rewrite E_generic, !Em_lift, Em_Em; auto.
  - rewrite E_info, !Em_lift, IE; auto.
  - rewrite E_scalar_get, !Em_lift, IE; auto.
  - rewrite !Em_lift, E_set; auto.
  - change (generic_get (E s) (ev w)) with (generic_get s w). rewrite !Em_lift, IE; auto.
  - rewrite !Em_lift, E_gset; auto.
  - rewrite E_ts_get, !Em_lift, Em_Em; auto.
  - rewrite !Em_lift, E_tset; auto.
  - rewrite !Em_lift. f_equal. unfold ts_setitem. rewrite E_ts_get. destruct (ts_get s v) as [s1 [xs|e]]; simpl.
    + rewrite E_handle_set, Em_Em; auto.
    + unfold Em; simpl; now rewrite E_E.
  - simpl. destruct (v_data w); auto. rewrite E_ts_get. destruct (ts_get s v) as [s1 [xs|e]]; unfold Em; simpl; now rewrite E_E.
  - rewrite IE. auto.
  - rewrite E_handle_set, !Em_lift, Em_Em; auto.
  - rewrite E_iadd, !Em_lift, Em_Em; auto.
  - rewrite !Em_lift. unfold ts_lock. unfold Em. simpl. rewrite !E_set_view, E_E. auto.
  - rewrite !Em_lift. unfold ts_unlock. rewrite <- !E_ts_write, !E_set_view, E_E. auto.
Qed.

(** States that differ in these flags only behave the same for ever. *)
Lemma E_same s s' o : wf s -> wf s' -> E s = E s' ->
  answer env o s = answer env o s' /\ E (after env o s) = E (after env o s').
Proof.
  intros W W' H. pose proof (E_step s o W) as A. pose proof (E_step s' o W') as B. rewrite H in A. rewrite A in B.
  unfold answer, after, Em in *. split; congruence.
Qed.
Lemma E_run h : forall s s', wf s -> wf s' -> E s = E s' -> E (run env s h) = E (run env s' h).
Proof.
  induction h as [|o h IH]; intros s s' W W' H; auto.
  apply (IH (after env o s) (after env o s')); [apply wf_after; auto|apply wf_after; auto|].
  apply E_same; auto.
Qed.
End P.
