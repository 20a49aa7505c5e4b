(** Reading through a view is not noticed through other views (C82). *)
From Coq Require Import String List Arith Lia Bool ZArith Reals.
From Verif Require Import Base ListFacts Units TimeModel Core CoreEvo CoreTree CoreNames CoreInv CoreStep Spec_Core CoreReq CoreP1
  CoreP2 CoreLeaves CoreP4 Spec_Apart.
Import ListNotations.
Local Open Scope nat_scope.

(** ** Requests do not look at views *)
Definition put (vs : list view) (s : state) : state := mkState (st_regions s) (st_params s) vs.
Definition Pm {A} (vs : list view) (x : state * A) : state * A := (put vs (fst x), snd x).

Section Put.
Variable vs : list view.
Notation C := (put vs).
Notation Cm := (Pm vs).
Lemma P_subregion s r n : get_or_create_subregion (C s) r n = Cm (get_or_create_subregion s r n).
Proof.
  unfold get_or_create_subregion, Pm. simpl. destruct (nth_error (st_regions s) r); auto.
  destruct (alookup n (r_children r0)); auto. destruct (r_aggregated r0); auto.
Qed.
Lemma P_subregions ns : forall s r, subregions (C s) r ns = Cm (subregions s r ns).
Proof.
  induction ns; intros s r; auto. simpl. rewrite P_subregion.
  destruct (get_or_create_subregion s r a) as [s' [c|e]]; simpl; auto.
Qed.
Lemma P_get_region s n : get_or_create_region (C s) n = Cm (get_or_create_region s n).
Proof.
  unfold get_or_create_region. destruct (hcomponents n); auto. simpl.
  change (match st_regions s with [] => None | x :: _ => Some x end) with (nth_error (st_regions s) 0).
  destruct (nth_error (st_regions s) 0); auto. destruct (s0 =? r_name r)%string; auto. apply P_subregions.
Qed.
Lemma P_root s r n : get_or_create_root_parameter (C s) r n = Cm (get_or_create_root_parameter s r n).
Proof.
  unfold get_or_create_root_parameter, Pm. simpl. destruct (nth_error (st_regions s) r); auto.
  destruct (alookup n (r_params r0)); auto.
Qed.
Lemma P_child s r n : get_or_create_child_parameter (C s) r n = Cm (get_or_create_child_parameter s r n).
Proof.
  unfold get_or_create_child_parameter, Pm. simpl. destruct (nth_error (st_params s) r); auto.
  destruct (alookup n (p_children p)); auto. destruct (p_written p); auto. destruct (p_read p); auto.
Qed.
Lemma P_subparams ns : forall s r, subparameters (C s) r ns = Cm (subparameters s r ns).
Proof.
  induction ns; intros s r; auto. simpl. rewrite P_child.
  destruct (get_or_create_child_parameter s r a) as [s' [c|e]]; simpl; auto.
Qed.
Lemma P_get_param s n r : get_or_create_parameter (C s) n r = Cm (get_or_create_parameter s n r).
Proof.
  unfold get_or_create_parameter. destruct (hcomponents n); auto. rewrite P_root.
  destruct (get_or_create_root_parameter s r s0) as [s' [c|e]]; simpl; auto. apply P_subparams.
Qed.
Lemma P_locate s n r : locate (C s) n r = Cm (locate s n r).
Proof.
  unfold locate. rewrite P_get_region. destruct (get_or_create_region s r) as [s' [c|e]]; simpl; auto.
  apply P_get_param.
Qed.
Lemma P_on_param s p f : on_param (C s) p f = Cm (on_param s p f).
Proof. unfold on_param, Pm. simpl. destruct (nth_error (st_params s) p); auto. destruct (f p0); auto. Qed.
Lemma P_get_subregion ns : forall s r, get_subregion (C s) r ns = get_subregion s r ns.
Proof. induction ns; intros s r; simpl; auto. destruct (nth_error _ _); auto. destruct (alookup _ _); auto. Qed.
Lemma P_get_subparameter ns : forall s r, get_subparameter (C s) r ns = get_subparameter s r ns.
Proof. induction ns; intros s r; simpl; auto. destruct (nth_error _ _); auto. destruct (alookup _ _); auto. Qed.
Lemma P_info s n r : info (C s) n r = info s n r.
Proof.
  unfold info, get_region. destruct (hcomponents r); auto. simpl.
  change (match st_regions s with [] => None | x :: _ => Some x end) with (nth_error (st_regions s) 0).
  destruct (nth_error (st_regions s) 0); auto. destruct (_ =? _)%string; auto.
  rewrite P_get_subregion. destruct (get_subregion s 0 l); auto.
  unfold get_parameter. destruct (hempty n); auto. destruct (hcomponents n); auto. simpl.
  destruct (nth_error (st_regions s) n0); auto. destruct (alookup _ _); auto. now rewrite P_get_subparameter.
Qed.
End Put.

(** ** States that differ in some views only *)
Section Differ.
Variable V : nat -> Prop.
Record twin (s s' : state) : Prop := {
  tw_regions : st_regions s' = st_regions s;
  tw_params : st_params s' = st_params s;
  tw_len : length (st_views s') = length (st_views s);
  tw_views : forall i, ~ V i -> nth_error (st_views s') i = nth_error (st_views s) i;
  tw_public : forall i, option_map v_public (nth_error (st_views s') i) = option_map v_public (nth_error (st_views s) i) }.
Definition okv {A} (x x' : state * res A) : Prop := snd x' = snd x /\ twin (fst x) (fst x').
(** Neither the view nor those below it are among them. *)
Definition free (s : state) (vi : nat) : Prop :=
  ~ V vi /\ forall v cs c, nth_error (st_views s) vi = Some v -> v_children v = Some cs -> In c cs -> ~ V c.

Lemma okv_ret {A} s s' (r : res A) : twin s s' -> okv (s, r) (s', r).
Proof. split; auto. Qed.
Lemma okv_eq {A} t t' (r r' : res A) : okv (t, r) (t', r') -> r' = r /\ twin t t'.
Proof. auto. Qed.
Lemma okv_val {A B} t t' (r r' : res A) (y : res B) : okv (t, r) (t', r') -> okv (t, y) (t', y).
Proof. intros [_ T]. now split. Qed.
Lemma twin_view s s' i w : twin s s' -> ~ V i -> twin (set_view s i w) (set_view s' i w).
Proof.
  intros T N. constructor; cbn; try apply T.
  - rewrite !upd_length. apply T.
  - intros j Nj. rewrite !nth_upd, (tw_views _ _ T j Nj). reflexivity.
  - intros j. rewrite !nth_upd. destruct (i =? j) eqn:E; [|apply T].
    apply Nat.eqb_eq in E. subst. now rewrite (tw_views _ _ T j N).
Qed.
Lemma twin_param s s' p q : twin s s' -> twin (set_param s p q) (set_param s' p q).
Proof. intros T. constructor; cbn; try apply T. now rewrite (tw_params _ _ T). Qed.

Lemma scalar_get_twin s s' vi v : twin s s' -> free s vi -> nth_error (st_views s) vi = Some v -> scalar_get s' v = scalar_get s v.
Proof.
  intros T [N F] W. unfold scalar_get. rewrite (tw_params _ _ T). destruct (nth_error (st_params s) (v_param v)) as [q|]; auto.
  destruct (has_children q); auto. destruct (v_children v) as [cs|] eqn:Cs; auto.
  assert (E : rmap (scalar_leaf_get s') cs = rmap (scalar_leaf_get s) cs); [|now rewrite E].
  apply rmap_ext. intros c I. unfold scalar_leaf_get. rewrite (tw_views _ _ T c), (tw_params _ _ T); auto.
  exact (F v cs c W Cs I).
Qed.
Lemma generic_get_twin s s' v : twin s s' -> generic_get s' v = generic_get s v.
Proof. intros T. unfold generic_get. now rewrite (tw_params _ _ T). Qed.
Lemma on_param_twin s s' p f : twin s s' -> okv (on_param s p f) (on_param s' p f).
Proof.
  intros T. unfold on_param. rewrite (tw_params _ _ T). destruct (nth_error (st_params s) p) as [q|]; [|now apply okv_ret].
  destruct (f q) as [q' r]. split; auto. now apply twin_param.
Qed.
Lemma store_twin s s' p d : twin s s' -> twin (store s p d) (store s' p d).
Proof.
  intros T. unfold store. rewrite (tw_params _ _ T). destruct (nth_error (st_params s) p) as [q|]; auto. now apply twin_param.
Qed.
Lemma check_write_twin s s' vi v t u tp : twin s s' -> ~ V vi -> okv (check_write s vi v t u tp) (check_write s' vi v t u tp).
Proof.
  intros T N. unfold check_write. destruct (v_writable v); [now apply okv_ret|].
  pose proof (on_param_twin s s' (v_param v) (fun q => attempt_write q t u tp) T) as O.
  destruct (on_param s _ _) as [s1 r1], (on_param s' _ _) as [s1' r1']. destruct (okv_eq _ _ _ _ O) as (-> & T1).
  destruct r1; [|exact O]. split; auto. now apply twin_view.
Qed.
Lemma scalar_set_twin s s' vi v x : twin s s' -> ~ V vi -> okv (scalar_set s vi v x) (scalar_set s' vi v x).
Proof.
  intros T N. unfold scalar_set. pose proof (check_write_twin s s' vi v SCALAR (Some (v_unit v)) None T N) as O.
  destruct (check_write s _ _ _ _ _) as [s1 r1], (check_write s' _ _ _ _ _) as [s1' r1']. destruct (okv_eq _ _ _ _ O) as (-> & T1).
  destruct r1; [|exact O]. split; auto. now apply store_twin.
Qed.
Lemma generic_set_twin s s' vi v x : twin s s' -> ~ V vi -> okv (generic_set s vi v x) (generic_set s' vi v x).
Proof.
  intros T N. unfold generic_set. pose proof (check_write_twin s s' vi v GENERIC None None T N) as O.
  destruct (check_write s _ _ _ _ _) as [s1 r1], (check_write s' _ _ _ _ _) as [s1' r1']. destruct (okv_eq _ _ _ _ O) as (-> & T1).
  destruct r1; [|exact O]. split; auto. now apply store_twin.
Qed.
Lemma read_with_twin get s s' vi : twin s s' -> ~ V vi ->
  (forall v, nth_error (st_views s) vi = Some v -> okv (get s v) (get s' v)) ->
  okv (read_with get s vi) (read_with get s' vi).
Proof.
  intros T N G. unfold read_with. rewrite (tw_views _ _ T vi N), (tw_params _ _ T).
  destruct (nth_error (st_views s) vi) as [v|] eqn:W; [|now apply okv_ret]. specialize (G v eq_refl).
  destruct (nth_error (st_params s) (v_param v)) as [q|]; [|now apply okv_ret].
  destruct (get s v) as [s1 r1], (get s' v) as [s1' r1']. destruct (okv_eq _ _ _ _ G) as (-> & T1).
  destruct (v_data v) as [d|].
  - destruct (v_version v); [|now apply okv_ret]. destruct (_ =? _); [now apply okv_ret|].
    destruct r1; [|exact G]. destruct (a_int d); [eapply okv_val; exact G|]. split; auto. now apply twin_view.
  - destruct r1; [|exact G]. split; auto. now apply twin_view.
Qed.
Lemma sum_children_twin cs : forall s s' acc, twin s s' -> (forall c, In c cs -> ~ V c) ->
  okv (sum_children s cs acc) (sum_children s' cs acc).
Proof.
  induction cs as [|c cs IH]; intros s s' acc T N; cbn [sum_children]; [now apply okv_ret|].
  assert (G : okv (read_with leaf_values s c) (read_with leaf_values s' c)).
  { apply read_with_twin; auto; [apply N; now left|]. intros v _. unfold leaf_values. rewrite (tw_params _ _ T).
    destruct (nth_error (st_params s) (v_param v)); now apply okv_ret. }
  destruct (read_with leaf_values s c) as [s1 r1], (read_with leaf_values s' c) as [s1' r1'].
  destruct (okv_eq _ _ _ _ G) as (-> & T1). destruct r1; [|exact G].
  assert (N1 : forall c, In c cs -> ~ V c) by (intros; apply N; now right).
  destruct acc as [a0|]; [|now apply IH]. destruct (arr_add a0 a); [now apply IH|eapply okv_val; exact G].
Qed.
Lemma ts_get_twin s s' vi : twin s s' -> free s vi -> okv (ts_get s vi) (ts_get s' vi).
Proof.
  intros T [N F]. apply read_with_twin; auto. intros v W. unfold get_values. rewrite (tw_params _ _ T).
  destruct (nth_error (st_params s) (v_param v)) as [q|]; [|now apply okv_ret].
  destruct (has_children q); [|now apply okv_ret]. destruct (v_children v) as [cs|] eqn:Cs; [|now apply okv_ret].
  apply sum_children_twin; auto. intros c I. exact (F v cs c W Cs I).
Qed.
Lemma ts_write_twin s s' vi : twin s s' -> ~ V vi -> okv (ts_write s vi) (ts_write s' vi).
Proof.
  intros T N. unfold ts_write. rewrite (tw_views _ _ T vi N), (tw_params _ _ T).
  destruct (nth_error (st_views s) vi) as [v|]; [|now apply okv_ret].
  destruct (v_locked v); [now apply okv_ret|]. destruct (v_data v); [|now apply okv_ret].
  destruct (nth_error (st_params s) (v_param v)) as [q|]; [|now apply okv_ret]. destruct (to_param _ _); [|now apply okv_ret].
  split; auto. apply twin_view; auto. now apply twin_param.
Qed.
Lemma ts_set_twin s s' vi v a : twin s s' -> ~ V vi -> okv (ts_set s vi v a) (ts_set s' vi v a).
Proof.
  intros T N. unfold ts_set.
  pose proof (check_write_twin s s' vi v (tc_type (v_tconv v)) (Some (v_unit v)) (Some (mkTP 1 (tc_target (v_tconv v)))) T N) as O.
  destruct (check_write s _ _ _ _ _) as [s1 r1], (check_write s' _ _ _ _ _) as [s1' r1']. destruct (okv_eq _ _ _ _ O) as (-> & T1).
  destruct r1; [|exact O]. destruct (_ =? _)%Z; [|eapply okv_val; exact O].
  rewrite (tw_views _ _ T1 vi N). destruct (nth_error (st_views s1) vi) as [v1|]; [|eapply okv_val; exact O].
  destruct (v_data v1) as [d|].
  - destruct (_ && _)%bool; [eapply okv_val; exact O|]. apply ts_write_twin; auto. now apply twin_view.
  - apply ts_write_twin; auto. now apply twin_view.
Qed.
Lemma handle_set_twin s s' vi i x : twin s s' -> ~ V vi -> okv (handle_set s vi i x) (handle_set s' vi i x).
Proof.
  intros T N. unfold handle_set. rewrite (tw_views _ _ T vi N).
  destruct (nth_error (st_views s) vi) as [v|]; [|now apply okv_ret].
  destruct (v_data v) as [d|]; [|now apply okv_ret]. destruct (pyindex _ _); [|now apply okv_ret].
  destruct (cast_item _ _); [|now apply okv_ret]. apply ts_write_twin; auto. now apply twin_view.
Qed.
Lemma handle_iadd_twin s s' vi x : twin s s' -> free s vi -> okv (handle_iadd s vi x) (handle_iadd s' vi x).
Proof.
  intros T F. pose proof F as [N _]. unfold handle_iadd. rewrite (tw_views _ _ T vi N).
  destruct (nth_error (st_views s) vi) as [v|]; [|now apply okv_ret]. destruct (v_data v); [|now apply okv_ret].
  pose proof (ts_get_twin s s' vi T F) as G. destruct (ts_get s vi) as [s1 r1], (ts_get s' vi) as [s1' r1'].
  destruct (okv_eq _ _ _ _ G) as (-> & T1). destruct r1; [|eapply okv_val; exact G].
  rewrite (tw_views _ _ T1 vi N). destruct (nth_error (st_views s1) vi) as [v1|]; [|eapply okv_val; exact G].
  destruct (v_data v1) as [d|]; [|eapply okv_val; exact G]. destruct (a_int d); [eapply okv_val; exact G|].
  apply ts_write_twin; auto. now apply twin_view.
Qed.

(** Requests *)
Lemma twin_put s s' : twin s s' -> s' = put (st_views s') s.
Proof. intros T. destruct s, s'. unfold put. cbn. pose proof (tw_regions _ _ T). pose proof (tw_params _ _ T). cbn in *. congruence. Qed.
Lemma twin_same s s' t : twin s s' -> st_views t = st_views s -> twin t (put (st_views s') t).
Proof.
  intros T E. constructor; cbn; auto; rewrite ?E; apply T.
Qed.
Lemma twin_app s s' l : twin s s' -> twin (mkState (st_regions s) (st_params s) (st_views s ++ l))
  (mkState (st_regions s') (st_params s') (st_views s' ++ l)).
Proof.
  intros T. constructor; cbn; try apply T.
  - rewrite !app_length, (tw_len _ _ T). auto.
  - intros i N. destruct (Nat.lt_ge_cases i (length (st_views s))) as [L|L].
    + rewrite !nth_error_app1; auto; [now apply (tw_views _ _ T)|now rewrite (tw_len _ _ T)].
    + rewrite !nth_error_app2, (tw_len _ _ T); auto. now rewrite (tw_len _ _ T).
  - intros i. destruct (Nat.lt_ge_cases i (length (st_views s))) as [L|L].
    + rewrite !nth_error_app1; auto; [apply (tw_public _ _ T)|now rewrite (tw_len _ _ T)].
    + rewrite !nth_error_app2, (tw_len _ _ T); auto. now rewrite (tw_len _ _ T).
Qed.
Lemma build_twin s s' mk p : twin s s' -> okv (build_view s mk p) (build_view s' mk p).
Proof.
  intros T. unfold build_view. unfold param_leaves. rewrite (tw_params _ _ T), (tw_len _ _ T).
  destruct (nth_error (st_params s) p) as [q|]; [|now apply okv_ret]. destruct (mk p) as [v|]; [|now apply okv_ret].
  destruct (has_children q).
  - destruct (leaves _ _ _) as [ls|]; [|now apply okv_ret]. destruct (rmap mk ls); [|now apply okv_ret].
    split; auto. cbn [fst]. rewrite <- (tw_params _ _ T) at 2. now apply twin_app.
  - split; auto. cbn [fst]. rewrite <- (tw_params _ _ T) at 2. now apply twin_app.
Qed.
Lemma locate_views s n r : st_views (fst (locate s n r)) = st_views s.
Proof.
  pose proof (P_locate (st_views s) s n r) as H. replace (put (st_views s) s) with s in H by (destruct s; reflexivity).
  rewrite H. reflexivity.
Qed.
Lemma on_param_views s p f : st_views (fst (on_param s p f)) = st_views s.
Proof. unfold on_param. destruct (nth_error _ _); auto. destruct (f p0). reflexivity. Qed.
Lemma locate_twin s s' n r : twin s s' -> okv (locate s n r) (locate s' n r).
Proof.
  intros T. rewrite (twin_put _ _ T), P_locate. split; auto. cbn [fst Pm]. apply twin_same with (s := s); auto. apply locate_views.
Qed.
Lemma info_twin s s' n r : twin s s' -> info s' n r = info s n r.
Proof. intros T. rewrite (twin_put _ _ T). apply P_info. Qed.

Section Env.
Variable env : uenv.
Lemma scalar_view_twin s s' n u r : twin s s' -> okv (ps_scalar env s n u r) (ps_scalar env s' n u r).
Proof.
  intros T. unfold ps_scalar. pose proof (locate_twin s s' n r T) as L.
  destruct (locate s n r) as [s1 r1], (locate s' n r) as [s1' r1']. destruct (okv_eq _ _ _ _ L) as (-> & T1).
  destruct r1 as [p|]; [|exact L].
  pose proof (on_param_twin s1 s1' p (fun q => attempt_read q SCALAR (Some u) None) T1) as O.
  destruct (on_param s1 p _) as [s2 r2], (on_param s1' p _) as [s2' r2']. destruct (okv_eq _ _ _ _ O) as (-> & T2).
  destruct r2; [|eapply okv_val; exact O].
  replace (scalar_leaf_view env s2' u) with (scalar_leaf_view env s2 u); [now apply build_twin|].
  unfold scalar_leaf_view. now rewrite (tw_params _ _ T2).
Qed.
Lemma ts_view_twin s s' n u tp r a b c : twin s s' -> okv (ps_timeseries env s n u tp r a b c) (ps_timeseries env s' n u tp r a b c).
Proof.
  intros T. unfold ps_timeseries. destruct (from_timeseries_type a) as [ty|]; [|now apply okv_ret].
  destruct (from_interpolation_type b); [|now apply okv_ret]. destruct (from_extrapolation_type c); [|now apply okv_ret].
  pose proof (locate_twin s s' n r T) as L.
  destruct (locate s n r) as [s1 r1], (locate s' n r) as [s1' r1']. destruct (okv_eq _ _ _ _ L) as (-> & T1).
  destruct r1 as [p|]; [|exact L].
  match goal with |- context [on_param s1 p ?f] => pose proof (on_param_twin s1 s1' p f T1) as O end.
  destruct (on_param s1 p _) as [s2 r2], (on_param s1' p _) as [s2' r2']. destruct (okv_eq _ _ _ _ O) as (-> & T2).
  destruct r2; [|eapply okv_val; exact O].
  match goal with |- okv (build_view s2 ?f p) (build_view s2' ?g p) => replace g with f; [now apply build_twin|] end.
  unfold ts_leaf_view. now rewrite (tw_params _ _ T2).
Qed.
Lemma generic_view_twin s s' n r : twin s s' -> okv (ps_generic s n r) (ps_generic s' n r).
Proof.
  intros T. unfold ps_generic. pose proof (locate_twin s s' n r T) as L.
  destruct (locate s n r) as [s1 r1], (locate s' n r) as [s1' r1']. destruct (okv_eq _ _ _ _ L) as (-> & T1).
  destruct r1 as [p|]; [|exact L].
  match goal with |- context [on_param s1 p ?f] => pose proof (on_param_twin s1 s1' p f T1) as O end.
  destruct (on_param s1 p _) as [s2 r2], (on_param s1' p _) as [s2' r2']. destruct (okv_eq _ _ _ _ O) as (-> & T2).
  destruct r2; [|eapply okv_val; exact O].
  rewrite (tw_len _ _ T2). split; auto. now apply twin_app.
Qed.

Lemma okv_lift {A} (g : A -> val) x x' : okv x x' -> okv (lift g x) (lift g x').
Proof.
  destruct x as [t r], x' as [t' r']. intros O. destruct (okv_eq _ _ _ _ O) as (-> & T).
  destruct r; cbn; now apply okv_ret.
Qed.
(** One call that is not made through one of the views in [V] *)
Lemma step_twin o s s' : twin s s' -> (forall vi v, works_on o = Some vi -> nth_error (st_views s) vi = Some v ->
    v_public v = true -> free s vi) ->
  okv (step env o s) (step env o s').
Proof.
  intros T F.
  assert (WV : forall vi k f g, works_on o = Some vi -> (forall v, nth_error (st_views s) vi = Some v -> free s vi -> okv (f v) (g v)) ->
    okv (with_view s vi k f) (with_view s' vi k g)).
  { intros vi k f g W H. unfold with_view. pose proof (tw_public _ _ T vi) as Pb.
    destruct (nth_error (st_views s) vi) as [v|] eqn:Vv.
    - destruct (v_public v) eqn:Pv.
      + pose proof (F vi v W Vv Pv) as Fr. rewrite (tw_views _ _ T vi (proj1 Fr)), Vv, Pv.
        destruct (v_kind v), k; try (now apply okv_ret); now apply H.
      + destruct (nth_error (st_views s') vi) as [v'|]; [|discriminate]. cbn in Pb. inversion Pb as [Pb']. rewrite Pb', Pv. now apply okv_ret.
    - destruct (nth_error (st_views s') vi) as [v'|]; [discriminate|]. now apply okv_ret. }
  destruct o; cbn [step]; try (apply WV; [reflexivity|]; intros w W Fr; pose proof (proj1 Fr) as Nv); try apply okv_lift.
  - now apply scalar_view_twin.
  - now apply ts_view_twin.
  - now apply generic_view_twin.
  - rewrite (info_twin s s'); auto. now apply okv_ret.
  - rewrite (scalar_get_twin s s' v w); auto. now apply okv_ret.
  - now apply scalar_set_twin.
  - rewrite (generic_get_twin s s'); auto. now apply okv_ret.
  - now apply generic_set_twin.
  - now apply ts_get_twin.
  - now apply ts_set_twin.
  - unfold ts_setitem. pose proof (ts_get_twin s s' v T Fr) as G.
    destruct (ts_get s v) as [s1 r1], (ts_get s' v) as [s1' r1']. destruct (okv_eq _ _ _ _ G) as (-> & T1).
    destruct r1; [|eapply okv_val; exact G]. now apply handle_set_twin.
  - destruct (v_data w); [|now apply okv_ret]. pose proof (ts_get_twin s s' v T Fr) as G.
    destruct (ts_get s v) as [s1 r1], (ts_get s' v) as [s1' r1']. destruct (okv_eq _ _ _ _ G) as (-> & T1).
    destruct r1; eapply okv_val; exact G.
  - now apply okv_ret.
  - now apply handle_set_twin.
  - now apply handle_iadd_twin.
  - split; auto. now apply twin_view.
  - apply ts_write_twin; auto. now apply twin_view.
Qed.
End Env.
End Differ.

(** ** Reads change only caches of the view and of those below it *)
Section Reads.
Variable V : nat -> Prop.
Lemma twin_refl s : twin V s s.
Proof. constructor; auto. Qed.
Lemma twin_sym s s' : twin V s s' -> twin V s' s.
Proof.
  intros T. constructor; intros; symmetry; try apply T; auto.
Qed.
Lemma twin_trans a b c : twin V a b -> twin V b c -> twin V a c.
Proof.
  intros T U. constructor.
  - rewrite (tw_regions _ _ _ U). apply T.
  - rewrite (tw_params _ _ _ U). apply T.
  - rewrite (tw_len _ _ _ U). apply T.
  - intros i N. rewrite (tw_views _ _ _ U i N). now apply (tw_views _ _ _ T).
  - intros i. rewrite (tw_public _ _ _ U). apply T.
Qed.
Lemma twin_cache s i v w : V i -> nth_error (st_views s) i = Some v -> v_public w = v_public v -> twin V s (set_view s i w).
Proof.
  intros Vi W P. constructor; cbn; auto.
  - apply upd_length.
  - intros j N. rewrite nth_upd. destruct (i =? j) eqn:E; auto. apply Nat.eqb_eq in E. now subst.
  - intros j. rewrite nth_upd. destruct (i =? j) eqn:E; auto. apply Nat.eqb_eq in E. subst. rewrite W. cbn. now rewrite P.
Qed.
Lemma read_with_quiet get s vi : V vi -> (forall v, nth_error (st_views s) vi = Some v ->
    twin V s (fst (get s v)) /\ exists v', nth_error (st_views (fst (get s v))) vi = Some v' /\ v_public v' = v_public v) ->
  twin V s (fst (read_with get s vi)).
Proof.
  intros Vi G. unfold read_with. destruct (nth_error (st_views s) vi) as [v|] eqn:W; [|apply twin_refl].
  destruct (G v eq_refl) as (T & v' & W' & P). destruct (nth_error (st_params s) (v_param v)) as [q|]; [|apply twin_refl].
  destruct (get s v) as [s1 r1]. cbn in T, W'.
  assert (TC : forall d ver, twin V s (set_view s1 vi (v_set_version (v_set_data v d) ver))).
  { intros d ver. eapply twin_trans; [exact T|]. apply twin_cache with (v := v'); auto. }
  destruct (v_data v) as [d|].
  - destruct (v_version v); [|apply twin_refl]. destruct (_ =? _); [apply twin_refl|].
    destruct r1; [|exact T]. destruct (a_int d); [exact T|]. cbn. apply TC.
  - destruct r1; [|exact T]. cbn. apply TC.
Qed.
Lemma sum_children_quiet cs : forall s acc, (forall c, In c cs -> V c) -> twin V s (fst (sum_children s cs acc)).
Proof.
  induction cs as [|c cs IH]; intros s acc H; cbn [sum_children]; [apply twin_refl|].
  assert (T : twin V s (fst (read_with leaf_values s c))).
  { apply read_with_quiet; [apply H; now left|]. intros v W. unfold leaf_values.
    destruct (nth_error (st_params s) (v_param v)); (split; [apply twin_refl|]); cbn; eauto. }
  destruct (read_with leaf_values s c) as [s1 r1]. cbn in T. destruct r1; [|exact T].
  assert (N1 : forall c, In c cs -> V c) by (intros; apply H; now right).
  destruct acc as [a0|]; [|eapply twin_trans; eauto]. destruct (arr_add a0 a); [eapply twin_trans; eauto|exact T].
Qed.
Lemma ts_get_quiet s vi : V vi -> (forall v cs c, nth_error (st_views s) vi = Some v -> v_children v = Some cs -> In c cs -> V c) ->
  twin V s (fst (ts_get s vi)).
Proof.
  intros Vi F. apply read_with_quiet; auto. intros v W.
  assert (T : twin V s (fst (get_values s v))).
  { unfold get_values. destruct (nth_error (st_params s) (v_param v)) as [q|]; [|apply twin_refl].
    destruct (has_children q); [|apply twin_refl]. destruct (v_children v) as [cs|] eqn:Cs; [|apply twin_refl].
    apply sum_children_quiet. intros c I. exact (F v cs c W Cs I). }
  split; auto. pose proof (tw_public _ _ _ T vi) as P. rewrite W in P. cbn in P.
  destruct (nth_error (st_views (fst (get_values s v))) vi) as [v'|]; [|discriminate]. exists v'. split; [reflexivity|cbn in P; congruence].
Qed.
Lemma read_quiet env o vi s : looks_through o vi ->
  (forall v, nth_error (st_views s) vi = Some v -> v_public v = true -> V vi /\
    forall cs c, v_children v = Some cs -> In c cs -> V c) -> twin V s (after env o s).
Proof.
  intros L F.
  assert (G : forall v, nth_error (st_views s) vi = Some v -> v_public v = true -> twin V s (fst (ts_get s vi))).
  { intros v W P. destruct (F v W P) as [Vi Fc]. apply ts_get_quiet; auto. intros v2 cs c W2. rewrite W in W2. inversion W2; subst. apply Fc. }
  unfold after.
  assert (WV : forall k f, (forall v, nth_error (st_views s) vi = Some v -> v_public v = true -> twin V s (fst (f v))) ->
    twin V s (fst (with_view s vi k f))).
  { intros k f H. unfold with_view. destruct (nth_error (st_views s) vi) as [v|]; [|apply twin_refl].
    destruct (v_public v) eqn:P; [|apply twin_refl]. destruct (v_kind v), k; try apply twin_refl; now apply H. }
  assert (LF : forall A (g : A -> val) (x : state * res A), fst (lift g x) = fst x) by (intros A g [t r]; destruct r; reflexivity).
  destruct L as [->|[->|[->|[[i ->]| ->]]]]; cbn [step]; apply WV; intros v W P; try rewrite LF; try apply twin_refl; eauto.
  destruct (v_data v); [|apply twin_refl]. specialize (G v W P). destruct (ts_get s vi) as [s1 r1]. destruct r1; exact G.
Qed.
End Reads.
Lemma twin_mono (V V' : nat -> Prop) s s' : (forall i, V i -> V' i) -> twin V s s' -> twin V' s s'.
Proof. intros M T. constructor; intros; try apply T; auto. Qed.

(** ** Whole schedules *)
Section Whole.
Variable env : uenv.
Variable Wt : nat -> Prop.
Definition seen (s : state) (i : nat) : Prop := exists v w, Wt v /\ nth_error (st_views s) v = Some w /\ v_public w = true /\
  (i = v \/ exists cs, v_children w = Some cs /\ In i cs).
Lemma seen_evo s s' i : evo s s' -> seen s i -> seen s' i.
Proof.
  intros E (v & w & A & B & C & D). destruct (ev_views _ _ E v w B) as (w' & B' & Ve). exists v, w'.
  rewrite (ve_public _ _ Ve), (ve_children _ _ Ve). auto.
Qed.
Lemma free_others s vi v : reachable env s -> nth_error (st_views s) vi = Some v -> v_public v = true -> ~ Wt vi -> free (seen s) s vi.
Proof.
  intros Rs W P N. pose proof (family_reachable _ _ Rs) as F. pose proof (reachable_wf _ _ Rs) as Wf. split.
  - intros (x & w & A & B & C & [->|(cs & D & I)]); [contradiction|].
    destruct (F _ _ _ B D) as (_ & _ & H). destruct (H vi I) as (cv & Hc & Hp & _). congruence.
  - intros v2 cs c W2 Cs I (x & w & A & B & C & D). assert (v2 = v) by congruence. subst.
    destruct (F _ _ _ W Cs) as (_ & _ & H). destruct (H c I) as (cv & Hc & Hp & _).
    destruct D as [->|(cs' & D & I')]; [congruence|].
    assert (x = vi) by (eapply family_disjoint with (v1 := x) (v2 := vi); eauto). subst. contradiction.
Qed.

Lemma schedule_twin u h : forall s s', reachable env s -> reachable env s' -> twin (seen s) s s' ->
  (forall o, In (u, o) h -> exists v, looks_through o v /\ Wt v) ->
  (forall u' o' v, In (u', o') h -> u' <> u -> works_on o' = Some v -> ~ Wt v) ->
  forall w, w <> u -> answers_to env w h s = answers_to env w (without u h) s'.
Proof.
  induction h as [|[x o] h IH]; intros s s' Rs Rs' T Hu Ho w Nw; auto. unfold without. cbn [filter answers_to fst].
  assert (Hu1 : forall o, In (u, o) h -> exists v, looks_through o v /\ Wt v) by (intros; apply Hu; now right).
  assert (Ho1 : forall u' o' v, In (u', o') h -> u' <> u -> works_on o' = Some v -> ~ Wt v) by (intros u' o' v I; apply (Ho u'); now right).
  assert (Ev : evo s (after env o s)) by (apply (evo_step env o s _ _ (surjective_pairing _))).
  destruct (Nat.eqb_spec x u) as [->|Nx]; cbn [negb].
  - destruct (Nat.eqb_spec u w) as [->|_]; [contradiction|]. cbn [app]. apply IH; auto.
    + now apply reachable_after.
    + apply twin_mono with (V := seen s); [intros i; now apply seen_evo|].
      apply twin_trans with (b := s); auto. apply twin_sym. destruct (Hu o (or_introl eq_refl)) as (v & L & Wv).
      apply read_quiet with (vi := v); auto. intros v0 A B. split; [exists v, v0; auto|].
      intros cs c Cs I. exists v, v0. eauto 10.
  - cbn [answers_to]. assert (O : okv (seen s) (step env o s) (step env o s')).
    { apply step_twin; auto. intros vi v A B C. apply free_others with (v := v); auto.
      apply (Ho x o vi); auto. now left. }
    destruct O as [Oa Ot]. f_equal; [unfold answer; now rewrite Oa|]. apply IH; auto using reachable_after.
    apply twin_mono with (V := seen s); [intros i; now apply seen_evo|exact Ot].
Qed.
End Whole.

Lemma C82_unnoticed_proof env s h u w : reachable env s -> observer u h -> w <> u ->
  answers_to env w h s = answers_to env w (without u h) s.
Proof.
  intros Rs Ob Nw. apply schedule_twin with (Wt := fun v => exists o, In (u, o) h /\ looks_through o v /\
    forall u' o', In (u', o') h -> u' <> u -> works_on o' <> Some v); auto.
  - apply twin_refl.
  - intros o I. destruct (Ob o I) as (v & L & N). exists v. split; auto. exists o. auto.
  - intros u' o' v I Nu Wk (o & _ & _ & H). exact (H u' o' I Nu Wk).
Qed.
