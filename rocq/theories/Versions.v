(** The numbers of versions are not observable: raising all versions above [K] of parameter [P] by [D]
    changes nothing that calls return. *)
From Coq Require Import String List Arith Lia Bool ZArith Reals.
From Verif Require Import Base ListFacts Units TimeModel Core CoreEvo CoreTree CoreNames CoreInv
  CoreStep Spec_Core CoreReq CoreP1 CoreP2.
Import ListNotations.

Section Raise.
Variables P K D : nat.

Definition fv (n : nat) : nat := if K <? n then n + D else n.
Definition bp (i : nat) (q : param) : param :=
  mkParam (p_name q) (p_parent q) (p_region q) (p_children q) (p_read q) (p_written q) (p_type q) (p_unit q)
    (p_time q) (p_data q) (if i =? P then fv (p_version q) else p_version q).
Definition ev (v : view) : view :=
  mkView (v_public v) (v_kind v) (v_param v) (v_unit v) (v_uconv v) (v_tconv v) (v_children v)
    (v_writable v) (v_data v) (v_locked v)
    (option_map (fun n => if v_param v =? P then fv n else n) (v_version v)).
Fixpoint bumps (i : nat) (l : list param) : list param :=
  match l with [] => [] | q :: l' => bp i q :: bumps (S i) l' end.
Definition E (s : state) : state := mkState (st_regions s) (bumps 0 (st_params s)) (map ev (st_views s)).
Definition Em {A} (x : state * A) : state * A := (E (fst x), snd x).

Lemma fv_0 : fv 0 = 0.
Proof. unfold fv. destruct (Nat.ltb_spec K 0); lia. Qed.
Lemma fv_inj m n : fv m =? fv n = (m =? n).
Proof.
  unfold fv. destruct (Nat.ltb_spec K m), (Nat.ltb_spec K n);
    repeat match goal with |- context [?a =? ?b] => destruct (Nat.eqb_spec a b) end; auto; lia.
Qed.
Lemma fv_S n : K < n -> fv (S n) = S (fv n).
Proof. unfold fv. intros. destruct (Nat.ltb_spec K n), (Nat.ltb_spec K (S n)); lia. Qed.

Lemma bumps_nth l : forall k i, nth_error (bumps k l) i = option_map (bp (k + i)) (nth_error l i).
Proof.
  induction l; intros k [|i]; simpl; auto; [now rewrite Nat.add_0_r|]. rewrite IHl. do 2 f_equal. lia.
Qed.
Lemma bumps_len l : forall k, length (bumps k l) = length l.
Proof. induction l; intros; simpl; auto. Qed.
Lemma bumps_upd l : forall k i q, bumps k (upd l i q) = upd (bumps k l) i (bp (k + i) q).
Proof.
  induction l; intros k [|i] q; simpl; auto; [now rewrite Nat.add_0_r|]. rewrite IHl. do 3 f_equal. lia.
Qed.
Lemma bumps_app l : forall k m, bumps k (l ++ m) = bumps k l ++ bumps (k + length l) m.
Proof.
  induction l; intros k m; simpl; [now rewrite Nat.add_0_r|]. rewrite IHl. do 2 f_equal. simpl. f_equal. lia.
Qed.
Lemma bp_new i n pa r : bp i (new_param n pa r) = new_param n pa r.
Proof. unfold bp, new_param. simpl. destruct (i =? P); [now rewrite fv_0|auto]. Qed.

Lemma map_upd {A B} (f : A -> B) l i x : map f (upd l i x) = upd (map f l) i (f x).
Proof. revert i; induction l; intros [|i]; simpl; auto. now rewrite IHl. Qed.
Lemma E_view s i : nth_error (st_views (E s)) i = option_map ev (nth_error (st_views s) i).
Proof. simpl. apply nth_error_map. Qed.
Lemma E_param s i : nth_error (st_params (E s)) i = option_map (bp i) (nth_error (st_params s) i).
Proof. simpl. apply (bumps_nth (st_params s) 0). Qed.
Lemma E_set_view s i v : E (set_view s i v) = set_view (E s) i (ev v).
Proof. unfold E, set_view. simpl. now rewrite map_upd. Qed.
Lemma E_set_param s i q : E (set_param s i q) = set_param (E s) i (bp i q).
Proof. unfold E, set_param. simpl. now rewrite bumps_upd. Qed.
Lemma E_len s : length (st_views (E s)) = length (st_views s).
Proof. simpl. apply map_length. Qed.
Lemma E_plen s : length (st_params (E s)) = length (st_params s).
Proof. simpl. apply bumps_len. Qed.
Ltac pm := match goal with |- context [nth_error (bumps 0 (st_params ?s)) ?i] =>
  change (nth_error (bumps 0 (st_params s)) i) with (nth_error (st_params (E s)) i); rewrite (E_param s i);
  destruct (nth_error (st_params s) i); simpl; auto end.

Lemma E_subregion s r n : get_or_create_subregion (E s) r n = Em (get_or_create_subregion s r n).
Proof.
  unfold get_or_create_subregion, Em. simpl. destruct (nth_error (st_regions s) r); auto.
  destruct (alookup n (r_children r0)); auto. destruct (r_aggregated r0); auto.
Qed.
Lemma E_subregions ns : forall s r, subregions (E s) r ns = Em (subregions s r ns).
Proof.
  induction ns; intros s r; auto. simpl. rewrite E_subregion.
  destruct (get_or_create_subregion s r a) as [s' [c|e]]; simpl; auto.
Qed.
Lemma E_get_region s n : get_or_create_region (E s) n = Em (get_or_create_region s n).
Proof.
  unfold get_or_create_region. destruct (hcomponents n); auto. simpl.
  change (match st_regions s with [] => None | x :: _ => Some x end) with (nth_error (st_regions s) 0).
  destruct (nth_error (st_regions s) 0); auto. destruct (s0 =? r_name r)%string; auto. apply E_subregions.
Qed.
Lemma E_root s r n : get_or_create_root_parameter (E s) r n = Em (get_or_create_root_parameter s r n).
Proof.
  unfold get_or_create_root_parameter, Em. simpl. destruct (nth_error (st_regions s) r); auto.
  destruct (alookup n (r_params r0)); auto. unfold E. simpl. rewrite bumps_app, bumps_len. simpl. now rewrite bp_new.
Qed.
Lemma E_child s r n : get_or_create_child_parameter (E s) r n = Em (get_or_create_child_parameter s r n).
Proof.
  unfold get_or_create_child_parameter, Em. rewrite E_param. destruct (nth_error (st_params s) r); simpl; auto.
  destruct (alookup n (p_children p)); auto. destruct (p_written p); auto. destruct (p_read p); auto.
  unfold E. simpl. rewrite bumps_app, bumps_upd, bumps_len. simpl. now rewrite bp_new.
Qed.
Lemma E_subparams ns : forall s r, subparameters (E s) r ns = Em (subparameters s r ns).
Proof.
  induction ns; intros s r; auto. simpl. rewrite E_child.
  destruct (get_or_create_child_parameter s r a) as [s' [c|e]]; simpl; auto.
Qed.
Lemma E_get_param s n r : get_or_create_parameter (E s) n r = Em (get_or_create_parameter s n r).
Proof.
  unfold get_or_create_parameter. destruct (hcomponents n); auto. rewrite E_root.
  destruct (get_or_create_root_parameter s r s0) as [s' [c|e]]; simpl; auto. apply E_subparams.
Qed.
Lemma E_locate s n r : locate (E s) n r = Em (locate s n r).
Proof.
  unfold locate. rewrite E_get_region. destruct (get_or_create_region s r) as [s' [c|e]]; simpl; auto.
  apply E_get_param.
Qed.
Lemma E_on_param s p f : (forall q, f (bp p q) = (bp p (fst (f q)), snd (f q))) -> on_param (E s) p f = Em (on_param s p f).
Proof.
  intros F. unfold on_param, Em. rewrite E_param. destruct (nth_error (st_params s) p) as [q|]; simpl; auto.
  rewrite F. destruct (f q); simpl. now rewrite E_set_param.
Qed.
Lemma bp_read p t u tp q : attempt_read (bp p q) t u tp = (bp p (fst (attempt_read q t u tp)), snd (attempt_read q t u tp)).
Proof.
  unfold attempt_read, has_children. simpl. destruct (p_type q) as [t'|].
  - destruct (ptype_eqb t' t); auto.
  - destruct t; simpl; auto;
      try (destruct tp as [tp|]; simpl; auto;
           match goal with |- context [if ?b then _ else _] => destruct b end; auto).
Qed.
Lemma bp_write p t u tp q : attempt_write (bp p q) t u tp = (bp p (fst (attempt_write q t u tp)), snd (attempt_write q t u tp)).
Proof.
  unfold attempt_write. change (has_children (bp p q)) with (has_children q). destruct (has_children q); auto.
  rewrite bp_read. destruct (attempt_read q t u tp) as [q' [x|e]]; simpl; auto.
Qed.

Lemma E_get_subregion ns : forall s r, get_subregion (E s) r ns = get_subregion s r ns.
Proof. induction ns; intros s r; simpl; auto. destruct (nth_error _ _); auto. destruct (alookup _ _); auto. Qed.
Lemma E_get_subparameter ns : forall s r, get_subparameter (E s) r ns = get_subparameter s r ns.
Proof.
  induction ns; intros s r; auto. cbn [get_subparameter]. rewrite E_param. destruct (nth_error (st_params s) r); simpl; auto.
  destruct (alookup _ _); auto.
Qed.
Lemma E_leaves fuel : forall ps p, leaves fuel (bumps 0 ps) p = leaves fuel ps p.
Proof.
  induction fuel as [|f IH]; intros ps p; simpl; auto. rewrite bumps_nth. destruct (nth_error ps p); simpl; auto.
  destruct (p_children p0) as [|c cs]; auto.
  change (opt_concat (map (fun c => leaves f (bumps 0 ps) (snd c)) (c :: cs)) = opt_concat (map (fun c => leaves f ps (snd c)) (c :: cs))).
  f_equal. apply map_ext. intros; apply IH.
Qed.
Lemma E_param_leaves s p : param_leaves (E s) p = param_leaves s p.
Proof. unfold param_leaves. rewrite E_plen. apply E_leaves. Qed.
Lemma E_info s n r : info (E s) n r = info s n r.
Proof.
  unfold info, get_region. destruct (hcomponents r); auto. simpl.
  change (match st_regions s with [] => None | x :: _ => Some x end) with (nth_error (st_regions s) 0).
  destruct (nth_error (st_regions s) 0); auto. destruct (_ =? _)%string; auto.
  rewrite E_get_subregion. destruct (get_subregion s 0 l); auto.
  unfold get_parameter. destruct (hempty n); auto. destruct (hcomponents n); auto. simpl.
  destruct (nth_error (st_regions s) n0); auto. destruct (alookup _ _); auto. now rewrite E_get_subparameter.
Qed.

Section P.
Variable env : uenv.
Notation wf := (wf env).

Lemma ev_id v : v_version v = None -> ev v = v.
Proof. destruct v; simpl. intros ->. reflexivity. Qed.
Lemma rmap_ev (mk : nat -> res view) l : (forall p v, mk p = Ok v -> v_version v = None) ->
  forall cvs, rmap mk l = Ok cvs -> map ev cvs = cvs.
Proof.
  intros M. induction l; cbn [rmap]; intros cvs H; [inversion H; auto|].
  destruct (mk a) eqn:A; [|discriminate]. destruct (rmap mk l) as [w|]; [|discriminate]. inversion H; subst.
  simpl. rewrite (IHl w); auto. f_equal. apply ev_id. eapply M; eauto.
Qed.
Lemma rmap_eq {A B} (f g : A -> res B) l : (forall a, f a = g a) -> rmap f l = rmap g l.
Proof. intros H. induction l; cbn [rmap]; auto. now rewrite H, IHl. Qed.
Lemma E_build s mk mk' p : (forall p v, mk p = Ok v -> v_version v = None) -> (forall p, mk' p = mk p) ->
  build_view (E s) mk' p = Em (build_view s mk p).
Proof.
  intros M M'. unfold build_view, Em. rewrite E_param_leaves, E_param. destruct (nth_error (st_params s) p) as [q|]; simpl; auto.
  rewrite M'. destruct (mk p) as [v|] eqn:Mp; auto. pose proof (M _ _ Mp) as Wv.
  change (has_children (bp p q)) with (has_children q). destruct (has_children q).
  - destruct (param_leaves s p) as [ls|]; auto. rewrite (rmap_eq mk' mk) by auto.
    destruct (rmap mk ls) eqn:R; auto. simpl. rewrite map_length. unfold E. simpl. rewrite !map_app. simpl.
    rewrite (rmap_ev _ _ M _ R). rewrite ev_id; auto.
  - simpl. unfold E. simpl. rewrite map_app, map_length. simpl. rewrite ev_id; auto.
Qed.
Lemma scalar_leaf_w s u p v : scalar_leaf_view env s u p = Ok v -> v_version v = None.
Proof.
  unfold scalar_leaf_view. destruct (nth_error _ _); [|discriminate]. destruct (unit_converter _ _ _); [|discriminate].
  intros H; inversion H; auto.
Qed.
Lemma ts_leaf_w s u tg t ex p v : ts_leaf_view env s u tg t ex p = Ok v -> v_version v = None.
Proof.
  unfold ts_leaf_view. destruct (nth_error _ _); [|discriminate]. destruct (unit_converter _ _ _); [|discriminate].
  destruct (p_time _); [|discriminate]. destruct (timeseries_converter _ _ _ _); [|discriminate].
  intros H; inversion H; auto.
Qed.
Lemma scalar_leaf_E s u p : scalar_leaf_view env (E s) u p = scalar_leaf_view env s u p.
Proof. unfold scalar_leaf_view. rewrite E_param. destruct (nth_error (st_params s) p); auto. Qed.
Lemma ts_leaf_E s u tg t ex p : ts_leaf_view env (E s) u tg t ex p = ts_leaf_view env s u tg t ex p.
Proof. unfold ts_leaf_view. rewrite E_param. destruct (nth_error (st_params s) p); auto. Qed.

Lemma E_scalar s n u r : ps_scalar env (E s) n u r = Em (ps_scalar env s n u r).
Proof.
  unfold ps_scalar. rewrite E_locate. destruct (locate s n r) as [s1 [p|e]]; simpl; auto.
  rewrite E_on_param by (intros; apply bp_read). destruct (on_param s1 p _) as [s2 [x|e]]; simpl; auto.
  apply E_build; intros; [eapply scalar_leaf_w; eauto|apply scalar_leaf_E].
Qed.
Lemma E_timeseries s n u tp r a b c : ps_timeseries env (E s) n u tp r a b c = Em (ps_timeseries env s n u tp r a b c).
Proof.
  unfold ps_timeseries. destruct (from_timeseries_type a); auto. destruct (from_interpolation_type b); auto.
  destruct (from_extrapolation_type c); auto.
  rewrite E_locate. destruct (locate s n r) as [s1 [p|e]]; simpl; auto.
  rewrite E_on_param by (intros; apply bp_read). destruct (on_param s1 p _) as [s2 [x|e]]; simpl; auto.
  apply E_build; intros; [eapply ts_leaf_w; eauto|apply ts_leaf_E].
Qed.
Lemma E_generic s n r : ps_generic (E s) n r = Em (ps_generic s n r).
Proof.
  unfold ps_generic. rewrite E_locate. destruct (locate s n r) as [s1 [p|e]]; simpl; auto.
  rewrite E_on_param by (intros; apply bp_read). destruct (on_param s1 p _) as [s2 [x|e]]; simpl; auto.
  unfold Em. simpl. unfold E. simpl. rewrite map_app, map_length. auto.
Qed.

(** Reads *)
Lemma ev_version v q d : ev (v_set_version (v_set_data v d) (p_version q)) =
  v_set_version (v_set_data (ev v) d) (p_version (bp (v_param v) q)).
Proof. unfold ev. simpl. auto. Qed.
Lemma E_read_with g g' s vi : (forall v, g' (E s) (ev v) = Em (g s v)) ->
  read_with g' (E s) vi = Em (read_with g s vi).
Proof.
  intros G. unfold read_with, Em. rewrite E_view. destruct (nth_error (st_views s) vi) as [v|]; auto. cbn [option_map].
  change (v_param (ev v)) with (v_param v). rewrite E_param.
  destruct (nth_error (st_params s) (v_param v)) as [q|]; auto. cbn [option_map]. rewrite (G v).
  change (v_data (ev v)) with (v_data v). unfold Em.
  destruct (v_data v) as [d|].
  - cbn [v_version ev]. destruct (v_version v) as [k|]; auto. cbn [option_map].
    replace ((if v_param v =? P then fv k else k) =? p_version (bp (v_param v) q)) with (k =? p_version q)
      by (simpl; destruct (v_param v =? P); auto; now rewrite fv_inj).
    destruct (k =? p_version q); auto. destruct (g s v) as [s1 [xs|e]]; cbn [fst snd]; auto.
    destruct (a_int d); auto. cbn [fst snd]. now rewrite E_set_view, ev_version.
  - destruct (g s v) as [s1 [xs|e]]; cbn [fst snd]; auto. now rewrite E_set_view, ev_version.
Qed.
Lemma E_leaf_values s v : leaf_values (E s) (ev v) = Em (leaf_values s v).
Proof.
  unfold leaf_values, Em. change (v_param (ev v)) with (v_param v). rewrite E_param.
  destruct (nth_error (st_params s) (v_param v)); auto.
Qed.
Lemma E_sum cs : forall s acc, sum_children (E s) cs acc = Em (sum_children s cs acc).
Proof.
  induction cs; intros s acc; auto. cbn [sum_children].
  rewrite (E_read_with leaf_values leaf_values) by (intros; apply E_leaf_values).
  destruct (read_with leaf_values s a) as [s1 [xs|e]]; simpl; auto.
  destruct acc as [ac|]; auto. destruct (arr_add ac xs); auto.
Qed.
Lemma E_get_values s v : get_values (E s) (ev v) = Em (get_values s v).
Proof.
  unfold get_values. change (v_param (ev v)) with (v_param v). rewrite E_param.
  destruct (nth_error (st_params s) (v_param v)) as [q|]; auto. cbn [option_map].
  change (has_children (bp (v_param v) q)) with (has_children q). change (v_children (ev v)) with (v_children v).
  destruct (has_children q); auto. destruct (v_children v); auto. apply E_sum.
Qed.
Lemma E_ts_get s vi : ts_get (E s) vi = Em (ts_get s vi).
Proof. apply E_read_with. intros; apply E_get_values. Qed.

Lemma E_leaf_get s c : scalar_leaf_get (E s) c = scalar_leaf_get s c.
Proof.
  unfold scalar_leaf_get. rewrite E_view. destruct (nth_error (st_views s) c) as [v|]; auto. cbn [option_map].
  change (v_param (ev v)) with (v_param v). rewrite E_param. destruct (nth_error (st_params s) (v_param v)); auto.
Qed.
Lemma E_scalar_get s v : scalar_get (E s) (ev v) = scalar_get s v.
Proof.
  unfold scalar_get. change (v_param (ev v)) with (v_param v). rewrite E_param.
  destruct (nth_error (st_params s) (v_param v)) as [q|]; auto. cbn [option_map].
  change (has_children (bp (v_param v) q)) with (has_children q). change (v_children (ev v)) with (v_children v).
  destruct (has_children q); auto. destruct (v_children v); auto.
  now rewrite (rmap_eq _ _ l (E_leaf_get s)).
Qed.
Lemma E_generic_get s v : generic_get (E s) (ev v) = generic_get s v.
Proof.
  unfold generic_get. change (v_param (ev v)) with (v_param v). rewrite E_param.
  destruct (nth_error (st_params s) (v_param v)) as [q|]; auto.
Qed.

(** Writes: the version of [P] is above [K]. *)
Definition high (s : state) : Prop := exists q, nth_error (st_params s) P = Some q /\ K < p_version q.
Lemma bp_store p q d : (p = P -> K < p_version q) -> bp p (p_store q d) = p_store (bp p q) d.
Proof.
  intros H. unfold bp, p_store. simpl. destruct (Nat.eqb_spec p P); auto. now rewrite fv_S by auto.
Qed.
Lemma E_ts_write s vi : high s -> ts_write (E s) vi = Em (ts_write s vi).
Proof.
  intros H. unfold ts_write, Em. rewrite E_view. destruct (nth_error (st_views s) vi) as [v|]; auto. cbn [option_map].
  change (v_locked (ev v)) with (v_locked v). change (v_data (ev v)) with (v_data v).
  destruct (v_locked v); auto. destruct (v_data v); auto. change (v_param (ev v)) with (v_param v). rewrite E_param.
  destruct (nth_error (st_params s) (v_param v)) as [q|] eqn:Q; auto. cbn [option_map].
  change (to_param (ev v)) with (to_param v). destruct (to_param v (a_val a)); auto. cbn [fst snd].
  assert (X : v_param v = P -> K < p_version q) by (intros X; rewrite X in Q; destruct H as (q' & Q' & L); congruence).
  rewrite E_set_view, E_set_param, bp_store by auto. f_equal. f_equal. unfold ev. simpl.
  unfold v_set_version. simpl. f_equal. f_equal. destruct (Nat.eqb_spec (v_param v) P); auto. now rewrite fv_S by auto.
Qed.
Lemma high_set_view s i v : high s -> high (set_view s i v).
Proof. auto. Qed.
Lemma high_evo s s' : evo s s' -> high s -> high s'.
Proof.
  intros Ev (q & Q & L). destruct (ev_params _ _ Ev _ _ Q) as (q1 & Q1 & Pe). exists q1. split; auto.
  pose proof (pe_version _ _ Pe). lia.
Qed.
Lemma E_store s p d : high s -> E (store s p d) = store (E s) p d.
Proof.
  intros (q' & Q' & L). unfold store. rewrite E_param. destruct (nth_error (st_params s) p) as [q|] eqn:Q; auto. cbn [option_map].
  rewrite E_set_param, bp_store; auto. intros ->. congruence.
Qed.
Lemma E_check_write s vi v t u tp : check_write (E s) vi (ev v) t u tp = Em (check_write s vi v t u tp).
Proof.
  unfold check_write. change (v_writable (ev v)) with (v_writable v). change (v_param (ev v)) with (v_param v).
  destruct (v_writable v); auto. rewrite E_on_param by (intros; apply bp_write).
  destruct (on_param s (v_param v) _) as [s1 [x|e]]; unfold Em; cbn [fst snd]; auto. now rewrite E_set_view.
Qed.
Lemma high_check_write s vi v t u tp s1 x : high s -> nth_error (st_views s) vi = Some v -> check_write s vi v t u tp = (s1, x) -> high s1.
Proof. intros H V C. eapply high_evo; [eapply evo_check_write; eauto|auto]. Qed.
Lemma E_set s vi v x : high s -> nth_error (st_views s) vi = Some v -> scalar_set (E s) vi (ev v) x = Em (scalar_set s vi v x).
Proof.
  intros H V. unfold scalar_set. change (v_unit (ev v)) with (v_unit v). change (v_param (ev v)) with (v_param v).
  change (v_uconv (ev v)) with (v_uconv v). rewrite E_check_write. destruct (check_write s vi v _ _ _) as [s1 [y|e]] eqn:C; auto.
  unfold Em. cbn [fst snd]. rewrite E_store; eauto using high_check_write.
Qed.
Lemma E_gset s vi v x : high s -> nth_error (st_views s) vi = Some v -> generic_set (E s) vi (ev v) x = Em (generic_set s vi v x).
Proof.
  intros H V. unfold generic_set. change (v_param (ev v)) with (v_param v).
  rewrite E_check_write. destruct (check_write s vi v _ _ _) as [s1 [y|e]] eqn:C; auto.
  unfold Em. cbn [fst snd]. rewrite E_store; eauto using high_check_write.
Qed.
Lemma E_tset s vi v a : high s -> nth_error (st_views s) vi = Some v -> ts_set (E s) vi (ev v) a = Em (ts_set s vi v a).
Proof.
  intros H V. unfold ts_set. change (v_tconv (ev v)) with (v_tconv v). change (v_unit (ev v)) with (v_unit v).
  rewrite E_check_write. destruct (check_write s vi v _ _ _) as [s1 [y|e]] eqn:C; auto. unfold Em at 1. cbn [fst snd].
  assert (H1 : high s1) by eauto using high_check_write.
  destruct (_ =? _)%Z; auto. rewrite E_view. destruct (nth_error (st_views s1) vi) as [v1|]; auto. cbn [option_map].
  change (v_data (ev v1)) with (v_data v1).
  destruct (v_data v1) as [d|]; [destruct (_ && _); auto|]; rewrite <- E_ts_write, E_set_view; auto.
Qed.
Lemma E_handle_set s vi i x : high s -> handle_set (E s) vi i x = Em (handle_set s vi i x).
Proof.
  intros H. unfold handle_set. rewrite E_view. destruct (nth_error (st_views s) vi) as [v|]; auto. cbn [option_map].
  change (v_data (ev v)) with (v_data v).
  destruct (v_data v); auto. destruct (pyindex _ _); auto. destruct (cast_item _ _); auto.
  rewrite <- E_ts_write, E_set_view; auto.
Qed.
Lemma high_ts_get s vi s1 x : high s -> ts_get s vi = (s1, x) -> high s1.
Proof. intros H C. eapply high_evo; [eapply rd_evo, rd_ts_get; eauto|auto]. Qed.
Lemma E_iadd s vi x : high s -> handle_iadd (E s) vi x = Em (handle_iadd s vi x).
Proof.
  intros H. unfold handle_iadd. rewrite E_view. destruct (nth_error (st_views s) vi) as [v|]; auto. cbn [option_map].
  change (v_data (ev v)) with (v_data v).
  destruct (v_data v); auto. rewrite E_ts_get. destruct (ts_get s vi) as [s1 [xs|e]] eqn:G; auto. unfold Em at 1. cbn [fst snd].
  rewrite E_view. destruct (nth_error (st_views s1) vi) as [v1|]; auto. cbn [option_map].
  change (v_data (ev v1)) with (v_data v1). destruct (v_data v1); auto.
  destruct (a_int a0); auto. rewrite <- E_ts_write, E_set_view; auto. eapply high_set_view, high_ts_get; eauto.
Qed.

Lemma Em_lift {A} (g : A -> val) x : Em (lift g x) = lift g (Em x).
Proof. destruct x as [s [a|e]]; auto. Qed.
Lemma E_step s o : high s -> step env o (E s) = Em (step env o s).
Proof.
  intros H.
  assert (WV : forall vi k f g, (forall v, nth_error (st_views s) vi = Some v -> f (ev v) = Em (g v)) ->
     with_view (E s) vi k f = Em (with_view s vi k g)).
  { intros vi k f g X. unfold with_view. rewrite E_view. destruct (nth_error (st_views s) vi) as [v|] eqn:V; auto. cbn [option_map].
    change (v_public (ev v)) with (v_public v). change (v_kind (ev v)) with (v_kind v).
    destruct (v_public v); auto. destruct (v_kind v), k; auto. }
  destruct o; cbn [step]; try (apply WV; intros w V).
  - rewrite E_scalar, Em_lift; auto.
  - rewrite E_timeseries, Em_lift; auto.
  - rewrite E_generic, Em_lift; auto.
  - rewrite E_info, Em_lift; auto.
  - rewrite E_scalar_get, Em_lift; auto.
  - rewrite Em_lift, E_set; auto.
  - rewrite E_generic_get, Em_lift; auto.
  - rewrite Em_lift, E_gset; auto.
  - rewrite E_ts_get, Em_lift; auto.
  - rewrite Em_lift, E_tset; auto.
  - rewrite Em_lift. f_equal. unfold ts_setitem. rewrite E_ts_get. destruct (ts_get s v) as [s1 [xs|e]] eqn:G; auto.
    unfold Em at 1. cbn [fst snd]. rewrite E_handle_set; auto. eapply high_ts_get; eauto.
  - change (v_data (ev w)) with (v_data w). destruct (v_data w); auto. rewrite E_ts_get. destruct (ts_get s v) as [s1 [xs|e]]; auto.
  - auto.
  - rewrite E_handle_set, Em_lift; auto.
  - rewrite E_iadd, Em_lift; auto.
  - rewrite Em_lift. unfold ts_lock, Em. cbn [fst snd]. rewrite E_set_view. auto.
  - rewrite Em_lift. unfold ts_unlock. rewrite <- E_ts_write, E_set_view; auto.
Qed.
End P.
End Raise.
