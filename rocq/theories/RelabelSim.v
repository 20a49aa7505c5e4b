(** The store with quantities in other units: a simulation (C75). *)
From Coq Require Import String List Arith Lia Bool ZArith Reals Lra.
From Verif Require Import Base ListFacts Units TimeModel TimeConv ConvShape Core CoreEvo CoreTree CoreNames CoreInv Spec_Core Spec_Time Spec_Relabel RelabelNum.
Import ListNotations.

Lemma Forall2_nth {A B} (P : A -> B -> Prop) l l' : Forall2 P l l' -> forall i,
  match nth_error l i, nth_error l' i with
  | Some a, Some b => P a b
  | None, None => True
  | _, _ => False
  end.
Proof. induction 1; intros [|i]; simpl; auto. apply IHForall2. Qed.
Lemma Forall2_upd {A B} (P : A -> B -> Prop) l l' a b : Forall2 P l l' -> P a b -> forall i, Forall2 P (upd l i a) (upd l' i b).
Proof. induction 1; intros Q [|i]; simpl; constructor; auto. Qed.

Lemma Forall2_length {A B} (P : A -> B -> Prop) l l' : Forall2 P l l' -> length l = length l'.
Proof. induction 1; simpl; auto. Qed.

Section S.
Variable env : uenv.
Hypothesis G : good_env env.
Notation kf := (kf env). Notation kfo := (kfo env). Notation unit_rel := (unit_rel env).

Definition dsc (k : R) (d : pdata) : pdata :=
  match d with PScalar x => PScalar (nsc k x) | PArr l => PArr (map (nsc k) l) | PGen g => PGen g end.
Definition asc (k : R) (a : arr) : arr := mkArr (a_int a) (map (nsc k) (a_val a)).

Definition rl_param (q : param) (u' : option string) : param :=
  mkParam (p_name q) (p_parent q) (p_region q) (p_children q) (p_read q) (p_written q) (p_type q) u' (p_time q)
    (option_map (dsc (kfo (p_unit q) u')) (p_data q)) (p_version q).
Definition prel (q q' : param) : Prop :=
  unit_rel (p_unit q) (p_unit q') /\ q' = rl_param q (p_unit q').

Definition rl_view (v : view) (u' : string) (c : uconv) : view :=
  mkView (v_public v) (v_kind v) (v_param v) u' c (v_tconv v) (v_children v) (v_writable v)
    (option_map (asc (kf (v_unit v) u')) (v_data v)) (v_locked v) (v_version v).
Definition vrel (v v' : view) : Prop :=
  (v_kind v <> KGeneric -> same_dimension env (v_unit v) (v_unit v')) /\ (forall d, v_data v = Some d -> a_int d = false) /\ v' = rl_view v (v_unit v') (v_uconv v').

Record rel (s s' : state) : Prop := {
  rl_regions : st_regions s' = st_regions s;
  rl_params : Forall2 prel (st_params s) (st_params s');
  rl_views : Forall2 vrel (st_views s) (st_views s') }.

Lemma rel_init n : rel (init_state n) (init_state n).
Proof. constructor; constructor. Qed.

Definition rr {A B} (P : A -> B -> Prop) (x : res A) (y : res B) : Prop :=
  match x, y with Ok a, Ok b => P a b | Err e, Err e' => e = e' | _, _ => False end.
Definition sim {A B} (P : A -> B -> Prop) (x : state * res A) (y : state * res B) : Prop :=
  rel (fst x) (fst y) /\ rr P (snd x) (snd y).

Lemma sim_err {A B} (P : A -> B -> Prop) s s' e : rel s s' -> sim P (s, Err e) (s', Err e).
Proof. split; simpl; auto. Qed.
Lemma sim_ok {A B} (P : A -> B -> Prop) s s' a b : rel s s' -> P a b -> sim P (s, Ok a) (s', Ok b).
Proof. split; simpl; auto. Qed.
Lemma sim_imp {A B} (P Q : A -> B -> Prop) x y : sim P x y -> (forall a b, P a b -> Q a b) -> sim Q x y.
Proof. intros [H K] I. split; auto. destruct (snd x), (snd y); simpl in *; auto. Qed.
Hint Resolve sim_err sim_ok : core.

Lemma rel_len_p s s' : rel s s' -> length (st_params s') = length (st_params s).
Proof. intros []. symmetry. eapply Forall2_length; eauto. Qed.
Lemma rel_len_v s s' : rel s s' -> length (st_views s') = length (st_views s).
Proof. intros []. symmetry. eapply Forall2_length; eauto. Qed.

(** ** Names *)
Lemma sim_subregion s s' r n : rel s s' ->
  sim eq (get_or_create_subregion s r n) (get_or_create_subregion s' r n).
Proof.
  intros H. unfold get_or_create_subregion. rewrite (rl_regions _ _ H).
  destruct (nth_error (st_regions s) r); auto. destruct (alookup n _); auto. destruct (r_aggregated _); auto.
  apply sim_ok; auto. destruct H. constructor; simpl; auto.
Qed.
Lemma sim_subregions l : forall s s' r, rel s s' -> sim eq (subregions s r l) (subregions s' r l).
Proof.
  induction l as [|n l IH]; simpl; intros s s' r H; auto.
  destruct (sim_subregion _ _ r n H) as [A B].
  destruct (get_or_create_subregion s r n) as [t [c|e]], (get_or_create_subregion s' r n) as [t' [c'|e']]; simpl in *;
    try contradiction; subst; auto.
Qed.
Lemma sim_region s s' n : rel s s' -> sim eq (get_or_create_region s n) (get_or_create_region s' n).
Proof.
  intros H. unfold get_or_create_region. rewrite (rl_regions _ _ H). destruct (hcomponents n); auto.
  destruct (nth_error _ 0); auto. destruct (String.eqb _ _); auto. now apply sim_subregions.
Qed.
Lemma prel_new n p r : prel (new_param n p r) (new_param n p r).
Proof. split; [exact I|reflexivity]. Qed.
Lemma sim_root s s' r n : rel s s' -> sim eq (get_or_create_root_parameter s r n) (get_or_create_root_parameter s' r n).
Proof.
  intros H. unfold get_or_create_root_parameter. rewrite (rl_regions _ _ H), (rel_len_p _ _ H).
  destruct (nth_error _ r); auto. destruct (alookup _ _); auto. apply sim_ok; auto.
  destruct H. constructor; simpl; auto. apply Forall2_app; auto. constructor; auto using prel_new.
Qed.
Lemma prel_add_child q q' n c : prel q q' -> prel (p_add_child q n c) (p_add_child q' n c).
Proof. intros (A & C). rewrite C. split; [exact A|reflexivity]. Qed.
Lemma sim_child s s' p n : rel s s' -> sim eq (get_or_create_child_parameter s p n) (get_or_create_child_parameter s' p n).
Proof.
  intros H. unfold get_or_create_child_parameter. pose proof (Forall2_nth _ _ _ (rl_params _ _ H) p) as E.
  destruct (nth_error (st_params s) p) as [q|], (nth_error (st_params s') p) as [q'|]; try contradiction; auto.
  pose proof (proj2 E) as Q. rewrite Q. cbn [p_children p_written p_read p_region rl_param]. rewrite <- Q.
  destruct (alookup _ _); auto. destruct (p_written q); auto. destruct (p_read q); auto.
  rewrite (rel_len_p _ _ H). apply sim_ok; auto. destruct H. constructor; simpl; auto.
  apply Forall2_app; [|constructor; auto using prel_new]. apply Forall2_upd; auto. now apply prel_add_child.
Qed.
Lemma sim_subparameters l : forall s s' r, rel s s' -> sim eq (subparameters s r l) (subparameters s' r l).
Proof.
  induction l as [|n l IH]; simpl; intros s s' r H; auto.
  destruct (sim_child _ _ r n H) as [A B].
  destruct (get_or_create_child_parameter s r n) as [t [c|e]], (get_or_create_child_parameter s' r n) as [t' [c'|e']]; simpl in *;
    try contradiction; subst; auto.
Qed.
Lemma sim_locate s s' n r : rel s s' -> sim eq (locate s n r) (locate s' n r).
Proof.
  intros H. unfold locate. destruct (sim_region _ _ r H) as [A B].
  destruct (get_or_create_region s r) as [t [c|e]], (get_or_create_region s' r) as [t' [c'|e']]; simpl in *;
    try contradiction; subst; auto.
  unfold get_or_create_parameter. destruct (hcomponents n); auto. destruct (sim_root _ _ c' s0 A) as [A1 B1].
  destruct (get_or_create_root_parameter t c' s0) as [t1 [d|e]], (get_or_create_root_parameter t' c' s0) as [t1' [d'|e']]; simpl in *;
    try contradiction; subst; auto. now apply sim_subparameters.
Qed.
Lemma same_subregion s s' l : rel s s' -> forall r, get_subregion s' r l = get_subregion s r l.
Proof.
  intros H. induction l as [|n l IH]; simpl; intros r; auto. rewrite (rl_regions _ _ H).
  destruct (nth_error _ r); auto. destruct (alookup _ _); auto.
Qed.
Lemma same_subparameter s s' l : rel s s' -> forall p, get_subparameter s' p l = get_subparameter s p l.
Proof.
  intros H. induction l as [|n l IH]; simpl; intros p; auto. pose proof (Forall2_nth _ _ _ (rl_params _ _ H) p) as E.
  destruct (nth_error (st_params s) p) as [q|], (nth_error (st_params s') p) as [q'|]; try contradiction; auto.
  rewrite (proj2 E). cbn [p_children rl_param]. destruct (alookup _ _); auto.
Qed.
Lemma same_info s s' n r : rel s s' -> info s' n r = info s n r.
Proof.
  intros H. unfold info, get_region. rewrite (rl_regions _ _ H). destruct (hcomponents r); auto.
  destruct (nth_error _ 0); auto. destruct (String.eqb _ _); auto. rewrite (same_subregion _ _ _ H).
  destruct (get_subregion _ _ _); auto. unfold get_parameter. rewrite (rl_regions _ _ H).
  destruct (hempty n); auto. destruct (hcomponents n); auto. destruct (nth_error _ n0); auto.
  destruct (alookup _ _); auto. now rewrite (same_subparameter _ _ _ H).
Qed.
Lemma same_leaves s s' : rel s s' -> forall f p, leaves f (st_params s') p = leaves f (st_params s) p.
Proof.
  intros H. induction f as [|f IH]; simpl; intros p; auto. pose proof (Forall2_nth _ _ _ (rl_params _ _ H) p) as E.
  destruct (nth_error (st_params s) p) as [q|], (nth_error (st_params s') p) as [q'|]; try contradiction; auto.
  rewrite (proj2 E). cbn [p_children rl_param]. destruct (p_children q) as [|c cs]; auto. rewrite IH. now rewrite (map_ext _ (fun c => leaves f (st_params s) (snd c)) (fun c => IH (snd c))).
Qed.

(** ** Updates *)
Lemma rel_set_param s s' i q q' : rel s s' -> prel q q' -> rel (set_param s i q) (set_param s' i q').
Proof. intros [] H. constructor; simpl; auto. now apply Forall2_upd. Qed.
Lemma rel_set_view s s' i v v' : rel s s' -> vrel v v' -> rel (set_view s i v) (set_view s' i v').
Proof. intros [] H. constructor; simpl; auto. now apply Forall2_upd. Qed.

Lemma prel_read q q' : prel q q' -> prel (p_set_read q) (p_set_read q').
Proof. intros (A & C). rewrite C. split; [exact A|reflexivity]. Qed.
Lemma prel_written q q' : prel q q' -> prel (p_set_written q) (p_set_written q').
Proof. intros (A & C). rewrite C. split; [exact A|reflexivity]. Qed.
Lemma prel_store q q' d d' : prel q q' -> d' = dsc (kfo (p_unit q) (p_unit q')) d -> prel (p_store q d) (p_store q' d').
Proof. intros (A & C) ->. revert A C. generalize (p_unit q'). intros u A ->. split; [exact A|reflexivity]. Qed.
Lemma prel_children q q' : prel q q' -> has_children q' = has_children q.
Proof. intros (A & C). rewrite C. reflexivity. Qed.
Lemma prel_fields q q' : prel q q' -> p_written q' = p_written q /\ p_version q' = p_version q /\ p_time q' = p_time q /\
  p_data q' = option_map (dsc (kfo (p_unit q) (p_unit q'))) (p_data q).
Proof. intros (A & C). rewrite C. auto. Qed.

Lemma map_nsc_none k n : map (nsc k) (repeat None n) = repeat None n.
Proof. induction n as [|n IH]; [reflexivity|]. cbn [repeat map]. now rewrite IH. Qed.

Lemma sim_attempt_read q q' t u u' tp : prel q q' -> pinv q -> unit_rel u u' ->
  prel (fst (attempt_read q t u tp)) (fst (attempt_read q' t u' tp)) /\
  snd (attempt_read q' t u' tp) = snd (attempt_read q t u tp).
Proof.
  intros E P U. unfold attempt_read.
  assert (T : p_type q' = p_type q) by (rewrite (proj2 E); auto). rewrite T.
  destruct (p_type q) as [t0|] eqn:Ty.
  - destruct (ptype_eqb t0 t); simpl; auto using prel_read.
  - destruct (pi_untyped q P Ty) as (U0 & T0 & D0 & _). rewrite (prel_children _ _ E).
    destruct E as (A & C). rewrite C. 
    assert (X : prel (p_set_type q t u) (p_set_type (rl_param q (p_unit q')) t u')).
    { split; [exact U|]. unfold rl_param, p_set_type; simpl. rewrite D0. reflexivity. }
    destruct t; simpl.
    + split; [|auto]. split; [exact U|reflexivity].
    + destruct tp as [tp|]; [|split; [exact X|reflexivity]].
      destruct (_ <? _)%Z; [split; [exact X|reflexivity]|]. simpl. split; [|auto]. split; [exact U|].
      unfold rl_param; simpl. now rewrite map_nsc_none.
    + destruct tp as [tp|]; [|split; [exact X|reflexivity]].
      destruct (_ <? _)%Z; [split; [exact X|reflexivity]|]. simpl. split; [|auto]. split; [exact U|].
      unfold rl_param; simpl. now rewrite map_nsc_none.
    + destruct (has_children q); [split; [exact X|reflexivity]|]. simpl. split; [|auto]. split; [exact U|reflexivity].
Qed.

Lemma sim_on_read s s' p t u u' tp : rel s s' -> wf env s -> unit_rel u u' ->
  sim eq (on_param s p (fun q => attempt_read q t u tp)) (on_param s' p (fun q => attempt_read q t u' tp)).
Proof.
  intros H W U. unfold on_param. pose proof (Forall2_nth _ _ _ (rl_params _ _ H) p) as E.
  destruct (nth_error (st_params s) p) as [q|] eqn:Q, (nth_error (st_params s') p) as [q'|]; try contradiction; auto.
  destruct (sim_attempt_read q q' t u u' tp E (wf_params _ _ W _ _ Q) U) as [A B].
  destruct (attempt_read q t u tp) as [a x], (attempt_read q' t u' tp) as [a' x']; simpl in *. subst x'.
  split; simpl; [now apply rel_set_param|]. destruct x; simpl; auto.
Qed.

(** ** Views *)
Lemma sim_scalar_leaf s s' u u' p : rel s s' -> same_dimension env u u' ->
  rr vrel (scalar_leaf_view env s u p) (scalar_leaf_view env s' u' p).
Proof.
  intros H D. unfold scalar_leaf_view. pose proof (Forall2_nth _ _ _ (rl_params _ _ H) p) as E.
  destruct (nth_error (st_params s) p) as [q|], (nth_error (st_params s') p) as [q'|]; try contradiction; [|reflexivity].
  pose proof (uc_both env _ _ u u' (proj1 E) D) as B.
  destruct (unit_converter env (p_unit q) (Some u)), (unit_converter env (p_unit q') (Some u')); simpl in *; try contradiction; auto.
  split; [intros _; exact D|]. split; [discriminate|reflexivity].
Qed.
Lemma sim_ts_leaf s s' u u' tgt t ex p : rel s s' -> same_dimension env u u' ->
  rr vrel (ts_leaf_view env s u tgt t ex p) (ts_leaf_view env s' u' tgt t ex p).
Proof.
  intros H D. unfold ts_leaf_view. pose proof (Forall2_nth _ _ _ (rl_params _ _ H) p) as E.
  destruct (nth_error (st_params s) p) as [q|], (nth_error (st_params s') p) as [q'|]; try contradiction; [|reflexivity].
  pose proof (uc_both env _ _ u u' (proj1 E) D) as B.
  destruct (unit_converter env (p_unit q) (Some u)), (unit_converter env (p_unit q') (Some u')); simpl in *; try contradiction; auto.
  destruct (prel_fields _ _ E) as (_ & _ & -> & _). destruct (p_time q); simpl; auto.
  destruct (timeseries_converter _ tgt t ex) eqn:TC; simpl; auto.
  split; [intros _; exact D|]. split; [discriminate|reflexivity].
Qed.
Lemma vrel_children v v' cs : vrel v v' -> vrel (v_set_children v cs) (v_set_children v' cs).
Proof. intros (A & B & D). rewrite D. split; [exact A|]. split; [exact B|reflexivity]. Qed.
Lemma vrel_public v v' : vrel v v' -> vrel (v_set_public v) (v_set_public v').
Proof. intros (A & B & D). rewrite D. split; [exact A|]. split; [exact B|reflexivity]. Qed.
Lemma vrel_writable v v' : vrel v v' -> vrel (v_set_writable v) (v_set_writable v').
Proof. intros (A & B & D). rewrite D. split; [exact A|]. split; [exact B|reflexivity]. Qed.
Lemma vrel_locked v v' b : vrel v v' -> vrel (v_set_locked v b) (v_set_locked v' b).
Proof. intros (A & B & D). rewrite D. split; [exact A|]. split; [exact B|reflexivity]. Qed.
Lemma vrel_version v v' n : vrel v v' -> vrel (v_set_version v n) (v_set_version v' n).
Proof. intros (A & B & D). rewrite D. split; [exact A|]. split; [exact B|reflexivity]. Qed.
Lemma vrel_data v v' l : vrel v v' ->
  vrel (v_set_data v (mkArr false l)) (v_set_data v' (mkArr false (map (nsc (kf (v_unit v) (v_unit v'))) l))).
Proof.
  intros (A & B & D). revert A D. generalize (v_unit v') (v_uconv v'). intros u c A ->. split; [exact A|].
  split; [simpl; intros d E; inversion E; reflexivity|reflexivity].
Qed.
Lemma vrel_fields v v' : vrel v v' -> v_public v' = v_public v /\ v_kind v' = v_kind v /\ v_param v' = v_param v /\
  v_tconv v' = v_tconv v /\ v_children v' = v_children v /\ v_writable v' = v_writable v /\ v_locked v' = v_locked v /\
  v_version v' = v_version v.
Proof. intros (A & B & D). rewrite D. repeat split. Qed.
Lemma vrel_cache v v' : vrel v v' -> 
  match v_data v, v_data v' with
  | Some d, Some d' => exists l, d = mkArr false l /\ d' = mkArr false (map (nsc (kf (v_unit v) (v_unit v'))) l)
  | None, None => True
  | _, _ => False
  end.
Proof.
  intros (A & B & D). revert D. generalize (v_unit v') (v_uconv v'). intros u c ->. simpl.
  destruct (v_data v) as [[b l]|]; simpl; auto. specialize (B _ eq_refl). simpl in B. subst b. exists l. split; reflexivity.
Qed.

Lemma sim_rmap mk mk' l : (forall p, rr vrel (mk p) (mk' p)) -> rr (Forall2 vrel) (@rmap nat view mk l) (rmap mk' l).
Proof.
  intros M. induction l as [|p l IH]; simpl; auto. specialize (M p).
  destruct (mk p), (mk' p); simpl in *; try contradiction; auto.
  destruct (rmap mk l), (rmap mk' l); simpl in *; try contradiction; auto.
Qed.
Lemma sim_build s s' mk mk' p : rel s s' -> (forall p, rr vrel (mk p) (mk' p)) ->
  sim eq (build_view s mk p) (build_view s' mk' p).
Proof.
  intros H M. unfold build_view. pose proof (Forall2_nth _ _ _ (rl_params _ _ H) p) as E.
  destruct (nth_error (st_params s) p) as [q|], (nth_error (st_params s') p) as [q'|]; try contradiction; auto.
  pose proof (M p) as V. destruct (mk p) as [v|], (mk' p) as [v'|]; simpl in V; try contradiction; subst; auto.
  rewrite (prel_children _ _ E). destruct (has_children q).
  - unfold param_leaves. rewrite (rel_len_p _ _ H), (same_leaves _ _ H).
    destruct (leaves _ _ p) as [ls|]; auto. pose proof (sim_rmap mk mk' ls M) as R.
    destruct (rmap mk ls) as [cvs|], (rmap mk' ls) as [cvs'|]; simpl in R; try contradiction; subst; auto.
    rewrite (rel_len_v _ _ H), <- (Forall2_length _ _ _ R). apply sim_ok; auto.
    destruct H. constructor; simpl; auto. apply Forall2_app; auto. apply Forall2_app; auto.
    constructor; auto. now apply vrel_public, vrel_children.
  - rewrite (rel_len_v _ _ H). apply sim_ok; auto. destruct H. constructor; simpl; auto. apply Forall2_app; auto.
    constructor; auto. now apply vrel_public.
Qed.

Lemma sim_ps_scalar s s' n u u' r : rel s s' -> wf env s -> same_dimension env u u' ->
  sim eq (ps_scalar env s n u r) (ps_scalar env s' n u' r).
Proof.
  intros H W D. unfold ps_scalar. destruct (sim_locate _ _ n r H) as [A B].
  destruct (locate s n r) as [t [p|e]] eqn:L, (locate s' n r) as [t' [p'|e']]; simpl in *; try contradiction; subst; auto.
  assert (Wt : wf env t) by (eapply wf_locate; eauto).
  destruct (sim_on_read t t' p' SCALAR (Some u) (Some u') None A Wt D) as [A1 B1].
  destruct (on_param t p' _) as [t1 [d|e]], (on_param t' p' _) as [t1' [d'|e']]; simpl in *; try contradiction; subst; auto.
  apply sim_build; auto. intros. now apply sim_scalar_leaf.
Qed.
Lemma sim_ps_timeseries s s' n u u' tp r ty ip ex : rel s s' -> wf env s -> same_dimension env u u' ->
  sim eq (ps_timeseries env s n u tp r ty ip ex) (ps_timeseries env s' n u' tp r ty ip ex).
Proof.
  intros H W D. unfold ps_timeseries. destruct (from_timeseries_type ty) as [ty'|]; auto.
  destruct (from_interpolation_type ip); auto. destruct (from_extrapolation_type ex) as [x|]; auto.
  destruct (sim_locate _ _ n r H) as [A B].
  destruct (locate s n r) as [t [p|e]] eqn:L, (locate s' n r) as [t' [p'|e']]; simpl in *; try contradiction; subst; auto.
  assert (Wt : wf env t) by (eapply wf_locate; eauto).
  destruct (sim_on_read t t' p' ty' (Some u) (Some u') (Some tp) A Wt D) as [A1 B1].
  destruct (on_param t p' _) as [t1 [d|e]], (on_param t' p' _) as [t1' [d'|e']]; simpl in *; try contradiction; subst; auto.
  apply sim_build; auto. intros. now apply sim_ts_leaf.
Qed.
Lemma sim_ps_generic s s' n r : rel s s' -> wf env s -> sim eq (ps_generic s n r) (ps_generic s' n r).
Proof.
  intros H W. unfold ps_generic. destruct (sim_locate _ _ n r H) as [A B].
  destruct (locate s n r) as [t [p|e]] eqn:L, (locate s' n r) as [t' [p'|e']]; simpl in *; try contradiction; subst; auto.
  assert (Wt : wf env t) by (eapply wf_locate; eauto).
  destruct (sim_on_read t t' p' GENERIC None None None A Wt I) as [A1 B1].
  destruct (on_param t p' _) as [t1 [d|e]], (on_param t' p' _) as [t1' [d'|e']]; simpl in *; try contradiction; subst; auto.
  rewrite (rel_len_v _ _ A1). apply sim_ok; auto. destruct A1. constructor; simpl; auto. apply Forall2_app; auto.
  constructor; auto. split; [intros X; exfalso; apply X; reflexivity|]. split; [discriminate|reflexivity].
Qed.

(** ** Scalar values *)
Lemma own_units s s' vi v v' q q' : wf env s -> wf env s' -> nth_error (st_views s) vi = Some v -> nth_error (st_views s') vi = Some v' ->
  nth_error (st_params s) (v_param v) = Some q -> nth_error (st_params s') (v_param v) = Some q' ->
  vrel v v' -> prel q q' -> v_kind v <> KGeneric ->
  (forall x, uconvert_from (v_uconv v') (kfo (p_unit q) (p_unit q') * x) = (kf (v_unit v) (v_unit v') * uconvert_from (v_uconv v) x)%R) /\
  (forall x, uconvert_to (v_uconv v') (kf (v_unit v) (v_unit v') * x) = (kfo (p_unit q) (p_unit q') * uconvert_to (v_uconv v) x)%R).
Proof.
  intros W W' V V' Q Q' E P K. destruct (vrel_fields _ _ E) as (_ & Ek & Ep & _).
  destruct (wf_views _ _ W _ _ V) as (q0 & Q0 & I0). assert (q0 = q) by congruence. subst q0.
  destruct (wf_views _ _ W' _ _ V') as (q1 & Q1 & I1). rewrite Ep in Q1. assert (q1 = q') by congruence. subst q1.
  apply (uc_scale env G).
  - apply P.
  - now apply E.
  - now apply I0.
  - apply I1. congruence.
Qed.
Lemma nsc_from c c' k k' x : (forall x, uconvert_from c' (k * x) = (k' * uconvert_from c x)%R) ->
  option_map (uconvert_from c') (nsc k x) = nsc k' (option_map (uconvert_from c) x).
Proof. intros H. destruct x; simpl; auto. now rewrite H. Qed.
Lemma nsc_to c c' k k' x : (forall x, uconvert_to c' (k * x) = (k' * uconvert_to c x)%R) ->
  option_map (uconvert_to c') (nsc k x) = nsc k' (option_map (uconvert_to c) x).
Proof. intros H. destruct x; simpl; auto. now rewrite H. Qed.

Definition times (k : R) (x x' : num) : Prop := x' = nsc k x.
Definition times_l (k : R) (x x' : list num) : Prop := x' = map (nsc k) x.

Lemma sim_scalar_own s s' vi v v' q q' : wf env s -> wf env s' -> nth_error (st_views s) vi = Some v -> nth_error (st_views s') vi = Some v' ->
  nth_error (st_params s) (v_param v) = Some q -> nth_error (st_params s') (v_param v) = Some q' ->
  vrel v v' -> prel q q' -> v_kind v <> KGeneric ->
  rr (times (kf (v_unit v) (v_unit v'))) (scalar_own v q) (scalar_own v' q').
Proof.
  intros W W' V V' Q Q' E P K. destruct (own_units _ _ _ _ _ _ _ W W' V V' Q Q' E P K) as [F _].
  unfold scalar_own. destruct (prel_fields _ _ P) as (-> & _ & _ & ->). destruct (p_written q); [|reflexivity].
  destruct (p_data q) as [[x|l|g]|]; simpl; auto. unfold times. now apply nsc_from.
Qed.
Lemma sim_scalar_leaf_get s s' c : rel s s' -> wf env s -> wf env s' ->
  forall cv cv', nth_error (st_views s) c = Some cv -> nth_error (st_views s') c = Some cv' -> v_kind cv <> KGeneric ->
  rr (times (kf (v_unit cv) (v_unit cv'))) (scalar_leaf_get s c) (scalar_leaf_get s' c).
Proof.
  intros H W W' cv cv' V V' K. unfold scalar_leaf_get. rewrite V, V'.
  pose proof (Forall2_nth _ _ _ (rl_views _ _ H) c) as E. rewrite V, V' in E. destruct (vrel_fields _ _ E) as (_ & _ & Ep & _).
  pose proof (Forall2_nth _ _ _ (rl_params _ _ H) (v_param cv)) as P. rewrite Ep.
  destruct (nth_error (st_params s) (v_param cv)) as [q|] eqn:Q, (nth_error (st_params s') (v_param cv)) as [q'|] eqn:Q'; try contradiction; [|reflexivity].
  rewrite (prel_children _ _ P). destruct (has_children q); [reflexivity|]. now apply (sim_scalar_own s s' c).
Qed.
(** The leaf views have the unit of the view. *)
Lemma leaf_units s s' vi v v' cs c : rel s s' -> wf env s -> wf env s' -> nth_error (st_views s) vi = Some v -> nth_error (st_views s') vi = Some v' ->
  vrel v v' -> v_children v = Some cs -> In c cs ->
  exists cv cv', nth_error (st_views s) c = Some cv /\ nth_error (st_views s') c = Some cv' /\ v_kind cv = v_kind v /\
    kf (v_unit cv) (v_unit cv') = kf (v_unit v) (v_unit v').
Proof.
  intros H W W' V V' E C I. destruct (vrel_fields _ _ E) as (_ & _ & _ & _ & Ec & _).
  destruct (wf_views _ _ W _ _ V) as (q0 & Q0 & I0). destruct (wf_views _ _ W' _ _ V') as (q1 & Q1 & I1).
  destruct (vi_children _ _ _ _ _ I0 cs c C I) as (_ & cv & N & _ & K & U & _). rewrite C in Ec.
  destruct (vi_children _ _ _ _ _ I1 cs c Ec I) as (_ & cv' & N' & _ & _ & U' & _).
  exists cv, cv'. rewrite U, U'. auto.
Qed.
Lemma sim_scalar_get s s' vi v v' : rel s s' -> wf env s -> wf env s' -> nth_error (st_views s) vi = Some v -> nth_error (st_views s') vi = Some v' ->
  vrel v v' -> v_kind v = KScalar -> rr (times (kf (v_unit v) (v_unit v'))) (scalar_get s v) (scalar_get s' v').
Proof.
  intros H W W' V V' E K. unfold scalar_get. destruct (vrel_fields _ _ E) as (_ & Ek & -> & _ & Ec & _).
  pose proof (Forall2_nth _ _ _ (rl_params _ _ H) (v_param v)) as P.
  destruct (nth_error (st_params s) (v_param v)) as [q|] eqn:Q, (nth_error (st_params s') (v_param v)) as [q'|] eqn:Q'; try contradiction; [|reflexivity].
  rewrite (prel_children _ _ P), Ec. destruct (has_children q); [|apply (sim_scalar_own s s' vi); auto; congruence].
  destruct (v_children v) as [cs|] eqn:C; [|reflexivity].
  assert (L : rr (times_l (kf (v_unit v) (v_unit v'))) (rmap (scalar_leaf_get s) cs) (rmap (scalar_leaf_get s') cs)).
  { assert (X : forall c, In c cs -> rr (times (kf (v_unit v) (v_unit v'))) (scalar_leaf_get s c) (scalar_leaf_get s' c)).
    { intros c Ic. destruct (leaf_units _ _ _ _ _ _ _ H W W' V V' E C Ic) as (cv & cv' & N & N' & Kc & <-).
      apply sim_scalar_leaf_get; auto. congruence. }
    clear C Ec. induction cs as [|c cs IH]; simpl; [reflexivity|]. pose proof (X c (or_introl eq_refl)) as Y.
    destruct (scalar_leaf_get s c), (scalar_leaf_get s' c); simpl in *; try contradiction; auto.
    destruct (rmap (scalar_leaf_get s) cs), (rmap (scalar_leaf_get s') cs); simpl in IH |- *; try (exfalso; apply IH; intros; apply X; auto; fail); auto.
    unfold times, times_l in *. simpl. f_equal; auto. }
  destruct (rmap (scalar_leaf_get s) cs), (rmap (scalar_leaf_get s') cs); simpl in *; try contradiction; auto.
  unfold times, times_l in *. subst. apply nsum_times.
Qed.

(** ** Assignment *)
Lemma sim_check_write s s' vi v v' t u u' tp : rel s s' -> wf env s -> nth_error (st_views s) vi = Some v -> vrel v v' ->
  unit_rel u u' ->
  sim eq (check_write s vi v t u tp) (check_write s' vi v' t u' tp).
Proof.
  intros H W V E U. unfold check_write. destruct (vrel_fields _ _ E) as (_ & _ & -> & _ & _ & -> & _).
  destruct (v_writable v); auto. unfold on_param. pose proof (Forall2_nth _ _ _ (rl_params _ _ H) (v_param v)) as P.
  destruct (nth_error (st_params s) (v_param v)) as [q|] eqn:Q, (nth_error (st_params s') (v_param v)) as [q'|] eqn:Q'; try contradiction; auto.
  unfold attempt_write. rewrite (prel_children _ _ P). destruct (has_children q).
  - apply sim_err. now apply rel_set_param.
  - destruct (sim_attempt_read q q' t u u' tp P (wf_params _ _ W _ _ Q) U) as [A B].
    destruct (attempt_read q t u tp) as [a x], (attempt_read q' t u' tp) as [a' x']; simpl in *. subst x'.
    destruct x as [[]|e]; simpl.
    + apply sim_ok; auto. apply rel_set_view; [apply rel_set_param; auto using prel_written|now apply vrel_writable].
    + apply sim_err. now apply rel_set_param.
Qed.
Lemma rel_store s s' p d d' : rel s s' ->
  (forall q q', nth_error (st_params s) p = Some q -> nth_error (st_params s') p = Some q' -> d' = dsc (kfo (p_unit q) (p_unit q')) d) ->
  rel (store s p d) (store s' p d').
Proof.
  intros H D. unfold store. pose proof (Forall2_nth _ _ _ (rl_params _ _ H) p) as P.
  destruct (nth_error (st_params s) p) as [q|] eqn:Q, (nth_error (st_params s') p) as [q'|] eqn:Q'; try contradiction; auto.
  apply rel_set_param; auto. apply prel_store; auto.
Qed.
Lemma sim_scalar_set s s' vi v v' x x' : rel s s' -> wf env s -> wf env s' -> nth_error (st_views s) vi = Some v -> nth_error (st_views s') vi = Some v' ->
  vrel v v' -> v_kind v = KScalar -> v_public v = true -> x' = nsc (kf (v_unit v) (v_unit v')) x ->
  sim eq (scalar_set s vi v x) (scalar_set s' vi v' x').
Proof.
  intros H W W' V V' E K Pb X. destruct (vrel_fields _ _ E) as (Epb & Ek & Ep & _). unfold scalar_set.
  assert (U : unit_rel (Some (v_unit v)) (Some (v_unit v'))) by (apply E; congruence).
  destruct (sim_check_write s s' vi v v' SCALAR _ _ None H W V E U) as [A B].
  destruct (check_write s vi v _ _ _) as [t [y|e]] eqn:C, (check_write s' vi v' _ _ _) as [t' [y'|e']] eqn:C'; simpl in *; try contradiction; subst; auto.
  assert (Wt : wf env t) by (eapply (wf_check_write env s); eauto).
  assert (Wt' : wf env t') by (eapply (wf_check_write env s'); eauto; congruence).
  apply sim_ok; auto. rewrite Ep. apply rel_store; auto. intros q q' Q Q'.
  pose proof (Forall2_nth _ _ _ (rl_params _ _ A) (v_param v)) as P. rewrite Q, Q' in P.
  pose proof (check_write_view _ _ _ _ _ _ _ _ V C) as N. pose proof (check_write_view _ _ _ _ _ _ _ _ V' C') as N'.
  destruct (own_units t t' vi (v_set_writable v) (v_set_writable v') q q' Wt Wt' N N' Q Q' (vrel_writable _ _ E) P) as [_ F].
  { simpl. congruence. }
  simpl in F. simpl. f_equal. now apply nsc_to.
Qed.
Lemma sim_generic_get s s' v v' : rel s s' -> vrel v v' -> rr eq (generic_get s v) (generic_get s' v').
Proof.
  intros H E. unfold generic_get. destruct (vrel_fields _ _ E) as (_ & _ & -> & _).
  pose proof (Forall2_nth _ _ _ (rl_params _ _ H) (v_param v)) as P.
  destruct (nth_error (st_params s) (v_param v)) as [q|] eqn:Q, (nth_error (st_params s') (v_param v)) as [q'|] eqn:Q'; try contradiction; [|reflexivity].
  destruct (prel_fields _ _ P) as (-> & _ & _ & ->). destruct (p_written q); [|reflexivity].
  destruct (p_data q) as [[x|l|g]|]; reflexivity.
Qed.
Lemma sim_generic_set s s' vi v v' g : rel s s' -> wf env s -> nth_error (st_views s) vi = Some v -> vrel v v' ->
  sim eq (generic_set s vi v g) (generic_set s' vi v' g).
Proof.
  intros H W V E. unfold generic_set. destruct (vrel_fields _ _ E) as (_ & _ & Ep & _).
  destruct (sim_check_write s s' vi v v' GENERIC None None None H W V E I) as [A B].
  destruct (check_write s vi v _ _ _) as [t [y|e]] eqn:C, (check_write s' vi v' _ _ _) as [t' [y'|e']] eqn:C'; simpl in *; try contradiction; subst; auto.
  apply sim_ok; auto. rewrite Ep. now apply rel_store.
Qed.

(** ** Timeseries *)
Lemma map_nsc_from c c' k k' l : (forall x, uconvert_from c' (k * x) = (k' * uconvert_from c x)%R) ->
  map (option_map (uconvert_from c')) (map (nsc k) l) = map (nsc k') (map (option_map (uconvert_from c)) l).
Proof. intros H. rewrite !map_map. apply map_ext. intros x. now apply nsc_from. Qed.
Lemma map_nsc_to c c' k k' l : (forall x, uconvert_to c' (k * x) = (k' * uconvert_to c x)%R) ->
  map (option_map (uconvert_to c')) (map (nsc k) l) = map (nsc k') (map (option_map (uconvert_to c)) l).
Proof. intros H. rewrite !map_map. apply map_ext. intros x. now apply nsc_to. Qed.

Lemma sim_ts_own s s' vi v v' q q' : wf env s -> wf env s' -> nth_error (st_views s) vi = Some v -> nth_error (st_views s') vi = Some v' ->
  nth_error (st_params s) (v_param v) = Some q -> nth_error (st_params s') (v_param v) = Some q' ->
  vrel v v' -> prel q q' -> v_kind v = KTimeseries ->
  rr (times_l (kf (v_unit v) (v_unit v'))) (ts_own v q) (ts_own v' q').
Proof.
  intros W W' V V' Q Q' E P K. destruct (own_units _ _ _ _ _ _ _ W W' V V' Q Q' E P ltac:(congruence)) as [F _].
  unfold ts_own. destruct (prel_fields _ _ P) as (-> & _ & _ & ->). destruct (p_written q); [|reflexivity].
  destruct (p_data q) as [[x|l|g]|]; simpl; auto. unfold from_param.
  destruct (vrel_fields _ _ E) as (_ & _ & _ & -> & _).
  rewrite (map_nsc_from _ _ _ _ l F), nconvert_times.
  - destruct (nconvert _ _); simpl; reflexivity.
  - intros w. apply convert_times.
Qed.
Lemma sim_to_param s s' vi v v' q q' d : wf env s -> wf env s' -> nth_error (st_views s) vi = Some v -> nth_error (st_views s') vi = Some v' ->
  nth_error (st_params s) (v_param v) = Some q -> nth_error (st_params s') (v_param v) = Some q' ->
  vrel v v' -> prel q q' -> v_kind v = KTimeseries ->
  to_param v' (map (nsc (kf (v_unit v) (v_unit v'))) d) = rok (map (nsc (kfo (p_unit q) (p_unit q')))) (to_param v d).
Proof.
  intros W W' V V' Q Q' E P K. destruct (own_units _ _ _ _ _ _ _ W W' V V' Q Q' E P ltac:(congruence)) as [_ F].
  unfold to_param. destruct (vrel_fields _ _ E) as (_ & _ & _ & -> & _).
  rewrite (map_nsc_to _ _ _ _ d F). apply nconvert_times.
  intros w. apply convert_times.
Qed.

Definition vk (v v' : view) : R := kf (v_unit v) (v_unit v').

Lemma sim_read_with get get' s s' vi : rel s s' ->
  (forall v v', nth_error (st_views s) vi = Some v -> nth_error (st_views s') vi = Some v' -> vrel v v' ->
     sim (times_l (vk v v')) (get s v) (get' s' v')) ->
  sim (fun x x' => exists v v', nth_error (st_views s) vi = Some v /\ nth_error (st_views s') vi = Some v' /\ times_l (vk v v') x x')
    (read_with get s vi) (read_with get' s' vi).
Proof.
  intros H Hg. unfold read_with. pose proof (Forall2_nth _ _ _ (rl_views _ _ H) vi) as E.
  destruct (nth_error (st_views s) vi) as [v|] eqn:V, (nth_error (st_views s') vi) as [v'|] eqn:V'; try contradiction; auto.
  destruct (vrel_fields _ _ E) as (_ & _ & -> & _ & _ & _ & _ & ->).
  pose proof (Forall2_nth _ _ _ (rl_params _ _ H) (v_param v)) as P.
  destruct (nth_error (st_params s) (v_param v)) as [q|] eqn:Q, (nth_error (st_params s') (v_param v)) as [q'|] eqn:Q'; try contradiction; auto.
  destruct (prel_fields _ _ P) as (_ & -> & _). destruct (Hg v v' eq_refl eq_refl E) as [A B].
  pose proof (vrel_cache _ _ E) as D. destruct (v_data v) as [d|], (v_data v') as [d'|]; try contradiction.
  - destruct D as (l & -> & ->). destruct (v_version v) as [k|]; auto. destruct (k =? p_version q)%nat.
    + apply sim_ok; auto. exists v, v'. repeat split; auto.
    + destruct (get s v) as [t [x|e]], (get' s' v') as [t' [x'|e']]; simpl in *; try contradiction; subst; auto.
      apply sim_ok; [|exists v, v'; auto]. apply rel_set_view; auto. apply vrel_version. unfold times_l in B. subst x'. now apply vrel_data.
  - destruct (get s v) as [t [x|e]], (get' s' v') as [t' [x'|e']]; simpl in *; try contradiction; subst; auto.
    apply sim_ok; [|exists v, v'; auto]. apply rel_set_view; auto. apply vrel_version. unfold times_l in B. subst x'. now apply vrel_data.
Qed.

Lemma sim_leaf_read s s' c cv cv' : rel s s' -> wf env s -> wf env s' -> nth_error (st_views s) c = Some cv -> nth_error (st_views s') c = Some cv' ->
  v_kind cv = KTimeseries -> sim (times_l (vk cv cv')) (read_with leaf_values s c) (read_with leaf_values s' c).
Proof.
  intros H W W' V V' K. eapply sim_imp; [apply sim_read_with; auto|].
  - intros v v' N N' E. assert (v = cv) by congruence. assert (v' = cv') by congruence. subst. unfold leaf_values.
    destruct (vrel_fields _ _ E) as (_ & _ & -> & _).
    pose proof (Forall2_nth _ _ _ (rl_params _ _ H) (v_param cv)) as P.
    destruct (nth_error (st_params s) (v_param cv)) as [q|] eqn:Q, (nth_error (st_params s') (v_param cv)) as [q'|] eqn:Q'; try contradiction; auto.
    rewrite (prel_children _ _ P). split; [exact H|]. simpl. destruct (has_children q); [reflexivity|]. now apply (sim_ts_own s s' c).
  - simpl. intros x x' (v & v' & N & N' & T). assert (v = cv) by congruence. assert (v' = cv') by congruence. now subst.
Qed.

Lemma sim_sum_children k cs : forall s s' acc, rel s s' -> wf env s -> wf env s' ->
  (forall c, In c cs -> exists cv cv', nth_error (st_views s) c = Some cv /\ nth_error (st_views s') c = Some cv' /\
     v_kind cv = KTimeseries /\ vk cv cv' = k) ->
  sim (times_l k) (sum_children s cs acc) (sum_children s' cs (option_map (map (nsc k)) acc)).
Proof.
  induction cs as [|c cs IH]; intros s s' acc H W W' C; cbn [sum_children].
  - split; [exact H|]. destruct acc; reflexivity.
  - destruct (C c (or_introl eq_refl)) as (cv & cv' & V & V' & K & Ek).
    destruct (sim_leaf_read s s' c cv cv' H W W' V V' K) as [A B]. rewrite Ek in B.
    pose proof (Forall2_nth _ _ _ (rl_views _ _ H) c) as E. rewrite V, V' in E.
    assert (K' : v_kind cv' = KTimeseries) by (destruct (vrel_fields _ _ E) as (_ & -> & _); auto).
    destruct (read_with leaf_values s c) as [t [x|e]] eqn:L, (read_with leaf_values s' c) as [t' [x'|e']] eqn:L'; simpl in A, B; try contradiction; subst; auto.
    pose proof (proj1 (wf_leaf_read _ _ _ _ _ _ W V K L)) as Wt. pose proof (proj1 (wf_leaf_read _ _ _ _ _ _ W' V' K' L')) as Wt'.
    pose proof (rd_leaf_read _ _ _ _ L) as R. pose proof (rd_leaf_read _ _ _ _ L') as R'.
    assert (C' : forall c, In c cs -> exists dv dv', nth_error (st_views t) c = Some dv /\ nth_error (st_views t') c = Some dv' /\
      v_kind dv = KTimeseries /\ vk dv dv' = vk cv cv').
    { intros d Id. destruct (C d (or_intror Id)) as (dv & dv' & N & N' & Kd & Ed).
      destruct (rd_views _ _ R _ _ N) as (ev & M & Vr). destruct (rd_views _ _ R' _ _ N') as (ev' & M' & Vr').
      exists ev, ev'. unfold vk in *. rewrite (vr_unit _ _ Vr), (vr_unit _ _ Vr'), (vr_kind _ _ Vr). auto. }
    unfold times_l in B. subst x'. destruct acc as [a|]; cbn [option_map].
    + rewrite arr_add_times. destruct (arr_add a x) as [a'|e]; cbn [rok]; [|auto].
      apply (IH t t' (Some a')); auto.
    + replace (Some (map (nadd (Some 0%R)) (map (nsc (vk cv cv')) x))) with
        (option_map (map (nsc (vk cv cv'))) (Some (map (nadd (Some 0%R)) x))).
      * apply IH; auto.
      * simpl. f_equal. rewrite !map_map. apply map_ext. intros y. rewrite nsc_add. f_equal. simpl. f_equal. ring.
Qed.

Lemma sim_ts_get s s' vi v v' : rel s s' -> wf env s -> wf env s' -> nth_error (st_views s) vi = Some v -> nth_error (st_views s') vi = Some v' ->
  v_kind v = KTimeseries -> sim (times_l (vk v v')) (ts_get s vi) (ts_get s' vi).
Proof.
  intros H W W' V V' K. eapply sim_imp; [apply sim_read_with; auto|].
  - intros v0 v0' N N' E. assert (v0 = v) by congruence. assert (v0' = v') by congruence. subst. unfold get_values.
    destruct (vrel_fields _ _ E) as (_ & _ & -> & _ & Ec & _).
    pose proof (Forall2_nth _ _ _ (rl_params _ _ H) (v_param v)) as P.
    destruct (nth_error (st_params s) (v_param v)) as [q|] eqn:Q, (nth_error (st_params s') (v_param v)) as [q'|] eqn:Q'; try contradiction; auto.
    rewrite (prel_children _ _ P), Ec. destruct (has_children q).
    + destruct (v_children v) as [cs|] eqn:C; auto. apply (sim_sum_children (vk v v') cs s s' None); auto.
      intros c Ic. destruct (leaf_units _ _ _ _ _ _ _ H W W' V V' E C Ic) as (cv & cv' & M & M' & Kc & Ek).
      exists cv, cv'. repeat split; auto. congruence.
    + split; [exact H|]. now apply (sim_ts_own s s' vi).
  - simpl. intros x x' (v0 & v0' & N & N' & T). assert (v0 = v) by congruence. assert (v0' = v') by congruence. now subst.
Qed.

Lemma sim_ts_write s s' vi v v' : rel s s' -> wf env s -> wf env s' -> nth_error (st_views s) vi = Some v -> nth_error (st_views s') vi = Some v' ->
  v_kind v = KTimeseries -> sim eq (ts_write s vi) (ts_write s' vi).
Proof.
  intros H W W' V V' K. unfold ts_write. rewrite V, V'. pose proof (Forall2_nth _ _ _ (rl_views _ _ H) vi) as E. rewrite V, V' in E.
  destruct (vrel_fields _ _ E) as (_ & _ & Ep & _ & _ & _ & -> & _). rewrite Ep.
  destruct (v_locked v); auto. pose proof (vrel_cache _ _ E) as D.
  destruct (v_data v) as [d|], (v_data v') as [d'|]; try contradiction; auto. destruct D as (l & -> & ->). simpl a_val.
  pose proof (Forall2_nth _ _ _ (rl_params _ _ H) (v_param v)) as P.
  destruct (nth_error (st_params s) (v_param v)) as [q|] eqn:Q, (nth_error (st_params s') (v_param v)) as [q'|] eqn:Q'; try contradiction; auto.
  rewrite (sim_to_param s s' vi v v' q q' l W W' V V' Q Q' E P K).
  destruct (to_param v l) as [xs|e]; cbn [rok]; auto.
  destruct (prel_fields _ _ P) as (_ & Ev & _). rewrite Ev. apply sim_ok; auto.
  apply rel_set_view; [apply rel_set_param; auto; now apply prel_store|now apply vrel_version].
Qed.

Lemma sim_ts_set s s' vi v v' l : rel s s' -> wf env s -> wf env s' -> nth_error (st_views s) vi = Some v -> nth_error (st_views s') vi = Some v' ->
  v_kind v = KTimeseries -> v_public v = true ->
  sim eq (ts_set s vi v (mkArr false l)) (ts_set s' vi v' (mkArr false (map (nsc (vk v v')) l))).
Proof.
  intros H W W' V V' K Pb. pose proof (Forall2_nth _ _ _ (rl_views _ _ H) vi) as E. rewrite V, V' in E.
  destruct (vrel_fields _ _ E) as (Epb & Ek & Ep & Et & _). unfold ts_set. rewrite Et.
  assert (U : unit_rel (Some (v_unit v)) (Some (v_unit v'))) by (apply E; congruence).
  destruct (sim_check_write s s' vi v v' (tc_type (v_tconv v)) _ _ (Some (mkTP 1 (tc_target (v_tconv v)))) H W V E U) as [A B].
  destruct (check_write s vi v _ _ _) as [t [y|e]] eqn:C, (check_write s' vi v' _ _ _) as [t' [y'|e']] eqn:C'; simpl in A, B; try contradiction; subst; auto.
  assert (Wt : wf env t) by (eapply (wf_check_write env s); eauto).
  assert (Wt' : wf env t') by (eapply (wf_check_write env s'); eauto; congruence).
  simpl a_val. simpl a_int. rewrite map_length. destruct (_ =? _)%Z eqn:Len; auto. apply Z.eqb_eq in Len.
  pose proof (check_write_view _ _ _ _ _ _ _ _ V C) as N. pose proof (check_write_view _ _ _ _ _ _ _ _ V' C') as N'.
  rewrite N, N'. pose proof (vrel_writable _ _ E) as E1.
  assert (Z : forall d d', d = mkArr false l -> d' = mkArr false (map (nsc (vk v v')) l) ->
    sim eq (ts_write (set_view t vi (v_set_data (v_set_writable v) d)) vi) (ts_write (set_view t' vi (v_set_data (v_set_writable v') d')) vi)).
  { intros d d' -> ->.
    destruct (check_write_ok env _ _ _ _ _ _ _ _ W V Pb C) as (q & Q & Wr).
    destruct (check_write_ok env _ _ _ _ _ _ _ _ W' V' ltac:(congruence) C') as (q' & Q' & Wr').
    eapply sim_ts_write.
    - apply rel_set_view; auto. exact (vrel_data _ _ l E1).
    - eapply wf_set_data; eauto.
    - eapply wf_set_data; eauto; [simpl; congruence|]. simpl. rewrite map_length, Et. auto.
    - eapply set_view_nth; eauto.
    - eapply set_view_nth; eauto.
    - exact K. }
  cbn [v_data v_set_writable]. pose proof (vrel_cache _ _ E) as D.
  destruct (v_data v) as [d|], (v_data v') as [d'|]; try contradiction; auto.
  destruct D as (m & -> & ->). simpl. auto.
Qed.

Lemma sim_handle_set s s' vi v v' i x : rel s s' -> wf env s -> wf env s' -> nth_error (st_views s) vi = Some v -> nth_error (st_views s') vi = Some v' ->
  v_kind v = KTimeseries -> v_public v = true ->
  sim eq (handle_set s vi i x) (handle_set s' vi i (nsc (vk v v') x)).
Proof.
  intros H W W' V V' K Pb. pose proof (Forall2_nth _ _ _ (rl_views _ _ H) vi) as E. rewrite V, V' in E.
  destruct (vrel_fields _ _ E) as (Epb & Ek & Ep & Et & _). unfold handle_set. rewrite V, V'.
  pose proof (vrel_cache _ _ E) as D.
  destruct (v_data v) as [d|] eqn:Dv, (v_data v') as [d'|] eqn:Dv'; try contradiction; auto.
  destruct D as (m & -> & ->). simpl a_val. rewrite map_length. destruct (pyindex _ i) as [j|]; auto. simpl a_int. cbn [cast_item].
  destruct (wf_views _ _ W _ _ V) as (q & Q & I). destruct (wf_views _ _ W' _ _ V') as (q' & Q' & I').
  eapply sim_ts_write.
  - apply rel_set_view; auto. unfold vk. rewrite <- upd_map. now apply vrel_data.
  - eapply wf_set_data; eauto; [apply (vi_data _ _ _ _ _ I); congruence|]. simpl. rewrite upd_length. exact (vi_len _ _ _ _ _ I _ Dv).
  - eapply wf_set_data; eauto; [congruence|apply (vi_data _ _ _ _ _ I'); congruence|]. simpl. rewrite upd_length. exact (vi_len _ _ _ _ _ I' _ Dv').
  - eapply set_view_nth; eauto.
  - eapply set_view_nth; eauto.
  - exact K.
Qed.
(** Reading does not change units. *)
Lemma after_read s s' vi v v' t t' x x' : rel s s' -> wf env s -> wf env s' -> nth_error (st_views s) vi = Some v -> nth_error (st_views s') vi = Some v' ->
  v_kind v = KTimeseries -> v_public v = true -> ts_get s vi = (t, x) -> ts_get s' vi = (t', x') ->
  wf env t /\ wf env t' /\ exists w w', nth_error (st_views t) vi = Some w /\ nth_error (st_views t') vi = Some w' /\
    v_kind w = KTimeseries /\ v_public w = true /\ vk w w' = vk v v'.
Proof.
  intros H W W' V V' K Pb T T'. pose proof (Forall2_nth _ _ _ (rl_views _ _ H) vi) as E. rewrite V, V' in E.
  destruct (vrel_fields _ _ E) as (Epb & Ek & _).
  split; [exact (proj1 (wf_ts_get env _ _ _ _ _ W V K T))|].
  split; [exact (proj1 (wf_ts_get env _ _ _ _ _ W' V' (eq_trans Ek K) T'))|].
  apply rd_ts_get in T. apply rd_ts_get in T'.
  destruct (rd_views _ _ T _ _ V) as (w & N & Vr). destruct (rd_views _ _ T' _ _ V') as (w' & N' & Vr').
  exists w, w'. unfold vk. rewrite (vr_unit _ _ Vr), (vr_unit _ _ Vr'), (vr_kind _ _ Vr), (vr_public _ _ Vr). auto.
Qed.
Lemma sim_ts_setitem s s' vi v v' i x : rel s s' -> wf env s -> wf env s' -> nth_error (st_views s) vi = Some v -> nth_error (st_views s') vi = Some v' ->
  v_kind v = KTimeseries -> v_public v = true ->
  sim eq (ts_setitem s vi i x) (ts_setitem s' vi i (nsc (vk v v') x)).
Proof.
  intros H W W' V V' K Pb. unfold ts_setitem. destruct (sim_ts_get s s' vi v v' H W W' V V' K) as [A B].
  destruct (ts_get s vi) as [t y] eqn:T, (ts_get s' vi) as [t' y'] eqn:T'.
  destruct (after_read _ _ _ _ _ _ _ _ _ H W W' V V' K Pb T T') as (Wt & Wt' & w & w' & N & N' & Kw & Pw & <-).
  destruct y as [y|e], y' as [y'|e']; simpl in A, B; try contradiction; subst; auto.
  now apply sim_handle_set.
Qed.
Lemma sim_handle_iadd s s' vi v v' x : rel s s' -> wf env s -> wf env s' -> nth_error (st_views s) vi = Some v -> nth_error (st_views s') vi = Some v' ->
  v_kind v = KTimeseries -> v_public v = true ->
  sim eq (handle_iadd s vi x) (handle_iadd s' vi (vk v v' * x)).
Proof.
  intros H W W' V V' K Pb. unfold handle_iadd. rewrite V, V'. pose proof (Forall2_nth _ _ _ (rl_views _ _ H) vi) as E. rewrite V, V' in E.
  pose proof (vrel_cache _ _ E) as D.
  destruct (v_data v) as [d|] eqn:Dv, (v_data v') as [d'|] eqn:Dv'; try contradiction; auto. clear D E.
  destruct (sim_ts_get s s' vi v v' H W W' V V' K) as [A B].
  destruct (ts_get s vi) as [t y] eqn:T, (ts_get s' vi) as [t' y'] eqn:T'.
  destruct (after_read _ _ _ _ _ _ _ _ _ H W W' V V' K Pb T T') as (Wt & Wt' & w & w' & N & N' & Kw & Pw & Ew).
  destruct y as [y|e], y' as [y'|e']; simpl in A, B; try contradiction; subst; auto.
  rewrite N, N'. pose proof (Forall2_nth _ _ _ (rl_views _ _ A) vi) as E. rewrite N, N' in E. pose proof (vrel_cache _ _ E) as D.
  destruct (vrel_fields _ _ E) as (Epb & Ek & Ep & Et & _).
  destruct (v_data w) as [dw|] eqn:Dw, (v_data w') as [dw'|] eqn:Dw'; try contradiction; auto.
  destruct D as (m & -> & ->). simpl.
  destruct (wf_views _ _ Wt _ _ N) as (q & Q & I). destruct (wf_views _ _ Wt' _ _ N') as (q' & Q' & I').
  replace (map (fun y => nadd y (Some (vk v v' * x)%R)) (map (nsc (kf (v_unit w) (v_unit w'))) m)) with
    (map (nsc (kf (v_unit w) (v_unit w'))) (map (fun y => nadd y (Some x)) m)).
  2: { rewrite !map_map. apply map_ext. intros z. rewrite nsc_add. f_equal. simpl. unfold vk in *. now rewrite Ew. }
  eapply sim_ts_write.
  - apply rel_set_view; auto. now apply vrel_data.
  - eapply wf_set_data; eauto; [apply (vi_data _ _ _ _ _ I); congruence|]. simpl. rewrite map_length. exact (vi_len _ _ _ _ _ I _ Dw).
  - eapply wf_set_data; eauto; [congruence|apply (vi_data _ _ _ _ _ I'); congruence|]. simpl. rewrite !map_length.
    pose proof (vi_len _ _ _ _ _ I' _ Dw') as X. simpl in X. rewrite map_length in X. exact X.
  - eapply set_view_nth; eauto.
  - eapply set_view_nth; eauto.
  - exact Kw.
Qed.
End S.
