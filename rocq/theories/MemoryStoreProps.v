(** The store with arrays in memory gives the answers of the store with arrays as values (C72). *)
From Coq Require Import String List ZArith Reals Bool Arith Lia.
From Verif Require Import Base ListFacts Units TimeModel Core CoreEvo CoreTree CoreInv CoreLeaves CoreStep CoreP8
  Memory MemoryStore Spec_MemoryStore MemoryRefine.
Import ListNotations.
Local Open Scope list_scope.

(** ** What finding a parameter does *)
Definition blank (q : param) : Prop := exists na pa r ch, q = with_children (new_param na pa r) ch.
Record grown (s s1 : state) : Prop := {
  gr_views : st_views s1 = st_views s;
  gr_len : length (st_params s) <= length (st_params s1);
  gr_old : forall p q, nth_error (st_params s) p = Some q -> exists ch, nth_error (st_params s1) p = Some (with_children q ch);
  gr_new : forall p q, nth_error (st_params s1) p = Some q -> length (st_params s) <= p -> blank q }.
Lemma grown_refl s : grown s s.
Proof.
  constructor; auto.
  - intros p q Q. exists (p_children q). now rewrite with_children_id.
  - intros p q Q L. apply nth_lt in Q. lia.
Qed.
Lemma grown_trans a b c : grown a b -> grown b c -> grown a c.
Proof.
  intros [A1 A2 A3 A4] [B1 B2 B3 B4]. constructor; [congruence|lia| |].
  - intros p q Q. destruct (A3 _ _ Q) as [ch C]. destruct (B3 _ _ C) as [ch' C']. exists ch'. rewrite C'. now destruct q.
  - intros p q Q L. destruct (le_lt_dec (length (st_params b)) p) as [L'|L']; [eauto|].
    destruct (nth_error (st_params b) p) as [x|] eqn:X; [|apply nth_error_None in X; lia].
    destruct (A4 _ _ X L) as (na & pa & r & ch & ->). destruct (B3 _ _ X) as [ch' C'].
    assert (q = with_children (with_children (new_param na pa r) ch) ch') by congruence. subst.
    exists na, pa, r, ch'. reflexivity.
Qed.
Lemma grown_same s s1 : st_views s1 = st_views s -> st_params s1 = st_params s -> grown s s1.
Proof.
  intros V P. constructor; auto; rewrite P; auto.
  - intros p q Q. exists (p_children q). now rewrite with_children_id.
  - intros p q Q L. apply nth_lt in Q. lia.
Qed.
Lemma grown_subregions ns : forall s r, grown s (fst (subregions s r ns)).
Proof.
  induction ns; intros s r; simpl; [apply grown_refl|].
  unfold get_or_create_subregion. destruct (nth_error (st_regions s) r); [|apply grown_refl].
  destruct (alookup a (r_children r0)); [apply IHns|]. destruct (r_aggregated r0); [apply grown_refl|].
  eapply grown_trans; [|apply IHns]. apply grown_same; reflexivity.
Qed.
Lemma grown_region s n : grown s (fst (get_or_create_region s n)).
Proof.
  unfold get_or_create_region. destruct (hcomponents n); [apply grown_refl|].
  destruct (nth_error (st_regions s) 0); [|apply grown_refl].
  destruct (_ =? _)%string; [apply grown_subregions|apply grown_refl].
Qed.
Lemma grown_add s ps na pa r rs : 
  (forall p q, nth_error (st_params s) p = Some q -> exists ch, nth_error ps p = Some (with_children q ch)) ->
  length ps = length (st_params s) ->
  grown s (mkState rs (ps ++ [new_param na pa r]) (st_views s)).
Proof.
  intros O L. constructor; simpl; auto.
  - rewrite app_length; simpl; lia.
  - intros p q Q. destruct (O _ _ Q) as [ch C]. exists ch. apply nth_app_old; auto.
  - intros p q Q Lp. apply nth_app_inv in Q as [Q|[-> ->]]; [apply nth_lt in Q; lia|].
    exists na, pa, r, []. reflexivity.
Qed.
Lemma grown_child s p n : grown s (fst (get_or_create_child_parameter s p n)).
Proof.
  unfold get_or_create_child_parameter. destruct (nth_error (st_params s) p) as [q0|] eqn:Q0; [|apply grown_refl].
  destruct (alookup n (p_children q0)); [apply grown_refl|]. destruct (p_written q0); [apply grown_refl|].
  destruct (p_read q0); [apply grown_refl|]. simpl. apply grown_add; [|apply upd_length].
  intros p' q Q. rewrite nth_upd. destruct (Nat.eqb_spec p p').
  - subst. rewrite Q. assert (q0 = q) by congruence; subst. eexists; reflexivity.
  - exists (p_children q). now rewrite with_children_id.
Qed.
Lemma grown_subs ns : forall s p, grown s (fst (subparameters s p ns)).
Proof.
  induction ns; intros s p; simpl; [apply grown_refl|]. pose proof (grown_child s p a) as G.
  destruct (get_or_create_child_parameter s p a) as [s1 [c|e]]; auto. eapply grown_trans; [exact G|apply IHns].
Qed.
Lemma grown_locate s n r : grown s (fst (locate s n r)).
Proof.
  unfold locate. pose proof (grown_region s r) as G. destruct (get_or_create_region s r) as [s1 [rr|e]]; auto.
  simpl in G. eapply grown_trans; [exact G|]. unfold get_or_create_parameter. destruct (hcomponents n); [apply grown_refl|].
  unfold get_or_create_root_parameter. destruct (nth_error (st_regions s1) rr); [|apply grown_refl].
  destruct (alookup s0 (r_params r0)); [apply grown_subs|]. eapply grown_trans; [|apply grown_subs].
  apply grown_add; auto. intros p q Q. exists (p_children q). now rewrite with_children_id.
Qed.

(** ** The tree alone *)
Definition tp (q : param) : param :=
  mkParam (p_name q) (p_parent q) (p_region q) (p_children q) (p_read q) (p_written q) None (p_unit q) None None 0.
Definition T (s : state) : state := mkState (st_regions s) (map tp (st_params s)) [].
Definition Tm {A} (x : state * A) : state * A := (T (fst x), snd x).

Lemma map_upd {A B} (f : A -> B) l i x : map f (upd l i x) = upd (map f l) i (f x).
Proof. revert i; induction l; intros [|i]; simpl; auto. now rewrite IHl. Qed.
Lemma T_param s i : nth_error (st_params (T s)) i = option_map tp (nth_error (st_params s) i).
Proof. simpl. apply nth_error_map. Qed.
Lemma T_subregion s r n : get_or_create_subregion (T s) r n = Tm (get_or_create_subregion s r n).
Proof.
  unfold get_or_create_subregion, Tm. simpl. destruct (nth_error (st_regions s) r); auto.
  destruct (alookup n (r_children r0)); auto. destruct (r_aggregated r0); auto.
Qed.
Lemma T_subregions ns : forall s r, subregions (T s) r ns = Tm (subregions s r ns).
Proof.
  induction ns; intros s r; auto. simpl. rewrite T_subregion.
  destruct (get_or_create_subregion s r a) as [s' [c|e]]; simpl; auto.
Qed.
Lemma T_get_region s n : get_or_create_region (T s) n = Tm (get_or_create_region s n).
Proof.
  unfold get_or_create_region. destruct (hcomponents n); auto. cbn [T st_regions].
  destruct (nth_error (st_regions s) 0); auto. destruct (_ =? _)%string; auto. apply T_subregions.
Qed.
Lemma T_root s r n : get_or_create_root_parameter (T s) r n = Tm (get_or_create_root_parameter s r n).
Proof.
  unfold get_or_create_root_parameter, Tm. simpl. destruct (nth_error (st_regions s) r); auto.
  destruct (alookup n (r_params r0)); auto. rewrite map_length. unfold T. simpl. now rewrite map_app.
Qed.
Lemma T_child s r n : get_or_create_child_parameter (T s) r n = Tm (get_or_create_child_parameter s r n).
Proof.
  unfold get_or_create_child_parameter, Tm. rewrite T_param. destruct (nth_error (st_params s) r) as [q|]; auto. simpl.
  destruct (alookup n (p_children q)); auto. destruct (p_written q); auto. destruct (p_read q); auto.
  simpl. unfold T. simpl. rewrite map_app, map_upd, map_length. reflexivity.
Qed.
Lemma T_subparams ns : forall s r, subparameters (T s) r ns = Tm (subparameters s r ns).
Proof.
  induction ns; intros s r; auto. simpl. rewrite T_child.
  destruct (get_or_create_child_parameter s r a) as [s' [c|e]]; simpl; auto.
Qed.
Lemma T_locate s n r : locate (T s) n r = Tm (locate s n r).
Proof.
  unfold locate. rewrite T_get_region. destruct (get_or_create_region s r) as [s' [c|e]]; simpl; auto.
  unfold get_or_create_parameter. destruct (hcomponents n); auto. rewrite T_root.
  destruct (get_or_create_root_parameter s' c s0) as [s1 [p|e]]; simpl; auto. apply T_subparams.
Qed.
Lemma T_get_subregion ns : forall s r, get_subregion (T s) r ns = get_subregion s r ns.
Proof. induction ns; intros s r; simpl; auto. destruct (nth_error _ _); auto. destruct (alookup _ _); auto. Qed.
Lemma T_get_subparameter ns : forall s r, get_subparameter (T s) r ns = get_subparameter s r ns.
Proof.
  induction ns; intros s r; cbn [get_subparameter]; auto. rewrite T_param.
  destruct (nth_error (st_params s) r); auto. simpl. destruct (alookup _ _); auto.
Qed.
Lemma T_info s n r : info (T s) n r = info s n r.
Proof.
  unfold info, get_region. destruct (hcomponents r); auto. cbn [T st_regions].
  destruct (nth_error (st_regions s) 0); auto. destruct (_ =? _)%string; auto.
  rewrite T_get_subregion. destruct (get_subregion s 0 l); auto.
  unfold get_parameter. destruct (hempty n); auto. destruct (hcomponents n); auto. cbn [T st_regions].
  destruct (nth_error (st_regions s) n0); auto. destruct (alookup _ _); auto. now rewrite T_get_subparameter.
Qed.

Lemma nth_error_ext {A} (l l' : list A) : (forall i, nth_error l i = nth_error l' i) -> l = l'.
Proof.
  revert l'. induction l; intros [|b l'] H; auto; try (specialize (H 0); discriminate).
  f_equal; [specialize (H 0); simpl in H; congruence|]. apply IHl. intros i. apply (H (S i)).
Qed.
Lemma nth_combine {A B} (l : list A) (l' : list B) i : nth_error (combine l l') i =
  match nth_error l i, nth_error l' i with Some a, Some b => Some (a, b) | _, _ => None end.
Proof.
  revert l' i. induction l; intros [|b l'] [|i]; simpl; auto; destruct (nth_error l i); auto.
Qed.
Lemma tree_is g n s m : rep g n s m -> tree_of n m = T s.
Proof.
  intros R. unfold tree_of, T. f_equal; [apply R|]. apply nth_error_ext. intros i.
  rewrite !nth_error_map, nth_combine. destruct (nth_error (st_params s) i) as [q|] eqn:Q.
  - destruct (r_n _ _ _ _ R _ _ Q) as (nq & -> & []). destruct (r_p _ _ _ _ R _ _ Q) as (mq & -> & []).
    simpl. unfold with_flags, tp. simpl. congruence.
  - rewrite (nth_no _ _ _ (r_nl _ _ _ _ R) Q). auto.
Qed.

Lemma rep_grow g n s s1 m : rep g n s m -> grown s s1 -> rep g (T s1) s1 (grow (T s1) m).
Proof.
  intros R [G1 G2 G3 G4]. pose proof (r_pl _ _ _ _ R) as PL.
  constructor; simpl; rewrite ?app_length, ?repeat_length, ?map_length; try (apply R).
  - auto.
  - lia.
  - auto.
  - intros p q1 Q1. destruct (le_lt_dec (length (st_params s)) p) as [L|L].
    + destruct (G4 _ _ Q1 L) as (na & pa & r & ch & ->). exists (mkMP None None None false false 0). split.
      * rewrite nth_error_app2 by lia. apply nth_lt in Q1.
        rewrite nth_error_repeat by lia. auto.
      * constructor; simpl; auto; discriminate.
    + destruct (nth_error (st_params s) p) as [q|] eqn:Q; [|apply nth_error_None in Q; lia].
      destruct (G3 _ _ Q) as [ch C]. assert (q1 = with_children q ch) by congruence. subst.
      destruct (r_p _ _ _ _ R _ _ Q) as (mq & M & []). exists mq. split; [apply nth_app_old; auto|].
      constructor; simpl; auto.
  - intros p q1 Q1. rewrite nth_error_map, Q1. eexists. split; [reflexivity|]. constructor; auto.
  - rewrite G1. apply R.
  - intros i v V. rewrite G1 in V. apply (r_v _ _ _ _ R _ _ V).
  - intros i v V. rewrite G1 in V. destruct (r_vp _ _ _ _ R _ _ V) as (q & Q & Ty).
    destruct (G3 _ _ Q) as [ch C]. eauto.
Qed.

(** ** [attempt_read] for a request *)
Lemma rep_param_n g n n' s m p q q' mq' : rep g n s m -> nth_error (st_params s) p = Some q ->
  st_regions n' = st_regions n -> length (st_params n') = length (st_params n) ->
  (forall i, i <> p -> nth_error (st_params n') i = nth_error (st_params n) i) ->
  (exists nq, nth_error (st_params n') p = Some nq /\ same_names q' nq) ->
  pm g (m_heap m) q' mq' -> p_type q' <> None ->
  rep g n' (set_param s p q') (mkMem (m_heap m) (upd (m_params m) p mq') (m_views m) (m_caller m)).
Proof.
  intros [] Q N1 N2 N3 N4 PM Ty. constructor; simpl; rewrite ?upd_length; auto; try congruence.
  - intros p' x. rewrite !nth_upd. destruct (Nat.eqb_spec p p').
    + subst. destruct (nth_error (st_params s) p') eqn:E; [|discriminate]. intros [= <-].
      destruct (r_p _ _ E) as (mq & -> & _). eauto.
    + eauto.
  - intros p' x. rewrite !nth_upd. destruct (Nat.eqb_spec p p').
    + subst. rewrite Q. intros [= <-]. auto.
    + rewrite N3 by auto. eauto.
  - intros i v V. destruct (r_vp _ _ V) as (x & X & Tx). rewrite nth_upd. destruct (Nat.eqb_spec p (v_param v)).
    + subst. rewrite Q. eauto.
    + eauto.
Qed.

Lemma sim_attempt leaves g n s m p q t u tps r : rep g n s m -> nth_error (st_params s) p = Some q ->
  is_ts t -> nth_error (m_heap m) r = Some (Times (tp_ticks tps)) ->
  exists g' m', m_attempt_read leaves p t (Some r) m = (m', snd (attempt_read q t (Some u) (Some tps))) /\
    rep g' (name_unit n m p u) (set_param s p (fst (attempt_read q t (Some u) (Some tps)))) m' /\ ext g m g' m'.
Proof.
  intros R Q Ts C. destruct (r_p _ _ _ _ R _ _ Q) as (mq & Mq & PM). destruct (r_n _ _ _ _ R _ _ Q) as (nq & Nq & SN).
  unfold m_attempt_read, attempt_read, name_unit, mbind, get_param. rewrite Mq, Nq.
  pose proof (pm_type _ _ _ _ PM) as PT. destruct mq as [mt mti md mr mw mv]. simpl in PT. subst mt. simpl.
  destruct (p_type q) as [t'|] eqn:Tq.
  - destruct (ptype_eqb t' t).
    + eexists g, _. split; [reflexivity|]. split; [|apply ext_param]. simpl.
      eapply rep_param_n; eauto.
      * exists nq. split; auto. destruct SN. constructor; auto.
      * destruct PM. constructor; simpl in *; auto; congruence.
      * simpl. congruence.
    + exists g, m. split; [auto|]. split; [|apply ext_refl]. simpl. unfold set_param. rewrite (upd_same _ _ _ Q). now destruct s.
  - set (nq' := mkParam (p_name nq) (p_parent nq) (p_region nq) (p_children nq) (p_read nq) (p_written nq)
      (p_type nq) (Some u) (p_time nq) (p_data nq) (p_version nq)).
    assert (N2 : forall i, i <> p -> nth_error (st_params (set_param n p nq')) i = nth_error (st_params n) i).
    { intros i Ne. simpl. rewrite nth_upd_neq; auto. }
    assert (N1 : nth_error (st_params (set_param n p nq')) p = Some nq') by (simpl; eapply nth_here; eauto).
    assert (N3 : length (st_params (set_param n p nq')) = length (st_params n)) by apply upd_length.
    assert (Pt : p_time q = None).
    { destruct (p_time q) eqn:X; auto. exfalso. apply (pm_timed _ _ _ _ PM); congruence. }
    assert (M : forall q1 (h1 : res unit) (H : q1 = p_set_type q t (Some u)),
       ((series_length t (length (tp_ticks tps)) <? 0)%Z = true) ->
       rep g (set_param n p nq') (set_param s p q1)
         (mkMem (m_heap m) (upd (m_params m) p (mkMP (Some t) mti md mr mw mv)) (m_views m) (m_caller m))).
    { intros q1 _ -> _. eapply rep_param_n; eauto.
      - exists nq'. split; auto. destruct SN. constructor; auto.
      - destruct PM. constructor; simpl in *; auto; try discriminate. intros t0 [= <-]; auto.
      - discriminate. }
    assert (U : forall A (l : list A) i x y, upd (upd l i x) i y = upd l i y).
    { induction l; intros [|i] x y; simpl; auto. now rewrite IHl. }
    assert (M2 : forall k,
       rep (g ++ [TKept] ++ [TKept]) (set_param n p nq')
         (set_param s p (p_set_read (p_set_time (p_set_data (p_set_type q t (Some u)) (PArr (repeat None k))) tps)))
         (mkMem ((m_heap m ++ [Nums (mkArr false (repeat None k))]) ++ [Times (tp_ticks tps)])
            (upd (m_params m) p (mkMP (Some t) (Some (length (m_heap m ++ [Nums (mkArr false (repeat None k))])))
               (Some (length (m_heap m))) true mw mv)) (m_views m) (m_caller m))).
    { intros k. rewrite app_assoc.
      pose proof (rep_new _ _ _ _ TKept (Nums (mkArr false (repeat None k))) R) as R1.
      pose proof (rep_new _ _ _ _ TKept (Times (tp_ticks tps)) R1) as R2. simpl in R2.
      eapply (rep_param_n _ _ _ _ _ _ _ _ _ R2); simpl; eauto.
      - exists nq'. split; auto. destruct SN. constructor; auto.
      - pose proof (pm_version _ _ _ _ PM) as Vq. pose proof (pm_written _ _ _ _ PM) as Wq. simpl in Vq, Wq.
        constructor; simpl; auto; try discriminate.
        + intros t0 [= <-]; auto.
        + exists (length (m_heap m ++ [Nums (mkArr false (repeat None k))])). split; auto.
          rewrite <- (r_len _ _ _ _ R1) at 1. simpl. rewrite !nth_app_new. auto.
        + exists (length (m_heap m)). split; auto. rewrite <- (r_len _ _ _ _ R) at 1.
          split; apply nth_app_old; apply nth_app_new.
      - discriminate. }
    assert (Ex : forall c1 c2 ps, ext g m (g ++ [TKept] ++ [TKept]) (mkMem ((m_heap m ++ [c1]) ++ [c2]) ps (m_views m) (m_caller m))).
    { intros c1 c2 ps. split; auto. rewrite <- app_assoc. split; simpl; intros; apply nth_app_old; auto. }
    unfold put_param. destruct Ts as [-> | ->].
    + unfold times, mbind, content. cbn [m_heap]. rewrite C. cbn [mret].
      destruct (_ <? 0)%Z eqn:Neg.
      * eexists g, _. split; [reflexivity|]. split; [|apply ext_param]. eapply M; eauto. exact (Err EValueError).
      * unfold new_array. simpl. eexists _, _. split; [reflexivity|]. rewrite U. split; [apply M2|apply Ex].
    + unfold times, mbind, content. cbn [m_heap]. rewrite C. cbn [mret].
      destruct (_ <? 0)%Z eqn:Neg.
      * eexists g, _. split; [reflexivity|]. split; [|apply ext_param]. eapply M; eauto. exact (Err EValueError).
      * unfold new_array. simpl. eexists _, _. split; [reflexivity|]. rewrite U. split; [apply M2|apply Ex].
Qed.

(** ** Leaves *)
Lemma leaves_ext f : forall ps ps' p, map p_children ps = map p_children ps' -> leaves f ps p = leaves f ps' p.
Proof.
  induction f; intros ps ps' p H; auto. rewrite !leaves_S.
  assert (E : option_map p_children (nth_error ps p) = option_map p_children (nth_error ps' p)).
  { rewrite <- !nth_error_map. now rewrite H. }
  destruct (nth_error ps p) as [q|], (nth_error ps' p) as [q'|]; simpl in E; try discriminate; auto.
  injection E as E. rewrite E. destruct (p_children q') as [|c cs]; auto.
  f_equal. apply map_ext. intros. apply IHf; auto.
Qed.
Lemma leaves_some f : forall ps p ls, leaves f ps p = Some ls -> ls <> [].
Proof.
  induction f; intros ps p ls H; [discriminate|]. rewrite leaves_S in H.
  destruct (nth_error ps p) as [q|]; [|discriminate]. destruct (p_children q) as [|c cs]; [injection H as <-; discriminate|].
  simpl in H. destruct (leaves f ps (snd c)) as [a|] eqn:A; [|discriminate].
  destruct (opt_concat _); [|discriminate]. injection H as <-. apply IHf in A. destruct a; simpl; congruence.
Qed.

Section Env.
Variable env : uenv.
Notation wf := (wf env).

Lemma below_leaves n s : map p_children (st_params n) = map p_children (st_params s) -> wft s ->
  forall p q, nth_error (st_params n) p = Some q -> has_children q = true ->
  param_leaves n p = Some (below n p) /\ below n p <> [] /\ forall i, In i (below n p) -> i < length (st_params s).
Proof.
  intros H W p q Q Hc. unfold below. rewrite Q, Hc.
  assert (L : length (st_params n) = length (st_params s)).
  { erewrite <- map_length, H, map_length. auto. }
  assert (E : param_leaves n p = param_leaves s p).
  { unfold param_leaves. rewrite L. apply leaves_ext; auto. }
  destruct (nth_ex _ (st_params s) _ _ (eq_sym L) Q) as (q' & Q').
  destruct (param_leaves_total _ _ _ W Q') as (ls & Ls). rewrite E, Ls. split; [auto|split].
  - eapply leaves_some; eauto.
  - intros i I. apply (proj2 (param_leaves_spec _ _ _ W Ls)) in I. destruct I as [_ (x & X & _)].
    eapply nth_lt; eauto.
Qed.
Lemma kids_below n s : map p_children (st_params n) = map p_children (st_params s) -> wft s ->
  forall p q, nth_error (st_params n) p = Some q -> kids (below n) p = has_children q.
Proof.
  intros H W p q Q. unfold kids. destruct (has_children q) eqn:Hc.
  - destruct (below_leaves _ _ H W _ _ Q Hc) as (_ & N & _). destruct (below n p); congruence.
  - unfold below. now rewrite Q, Hc.
Qed.
Lemma units_are n p nq u : nth_error (st_params n) p = Some nq ->
  unit_of env n p u = unit_converter env (p_unit nq) (Some u).
Proof. intros Q. unfold unit_of. now rewrite Q. Qed.
Lemma leaves_are n s0 : map p_children (st_params n) = map p_children (st_params s0) -> wft s0 ->
  forall s p q, map p_children (st_params n) = map p_children (st_params s) ->
  nth_error (st_params s) p = Some q -> has_children q = true ->
  param_leaves s p = Some (below n p) /\ forall i, In i (below n p) -> i < length (st_params s).
Proof.
  intros H0 W s p q H Q Hc.
  assert (L : length (st_params n) = length (st_params s)) by (erewrite <- map_length, H, map_length; auto).
  assert (L0 : length (st_params s0) = length (st_params s)) by (erewrite <- map_length, <- H0, H, map_length; auto).
  destruct (nth_ex _ (st_params n) _ _ L Q) as (nq & Nq).
  assert (Hn : has_children nq = true).
  { assert (E : option_map p_children (nth_error (st_params n) p) = option_map p_children (nth_error (st_params s) p)).
    { rewrite <- !nth_error_map. now rewrite H. }
    rewrite Q, Nq in E. simpl in E. injection E as E. unfold has_children in *. now rewrite E. }
  destruct (below_leaves _ _ H0 W _ _ Nq Hn) as (A & _ & B). rewrite L0 in B. split; auto.
  rewrite <- A. unfold param_leaves. rewrite L. symmetry. apply leaves_ext; auto.
Qed.

(** ** Calls *)
Record inv (g : list tag) (h : hstate) (w : vstate) : Prop := {
  i_rep : rep g (hs_names h) (vs_store w) (hs_mem h);
  i_wf : wf (vs_store w);
  i_arrays : Forall2 (fun r c => nth_error (m_heap (hs_mem h)) r = Some c) (rev (m_caller (hs_mem h))) (vs_arrays w) }.

Lemma arrays_ext g m g' m' n s cs : rep g n s m -> ext g m g' m' ->
  Forall2 (fun r c => nth_error (m_heap m) r = Some c) (rev (m_caller m)) cs ->
  Forall2 (fun r c => nth_error (m_heap m') r = Some c) (rev (m_caller m')) cs.
Proof.
  intros R E F. rewrite (e_caller _ _ _ _ E).
  assert (I : forall r, In r (rev (m_caller m)) -> nth_error g r = Some TCaller).
  { intros r H. apply (r_c _ _ _ _ R). now apply in_rev. }
  induction F; constructor.
  - eapply (proj2 (e_keeps _ _ _ _ E)); eauto; [apply I; left; auto|discriminate].
  - apply IHF. intros; apply I; right; auto.
Qed.

Definition good (g : list tag) (x : hstate * res answer) (y : vstate * res answer) : Prop :=
  snd x = snd y /\ exists g', inv g' (fst x) (fst y).

Lemma good_same g h w e : inv g h w -> good g (h, e) (w, e).
Proof. intros I. split; auto. exists g; auto. Qed.

(** A call whose effect in memory is that on values. *)
Lemma good_call g h w (o : mop) (y : state * res val) (c : op) : inv g h w ->
  step env c (vs_store w) = y ->
  (exists g' m' z, mstep (below (hs_names h)) (unit_of env (hs_names h)) o (hs_mem h) = (m', z) /\
     rep g' (hs_names h) (fst y) m' /\ ext g (hs_mem h) g' m' /\
     matches (fun a b => result_of a = answer_of b) (snd y) z) ->
  good g (mcall env (hs_names h) o (hs_mem h)) (store_call env c w).
Proof.
  intros [R W A] Y (g' & m' & z & X & R' & E & M). unfold mcall, store_call. rewrite X, Y. destruct y as [s' r'].
  pose proof (wf_step env _ _ _ _ W Y) as W'. pose proof (arrays_ext _ _ _ _ _ _ _ R E A) as A'.
  destruct r' as [b|e], z as [a|e']; simpl in M; try contradiction; simpl.
  - split; [simpl; congruence|]. exists g'. constructor; auto.
  - split; [simpl; congruence|]. exists g'. constructor; auto.
Qed.

Lemma sim_view {A} n g s m vi (f : A -> mval) (f' : A -> val) (x : MM A) (F : view -> state * res A) :
  rep g n s m -> (forall a, result_of (f' a) = answer_of (f a)) ->
  (forall v, nth_error (st_views s) vi = Some v -> v_public v = true -> sim n g s m x (F v)) ->
  exists g' m' z, on_view vi false (as_val f x) m = (m', z) /\
    rep g' n (fst (with_view s vi KTimeseries (fun v => lift f' (F v)))) m' /\ ext g m g' m' /\
    matches (fun a b => result_of a = answer_of b) (snd (with_view s vi KTimeseries (fun v => lift f' (F v)))) z.
Proof.
  intros R Hf H. unfold on_view, with_view, mbind.
  destruct (nth_error (st_views s) vi) as [v|] eqn:V.
  2: { rewrite (view_not _ _ _ _ _ R V). eexists g, m, _. split; [reflexivity|]. split; [auto|split; [apply ext_refl|simpl; auto]]. }
  destruct (view_is _ _ _ _ _ _ R V) as (w & -> & Wn & VM). pose proof (vm_static _ _ _ _ _ VM) as VS.
  rewrite (vs_public _ _ _ _ VS), (vs_gen _ _ _ _ VS), (vs_kind _ _ _ _ VS). destruct (v_public v) eqn:P; simpl.
  2: { eexists g, m, _. split; [reflexivity|]. split; [auto|split; [apply ext_refl|simpl; auto]]. }
  destruct (H v eq_refl P) as (g1 & m1 & X & R1 & E1). unfold as_val, mbind. rewrite X.
  destruct (F v) as [s1 [a|e]]; simpl in *; eexists g1, m1, _; (split; [reflexivity|]); (split; [auto|split; [auto|simpl; auto]]).
Qed.

Lemma inv_kids g h w : inv g h w -> forall p nq, nth_error (st_params (hs_names h)) p = Some nq ->
  kids (below (hs_names h)) p = has_children nq.
Proof.
  intros [R W _]. apply (kids_below _ (vs_store w)); [eapply rep_children; eauto|apply W].
Qed.

Lemma array_is g h w k r : inv g h w -> array (hs_mem h) k = Some r ->
  exists c, nth_error (vs_arrays w) k = Some c /\ nth_error (m_heap (hs_mem h)) r = Some c /\ In r (m_caller (hs_mem h)) /\
    nth_error g r = Some TCaller.
Proof.
  intros [R W A] H. unfold array in H. assert (I : In r (m_caller (hs_mem h))).
  { apply in_rev. eapply nth_error_In; eauto. }
  assert (E : exists c, nth_error (vs_arrays w) k = Some c /\ nth_error (m_heap (hs_mem h)) r = Some c).
  { clear - A H. revert k H. induction A; intros [|k] H'; simpl in *; try discriminate; eauto. injection H' as <-. eauto. }
  destruct E as (c & C1 & C2). exists c. split; [auto|split; [auto|split; [auto|]]]. apply (r_c _ _ _ _ R); auto.
Qed.
Lemma array_not g h w k : inv g h w -> array (hs_mem h) k = None -> nth_error (vs_arrays w) k = None.
Proof.
  intros [R W A] H. unfold array in H. clear - A H. revert k H.
  induction A; intros [|k] H'; simpl in *; try discriminate; eauto.
Qed.
Lemma has_is m r : In r (m_caller m) -> has r m = (m, Ok tt).
Proof.
  intros I. unfold has. replace (existsb (Nat.eqb r) (m_caller m)) with true; auto. symmetry. apply existsb_exists.
  exists r. split; auto. apply Nat.eqb_refl.
Qed.

(** Writing to an array of the caller. *)
Lemma inv_write g h w k r c c0 : inv g h w -> array (hs_mem h) k = Some r -> nth_error (m_heap (hs_mem h)) r = Some c0 ->
  inv g (mkH (hs_names h) (mkMem (upd (m_heap (hs_mem h)) r c) (m_params (hs_mem h)) (m_views (hs_mem h)) (m_caller (hs_mem h))))
    (mkV (vs_store w) (upd (vs_arrays w) k c)).
Proof.
  intros I Hk C0. destruct (array_is _ _ _ _ _ I Hk) as (c1 & _ & _ & In_r & Tg). destruct I as [R W A]. constructor; simpl; auto.
  - destruct R. constructor; simpl; rewrite ?upd_length; auto.
    + intros p q Q. destruct (r_p _ _ Q) as (mq & X & Y). exists mq. split; auto.
      eapply pm_mono; [|exact Y]. eapply keeps_over; eauto. unfold kept. discriminate.
    + intros i v V. destruct (r_v _ _ V) as (x & X & Y). exists x. split; auto.
      eapply vm_mono; [|exact Y]. eapply keeps_over; eauto. intros [|]; discriminate.
  - unfold array in Hk. pose proof (NoDup_rev (r_nodup _ _ _ _ R)) as ND.
    revert k Hk. clear - A ND C0. induction A; intros k Hk; [destruct k; discriminate|].
    inversion ND; subst. destruct k as [|k]; simpl in *.
    + injection Hk as ->. constructor; [eapply nth_here; eauto|].
      clear - A H2. induction A; constructor.
      * rewrite nth_upd_neq; auto. intros ->. apply H2. left; auto.
      * apply IHA. intros X; apply H2; right; auto.
    + constructor; [|apply IHA; auto]. rewrite nth_upd_neq; auto. intros ->. apply H2. eapply nth_error_In; eauto.
Qed.
(** A new array of the caller. *)
Lemma inv_new g h w c : inv g h w ->
  inv (g ++ [TCaller]) (mkH (hs_names h) (mkMem (m_heap (hs_mem h) ++ [c]) (m_params (hs_mem h)) (m_views (hs_mem h))
    (length (m_heap (hs_mem h)) :: m_caller (hs_mem h)))) (mkV (vs_store w) (vs_arrays w ++ [c])).
Proof.
  intros [R W A]. pose proof (rep_new _ _ _ _ TCaller c R) as R1. constructor; simpl; auto.
  - destruct R1. simpl in *. constructor; simpl; auto.
    + intros r [<-|H]; auto. rewrite <- (MemoryRefine.r_len _ _ _ _ R). apply nth_app_new.
    + constructor; auto. intros X. apply (MemoryRefine.r_c _ _ _ _ R) in X. apply nth_lt in X.
      rewrite (MemoryRefine.r_len _ _ _ _ R) in X. lia.
  - apply Forall2_app; [|constructor; [apply nth_app_new|constructor]].
    clear - A. induction A; constructor; auto. apply nth_app_old; auto.
Qed.

Lemma with_view_is s vi v f : nth_error (st_views s) vi = Some v -> v_public v = true -> v_kind v = KTimeseries ->
  with_view s vi KTimeseries f = f v.
Proof. intros V P K. unfold with_view. now rewrite V, P, K. Qed.

Lemma iadd_is w vi x :
  vstep env (CIAdd vi x) w =
  match with_view (vs_store w) vi KTimeseries (fun _ => lift (fun _ => VUnit) (ts_iadd (vs_store w) vi x)) with
  | (s, Ok a) => (mkV s (vs_arrays w), Ok (result_of a))
  | (s, Err e) => (mkV s (vs_arrays w), Err e)
  end.
Proof.
  unfold vstep. unfold store_call at 1. cbn [step].
  destruct (nth_error (st_views (vs_store w)) vi) as [v|] eqn:V.
  2: { unfold with_view. rewrite V. reflexivity. }
  destruct (v_public v) eqn:P.
  2: { unfold with_view. rewrite V, P. reflexivity. }
  destruct (v_kind v) eqn:Kd; try (unfold with_view; rewrite V, P, Kd; reflexivity; fail).
  rewrite !(with_view_is _ _ _ _ V P Kd). unfold ts_iadd.
  pose proof (evo_step env (OGetValues vi) (vs_store w)) as Ev. cbn [step] in Ev. rewrite (with_view_is _ _ _ _ V P Kd) in Ev.
  destruct (ts_get (vs_store w) vi) as [s1 [xs|e]]; cbn [lift]; auto.
  specialize (Ev _ _ eq_refl). destruct (ev_views _ _ Ev _ _ V) as (v1 & V1 & []).
  unfold store_call at 1. cbn [step vs_store vs_arrays].
  rewrite (with_view_is _ _ _ _ V1) by congruence.
  pose proof (evo_step env (OHandleIAdd vi x) s1) as Ev1. cbn [step] in Ev1. rewrite (with_view_is _ _ _ _ V1) in Ev1 by congruence.
  destruct (handle_iadd s1 vi x) as [s2 [z|e]]; cbn [lift]; auto.
  specialize (Ev1 _ _ eq_refl). destruct (ev_views _ _ Ev1 _ _ V1) as (v2 & V2 & []).
  unfold store_call at 1. cbn [step vs_store vs_arrays]. rewrite (with_view_is _ _ _ _ V2) by congruence.
  rewrite V2. destruct (v_data v2) as [d|]; auto. cbn [result_of].
  unfold store_call. cbn [step vs_store vs_arrays]. rewrite (with_view_is _ _ _ _ V2) by congruence. reflexivity.
Qed.

Lemma m_timeseries_is leaves units p u r t ex m :
  m_timeseries leaves units p u r t ex m =
  mbind (m_attempt_read leaves p t (Some r)) (fun _ => m_build leaves units p u r t ex) m.
Proof. reflexivity. Qed.

Lemma locate_param s n r s1 p : wf s -> locate s n r = (s1, Ok p) -> exists q, nth_error (st_params s1) p = Some q.
Proof.
  intros W H. pose proof (wf_locate env _ _ _ _ _ W H) as W1. apply CoreNames.locate_created in H.
  eapply CoreNames.param_at_valid; eauto. apply W1.
Qed.

Lemma good_timeseries g h w name unit k r l region ty ip ex : inv g h w ->
  array (hs_mem h) k = Some r -> nth_error (m_heap (hs_mem h)) r = Some (Times l) ->
  good g (h_timeseries env h name unit r region ty ip ex)
    (store_call env (OTimeseries name unit (mkTP 1 l) region ty ip ex) w).
Proof.
  intros I Hk C. pose proof I as [R W A]. unfold h_timeseries, store_call. cbn [step].
  pose proof (wf_step env (OTimeseries name unit (mkTP 1 l) region ty ip ex) (vs_store w)) as WS. cbn [step] in WS.
  unfold ps_timeseries in *.
  destruct (from_timeseries_type ty) as [t|e] eqn:Ft; [|destruct w; apply good_same; auto].
  destruct (from_interpolation_type ip) as [i|e]; [|destruct w; apply good_same; auto].
  destruct (from_extrapolation_type ex) as [x|e]; [|destruct w; apply good_same; auto].
  pose proof (from_timeseries_type_ts _ _ Ft) as Ts.
  rewrite (tree_is _ _ _ _ R), T_locate. unfold Tm.
  pose proof (rep_grow _ _ _ _ _ R (grown_locate (vs_store w) name region)) as R1.
  destruct (locate (vs_store w) name region) as [s1 [p|e]] eqn:Lc; cbn [fst snd] in *.
  2: { split; [auto|]. exists g. constructor; simpl; auto. exact (WS _ _ W eq_refl). }
  destruct (locate_param _ _ _ _ _ W Lc) as (q & Q).
  set (m := grow (T s1) (hs_mem h)) in *.
  assert (C1 : nth_error (m_heap m) r = Some (Times l)) by exact C.
  destruct (sim_attempt (below (name_unit (T s1) m p unit)) _ _ _ _ _ _ t unit (mkTP 1 l) r R1 Q Ts C1)
    as (g2 & m2 & X2 & R2 & E2).
  assert (In_r : In r (m_caller m)).
  { apply in_rev. eapply nth_error_In. exact Hk. }
  assert (Tr : nth_error g r = Some TCaller) by (apply (r_c _ _ _ _ R1); auto).
  unfold mcall. cbn [mstep]. unfold mbind at 1. rewrite (has_is _ _ In_r). unfold as_val, mbind at 1.
  rewrite m_timeseries_is. unfold mbind at 1. rewrite X2. unfold on_param in *. rewrite Q in *.
  pose proof (wf_on_read env s1 p t (Some unit) (Some (mkTP 1 l))) as WR.
  unfold on_param in WR. rewrite Q in WR.
  destruct (attempt_read q t (Some unit) (Some (mkTP 1 l))) as [q2 [z|e]] eqn:At; cbn [fst snd] in *.
  2: { split; [auto|]. exists g2. constructor; simpl; auto; [exact (WS _ _ W eq_refl)|].
       eapply arrays_ext with (m := m); eauto. }
  specialize (WR _ _ (wf_locate env _ _ _ _ _ W Lc) eq_refl). destruct WR as [W2 _].
  set (n2 := name_unit (T s1) m p unit) in *.
  pose proof (rep_children _ _ _ _ R2) as Ch.
  assert (C2 : nth_error (m_heap m2) r = Some (Times l)).
  { eapply (proj2 (e_keeps _ _ _ _ E2)); eauto. discriminate. }
  destruct (sim_build n2 (below n2) (unit_of env n2) (kids_below _ _ Ch (wf_tree _ _ W2)) env (units_are n2)
    (leaves_are n2 _ Ch (wf_tree _ _ W2)) g2 _ m2 p unit r l t x R2 Ts C2) as (g3 & m3 & X3 & R3 & E3).
  { simpl. rewrite upd_length. eapply nth_lt; eauto. }
  rewrite X3. cbn [tp_ticks] in *.
  pose proof (arrays_ext _ _ _ _ _ _ _ R1 (ext_trans _ _ _ _ _ _ E2 E3) A) as A3.
  destruct (build_view _ _ _) as [s3 [vi|e]]; cbn [lift fst snd] in *.
  - split; [auto|]. exists g3. constructor; simpl; auto. exact (WS _ _ W eq_refl).
  - split; [auto|]. exists g3. constructor; simpl; auto. exact (WS _ _ W eq_refl).
Qed.

Lemma good_compute g h w vi f : inv g h w ->
  good g (mcall env (hs_names h) (MCompute vi f) (hs_mem h)) (vstep env (CCompute vi f) w).
Proof.
  intros I. pose proof I as [R W A]. unfold vstep, mcall. cbn [mstep].
  pose proof (wf_step env (OGetValues vi) (vs_store w)) as WS.
  unfold store_call. cbn [step] in *. unfold with_view in *. unfold on_view. unfold mbind at 1.
  destruct (nth_error (st_views (vs_store w)) vi) as [v|] eqn:V.
  2: { rewrite (view_not _ _ _ _ _ R V). destruct h, w. apply good_same; auto. }
  destruct (view_is _ _ _ _ _ _ R V) as (mw & -> & Wn & VM). pose proof (vm_static _ _ _ _ _ VM) as VS.
  rewrite (vs_public _ _ _ _ VS), (vs_gen _ _ _ _ VS). rewrite (vs_kind _ _ _ _ VS) in *. destruct (v_public v) eqn:P; cbn [andb Bool.eqb].
  2: { destruct h, w. apply good_same; auto. }
  destruct (sim_get _ _ (inv_kids _ _ _ I) _ _ _ vi R) as (g1 & m1 & X & R1 & E1).
  unfold as_val, m_compute, mbind. rewrite X. destruct (ts_get (vs_store w) vi) as [s1 [xs|e]]; cbn [lift result_of fst snd] in *.
  - specialize (WS _ _ W eq_refl). unfold new_array, give, mret. simpl. split; [auto|].
    exists (g1 ++ [TCaller]).
    apply (inv_new g1 (mkH (hs_names h) m1) (mkV s1 (vs_arrays w)) (Nums (mkArr false (f xs)))).
    constructor; simpl; auto. exact (arrays_ext _ _ _ _ _ _ _ R E1 A).
  - specialize (WS _ _ W eq_refl). split; [auto|]. exists g1. constructor; simpl; auto. exact (arrays_ext _ _ _ _ _ _ _ R E1 A).
Qed.

Lemma good_step g h w o : inv g h w -> good g (hstep env o h) (vstep env o w).
Proof.
  intros I. pose proof I as [R W A]. pose proof (inv_kids _ _ _ I) as K. destruct o; unfold hstep.
  - (* CNew *) unfold mcall. simpl. split; auto. exists (g ++ [TCaller]). apply inv_new; auto.
  - (* CWrite *) unfold with_array, vstep. destruct (array (hs_mem h) k) as [r|] eqn:Hk.
    2: { rewrite (array_not _ _ _ _ I Hk). apply good_same; auto. }
    destruct (array_is _ _ _ _ _ I Hk) as (c & Vc & Cc & Ir & _). rewrite Vc. unfold mcall. cbn [mstep].
    unfold nothing, as_val, m_write_item, mbind. rewrite (has_is _ _ Ir).
    destruct c as [a|l].
    2: { unfold numbers, mbind. rewrite (content_is _ _ _ Cc). simpl. destruct h. apply good_same; auto. }
    rewrite (numbers_is _ _ _ Cc). destruct (pyindex _ _) as [j|]; [|destruct h; apply good_same; auto].
    unfold mlift. destruct (cast_item (a_int a) x) as [y|e]; [|destruct h; apply good_same; auto].
    simpl. split; auto. exists g. eapply inv_write; eauto.
  - (* CWriteTime *) unfold with_array, vstep. destruct (array (hs_mem h) k) as [r|] eqn:Hk.
    2: { rewrite (array_not _ _ _ _ I Hk). apply good_same; auto. }
    destruct (array_is _ _ _ _ _ I Hk) as (c & Vc & Cc & Ir & _). rewrite Vc. unfold mcall. cbn [mstep].
    unfold nothing, as_val, m_write_time, mbind. rewrite (has_is _ _ Ir).
    destruct c as [a|l].
    { unfold times, mbind. rewrite (content_is _ _ _ Cc). simpl. destruct h. apply good_same; auto. }
    rewrite (times_is _ _ _ Cc). destruct (pyindex _ _) as [j|]; [|destruct h; apply good_same; auto].
    simpl. split; auto. exists g. eapply inv_write; eauto.
  - (* CLook *) unfold with_array, vstep. destruct (array (hs_mem h) k) as [r|] eqn:Hk.
    2: { rewrite (array_not _ _ _ _ I Hk). apply good_same; auto. }
    destruct (array_is _ _ _ _ _ I Hk) as (c & Vc & Cc & Ir & _). rewrite Vc. unfold mcall. cbn [mstep].
    unfold as_val, mbind. rewrite (has_is _ _ Ir), (content_is _ _ _ Cc). simpl. destruct h. apply good_same; auto.
  - (* CTimeseries *) unfold with_array, vstep. destruct (array (hs_mem h) time_points) as [r|] eqn:Hk.
    2: { rewrite (array_not _ _ _ _ I Hk). apply good_same; auto. }
    destruct (array_is _ _ _ _ _ I Hk) as (c & Vc & Cc & Ir & _). rewrite Vc, Cc.
    destruct c as [a|l]; [apply good_same; auto|]. eapply good_timeseries; eauto.
  - (* CInfo *) unfold vstep, store_call. cbn [step]. rewrite (tree_is _ _ _ _ R), T_info.
    destruct (info (vs_store w) name region); simpl; destruct w; apply good_same; auto.
  - (* CGet *) unfold vstep. eapply good_call; eauto. cbn [mstep step].
    apply (sim_view _ _ _ _ _ MValues VArr _ (fun _ => ts_get (vs_store w) v)); auto. intros. apply sim_get; auto.
  - (* CSet *) unfold with_array, vstep. destruct (array (hs_mem h) k) as [r|] eqn:Hk.
    2: { rewrite (array_not _ _ _ _ I Hk). apply good_same; auto. }
    destruct (array_is _ _ _ _ _ I Hk) as (c & Vc & Cc & Ir & _). rewrite Vc. destruct c as [a|l].
    + eapply good_call; eauto. cbn [mstep step]. unfold mbind. rewrite (has_is _ _ Ir).
      apply (sim_view _ _ _ _ _ (fun _ => MUnit) (fun _ => VUnit) _ (fun x => ts_set (vs_store w) v x a)); auto.
      intros. eapply sim_set; eauto.
    + unfold mcall. cbn [mstep]. unfold mbind. rewrite (has_is _ _ Ir). unfold on_view, mbind, get_view.
      destruct (nth_error (m_views (hs_mem h)) v) as [mw|]; [|destruct h; apply good_same; auto].
      destruct (mv_public mw && Bool.eqb (mv_generic mw) false); [|destruct h; apply good_same; auto].
      unfold nothing, as_val, m_set, mbind, numbers, mbind. rewrite (content_is _ _ _ Cc). simpl. destruct h; apply good_same; auto.
  - (* CSetItem *) unfold vstep. eapply good_call; eauto. cbn [mstep step].
    apply (sim_view _ _ _ _ _ (fun _ => MUnit) (fun _ => VUnit) _ (fun _ => ts_setitem (vs_store w) v i x)); auto. intros. apply sim_setitem; auto.
  - (* CIAdd *) rewrite iadd_is.
    destruct (sim_view (hs_names h) g (vs_store w) (hs_mem h) v (fun _ => MUnit) (fun _ => VUnit) (m_iadd (below (hs_names h)) v x) (fun _ => ts_iadd (vs_store w) v x) R)
      as (g' & m' & z & X & R' & E & M); auto.
    { intros. apply sim_iadd; auto. }
    unfold mcall. cbn [mstep]. unfold nothing. rewrite X.
    assert (W' : wf (fst (with_view (vs_store w) v KTimeseries (fun _ => lift (fun _ => VUnit) (ts_iadd (vs_store w) v x))))).
    { assert (Wv : wf (vs_store (fst (vstep env (CIAdd v x) w)))).
      { unfold vstep, store_call.
        destruct (step env (OGetValues v) (vs_store w)) as [s1 [a1|e]] eqn:S1; pose proof (wf_step env _ _ _ _ W S1); auto. cbn [vs_store vs_arrays].
        destruct (step env (OHandleIAdd v x) s1) as [s2 [a2|e]] eqn:S2; pose proof (wf_step env _ _ _ _ H S2); auto. cbn [vs_store vs_arrays].
        destruct (step env (OHandleArray v) s2) as [s3 [a3|e]] eqn:S3; pose proof (wf_step env _ _ _ _ H0 S3); auto.
        destruct (result_of a3); auto. cbn [vs_store vs_arrays].
        destruct (step env (OSetValues v (mkArr false l)) s3) as [s4 [a4|e]] eqn:S4; pose proof (wf_step env _ _ _ _ H1 S4); auto. }
      rewrite iadd_is in Wv. destruct (with_view _ _ _ _) as [s' [a|e]]; exact Wv. }
    pose proof (arrays_ext _ _ _ _ _ _ _ R E A) as A'.
    destruct (with_view _ _ _ _) as [s' [b|e]], z as [a|e']; simpl in *; try contradiction.
    + split; [simpl; congruence|]. exists g'. constructor; auto.
    + split; [simpl; congruence|]. exists g'. constructor; auto.
  - (* CLock *) unfold vstep. eapply good_call; eauto. cbn [mstep step].
    apply (sim_view _ _ _ _ _ (fun _ => MUnit) (fun _ => VUnit) _ (fun x => ts_lock (vs_store w) v x)); auto. intros. apply sim_lock; auto.
  - (* CUnlock *) unfold vstep. eapply good_call; eauto. cbn [mstep step].
    apply (sim_view _ _ _ _ _ (fun _ => MUnit) (fun _ => VUnit) _ (fun x => ts_unlock (vs_store w) v x)); auto. intros. apply sim_unlock; auto.
  - (* CCompute *) apply good_compute; auto.
Qed.

Lemma inv_start root : inv [] (hstart root) (vstart root).
Proof.
  constructor; simpl; [|apply wf_init|constructor].
  constructor; simpl; auto; try (intros [|]; discriminate); try (intros r []). constructor.
Qed.
Lemma same_results h : forall g x w, inv g x w -> results (hstep env) x h = results (vstep env) w h.
Proof.
  induction h as [|o h]; intros g x w I; simpl; auto.
  destruct (good_step g x w o I) as (E & g' & I'). rewrite E. f_equal. eapply IHh; eauto.
Qed.
Theorem arrays_are_values root h :
  results (hstep env) (hstart root) h = results (vstep env) (vstart root) h.
Proof. eapply same_results. apply inv_start. Qed.
End Env.
