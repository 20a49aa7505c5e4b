(** How cells evolve: every operation of the interface only extends the heaps, and
    changes an existing region / parameter / view only in the ways listed here. *)
From Coq Require Import String List Arith Lia Bool ZArith.
From Verif Require Import Base ListFacts Units TimeModel Core.
Import ListNotations.

Record pevo (q q' : param) : Prop := {
  pe_name : p_name q' = p_name q;
  pe_parent : p_parent q' = p_parent q;
  pe_region : p_region q' = p_region q;
  pe_type : p_type q <> None ->
            p_type q' = p_type q /\ p_unit q' = p_unit q /\ p_time q' = p_time q;
  pe_read : p_read q = true -> p_read q' = true;
  pe_written : p_written q = true -> p_written q' = true;
  pe_children : exists l, p_children q' = p_children q ++ l;
  pe_frozen : p_read q = true \/ p_written q = true -> p_children q' = p_children q;
  pe_version : p_version q <= p_version q' }.

Record revo (r r' : region) : Prop := {
  re_name : r_name r' = r_name r;
  re_parent : r_parent r' = r_parent r;
  re_children : exists l, r_children r' = r_children r ++ l;
  re_params : exists l, r_params r' = r_params r ++ l;
  re_agg : r_aggregated r' = r_aggregated r }.

Record vevo (v v' : view) : Prop := {
  ve_public : v_public v' = v_public v;
  ve_kind : v_kind v' = v_kind v;
  ve_param : v_param v' = v_param v;
  ve_unit : v_unit v' = v_unit v;
  ve_uconv : v_uconv v' = v_uconv v;
  ve_tconv : v_tconv v' = v_tconv v;
  ve_children : v_children v' = v_children v;
  ve_writable : v_writable v = true -> v_writable v' = true;
  ve_data : v_data v <> None -> v_data v' <> None }.

Definition levo {A} (R : A -> A -> Prop) (l l' : list A) : Prop :=
  forall i x, nth_error l i = Some x -> exists x', nth_error l' i = Some x' /\ R x x'.

Record evo (s s' : state) : Prop := {
  ev_regions : levo revo (st_regions s) (st_regions s');
  ev_params : levo pevo (st_params s) (st_params s');
  ev_views : levo vevo (st_views s) (st_views s') }.

Lemma pevo_refl q : pevo q q.
Proof. constructor; auto. exists []. now rewrite app_nil_r. Qed.
Lemma revo_refl q : revo q q.
Proof. constructor; auto; exists []; now rewrite app_nil_r. Qed.
Lemma vevo_refl q : vevo q q.
Proof. constructor; auto. Qed.
#[export] Hint Resolve pevo_refl revo_refl vevo_refl : evo.

Lemma pevo_trans a b c : pevo a b -> pevo b c -> pevo a c.
Proof.
  intros H K. destruct H, K. constructor; try congruence; auto.
  - intros T. destruct (pe_type0 T) as (A & B & C).
    destruct pe_type1 as (A' & B' & C'); [congruence|]. repeat split; congruence.
  - destruct pe_children0 as [l L], pe_children1 as [l' L']. exists (l ++ l').
    rewrite L', L. now rewrite app_assoc.
  - intros F. rewrite pe_frozen1, pe_frozen0; auto.
    destruct F; auto.
  - lia.
Qed.
Lemma revo_trans a b c : revo a b -> revo b c -> revo a c.
Proof.
  intros H K. destruct H, K. constructor; try congruence; auto.
  - destruct re_children0 as [l L], re_children1 as [l' L']. exists (l ++ l').
    rewrite L', L. now rewrite app_assoc.
  - destruct re_params0 as [l L], re_params1 as [l' L']. exists (l ++ l').
    rewrite L', L. now rewrite app_assoc.
Qed.
Lemma vevo_trans a b c : vevo a b -> vevo b c -> vevo a c.
Proof. intros H K. destruct H, K. constructor; try congruence; auto. Qed.

Lemma levo_refl {A} (R : A -> A -> Prop) l : (forall x, R x x) -> levo R l l.
Proof. intros H i x E. eauto. Qed.
Lemma levo_trans {A} (R : A -> A -> Prop) a b c :
  (forall x y z, R x y -> R y z -> R x z) -> levo R a b -> levo R b c -> levo R a c.
Proof.
  intros T H K i x E. destruct (H _ _ E) as (y & Ey & Ry).
  destruct (K _ _ Ey) as (z & Ez & Rz). eauto.
Qed.
Lemma levo_upd {A} (R : A -> A -> Prop) l i x y :
  (forall x, R x x) -> nth_error l i = Some x -> R x y -> levo R l (upd l i y).
Proof.
  intros Refl E H j z Ez. rewrite nth_upd.
  destruct (Nat.eqb_spec i j); subst.
  - rewrite Ez. assert (z = x) by congruence. subst. eauto.
  - eauto.
Qed.
Lemma levo_app {A} (R : A -> A -> Prop) l m : (forall x, R x x) -> levo R l (l ++ m).
Proof. intros Refl i x E. exists x. split; auto. now apply nth_app_old. Qed.

Lemma evo_refl s : evo s s.
Proof. constructor; apply levo_refl; auto with evo. Qed.
Lemma evo_trans a b c : evo a b -> evo b c -> evo a c.
Proof.
  intros [H1 H2 H3] [K1 K2 K3]. constructor.
  - eapply levo_trans; eauto using revo_trans.
  - eapply levo_trans; eauto using pevo_trans.
  - eapply levo_trans; eauto using vevo_trans.
Qed.
#[export] Hint Resolve evo_refl : evo.

Lemma evo_set_param s p q q' :
  nth_error (st_params s) p = Some q -> pevo q q' -> evo s (set_param s p q').
Proof.
  intros E H. constructor; simpl; try (apply levo_refl; auto with evo).
  eapply levo_upd; eauto with evo.
Qed.
Lemma evo_set_view s p q q' :
  nth_error (st_views s) p = Some q -> vevo q q' -> evo s (set_view s p q').
Proof.
  intros E H. constructor; simpl; try (apply levo_refl; auto with evo).
  eapply levo_upd; eauto with evo.
Qed.
Lemma evo_app_views s m :
  evo s (mkState (st_regions s) (st_params s) (st_views s ++ m)).
Proof.
  constructor; simpl; try (apply levo_refl; auto with evo).
  apply levo_app; auto with evo.
Qed.

Lemma evo_subregion s r n s' x : get_or_create_subregion s r n = (s', x) -> evo s s'.
Proof.
  unfold get_or_create_subregion. intros H.
  destruct (nth_error (st_regions s) r) as [rg|] eqn:E; [|inversion H; auto with evo].
  destruct (alookup n (r_children rg)); [inversion H; auto with evo|].
  destruct (r_aggregated rg) eqn:Ag; inversion H; subst; auto with evo.
  constructor; simpl; try (apply levo_refl; auto with evo).
  eapply levo_trans; [apply revo_trans| |apply levo_app; auto with evo].
  eapply levo_upd; eauto with evo.
  constructor; simpl; eauto. exists []; now rewrite app_nil_r.
Qed.

Lemma evo_subregions names : forall s r s' x, subregions s r names = (s', x) -> evo s s'.
Proof.
  induction names; simpl; intros s r s' x H.
  - inversion H; auto with evo.
  - destruct (get_or_create_subregion s r a) as [s1 [c|e]] eqn:E.
    + eapply evo_trans; [eapply evo_subregion; eauto| eauto].
    + inversion H; subst. eapply evo_subregion; eauto.
Qed.

Lemma evo_region s n s' x : get_or_create_region s n = (s', x) -> evo s s'.
Proof.
  unfold get_or_create_region. destruct (hcomponents n); intros H.
  - inversion H; auto with evo.
  - destruct (nth_error (st_regions s) 0); [|inversion H; auto with evo].
    destruct (String.eqb s0 (r_name r)); [|inversion H; auto with evo].
    eapply evo_subregions; eauto.
Qed.

Lemma evo_root_parameter s r n s' x :
  get_or_create_root_parameter s r n = (s', x) -> evo s s'.
Proof.
  unfold get_or_create_root_parameter. intros H.
  destruct (nth_error (st_regions s) r) as [rg|] eqn:E; [|inversion H; auto with evo].
  destruct (alookup n (r_params rg)); inversion H; subst; auto with evo.
  constructor; simpl; try (apply levo_refl; auto with evo).
  - eapply levo_upd; eauto with evo. constructor; simpl; eauto.
    exists []; now rewrite app_nil_r.
  - apply levo_app; auto with evo.
Qed.

Lemma evo_child_parameter s r n s' x :
  get_or_create_child_parameter s r n = (s', x) -> evo s s'.
Proof.
  unfold get_or_create_child_parameter. intros H.
  destruct (nth_error (st_params s) r) as [rg|] eqn:E; [|inversion H; auto with evo].
  destruct (alookup n (p_children rg)); [inversion H; auto with evo|].
  destruct (p_written rg) eqn:W; [inversion H; auto with evo|].
  destruct (p_read rg) eqn:D; inversion H; subst; auto with evo.
  constructor; simpl; try (apply levo_refl; auto with evo).
  eapply levo_trans; [apply pevo_trans| |apply levo_app; auto with evo].
  eapply levo_upd; eauto with evo.
  constructor; simpl; eauto. intros [?|?]; congruence.
Qed.

Lemma evo_subparameters names : forall s r s' x,
  subparameters s r names = (s', x) -> evo s s'.
Proof.
  induction names; simpl; intros s r s' x H.
  - inversion H; auto with evo.
  - destruct (get_or_create_child_parameter s r a) as [s1 [c|e]] eqn:E.
    + eapply evo_trans; [eapply evo_child_parameter; eauto| eauto].
    + inversion H; subst. eapply evo_child_parameter; eauto.
Qed.

Lemma evo_parameter s n r s' x : get_or_create_parameter s n r = (s', x) -> evo s s'.
Proof.
  unfold get_or_create_parameter. destruct (hcomponents n); intros H.
  - inversion H; auto with evo.
  - destruct (get_or_create_root_parameter s r s0) as [s1 [c|e]] eqn:E.
    + eapply evo_trans; [eapply evo_root_parameter; eauto|]. eapply evo_subparameters; eauto.
    + inversion H; subst. eapply evo_root_parameter; eauto.
Qed.

Lemma evo_locate s n r s' x : locate s n r = (s', x) -> evo s s'.
Proof.
  unfold locate. intros H.
  destruct (get_or_create_region s r) as [s1 [c|e]] eqn:E.
  - eapply evo_trans; [eapply evo_region; eauto| eapply evo_parameter; eauto].
  - inversion H; subst. eapply evo_region; eauto.
Qed.

Lemma pevo_attempt_read q t u tp q' x : attempt_read q t u tp = (q', x) -> pevo q q'.
Proof.
  unfold attempt_read. intros H.
  destruct (p_type q) eqn:T.
  - destruct (ptype_eqb p t); inversion H; subst; auto with evo.
    constructor; simpl; auto. exists []; now rewrite app_nil_r.
  - assert (X : forall b d tm, pevo q (mkParam (p_name q) (p_parent q) (p_region q)
       (p_children q) b (p_written q) (Some t) u tm d (p_version q)) \/ (b = false /\ p_read q = true)).
    { intros. destruct (p_read q) eqn:Rd; destruct b; auto; left;
      constructor; simpl; auto; try congruence; try (exists []; now rewrite app_nil_r). }
    destruct t; simpl in H.
    + inversion H; subst. destruct (X true (Some (PScalar None)) (p_time q)) as [K|[]]; auto; discriminate.
    + destruct tp as [tp|].
      * destruct (_ <? 0)%Z; inversion H; subst.
        -- unfold p_set_type. constructor; simpl; auto; try congruence.
           exists []; now rewrite app_nil_r.
        -- match goal with |- pevo _ ?z => destruct (X true (p_data z) (p_time z)) as [K|[]]; auto; discriminate end.
      * inversion H; subst. constructor; simpl; auto; try congruence.
        exists []; now rewrite app_nil_r.
    + destruct tp as [tp|].
      * destruct (_ <? 0)%Z; inversion H; subst.
        -- unfold p_set_type. constructor; simpl; auto; try congruence.
           exists []; now rewrite app_nil_r.
        -- match goal with |- pevo _ ?z => destruct (X true (p_data z) (p_time z)) as [K|[]]; auto; discriminate end.
      * inversion H; subst. constructor; simpl; auto; try congruence.
        exists []; now rewrite app_nil_r.
    + destruct (has_children q); inversion H; subst.
      * constructor; simpl; auto; try congruence. exists []; now rewrite app_nil_r.
      * match goal with |- pevo _ ?z => destruct (X true (p_data z) (p_time z)) as [K|[]]; auto; discriminate end.
Qed.

Lemma pevo_set_written q : pevo q (p_set_written q).
Proof. constructor; simpl; auto. exists []; now rewrite app_nil_r. Qed.
Lemma pevo_store q d : pevo q (p_store q d).
Proof. constructor; simpl; auto. exists []; now rewrite app_nil_r. Qed.

Lemma pevo_attempt_write q t u tp q' x : attempt_write q t u tp = (q', x) -> pevo q q'.
Proof.
  unfold attempt_write. destruct (has_children q); intros H.
  - inversion H; auto with evo.
  - destruct (attempt_read q t u tp) as [q1 [y|e]] eqn:E; inversion H; subst.
    + eapply pevo_trans; [eapply pevo_attempt_read; eauto| apply pevo_set_written].
    + eapply pevo_attempt_read; eauto.
Qed.

Lemma evo_on_param s p f s' x :
  (forall q q' y, f q = (q', y) -> pevo q q') ->
  on_param s p f = (s', x) -> evo s s'.
Proof.
  intros Hf. unfold on_param. destruct (nth_error (st_params s) p) eqn:E; intros H.
  - destruct (f p0) as [q' y] eqn:F. inversion H; subst.
    eapply evo_set_param; eauto.
  - inversion H; auto with evo.
Qed.

Lemma evo_on_read s p t u tp s' x :
  on_param s p (fun q => attempt_read q t u tp) = (s', x) -> evo s s'.
Proof. apply evo_on_param. intros q q' y. apply pevo_attempt_read. Qed.
Lemma evo_on_write s p t u tp s' x :
  on_param s p (fun q => attempt_write q t u tp) = (s', x) -> evo s s'.
Proof. apply evo_on_param. intros q q' y. apply pevo_attempt_write. Qed.

Lemma evo_build_view s mk p s' x : build_view s mk p = (s', x) -> evo s s'.
Proof.
  unfold build_view. intros H.
  destruct (nth_error (st_params s) p); [|inversion H; auto with evo].
  destruct (mk p); [|inversion H; auto with evo].
  destruct (has_children p0).
  - destruct (param_leaves s p); [|inversion H; auto with evo].
    destruct (rmap mk l); inversion H; subst; auto with evo.
    apply evo_app_views.
  - inversion H; subst. apply evo_app_views.
Qed.

Section E.
Variable env : uenv.

Lemma evo_scalar s n u r s' x : ps_scalar env s n u r = (s', x) -> evo s s'.
Proof.
  unfold ps_scalar. intros H.
  destruct (locate s n r) as [s1 [p|e]] eqn:L.
  2: { inversion H; subst. eapply evo_locate; eauto. }
  destruct (on_param s1 p _) as [s2 [y|e]] eqn:O.
  - eapply evo_trans; [eapply evo_locate; eauto|].
    eapply evo_trans; [eapply evo_on_read; eauto|].
    eapply evo_build_view; eauto.
  - inversion H; subst.
    eapply evo_trans; [eapply evo_locate; eauto|].
    eapply evo_on_read; eauto.
Qed.

Lemma evo_timeseries s n u tp r a b c s' x :
  ps_timeseries env s n u tp r a b c = (s', x) -> evo s s'.
Proof.
  unfold ps_timeseries. intros H.
  destruct (from_timeseries_type a); [|inversion H; auto with evo].
  destruct (from_interpolation_type b); [|inversion H; auto with evo].
  destruct (from_extrapolation_type c); [|inversion H; auto with evo].
  destruct (locate s n r) as [s1 [p|e]] eqn:L.
  2: { inversion H; subst. eapply evo_locate; eauto. }
  destruct (on_param s1 p _) as [s2 [y|e]] eqn:O.
  - eapply evo_trans; [eapply evo_locate; eauto|].
    eapply evo_trans; [eapply evo_on_read; eauto|].
    eapply evo_build_view; eauto.
  - inversion H; subst.
    eapply evo_trans; [eapply evo_locate; eauto|].
    eapply evo_on_read; eauto.
Qed.

Lemma evo_generic s n r s' x : ps_generic s n r = (s', x) -> evo s s'.
Proof.
  unfold ps_generic. intros H.
  destruct (locate s n r) as [s1 [p|e]] eqn:L.
  2: { inversion H; subst. eapply evo_locate; eauto. }
  destruct (on_param s1 p _) as [s2 [y|e]] eqn:O; inversion H; subst;
    (eapply evo_trans; [eapply evo_locate; eauto|]).
  - eapply evo_trans; [eapply evo_on_read; eauto|].
    apply evo_app_views.
  - eapply evo_on_read; eauto.
Qed.

Lemma on_param_views s p f s' x : on_param s p f = (s', x) -> st_views s' = st_views s.
Proof.
  unfold on_param. destruct (nth_error (st_params s) p); intros H.
  - destruct (f p0). inversion H; auto.
  - inversion H; auto.
Qed.

Lemma evo_check_write s vi v t u tp s' x :
  nth_error (st_views s) vi = Some v ->
  check_write s vi v t u tp = (s', x) -> evo s s'.
Proof.
  unfold check_write. intros V H.
  destruct (v_writable v); [inversion H; auto with evo|].
  destruct (on_param s (v_param v) _) as [s1 [y|e]] eqn:O; inversion H; subst.
  - eapply evo_trans.
    + eapply evo_on_write; eauto.
    + eapply evo_set_view with (q := v).
      * now rewrite (on_param_views _ _ _ _ _ O).
      * constructor; simpl; auto.
  - eapply evo_on_write; eauto.
Qed.

Lemma evo_store s p d : evo s (store s p d).
Proof.
  unfold store. destruct (nth_error (st_params s) p) eqn:E; auto with evo.
  eapply evo_set_param; eauto. apply pevo_store.
Qed.

Lemma evo_scalar_set s vi v y s' x :
  nth_error (st_views s) vi = Some v ->
  scalar_set s vi v y = (s', x) -> evo s s'.
Proof.
  unfold scalar_set. intros V H.
  destruct (check_write s vi v _ _ _) as [s1 [z|e]] eqn:C; inversion H; subst.
  - eapply evo_trans; [eapply evo_check_write; eauto|apply evo_store].
  - eapply evo_check_write; eauto.
Qed.
Lemma evo_generic_set s vi v y s' x :
  nth_error (st_views s) vi = Some v ->
  generic_set s vi v y = (s', x) -> evo s s'.
Proof.
  unfold generic_set. intros V H.
  destruct (check_write s vi v _ _ _) as [s1 [z|e]] eqn:C; inversion H; subst.
  - eapply evo_trans; [eapply evo_check_write; eauto|apply evo_store].
  - eapply evo_check_write; eauto.
Qed.

Lemma vevo_cache v d n : vevo v (v_set_version (v_set_data v d) n).
Proof. constructor; simpl; auto. congruence. Qed.
Lemma vevo_data v d : vevo v (v_set_data v d).
Proof. constructor; simpl; auto. congruence. Qed.
Lemma vevo_version v n : vevo v (v_set_version v n).
Proof. constructor; simpl; auto. Qed.
Lemma vevo_locked v n : vevo v (v_set_locked v n).
Proof. constructor; simpl; auto. Qed.


(** Reading touches nothing but view caches. *)
Record vread (v v' : view) : Prop := {
  vr_public : v_public v' = v_public v;
  vr_kind : v_kind v' = v_kind v;
  vr_param : v_param v' = v_param v;
  vr_unit : v_unit v' = v_unit v;
  vr_uconv : v_uconv v' = v_uconv v;
  vr_tconv : v_tconv v' = v_tconv v;
  vr_children : v_children v' = v_children v;
  vr_writable : v_writable v' = v_writable v;
  vr_locked : v_locked v' = v_locked v;
  vr_data : v_data v <> None -> v_data v' <> None }.

Record rd (s s' : state) : Prop := {
  rd_regions : st_regions s' = st_regions s;
  rd_params : st_params s' = st_params s;
  rd_len : length (st_views s') = length (st_views s);
  rd_views : levo vread (st_views s) (st_views s') }.

Lemma vread_refl v : vread v v. Proof. constructor; auto. Qed.
Hint Resolve vread_refl : evo.
Lemma vread_trans a b c : vread a b -> vread b c -> vread a c.
Proof. intros H K. destruct H, K. constructor; try congruence; auto. Qed.
Lemma vread_vevo a b : vread a b -> vevo a b.
Proof. intros []. constructor; auto; congruence. Qed.
Lemma rd_refl s : rd s s.
Proof. constructor; auto. apply levo_refl; auto with evo. Qed.
Hint Resolve rd_refl : evo.
Lemma rd_trans a b c : rd a b -> rd b c -> rd a c.
Proof.
  intros [] []. constructor; try congruence. eapply levo_trans; eauto using vread_trans.
Qed.
Lemma rd_evo a b : rd a b -> evo a b.
Proof.
  intros []. constructor.
  - rewrite rd_regions0. apply levo_refl; auto with evo.
  - rewrite rd_params0. apply levo_refl; auto with evo.
  - intros i x E. destruct (rd_views0 _ _ E) as (y & ? & ?). eauto using vread_vevo.
Qed.
Lemma rd_set_view s vi v v' :
  nth_error (st_views s) vi = Some v -> vread v v' -> rd s (set_view s vi v').
Proof.
  intros V H. constructor; simpl; auto.
  - apply upd_length.
  - eapply levo_upd; eauto with evo.
Qed.

Lemma rd_read_with get s vi s' x :
  (forall v s' x, get s v = (s', x) -> rd s s') ->
  read_with get s vi = (s', x) -> rd s s'.
Proof.
  intros G. unfold read_with. intros H.
  destruct (nth_error (st_views s) vi) as [v|] eqn:V; [|inversion H; auto with evo].
  destruct (nth_error (st_params s) (v_param v)) as [q|] eqn:P; [|inversion H; auto with evo].
  assert (K : forall s1 y k, get s v = (s1, y) ->
     forall d, rd s (set_view s1 vi (v_set_version (v_set_data v d) k))).
  { intros s1 y k Hg d. pose proof (G _ _ _ Hg) as E.
    destruct (rd_views _ _ E _ _ V) as (v1 & V1 & Ev).
    eapply rd_trans; [exact E|]. eapply rd_set_view; eauto.
    destruct Ev. constructor; simpl; try congruence. }
  destruct (v_data v) as [d|].
  - destruct (v_version v) as [k|]; [|inversion H; auto with evo].
    destruct (k =? p_version q); [inversion H; auto with evo|].
    destruct (get s v) as [s1 [xs|e]] eqn:Hg.
    + destruct (a_int d); inversion H; subst.
      * eapply G; eauto.
      * eapply K; eauto.
    + inversion H; subst. eapply G; eauto.
  - destruct (get s v) as [s1 [xs|e]] eqn:Hg; inversion H; subst.
    + eapply K; eauto.
    + eapply G; eauto.
Qed.

Lemma rd_leaf_read s vi s' x : read_with leaf_values s vi = (s', x) -> rd s s'.
Proof.
  apply rd_read_with. intros v s1 y. unfold leaf_values.
  destruct (nth_error _ _); intros H; inversion H; auto with evo.
Qed.

Lemma rd_sum_children cs : forall s acc s' x, sum_children s cs acc = (s', x) -> rd s s'.
Proof.
  induction cs; simpl; intros s acc s' x H.
  - inversion H; auto with evo.
  - destruct (read_with leaf_values s a) as [s1 [xs|e]] eqn:L.
    + apply rd_leaf_read in L. eapply rd_trans; [exact L|].
      destruct acc as [acc|].
      * destruct (arr_add acc xs); [eauto|inversion H; auto with evo].
      * eauto.
    + inversion H; subst. eapply rd_leaf_read; eauto.
Qed.

Lemma rd_get_values s v s' x : get_values s v = (s', x) -> rd s s'.
Proof.
  unfold get_values. intros H.
  destruct (nth_error _ _); [|inversion H; auto with evo].
  destruct (has_children p); [|inversion H; auto with evo].
  destruct (v_children v); [|inversion H; auto with evo].
  eapply rd_sum_children; eauto.
Qed.

Lemma rd_ts_get s vi s' x : ts_get s vi = (s', x) -> rd s s'.
Proof. apply rd_read_with. intros v s1 y. apply rd_get_values. Qed.

Lemma evo_ts_write s vi s' x : ts_write s vi = (s', x) -> evo s s'.
Proof.
  unfold ts_write. intros H.
  destruct (nth_error (st_views s) vi) as [v|] eqn:V; [|inversion H; auto with evo].
  destruct (v_locked v); [inversion H; auto with evo|].
  destruct (v_data v) as [d|]; [|inversion H; auto with evo].
  destruct (nth_error (st_params s) (v_param v)) as [q|] eqn:P; [|inversion H; auto with evo].
  destruct (to_param v (a_val d)); inversion H; subst; auto with evo.
  eapply evo_trans; [eapply evo_set_param; eauto; apply pevo_store|].
  eapply evo_set_view; simpl; eauto. apply vevo_version.
Qed.

Lemma check_write_view s vi v t u tp s' x :
  nth_error (st_views s) vi = Some v ->
  check_write s vi v t u tp = (s', Ok x) ->
  nth_error (st_views s') vi = Some (v_set_writable v).
Proof.
  unfold check_write. intros V H.
  destruct (v_writable v) eqn:W.
  - inversion H; subst. rewrite V. f_equal. destruct v; simpl in *. subst. reflexivity.
  - destruct (on_param s (v_param v) _) as [s1 [y|e]] eqn:O; inversion H; subst.
    simpl. apply nth_upd_eq. rewrite (on_param_views _ _ _ _ _ O). eapply nth_lt; eauto.
Qed.

Lemma evo_ts_set s vi v a s' x :
  nth_error (st_views s) vi = Some v ->
  ts_set s vi v a = (s', x) -> evo s s'.
Proof.
  unfold ts_set. intros V H.
  destruct (check_write s vi v _ _ _) as [s1 [z|e]] eqn:C.
  2: { inversion H; subst. eapply evo_check_write; eauto. }
  eapply evo_trans; [eapply evo_check_write; eauto|].
  destruct (_ =? _)%Z; [|inversion H; auto with evo].
  rewrite (check_write_view _ _ _ _ _ _ _ _ V C) in H.
  pose proof (check_write_view _ _ _ _ _ _ _ _ V C) as V1.
  destruct (v_data (v_set_writable v)).
  - destruct (a_int a0 && negb (a_int a)); [inversion H; auto with evo|].
    eapply evo_trans; [|eapply evo_ts_write; eauto].
    eapply evo_set_view; eauto. apply vevo_data.
  - eapply evo_trans; [|eapply evo_ts_write; eauto].
    eapply evo_set_view; eauto. apply vevo_data.
Qed.

Lemma evo_handle_set s vi i y s' x : handle_set s vi i y = (s', x) -> evo s s'.
Proof.
  unfold handle_set. intros H.
  destruct (nth_error (st_views s) vi) as [v|] eqn:V; [|inversion H; auto with evo].
  destruct (v_data v) as [d|]; [|inversion H; auto with evo].
  destruct (pyindex _ _); [|inversion H; auto with evo].
  destruct (cast_item _ _); [|inversion H; auto with evo].
  eapply evo_trans; [|eapply evo_ts_write; eauto].
  eapply evo_set_view; eauto. apply vevo_data.
Qed.

Lemma evo_ts_setitem s vi i y s' x : ts_setitem s vi i y = (s', x) -> evo s s'.
Proof.
  unfold ts_setitem. intros H.
  destruct (ts_get s vi) as [s1 [z|e]] eqn:G.
  - eapply evo_trans; [eapply rd_evo, rd_ts_get; eauto|]. eapply evo_handle_set; eauto.
  - inversion H; subst. eapply rd_evo, rd_ts_get; eauto.
Qed.

Lemma evo_handle_iadd s vi y s' x : handle_iadd s vi y = (s', x) -> evo s s'.
Proof.
  unfold handle_iadd. intros H.
  destruct (nth_error (st_views s) vi) as [v|] eqn:V; [|inversion H; auto with evo].
  destruct (v_data v) as [d|]; [|inversion H; auto with evo].
  destruct (ts_get s vi) as [s1 [z|e]] eqn:G.
  2: { inversion H; subst. eapply rd_evo, rd_ts_get; eauto. }
  eapply evo_trans; [eapply rd_evo, rd_ts_get; eauto|].
  destruct (nth_error (st_views s1) vi) as [v1|] eqn:V1; [|inversion H; auto with evo].
  destruct (v_data v1) as [d1|]; [|inversion H; auto with evo].
  destruct (a_int d1); [inversion H; auto with evo|].
  eapply evo_trans; [|eapply evo_ts_write; eauto].
  eapply evo_set_view; eauto. apply vevo_data.
Qed.

Lemma evo_ts_unlock s vi v s' x :
  nth_error (st_views s) vi = Some v -> ts_unlock s vi v = (s', x) -> evo s s'.
Proof.
  unfold ts_unlock. intros V H.
  eapply evo_trans; [|eapply evo_ts_write; eauto].
  eapply evo_set_view; eauto. apply vevo_locked.
Qed.

Lemma lift_inv {A} (g : A -> val) y s' x :
  lift g y = (s', x) -> exists z, y = (s', z).
Proof. destruct y as [s1 [a|e]]; simpl; intros H; inversion H; subst; eauto. Qed.

Lemma with_view_inv s vi k f s' x :
  with_view s vi k f = (s', x) ->
  (s' = s /\ x = Err EInvalid) \/
  exists v, nth_error (st_views s) vi = Some v /\ v_public v = true /\ v_kind v = k /\
            f v = (s', x).
Proof.
  unfold with_view. destruct (nth_error (st_views s) vi) as [v|]; intros H.
  - destruct (v_public v) eqn:P.
    + destruct (v_kind v) eqn:K, k; try (inversion H; subst; left; auto; fail);
        right; exists v; auto.
    + inversion H; auto.
  - inversion H; auto.
Qed.

Theorem evo_step o s s' x : step env o s = (s', x) -> evo s s'.
Proof.
  destruct o; intros H; cbn [step] in H;
  try (apply lift_inv in H; destruct H as [z H]);
  try (apply with_view_inv in H; destruct H as [[-> _]|(w & V & Pb & K & H)]; [auto with evo|]);
  try (apply lift_inv in H; destruct H as [z H]).
  - eapply evo_scalar; eauto.
  - eapply evo_timeseries; eauto.
  - eapply evo_generic; eauto.
  - inversion H; auto with evo.
  - inversion H; auto with evo.
  - eapply evo_scalar_set; eauto.
  - inversion H; auto with evo.
  - eapply evo_generic_set; eauto.
  - eapply rd_evo, rd_ts_get; eauto.
  - eapply evo_ts_set; eauto.
  - eapply evo_ts_setitem; eauto.
  - destruct (v_data w); [|inversion H; auto with evo].
    destruct (ts_get s v) as [s1 [z|e]] eqn:G; inversion H; subst;
      eapply rd_evo, rd_ts_get; eauto.
  - inversion H; auto with evo.
  - eapply evo_handle_set; eauto.
  - eapply evo_handle_iadd; eauto.
  - inversion H; subst. eapply evo_set_view; eauto. apply vevo_locked.
  - eapply evo_ts_unlock; eauto.
Qed.

Theorem evo_run h : forall s, evo s (run env s h).
Proof.
  induction h; simpl; intros s; auto with evo.
  eapply evo_trans; [|apply IHh].
  destruct (step env a s) eqn:E. simpl. eapply evo_step; eauto.
Qed.

Lemma run_app s h1 h2 : run env s (h1 ++ h2) = run env (run env s h1) h2.
Proof. unfold run. apply fold_left_app. Qed.

End E.
#[export] Hint Resolve vread_refl rd_refl : evo.
