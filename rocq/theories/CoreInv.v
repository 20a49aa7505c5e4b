(** Invariants on parameter and view cells. *)
From Coq Require Import String List Arith Lia Bool ZArith Reals.
From Verif Require Import Base ListFacts Units TimeModel Core CoreEvo CoreTree CoreNames.
Import ListNotations.

Definition is_ts (t : ptype) : Prop := t = AVERAGE_TIMESERIES \/ t = POINT_TIMESERIES.

Record pinv (q : param) : Prop := {
  pi_untyped : p_type q = None ->
    p_unit q = None /\ p_time q = None /\ p_data q = None /\ p_read q = false /\
    p_written q = false /\ p_version q = 0;
  pi_wr : p_written q = true -> p_read q = true;
  pi_scalar : p_type q = Some SCALAR -> exists x, p_data q = Some (PScalar x);
  pi_ts : forall t, p_type q = Some t -> is_ts t ->
    (p_time q = None /\ p_data q = None) \/
    exists tp l, p_time q = Some tp /\ p_data q = Some (PArr l) /\
      Z.of_nat (length l) = series_length t (length (tp_ticks tp));
  pi_gen : p_type q = Some GENERIC ->
    p_children q <> [] \/ exists g, p_data q = Some (PGen g) }.

Definition vtype (v : view) : ptype :=
  match v_kind v with
  | KScalar => SCALAR | KGeneric => GENERIC | KTimeseries => tc_type (v_tconv v)
  end.

Section I.
Variable env : uenv.

Record vinv (vs : list view) (vi : nat) (v : view) (q : param) : Prop := {
  vi_typed : p_type q <> None;
  vi_uconv : v_kind v <> KGeneric ->
    unit_converter env (p_unit q) (Some (v_unit v)) = Ok (v_uconv v);
  vi_tconv : v_kind v = KTimeseries ->
    exists tp, p_time q = Some tp /\
      timeseries_converter (tp_ticks tp) (tc_target (v_tconv v)) (tc_type (v_tconv v))
        (tc_extra (v_tconv v)) = Ok (v_tconv v);
  vi_ktype : v_kind v = KTimeseries -> is_ts (tc_type (v_tconv v));
  vi_public : v_public v = true ->
    p_read q = true /\ p_type q = Some (vtype v) /\
    (v_kind v <> KGeneric -> (v_children v = None <-> p_children q = []));
  vi_private : v_public v = false ->
    v_children v = None /\ v_writable v = false /\ v_locked v = false;
  vi_writable : v_writable v = true -> p_written q = true;
  vi_data : v_data v <> None ->
    v_kind v = KTimeseries /\ (p_written q = true \/ p_children q <> []);
  vi_len : forall d, v_data v = Some d ->
    Z.of_nat (length (a_val d)) = target_length (v_tconv v);
  vi_version : forall k, v_version v = Some k -> k <= p_version q;
  vi_children : forall cs c, v_children v = Some cs -> In c cs ->
    c < vi /\ exists cv, nth_error vs c = Some cv /\ v_public cv = false /\
      v_kind cv = v_kind v /\ v_unit cv = v_unit v /\
      tc_target (v_tconv cv) = tc_target (v_tconv v) /\
      tc_type (v_tconv cv) = tc_type (v_tconv v) /\
      tc_extra (v_tconv cv) = tc_extra (v_tconv v);
  vi_gen : v_kind v = KGeneric -> v_public v = true }.

Record wf (s : state) : Prop := {
  wf_tree : wft s;
  wf_params : forall p q, nth_error (st_params s) p = Some q -> pinv q;
  wf_views : forall vi v, nth_error (st_views s) vi = Some v ->
    exists q, nth_error (st_params s) (v_param v) = Some q /\ vinv (st_views s) vi v q }.

Lemma wf_init n : wf (init_state n).
Proof.
  constructor; [apply wft_init| |]; simpl; intros [|]; discriminate.
Qed.

Lemma pinv_new n pa r : pinv (new_param n pa r).
Proof. constructor; simpl; try discriminate. repeat split; auto. Qed.
Lemma pinv_add_child q n c : pinv q -> pinv (p_add_child q n c).
Proof.
  intros []; constructor; auto. simpl. intros. left. intros X. apply app_eq_nil in X.
  destruct X; discriminate.
Qed.

Lemma vinv_pevo vs vi v q q' : vinv vs vi v q -> pevo q q' -> vinv vs vi v q'.
Proof.
  intros H E.
  destruct (pe_type _ _ E (vi_typed _ _ _ _ H)) as (T & U & Ti).
  destruct H. constructor; auto; try congruence.
  - rewrite U; auto.
  - rewrite Ti; auto.
  - intros P. destruct (vi_public0 P) as (A & B & C). repeat split.
    + apply E; auto.
    + congruence.
    + intros. rewrite (pe_frozen _ _ E) by auto. apply C; auto.
    + intros. rewrite (pe_frozen _ _ E) in H0 by auto. apply C; auto.
  - intros. apply E; auto.
  - intros. destruct (vi_data0 H) as [A B]. split; auto.
    destruct B as [B|B]; [left; apply E; auto|right].
    destruct (pe_children _ _ E) as [l ->]. intros X. apply app_eq_nil in X. tauto.
  - intros k Hk. pose proof (vi_version0 _ Hk). pose proof (pe_version _ _ E). lia.
Qed.

Lemma vinv_vevo vs vs' vi v q : levo vevo vs vs' -> vinv vs vi v q -> vinv vs' vi v q.
Proof.
  intros E []. constructor; auto.
  intros cs c Hc I. destruct (vi_children0 _ _ Hc I) as (Lt & cv & C1 & C2 & C3 & C4 & C5 & C6 & C7).
  split; auto. destruct (E _ _ C1) as (cv' & D & V). exists cv'. destruct V.
  repeat split; congruence.
Qed.

(** Only cells that changed need checking. *)
Lemma wf_evo s s' : wf s -> evo s s' -> wft s' ->
  (forall p q', nth_error (st_params s') p = Some q' ->
     nth_error (st_params s) p = Some q' \/ pinv q') ->
  (forall vi v', nth_error (st_views s') vi = Some v' ->
     nth_error (st_views s) vi = Some v' \/
     exists q', nth_error (st_params s') (v_param v') = Some q' /\ vinv (st_views s') vi v' q') ->
  wf s'.
Proof.
  intros W E T P V. constructor; auto.
  - intros p q Hp. destruct (P _ _ Hp); auto. eapply wf_params; eauto.
  - intros vi v Hv. destruct (V _ _ Hv) as [H|H]; auto.
    destruct (wf_views _ W _ _ H) as (q & Q & I).
    destruct (ev_params _ _ E _ _ Q) as (q' & Q' & Pe). exists q'. split; auto.
    eapply vinv_vevo; [apply (ev_views _ _ E)|]. eapply vinv_pevo; eauto.
Qed.

(** ** Lookup and creation *)

Definition pcells (s s' : state) : Prop :=
  st_views s' = st_views s /\
  ((forall p q, nth_error (st_params s) p = Some q -> pinv q) ->
   (forall p q, nth_error (st_params s') p = Some q -> pinv q)).

Lemma pcells_refl s : pcells s s. Proof. split; auto. Qed.
Lemma pcells_trans a b c : pcells a b -> pcells b c -> pcells a c.
Proof. intros [A B] [C D]. split; [congruence|]. intros H. apply D, B, H. Qed.

Lemma pcells_subregion s r n s' x : get_or_create_subregion s r n = (s', x) -> pcells s s'.
Proof.
  unfold get_or_create_subregion. intros H.
  destruct (nth_error (st_regions s) r); [|inversion H; apply pcells_refl].
  destruct (alookup n (r_children r0)); [inversion H; apply pcells_refl|].
  destruct (r_aggregated r0); inversion H; subst; [apply pcells_refl|]. split; auto.
Qed.
Lemma pcells_subregions l : forall s r s' x, subregions s r l = (s', x) -> pcells s s'.
Proof.
  induction l; simpl; intros s r s' x H; [inversion H; apply pcells_refl|].
  destruct (get_or_create_subregion s r a) as [s1 [c|e]] eqn:E.
  - eapply pcells_trans; [eapply pcells_subregion|]; eauto.
  - inversion H; subst. eapply pcells_subregion; eauto.
Qed.
Lemma pcells_region s n s' x : get_or_create_region s n = (s', x) -> pcells s s'.
Proof.
  unfold get_or_create_region. intros H.
  destruct (hcomponents n); [inversion H; apply pcells_refl|].
  destruct (nth_error (st_regions s) 0); [|inversion H; apply pcells_refl].
  destruct (String.eqb s0 (r_name r)); [|inversion H; apply pcells_refl].
  eapply pcells_subregions; eauto.
Qed.
Lemma pcells_root_parameter s r n s' x :
  get_or_create_root_parameter s r n = (s', x) -> pcells s s'.
Proof.
  unfold get_or_create_root_parameter. intros H.
  destruct (nth_error (st_regions s) r); [|inversion H; apply pcells_refl].
  destruct (alookup n (r_params r0)); inversion H; subst; [apply pcells_refl|].
  split; auto. simpl. intros P p q Hp. apply nth_app_inv in Hp. destruct Hp as [Hp|[_ ->]]; eauto.
  apply pinv_new.
Qed.
Lemma pcells_child_parameter s r n s' x :
  get_or_create_child_parameter s r n = (s', x) -> pcells s s'.
Proof.
  unfold get_or_create_child_parameter. intros H.
  destruct (nth_error (st_params s) r) as [rg|] eqn:E; [|inversion H; apply pcells_refl].
  destruct (alookup n (p_children rg)); [inversion H; apply pcells_refl|].
  destruct (p_written rg); [inversion H; apply pcells_refl|].
  destruct (p_read rg); inversion H; subst; [apply pcells_refl|].
  split; auto. simpl. intros P p q Hp. apply nth_app_inv in Hp. destruct Hp as [Hp|[_ ->]].
  - rewrite nth_upd in Hp. destruct (Nat.eqb_spec r p); subst; eauto.
    rewrite E in Hp. inversion Hp; subst. apply pinv_add_child; eauto.
  - apply pinv_new.
Qed.
Lemma pcells_subparameters l : forall s r s' x, subparameters s r l = (s', x) -> pcells s s'.
Proof.
  induction l; simpl; intros s r s' x H; [inversion H; apply pcells_refl|].
  destruct (get_or_create_child_parameter s r a) as [s1 [c|e]] eqn:E.
  - eapply pcells_trans; [eapply pcells_child_parameter|]; eauto.
  - inversion H; subst. eapply pcells_child_parameter; eauto.
Qed.
Lemma pcells_parameter s n r s' x : get_or_create_parameter s n r = (s', x) -> pcells s s'.
Proof.
  unfold get_or_create_parameter. intros H.
  destruct (hcomponents n); [inversion H; apply pcells_refl|].
  destruct (get_or_create_root_parameter s r s0) as [s1 [c|e]] eqn:E.
  - eapply pcells_trans; [eapply pcells_root_parameter; eauto|]. eapply pcells_subparameters; eauto.
  - inversion H; subst. eapply pcells_root_parameter; eauto.
Qed.
Lemma pcells_locate s n r s' x : locate s n r = (s', x) -> pcells s s'.
Proof.
  unfold locate. intros H.
  destruct (get_or_create_region s r) as [s1 [c|e]] eqn:E.
  - eapply pcells_trans; [eapply pcells_region; eauto|]. eapply pcells_parameter; eauto.
  - inversion H; subst. eapply pcells_region; eauto.
Qed.

Lemma wf_locate s n r s' x : wf s -> locate s n r = (s', x) -> wf s'.
Proof.
  intros W H. destruct (pcells_locate _ _ _ _ _ H) as [V P].
  apply (wf_evo s); auto.
  - eapply evo_locate; eauto.
  - eapply wft_locate; eauto. apply W.
  - intros p q Hp. right. eapply P; eauto. apply W.
  - intros vi v Hv. rewrite V in Hv. auto.
Qed.

(** ** Reading and writing parameter cells *)

Lemma ptype_eqb_eq a b : ptype_eqb a b = true -> a = b.
Proof. destruct a, b; simpl; congruence. Qed.
Lemma ptype_eqb_neq a b : ptype_eqb a b = false -> a <> b.
Proof. destruct a, b; simpl; congruence. Qed.

Lemma attempt_read_spec q t u tp q' x : pinv q -> attempt_read q t u tp = (q', x) ->
  pinv q' /\
  match x with
  | Ok _ => p_type q' = Some t /\ p_read q' = true
  | Err _ => p_read q' = p_read q
  end.
Proof.
  intros [] H. unfold attempt_read in H.
  destruct (p_type q) as [t'|] eqn:T.
  - destruct (ptype_eqb t' t) eqn:Q; inversion H; subst; simpl.
    + apply ptype_eqb_eq in Q. subst. split; [|auto].
      constructor; simpl; rewrite ?T; auto; discriminate.
    + split; auto. constructor; rewrite ?T; auto; discriminate.
  - destruct pi_untyped0 as (U & Ti & D & Rd & Wr & Ve); auto.
    destruct t; simpl in H.
    + inversion H; subst; simpl. split; auto.
      constructor; simpl; intros; try discriminate; auto; try congruence.
      * eauto.
      * exfalso. destruct H1; congruence.
    + destruct tp as [tp|]; [destruct (_ <? 0)%Z eqn:L|]; inversion H; subst; simpl;
        (split; [|auto]); constructor; simpl; intros; try discriminate; auto; try congruence.
      right. exists tp. eexists. split; [reflexivity|]. split; [reflexivity|].
      rewrite repeat_length. inversion H0; subst. simpl in *. apply Z.ltb_ge in L. lia.
    + destruct tp as [tp|]; [destruct (_ <? 0)%Z eqn:L|]; inversion H; subst; simpl;
        (split; [|auto]); constructor; simpl; intros; try discriminate; auto; try congruence.
      right. exists tp. eexists. split; [reflexivity|]. split; [reflexivity|].
      rewrite repeat_length. inversion H0; subst. simpl in *. apply Z.ltb_ge in L. lia.
    + unfold has_children in H. destruct (p_children q) eqn:C; inversion H; subst; simpl;
        (split; [|auto]); constructor; simpl; intros; try discriminate; auto; try congruence;
        try (exfalso; destruct H1; congruence); eauto.
      left. congruence.
Qed.

Lemma attempt_write_spec q t u tp q' x : pinv q -> p_type q <> None ->
  attempt_write q t u tp = (q', x) ->
  pinv q' /\
  match x with
  | Ok _ => q' = p_set_written (p_set_read q) /\ p_type q = Some t /\ p_children q = []
  | Err _ => q' = q
  end.
Proof.
  intros P Ty H. unfold attempt_write, has_children in H.
  destruct (p_children q) eqn:C; [|inversion H; subst; auto].
  unfold attempt_read in H. destruct (p_type q) as [t'|] eqn:T; [|congruence].
  destruct (ptype_eqb t' t) eqn:Q; inversion H; subst; simpl; auto.
  apply ptype_eqb_eq in Q. subst. split; auto.
  destruct P. constructor; simpl; rewrite ?T, ?C in *; auto; discriminate.
Qed.

Lemma pinv_store q d : pinv q -> p_type q <> None ->
  match d, p_type q with
  | PScalar _, Some SCALAR => True
  | PArr l, Some t => is_ts t /\ exists tp, p_time q = Some tp /\
                      Z.of_nat (length l) = series_length t (length (tp_ticks tp))
  | PGen _, Some GENERIC => True
  | _, _ => False
  end -> pinv (p_store q d).
Proof.
  intros [] T H. constructor; simpl; auto; try tauto.
  - destruct d, (p_type q) as [[]|]; try tauto; try discriminate; eauto.
    destruct H as [[|] _]; discriminate.
  - intros t Et Ht. rewrite Et in H. right.
    destruct d; try (destruct Ht; subst; tauto).
    destruct H as [_ (tp & A & B)]. exists tp. eauto.
  - intros Et. rewrite Et in H. destruct d; try tauto; eauto.
    destruct H as [[|] _]; discriminate.
Qed.

Lemma wf_on_read s p t u tp s' x : wf s ->
  on_param s p (fun q => attempt_read q t u tp) = (s', x) ->
  wf s' /\ st_views s' = st_views s /\
  (forall y, x = Ok y -> exists q', nth_error (st_params s') p = Some q' /\ p_type q' = Some t /\
     p_read q' = true).
Proof.
  intros W H. pose proof (evo_on_read _ _ _ _ _ _ _ H) as E.
  pose proof (tsame_on_read _ _ _ _ _ _ _ H) as T.
  pose proof (on_param_views _ _ _ _ _ H) as V.
  unfold on_param in H. destruct (nth_error (st_params s) p) as [q|] eqn:Q.
  2: { inversion H; subst. split; auto. split; auto. intros; discriminate. }
  destruct (attempt_read q t u tp) as [q' y] eqn:A. inversion H; subst. clear H.
  apply attempt_read_spec in A; [|eapply wf_params; eauto]. destruct A as [A B].
  split; [|split; auto].
  - apply (wf_evo s); auto.
    + eapply wft_tsame; eauto. apply W.
    + simpl. intros i q0 Hi. rewrite nth_upd in Hi. destruct (Nat.eqb_spec p i); subst; auto.
      rewrite Q in Hi. inversion Hi; subst. auto.
  - intros y ->. exists q'. destruct B. repeat split; auto. simpl.
    apply nth_upd_eq. eapply nth_lt; eauto.
Qed.

(** ** Views *)

Record leafy (v : view) (k : vkind) (p : nat) (u : string) (tgt : list Z) (t : ptype)
    (ex : extrapolation) : Prop := {
  lf_public : v_public v = false;
  lf_kind : v_kind v = k;
  lf_param : v_param v = p;
  lf_unit : v_unit v = u;
  lf_target : tc_target (v_tconv v) = tgt;
  lf_type : tc_type (v_tconv v) = t;
  lf_extra : tc_extra (v_tconv v) = ex;
  lf_children : v_children v = None;
  lf_writable : v_writable v = false;
  lf_data : v_data v = None;
  lf_locked : v_locked v = false;
  lf_version : v_version v = None }.

Definition mkspec (s : state) (mk : nat -> res view) k u tgt t ex : Prop :=
  forall p v, mk p = Ok v -> leafy v k p u tgt t ex /\
    exists q, nth_error (st_params s) p = Some q /\ forall vs vi, vinv vs vi v q.

Lemma uc_typed s p q u c : wf s -> nth_error (st_params s) p = Some q ->
  unit_converter env (p_unit q) u = Ok c -> p_type q <> None.
Proof.
  intros W Q UC T. destruct (pi_untyped _ (wf_params _ W _ _ Q) T) as (N & _).
  rewrite N in UC. discriminate.
Qed.

Lemma mkspec_scalar s u : wf s ->
  mkspec s (scalar_leaf_view env s u) KScalar u [] SCALAR XNONE.
Proof.
  intros W p v H. unfold scalar_leaf_view in H.
  destruct (nth_error (st_params s) p) as [q|] eqn:Q; [|discriminate].
  destruct (unit_converter env (p_unit q) (Some u)) as [uc|] eqn:UC; [|discriminate].
  inversion H. split; [constructor; reflexivity|]. exists q. split; auto. intros vs vi.
  constructor; simpl; try discriminate; auto; try congruence; eauto using uc_typed.
Qed.

Lemma timeseries_converter_fields src tgt t ex tc :
  timeseries_converter src tgt t ex = Ok tc -> tc = mkTconv src tgt t ex.
Proof.
  unfold timeseries_converter. destruct src; [discriminate|].
  destruct tgt as [|? [|? ?]]; try discriminate.
  destruct (z >? z1)%Z; intros H; inversion H; auto.
Qed.

Lemma mkspec_ts s u tgt t ex : wf s -> is_ts t ->
  mkspec s (ts_leaf_view env s u tgt t ex) KTimeseries u tgt t ex.
Proof.
  intros W Ht p v H. unfold ts_leaf_view in H.
  destruct (nth_error (st_params s) p) as [q|] eqn:Q; [|discriminate].
  destruct (unit_converter env (p_unit q) (Some u)) as [uc|] eqn:UC; [|discriminate].
  destruct (p_time q) as [tp|] eqn:Ti; [|discriminate].
  destruct (timeseries_converter (tp_ticks tp) tgt t ex) as [tc|] eqn:TC; [|discriminate].
  pose proof (timeseries_converter_fields _ _ _ _ _ TC); subst tc.
  inversion H. split; [constructor; reflexivity|]. exists q. split; auto. intros vs vi.
  constructor; simpl; try discriminate; auto; try congruence; eauto using uc_typed.
Qed.

Lemma leafy_vinv_public v q vs vi k p u tgt t ex cs :
  leafy v k p u tgt t ex -> vinv vs vi v q ->
  p_read q = true -> p_type q = Some (vtype v) ->
  (k <> KGeneric -> (cs = None <-> p_children q = [])) ->
  (forall l c, cs = Some l -> In c l -> c < vi /\ exists cv, nth_error vs c = Some cv /\
     leafy cv k (v_param cv) u tgt t ex) ->
  vinv vs vi (mkView true (v_kind v) (v_param v) (v_unit v) (v_uconv v) (v_tconv v) cs
                (v_writable v) (v_data v) (v_locked v) (v_version v)) q.
Proof.
  intros L H Rd Ty Ch Cs. destruct L, H. constructor; simpl; auto; try congruence.
  - intros _. repeat split; auto; rewrite lf_kind0 in H; apply Ch; auto.
  - intros l c E I. destruct (Cs _ _ E I) as (A & cv & B & []). split; auto.
    exists cv. repeat split; congruence.
Qed.

Lemma wf_build_view s mk p s' x k u tgt t ex q : wf s ->
  mkspec s mk k u tgt t ex -> k <> KGeneric ->
  nth_error (st_params s) p = Some q -> p_read q = true ->
  p_type q = Some (match k with KTimeseries => t | KScalar => SCALAR | KGeneric => GENERIC end) ->
  build_view s mk p = (s', x) -> wf s'.
Proof.
  intros W M K Q Rd Ty H. pose proof (evo_build_view _ _ _ _ _ H) as E.
  pose proof (tsame_build_view _ _ _ _ _ H) as T.
  assert (T' : wft s') by (eapply wft_tsame; eauto; apply W).
  unfold build_view in H. rewrite Q in H.
  destruct (mk p) as [v|e] eqn:Mk; [|inversion H; subst; auto].
  destruct (M _ _ Mk) as [Lv (q' & Q' & Iv)].
  assert (q' = q) by congruence; subst q'. clear Q'.
  assert (Vt : p_type q = Some (vtype v)).
  { rewrite Ty. f_equal. unfold vtype. destruct Lv. rewrite lf_kind0. destruct k; auto. }
  unfold has_children in H. destruct (p_children q) as [|ch chs] eqn:C.
  - inversion H; subst. apply (wf_evo s); auto. simpl.
    intros vi v' Hv. apply nth_app_inv in Hv. destruct Hv as [Hv|[-> ->]]; auto. right.
    exists q. split; [simpl; rewrite (lf_param _ _ _ _ _ _ _ Lv); auto|].
    unfold v_set_public. eapply leafy_vinv_public; eauto.
    + rewrite C. rewrite (lf_children _ _ _ _ _ _ _ Lv). tauto.
    + rewrite (lf_children _ _ _ _ _ _ _ Lv). intros; discriminate.
  - destruct (param_leaves s p) as [ls|]; [|inversion H; subst; auto].
    destruct (rmap mk ls) as [cvs|] eqn:Rm; [|inversion H; subst; auto].
    inversion H; subst. apply (wf_evo s); auto. simpl.
    set (n := length (st_views s)).
    intros vi v' Hv. rewrite app_assoc in Hv. apply nth_app_inv in Hv.
    assert (Cv : forall j cv, nth_error cvs j = Some cv -> exists p', 
        leafy cv k p' u tgt t ex /\ 
        exists q', nth_error (st_params s) p' = Some q' /\ forall vs vi, vinv vs vi cv q').
    { intros j cv Hj. destruct (rmap_nth_inv _ _ _ _ _ Rm Hj) as (p' & P1 & P2).
      exists p'. apply M; auto. }
    destruct Hv as [Hv|[-> ->]].
    + destruct (lt_dec vi n) as [Lt|Ge].
      * rewrite nth_error_app1 in Hv by auto. auto.
      * rewrite nth_error_app2 in Hv by (fold n; lia). fold n in Hv.
        destruct (Cv _ _ Hv) as (p' & L' & q' & Q' & I'). right. exists q'.
        rewrite (lf_param _ _ _ _ _ _ _ L'). split; auto.
    + right. exists q. split; [simpl; rewrite (lf_param _ _ _ _ _ _ _ Lv); auto|].
      unfold v_set_public, v_set_children; simpl. eapply leafy_vinv_public; eauto.
      * rewrite C. intros _. split; discriminate.
      * intros l c El I. inversion El; subst l. apply in_seq in I. rewrite app_length.
        split; [lia|].
        destruct (nth_error cvs (c - n)) as [cv|] eqn:Hc.
        2: { apply nth_error_None in Hc. lia. }
        exists cv. split.
        { rewrite nth_error_app2 by (fold n; lia). fold n.
          now apply nth_app_old. }
        destruct (Cv _ _ Hc) as (p' & L' & _).
        rewrite (lf_param _ _ _ _ _ _ _ L'). exact L'.
Qed.

Lemma wf_scalar s n u r s' x : wf s -> ps_scalar env s n u r = (s', x) -> wf s'.
Proof.
  intros W H. unfold ps_scalar in H.
  destruct (locate s n r) as [s1 [p|e]] eqn:L.
  2: { inversion H; subst. eapply wf_locate; eauto. }
  apply wf_locate in L; auto.
  destruct (on_param s1 p _) as [s2 [y|e]] eqn:O; apply wf_on_read in O; auto;
    destruct O as (W2 & _ & B).
  - destruct (B _ eq_refl) as (q & Q & T & Rd).
    eapply wf_build_view with (k := KScalar); eauto using mkspec_scalar; discriminate.
  - inversion H; subst; auto.
Qed.

Lemma from_timeseries_type_ts a t : from_timeseries_type a = Ok t -> is_ts t.
Proof.
  unfold from_timeseries_type, is_ts. destruct a as [a|a].
  - destruct a; intros H; inversion H; auto.
  - destruct (String.eqb (lower a) "average"); [intros H; inversion H; auto|].
    destruct (String.eqb (lower a) "point"); intros H; inversion H; auto.
Qed.

Lemma wf_timeseries s n u tp r a b c s' x : wf s ->
  ps_timeseries env s n u tp r a b c = (s', x) -> wf s'.
Proof.
  intros W H. unfold ps_timeseries in H.
  destruct (from_timeseries_type a) as [t|] eqn:A; [|inversion H; subst; auto].
  destruct (from_interpolation_type b); [|inversion H; subst; auto].
  destruct (from_extrapolation_type c); [|inversion H; subst; auto].
  destruct (locate s n r) as [s1 [p|e]] eqn:L.
  2: { inversion H; subst. eapply wf_locate; eauto. }
  apply wf_locate in L; auto.
  destruct (on_param s1 p _) as [s2 [y|e]] eqn:O; apply wf_on_read in O; auto;
    destruct O as (W2 & _ & B).
  - destruct (B _ eq_refl) as (q & Q & T & Rd).
    eapply wf_build_view with (k := KTimeseries);
      eauto using mkspec_ts, from_timeseries_type_ts; discriminate.
  - inversion H; subst; auto.
Qed.

Lemma wf_generic s n r s' x : wf s -> ps_generic s n r = (s', x) -> wf s'.
Proof.
  intros W H. pose proof (evo_generic _ _ _ _ _ H) as E0. unfold ps_generic in H.
  destruct (locate s n r) as [s1 [p|e]] eqn:L.
  2: { inversion H; subst. eapply wf_locate; eauto. }
  apply wf_locate in L; auto.
  destruct (on_param s1 p _) as [s2 [y|e]] eqn:O; apply wf_on_read in O; auto;
    destruct O as (W2 & _ & B).
  - destruct (B _ eq_refl) as (q & Q & T & Rd). inversion H; subst.
    apply (wf_evo s2); auto.
    + apply evo_app_views.
    + eapply wft_tsame; [apply W2|apply tsame_views].
    + simpl. intros vi v' Hv. apply nth_app_inv in Hv. destruct Hv as [Hv|[-> ->]]; auto. right.
      exists q. split; auto.
      constructor; simpl; try discriminate; auto; try congruence.
      intros _. repeat split; auto; intros; congruence.
  - inversion H; subst; auto.
Qed.

(** ** Writing *)

Lemma wf_check_write s vi v t u tp s' x : wf s ->
  nth_error (st_views s) vi = Some v -> v_public v = true ->
  check_write s vi v t u tp = (s', x) -> wf s'.
Proof.
  intros W V Pb H. pose proof (evo_check_write _ _ _ _ _ _ _ _ V H) as E.
  pose proof (tsame_check_write _ _ _ _ _ _ _ _ H) as T.
  unfold check_write in H. destruct (v_writable v); [inversion H; subst; auto|].
  destruct (wf_views _ W _ _ V) as (q & Q & I).
  unfold on_param in H. rewrite Q in H.
  destruct (attempt_write q t u tp) as [q' y] eqn:A.
  apply attempt_write_spec in A; [|eapply wf_params; eauto|apply I]. destruct A as [P A].
  assert (Pc : forall i q0, nth_error (upd (st_params s) (v_param v) q') i = Some q0 ->
     nth_error (st_params s) i = Some q0 \/ pinv q0).
  { intros i q0 Hi. rewrite nth_upd in Hi. destruct (Nat.eqb_spec (v_param v) i); subst; auto.
    rewrite Q in Hi. inversion Hi; subst; auto. }
  destruct y as [y|e]; inversion H; subst; clear H.
  - apply (wf_evo s); auto.
    + eapply wft_tsame; eauto. apply W.
    + simpl. intros j v' Hj. rewrite nth_upd in Hj. destruct (Nat.eqb_spec vi j); subst; auto.
      rewrite V in Hj. inversion Hj; subst. right. simpl.
      exists q'. split; [apply nth_upd_eq; eapply nth_lt; eauto|].
      destruct A as (-> & Ty & C).
      assert (I' : vinv (upd (st_views s) j (v_set_writable v)) j v q).
      { eapply vinv_vevo; [|exact I]. eapply levo_upd; eauto with evo. constructor; simpl; auto. }
      destruct I'. constructor; simpl; auto.
      * intros _. destruct (vi_public0 Pb) as (X & Y & Z). auto.
      * congruence.
      * intros X. destruct (vi_data0 X). auto.
  - subst. apply (wf_evo s); auto.
    + eapply wft_tsame; eauto. apply W.
Qed.

Lemma wf_store s p q d : wf s -> nth_error (st_params s) p = Some q ->
  pinv (p_store q d) -> wf (store s p d).
Proof.
  intros W Q P. pose proof (evo_store s p d) as E. pose proof (tsame_store s p d) as T.
  assert (T' : wft (store s p d)) by (eapply wft_tsame; eauto; apply W).
  unfold store in *. rewrite Q in *. apply (wf_evo s); auto.
  simpl. intros i q0 Hi. rewrite nth_upd in Hi. destruct (Nat.eqb_spec p i); subst; auto.
  rewrite Q in Hi. inversion Hi; subst; auto.
Qed.

Lemma view_param_evo s s' vi v : wf s -> evo s s' -> wf s' -> nth_error (st_views s) vi = Some v ->
  exists q q', nth_error (st_params s) (v_param v) = Some q /\
    nth_error (st_params s') (v_param v) = Some q' /\ pevo q q' /\ p_type q <> None.
Proof.
  intros W E W' V. destruct (wf_views _ W _ _ V) as (q & Q & I).
  destruct (ev_params _ _ E _ _ Q) as (q' & Q' & Pe). exists q, q'. split; [auto|split; [auto|split; [auto|apply I]]].
Qed.

Lemma wf_scalar_set s vi v y s' x : wf s ->
  nth_error (st_views s) vi = Some v -> v_public v = true -> v_kind v = KScalar ->
  scalar_set s vi v y = (s', x) -> wf s'.
Proof.
  intros W V Pb K H. unfold scalar_set in H.
  destruct (check_write s vi v _ _ _) as [s1 [z|e]] eqn:C; inversion H; subst;
    pose proof (wf_check_write _ _ _ _ _ _ _ _ W V Pb C) as W1; auto.
  pose proof (evo_check_write _ _ _ _ _ _ _ _ V C) as E.
  destruct (view_param_evo _ _ _ _ W E W1 V) as (q & q' & Q & Q' & Pe & Ty).
  eapply wf_store; eauto. destruct (wf_views _ W _ _ V) as (q0 & Q0 & I).
  assert (q0 = q) by congruence; subst q0.
  destruct (vi_public _ _ _ _ I Pb) as (_ & Ty' & _).
  destruct (pe_type _ _ Pe Ty) as (Ty2 & _).
  assert (Ty3 : p_type q' = Some SCALAR). { rewrite Ty2, Ty'. unfold vtype. now rewrite K. }
  apply pinv_store.
  - eapply wf_params; eauto.
  - congruence.
  - rewrite Ty3. auto.
Qed.
Lemma wf_generic_set s vi v y s' x : wf s ->
  nth_error (st_views s) vi = Some v -> v_public v = true -> v_kind v = KGeneric ->
  generic_set s vi v y = (s', x) -> wf s'.
Proof.
  intros W V Pb K H. unfold generic_set in H.
  destruct (check_write s vi v _ _ _) as [s1 [z|e]] eqn:C; inversion H; subst;
    pose proof (wf_check_write _ _ _ _ _ _ _ _ W V Pb C) as W1; auto.
  pose proof (evo_check_write _ _ _ _ _ _ _ _ V C) as E.
  destruct (view_param_evo _ _ _ _ W E W1 V) as (q & q' & Q & Q' & Pe & Ty).
  eapply wf_store; eauto. destruct (wf_views _ W _ _ V) as (q0 & Q0 & I).
  assert (q0 = q) by congruence; subst q0.
  destruct (vi_public _ _ _ _ I Pb) as (_ & Ty' & _).
  destruct (pe_type _ _ Pe Ty) as (Ty2 & _).
  assert (Ty3 : p_type q' = Some GENERIC). { rewrite Ty2, Ty'. unfold vtype. now rewrite K. }
  apply pinv_store.
  - eapply wf_params; eauto.
  - congruence.
  - rewrite Ty3. auto.
Qed.

(** ** Lengths *)

Lemma edge_values_length v : length (edge_values v) = pred (length v).
Proof. induction v as [|a [|b v]]; simpl in *; auto. Qed.
Lemma interval_averages_length f t r : interval_averages f t = Ok r ->
  length r = pred (length t).
Proof.
  revert r; induction t as [|a [|b t]]; intros r H.
  - inversion H; auto.
  - inversion H; auto.
  - simpl in H. destruct (ip_ok f a b); [|discriminate].
    simpl in IHt.
    destruct (match t with [] => Ok [] | u :: _ => _ end) as [r'|e]; [|discriminate].
    inversion H; subst. simpl. f_equal. apply IHt. reflexivity.
Qed.
Lemma convert_R_length ty ex vals src tgt r : convert_R ty ex vals src tgt = Ok r ->
  tgt <> [] -> Z.of_nat (length r) = series_length ty (length tgt).
Proof.
  unfold convert_R. destruct (_ <? 3); [discriminate|].
  destruct ty; simpl; try discriminate; intros H N.
  - destruct (_ =? _) in H; simpl in H; [|discriminate].
    destruct (interval_averages _ _) as [l|e] eqn:A; [|destruct e; discriminate].
    inversion H; subst. apply interval_averages_length in A. rewrite A.
    destruct tgt; [congruence|]. cbn [length pred series_length]. lia.
  - destruct (_ =? _) in H; simpl in H; [|discriminate].
    destruct (rmap _ _) as [l|e] eqn:A; [|destruct e; discriminate].
    inversion H; subst. apply rmap_length in A. lia.
Qed.
Lemma nconvert_length f l r n : nconvert f l = Ok r ->
  (forall a b, f a = Ok b -> Z.of_nat (length b) = n) -> Z.of_nat (length r) = n.
Proof.
  unfold nconvert. intros H F. destruct (all_some l).
  - destruct (f l0) eqn:A; [|discriminate]. inversion H; subst. rewrite map_length. eauto.
  - destruct (f _) eqn:A; [|discriminate]. inversion H; subst. rewrite map_length. eauto.
Qed.
Lemma from_param_length v d r src tgt t ex :
  timeseries_converter src tgt t ex = Ok (v_tconv v) ->
  from_param v d = Ok r -> Z.of_nat (length r) = target_length (v_tconv v).
Proof.
  intros TC H. pose proof (timeseries_converter_fields _ _ _ _ _ TC) as F.
  unfold from_param in H. eapply nconvert_length; [exact H|].
  intros a b C. unfold tconvert_from in C. unfold target_length.
  apply convert_R_length in C.
  - rewrite map_length in C. exact C.
  - rewrite F in TC |- *. simpl. unfold timeseries_converter in TC.
    destruct src; [discriminate|]. destruct tgt; [discriminate|]. simpl. discriminate.
Qed.
Lemma to_param_length v d r src tgt t ex :
  timeseries_converter src tgt t ex = Ok (v_tconv v) ->
  to_param v d = Ok r -> Z.of_nat (length r) = series_length t (length src).
Proof.
  intros TC H. pose proof (timeseries_converter_fields _ _ _ _ _ TC) as F.
  unfold to_param in H. eapply nconvert_length; [exact H|].
  intros a b C. unfold tconvert_to in C.
  apply convert_R_length in C.
  - rewrite map_length in C. rewrite F in C. exact C.
  - rewrite F in TC |- *. simpl. unfold timeseries_converter in TC.
    destruct src; [discriminate|]. simpl. discriminate.
Qed.

Lemma wf_ts_write s vi v s' x : wf s -> nth_error (st_views s) vi = Some v ->
  v_public v = true -> v_kind v = KTimeseries ->
  ts_write s vi = (s', x) -> wf s'.
Proof.
  intros W V Pb K H. pose proof (evo_ts_write _ _ _ _ H) as E.
  pose proof (tsame_ts_write _ _ _ _ H) as T.
  unfold ts_write in H. rewrite V in H.
  destruct (v_locked v); [inversion H; subst; auto|].
  destruct (v_data v) as [d|] eqn:D; [|inversion H; subst; auto].
  destruct (wf_views _ W _ _ V) as (q & Q & I). rewrite Q in H.
  destruct (to_param v (a_val d)) as [xs|e] eqn:Tp; inversion H; subst; auto. clear H.
  destruct (vi_public _ _ _ _ I Pb) as (Rd & Ty & _).
  destruct (vi_tconv _ _ _ _ I K) as (tp & Ti & TC).
  apply (wf_evo s); auto.
  - eapply wft_tsame; eauto. apply W.
  - simpl. intros i q0 Hi. rewrite nth_upd in Hi.
    destruct (Nat.eqb_spec (v_param v) i); subst; auto.
    rewrite Q in Hi. inversion Hi; subst. right.
    apply pinv_store; [eapply wf_params; eauto|congruence|].
    rewrite Ty. unfold vtype. rewrite K. split; [apply I; auto|].
    exists tp. split; auto. eapply to_param_length; eauto.
  - simpl. intros j v' Hj. rewrite nth_upd in Hj. destruct (Nat.eqb_spec vi j); subst; auto.
    rewrite V in Hj. inversion Hj; subst. right. simpl.
    eexists. split; [apply nth_upd_eq; eapply nth_lt; eauto|].
    assert (I' : vinv (upd (st_views s) j (v_set_version v (S (p_version q)))) j v q).
    { eapply vinv_vevo; [|exact I]. eapply levo_upd; eauto with evo. constructor; simpl; auto. }
    destruct I'. constructor; simpl; auto.
    intros k Hk. inversion Hk; subst. lia.
Qed.

(** Changing the cached array of a public timeseries view. *)
Lemma wf_set_cache s vi v v' q : wf s -> nth_error (st_views s) vi = Some v ->
  nth_error (st_params s) (v_param v) = Some q -> vevo v v' ->
  (v_writable v' = true -> p_written q = true) ->
  (v_public v = false -> v_writable v' = false /\ v_locked v' = false) ->
  (v_data v' <> None -> v_kind v = KTimeseries /\ (p_written q = true \/ p_children q <> [])) ->
  (forall d, v_data v' = Some d -> Z.of_nat (length (a_val d)) = target_length (v_tconv v)) ->
  (forall k, v_version v' = Some k -> k <= p_version q) ->
  wf (set_view s vi v').
Proof.
  intros W V Q Ve Wr Pr Da Le Ver.
  assert (E : evo s (set_view s vi v')) by (eapply evo_set_view; eauto).
  apply (wf_evo s); auto.
  - eapply wft_tsame; [apply W|apply tsame_set_view].
  - simpl. intros j w Hj. rewrite nth_upd in Hj. destruct (Nat.eqb_spec vi j); subst; auto.
    rewrite V in Hj. inversion Hj; subst. right. exists q.
    rewrite (ve_param _ _ Ve). split; auto.
    destruct (wf_views _ W _ _ V) as (q0 & Q0 & I). assert (q0 = q) by congruence; subst q0.
    assert (I' : vinv (upd (st_views s) j w) j v q).
    { eapply vinv_vevo; [|exact I]. eapply levo_upd; eauto with evo. }
    destruct I', Ve. constructor; unfold vtype in *;
      rewrite ?ve_public, ?ve_kind, ?ve_param, ?ve_unit, ?ve_uconv, ?ve_tconv, ?ve_children;
      auto.
    intros Pv. destruct (vi_private0 Pv). destruct (Pr Pv). auto.
Qed.

Lemma wf_lock s vi v b : wf s -> nth_error (st_views s) vi = Some v -> v_public v = true ->
  wf (set_view s vi (v_set_locked v b)).
Proof.
  intros W V Pb. destruct (wf_views _ W _ _ V) as (q & Q & I).
  eapply wf_set_cache; eauto; simpl; try apply I; auto using vevo_locked.
  congruence.
Qed.

Lemma wf_read_with get s vi s' x : wf s ->
  (forall v s1 y, nth_error (st_views s) vi = Some v -> get s v = (s1, y) -> rd s s1 /\ wf s1 /\
     (forall l, y = Ok l -> v_kind v = KTimeseries /\
        Z.of_nat (length l) = target_length (v_tconv v) /\
        forall q, nth_error (st_params s) (v_param v) = Some q ->
          p_written q = true \/ p_children q <> [])) ->
  read_with get s vi = (s', x) -> wf s' /\
  (forall l v, nth_error (st_views s) vi = Some v -> x = Ok l ->
      Z.of_nat (length l) = target_length (v_tconv v)).
Proof.
  intros W G H. unfold read_with in H.
  destruct (nth_error (st_views s) vi) as [v|] eqn:V; [|inversion H; subst; split; [auto|intros; congruence]].
  destruct (wf_views _ W _ _ V) as (q & Q & I). rewrite Q in H.
  assert (X : forall s1 l, get s v = (s1, Ok l) ->
     wf (set_view s1 vi (v_set_version (v_set_data v (mkArr false l)) (p_version q)))).
  { intros s1 l Hg. destruct (G _ _ _ eq_refl Hg) as (R1 & W1 & L1).
    destruct (L1 _ eq_refl) as (K & Len & Wc).
    destruct (rd_views _ _ R1 _ _ V) as (v1 & V1 & Vr).
    pose proof (vr_param _ _ Vr) as Pv.
    eapply (wf_set_cache s1 vi v1 _ q); auto; simpl.
    - rewrite Pv, (rd_params _ _ R1). auto.
    - destruct Vr. constructor; simpl; try congruence.
    - apply I.
    - intros P1. rewrite (vr_public _ _ Vr) in P1. destruct (vi_private _ _ _ _ I P1). auto.
    - intros _. rewrite (vr_kind _ _ Vr). split; auto.
    - intros d Hd. inversion Hd; subst. simpl. rewrite (vr_tconv _ _ Vr). auto.
    - intros k Hk. inversion Hk; subst. auto. }
  destruct (v_data v) as [d|] eqn:D.
  - destruct (v_version v) as [k|]; [|inversion H; subst; split; [auto|intros; congruence]].
    destruct (k =? p_version q).
    + inversion H; subst. split; auto. intros l v0 Hv Hl. inversion Hl; inversion Hv; subst.
      eapply vi_len; eauto.
    + destruct (get s v) as [s1 [xs|e]] eqn:Hg.
      * destruct (a_int d); inversion H; subst.
        -- split; [eapply G; eauto|intros; congruence].
        -- split; [eapply X; eauto|]. intros l v0 Hv Hl. inversion Hl; inversion Hv; subst.
           destruct (G _ _ _ eq_refl Hg) as (_ & _ & L1). apply L1; auto.
      * inversion H; subst. split; [eapply G; eauto|intros; congruence].
  - destruct (get s v) as [s1 [xs|e]] eqn:Hg; inversion H; subst.
    + split; [eapply X; eauto|]. intros l v0 Hv Hl. inversion Hl; inversion Hv; subst.
      destruct (G _ _ _ eq_refl Hg) as (_ & _ & L1). apply L1; auto.
    + split; [eapply G; eauto|intros; congruence].
Qed.

Lemma ts_own_length vs vi v q l : vinv vs vi v q -> v_kind v = KTimeseries ->
  ts_own v q = Ok l -> p_written q = true /\ Z.of_nat (length l) = target_length (v_tconv v).
Proof.
  intros I K H. unfold ts_own in H. destruct (p_written q); [|discriminate].
  destruct (p_data q) as [[| |]|]; try discriminate. split; auto.
  destruct (vi_tconv _ _ _ _ I K) as (tp & _ & TC). eapply from_param_length; eauto.
Qed.

Lemma wf_leaf_read s vi v s' x : wf s -> nth_error (st_views s) vi = Some v ->
  v_kind v = KTimeseries ->
  read_with leaf_values s vi = (s', x) -> wf s' /\
  (forall l, x = Ok l -> Z.of_nat (length l) = target_length (v_tconv v)).
Proof.
  intros W V K H. apply wf_read_with in H; auto.
  - destruct H as [H1 H2]. split; eauto.
  - intros v0 s1 y V0 Hg. assert (v0 = v) by congruence; subst v0.
    destruct (wf_views _ W _ _ V) as (q & Q & I).
    unfold leaf_values in Hg. rewrite Q in Hg. inversion Hg; subst.
    split; [auto with evo|]. split; auto. intros l Hl.
    destruct (has_children q); [discriminate|].
    destruct (ts_own_length _ _ _ _ _ I K Hl) as [A B]. repeat split; auto.
    intros q0 Hq0. left. congruence.
Qed.

Lemma arr_add_length a : forall b r, arr_add a b = Ok r -> length r = length a.
Proof.
  induction a; intros [|y b] r H; simpl in H; try discriminate.
  - inversion H; auto.
  - destruct (arr_add a0 b) eqn:E; [|discriminate]. inversion H; subst. simpl. f_equal; eauto.
Qed.

Lemma wf_sum_children n cs : forall s acc s' x, wf s ->
  (forall c, In c cs -> exists cv, nth_error (st_views s) c = Some cv /\
     v_kind cv = KTimeseries /\ target_length (v_tconv cv) = n) ->
  (forall a, acc = Some a -> Z.of_nat (length a) = n) ->
  sum_children s cs acc = (s', x) -> wf s' /\
  (forall l, x = Ok l -> Z.of_nat (length l) = n).
Proof.
  induction cs as [|c cs]; simpl; intros s acc s' x W Hc Ha H.
  - inversion H; subst. split; auto. intros l Hl. destruct acc; inversion Hl; subst; auto.
  - destruct (Hc c) as (cv & V & K & L); auto.
    destruct (read_with leaf_values s c) as [s1 [xs|e]] eqn:R.
    + pose proof (rd_leaf_read _ _ _ _ R) as R1.
      destruct (wf_leaf_read _ _ _ _ _ W V K R) as [W1 L1]. specialize (L1 _ eq_refl).
      assert (Hc' : forall c0, In c0 cs -> exists cv, nth_error (st_views s1) c0 = Some cv /\
        v_kind cv = KTimeseries /\ target_length (v_tconv cv) = n).
      { intros c0 I. destruct (Hc c0) as (cv0 & V0 & K0 & L0); auto.
        destruct (rd_views _ _ R1 _ _ V0) as (cv1 & V1 & Vr). exists cv1.
        rewrite (vr_kind _ _ Vr), (vr_tconv _ _ Vr). auto. }
      destruct acc as [a|].
      * destruct (arr_add a xs) eqn:A.
        -- eapply IHcs; [exact W1|exact Hc'| |exact H]. intros a1 E1. inversion E1; subst.
           rewrite (arr_add_length _ _ _ A). auto.
        -- inversion H; subst. split; auto. intros; congruence.
      * eapply IHcs; [exact W1|exact Hc'| |exact H]. intros a1 E1. inversion E1; subst.
        rewrite map_length. congruence.
    + inversion H; subst. split; [|intros; congruence].
      eapply wf_leaf_read; eauto.
Qed.

Lemma wf_ts_get s vi v s' x : wf s -> nth_error (st_views s) vi = Some v ->
  v_kind v = KTimeseries ->
  ts_get s vi = (s', x) -> wf s' /\
  (forall l, x = Ok l -> Z.of_nat (length l) = target_length (v_tconv v)).
Proof.
  intros W V K H. apply wf_read_with in H; auto.
  - destruct H as [H1 H2]. split; eauto.
  - intros v0 s1 y V0 Hg. assert (v0 = v) by congruence; subst v0.
    pose proof (rd_get_values _ _ _ _ Hg) as R. split; auto.
    destruct (wf_views _ W _ _ V) as (q & Q & I).
    unfold get_values in Hg. rewrite Q in Hg. unfold has_children in Hg.
    destruct (p_children q) as [|c0 cs0] eqn:C.
    + inversion Hg; subst. split; auto. intros l Hl.
      destruct (ts_own_length _ _ _ _ _ I K Hl) as [A B]. repeat split; auto.
      intros q0 Hq0. left. congruence.
    + destruct (v_children v) as [cs|] eqn:Cs.
      * apply (wf_sum_children (target_length (v_tconv v))) in Hg; auto.
        -- destruct Hg as [W1 L1]. split; auto. intros l Hl. repeat split; auto.
           intros q0 Hq0. right. assert (q0 = q) by congruence; subst. rewrite C. discriminate.
        -- intros c Ic. destruct (vi_children _ _ _ _ I _ _ Cs Ic)
             as (_ & cv & V1 & _ & K1 & _ & T1 & T2 & _).
           exists cv. repeat split; auto; try congruence.
           unfold target_length. now rewrite T1, T2.
        -- intros; discriminate.
      * inversion Hg; subst. split; auto. intros; discriminate.
Qed.

Lemma wf_set_data s vi v q d : wf s -> nth_error (st_views s) vi = Some v ->
  v_kind v = KTimeseries ->
  nth_error (st_params s) (v_param v) = Some q -> p_written q = true \/ p_children q <> [] ->
  Z.of_nat (length (a_val d)) = target_length (v_tconv v) ->
  wf (set_view s vi (v_set_data v d)).
Proof.
  intros W V K Q Wc L. destruct (wf_views _ W _ _ V) as (q0 & Q0 & I).
  assert (q0 = q) by congruence; subst q0.
  eapply wf_set_cache; eauto using vevo_data; simpl; try apply I; auto.
  intros d0 E. inversion E; subst. auto.
Qed.

Lemma set_view_nth s vi v v' : nth_error (st_views s) vi = Some v ->
  nth_error (st_views (set_view s vi v')) vi = Some v'.
Proof. intros. simpl. apply nth_upd_eq. eapply nth_lt; eauto. Qed.

Lemma check_write_ok s vi v t u tp s1 z : wf s -> nth_error (st_views s) vi = Some v ->
  v_public v = true -> check_write s vi v t u tp = (s1, Ok z) ->
  exists q, nth_error (st_params s1) (v_param v) = Some q /\ p_written q = true.
Proof.
  intros W V Pb C. pose proof (wf_check_write _ _ _ _ _ _ _ _ W V Pb C) as W1.
  pose proof (check_write_view _ _ _ _ _ _ _ _ V C) as V1.
  destruct (wf_views _ W1 _ _ V1) as (q & Q & I). exists q. split; auto.
  apply (vi_writable _ _ _ _ I). reflexivity.
Qed.

Lemma wf_ts_set s vi v a s' x : wf s -> nth_error (st_views s) vi = Some v ->
  v_public v = true -> v_kind v = KTimeseries ->
  ts_set s vi v a = (s', x) -> wf s'.
Proof.
  intros W V Pb K H. unfold ts_set in H.
  destruct (check_write s vi v _ _ _) as [s1 [z|e]] eqn:C;
    pose proof (wf_check_write _ _ _ _ _ _ _ _ W V Pb C) as W1; [|inversion H; subst; auto].
  destruct (_ =? _)%Z eqn:L; [|inversion H; subst; auto]. apply Z.eqb_eq in L.
  pose proof (check_write_view _ _ _ _ _ _ _ _ V C) as V1. rewrite V1 in H.
  destruct (check_write_ok _ _ _ _ _ _ _ _ W V Pb C) as (q & Q & Wr).
  assert (X : forall d, length (a_val d) = length (a_val a) ->
      wf (set_view s1 vi (v_set_data (v_set_writable v) d))).
  { intros d Hd. eapply wf_set_data; eauto. simpl. congruence. }
  change (v_data (v_set_writable v)) with (v_data v) in H.
  destruct (v_data v) as [d|].
  - destruct (a_int d && negb (a_int a)); [inversion H; subst; auto|].
    eapply wf_ts_write; [apply X| | | |exact H]; auto.
    + eapply set_view_nth; eauto.
    + auto.
    + auto.
  - eapply wf_ts_write; [apply X| | | |exact H]; auto.
    + eapply set_view_nth; eauto.
    + auto.
    + auto.
Qed.

Lemma wf_handle_set s vi v i y s' x : wf s -> nth_error (st_views s) vi = Some v ->
  v_public v = true -> v_kind v = KTimeseries ->
  handle_set s vi i y = (s', x) -> wf s'.
Proof.
  intros W V Pb K H. unfold handle_set in H. rewrite V in H.
  destruct (v_data v) as [d|] eqn:D; [|inversion H; subst; auto].
  destruct (pyindex _ _) as [j|]; [|inversion H; subst; auto].
  destruct (cast_item _ _) as [y'|]; [|inversion H; subst; auto].
  destruct (wf_views _ W _ _ V) as (q & Q & I).
  eapply wf_ts_write; [| | | |exact H].
  - eapply wf_set_data; eauto.
    + apply (vi_data _ _ _ _ I). congruence.
    + simpl. rewrite upd_length. eapply vi_len; eauto.
  - eapply set_view_nth; eauto.
  - auto.
  - auto.
Qed.

Lemma wf_ts_setitem s vi v i y s' x : wf s -> nth_error (st_views s) vi = Some v ->
  v_public v = true -> v_kind v = KTimeseries ->
  ts_setitem s vi i y = (s', x) -> wf s'.
Proof.
  intros W V Pb K H. unfold ts_setitem in H.
  destruct (ts_get s vi) as [s1 [z|e]] eqn:G;
    pose proof (wf_ts_get _ _ _ _ _ W V K G) as [W1 _]; [|inversion H; subst; auto].
  apply rd_ts_get in G. destruct (rd_views _ _ G _ _ V) as (v1 & V1 & Vr).
  eapply wf_handle_set; eauto.
  - rewrite (vr_public _ _ Vr); auto.
  - rewrite (vr_kind _ _ Vr); auto.
Qed.

Lemma wf_handle_iadd s vi v y s' x : wf s -> nth_error (st_views s) vi = Some v ->
  v_public v = true -> v_kind v = KTimeseries ->
  handle_iadd s vi y = (s', x) -> wf s'.
Proof.
  intros W V Pb K H. unfold handle_iadd in H. rewrite V in H.
  destruct (v_data v) as [d|] eqn:D; [|inversion H; subst; auto].
  destruct (ts_get s vi) as [s1 [z|e]] eqn:G;
    pose proof (wf_ts_get _ _ _ _ _ W V K G) as [W1 _]; [|inversion H; subst; auto].
  apply rd_ts_get in G. destruct (rd_views _ _ G _ _ V) as (v1 & V1 & Vr). rewrite V1 in H.
  destruct (v_data v1) as [d1|] eqn:D1; [|inversion H; subst; auto].
  destruct (a_int d1); [inversion H; subst; auto|].
  destruct (wf_views _ W1 _ _ V1) as (q & Q & I).
  eapply wf_ts_write; [| | | |exact H].
  - eapply wf_set_data; eauto.
    + rewrite (vr_kind _ _ Vr); auto.
    + apply (vi_data _ _ _ _ I). congruence.
    + simpl. rewrite map_length. eapply vi_len; eauto.
  - eapply set_view_nth; eauto.
  - simpl. rewrite (vr_public _ _ Vr); auto.
  - simpl. rewrite (vr_kind _ _ Vr); auto.
Qed.

Theorem wf_step o s s' x : wf s -> step env o s = (s', x) -> wf s'.
Proof.
  intros W; destruct o; intros H; cbn [step] in H;
  try (apply lift_inv in H; destruct H as [z H]);
  try (apply with_view_inv in H; destruct H as [[-> _]|(w & V & Pb & K & H)]; [auto|]);
  try (apply lift_inv in H; destruct H as [z H]).
  - eapply wf_scalar; eauto.
  - eapply wf_timeseries; eauto.
  - eapply wf_generic; eauto.
  - inversion H; subst; auto.
  - inversion H; subst; auto.
  - eapply wf_scalar_set; eauto.
  - inversion H; subst; auto.
  - eapply wf_generic_set; eauto.
  - eapply wf_ts_get; eauto.
  - eapply wf_ts_set; eauto.
  - eapply wf_ts_setitem; eauto.
  - destruct (v_data w); [|inversion H; subst; auto].
    destruct (ts_get s v) as [s1 [z|e]] eqn:G; inversion H; subst;
      eapply wf_ts_get; eauto.
  - inversion H; subst; auto.
  - eapply wf_handle_set; eauto.
  - eapply wf_handle_iadd; eauto.
  - inversion H; subst. eapply wf_lock; eauto.
  - unfold ts_unlock in H. eapply wf_ts_write; [| | | |exact H].
    + apply wf_lock; auto.
    + eapply set_view_nth; eauto.
    + auto.
    + auto.
Qed.

Theorem wf_run h : forall s, wf s -> wf (run env s h).
Proof.
  induction h; simpl; intros s W; auto. apply IHh.
  destruct (step env a s) eqn:E. eapply wf_step; eauto.
Qed.

Theorem wf_reachable root h : wf (run env (init_state root) h).
Proof. apply wf_run, wf_init. Qed.
End I.
