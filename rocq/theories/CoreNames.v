(** What the trees say about names: lookups, creation and [full_name]. *)
From Coq Require Import String Ascii List Arith Lia Bool ZArith.
From Verif Require Import Base ListFacts Units TimeModel Core CoreEvo CoreTree.
Import ListNotations.

(** ** Lookups *)

Lemma get_subregion_app s l : forall r m,
  get_subregion s r (l ++ m) =
  match get_subregion s r l with Some c => get_subregion s c m | None => None end.
Proof.
  induction l; simpl; intros r m; auto.
  destruct (nth_error (st_regions s) r); auto.
  destruct (alookup a (r_children r0)); auto.
Qed.
Lemma get_subparameter_app s l : forall r m,
  get_subparameter s r (l ++ m) =
  match get_subparameter s r l with Some c => get_subparameter s c m | None => None end.
Proof.
  induction l; simpl; intros r m; auto.
  destruct (nth_error (st_params s) r); auto.
  destruct (alookup a (p_children p)); auto.
Qed.

Lemma subregions_found names : forall s r c,
  get_subregion s r names = Some c -> subregions s r names = (s, Ok c).
Proof.
  induction names; simpl; intros s r c H.
  - inversion H; auto.
  - unfold get_or_create_subregion.
    destruct (nth_error (st_regions s) r); try discriminate.
    destruct (alookup a (r_children r0)); try discriminate. auto.
Qed.
Lemma subparameters_found names : forall s r c,
  get_subparameter s r names = Some c -> subparameters s r names = (s, Ok c).
Proof.
  induction names; simpl; intros s r c H.
  - inversion H; auto.
  - unfold get_or_create_child_parameter.
    destruct (nth_error (st_params s) r); try discriminate.
    destruct (alookup a (p_children p)); try discriminate. auto.
Qed.

Lemma get_subregion_evo names : forall s s' r c, evo s s' ->
  get_subregion s r names = Some c -> get_subregion s' r names = Some c.
Proof.
  induction names; simpl; intros s s' r c E H; auto.
  destruct (nth_error (st_regions s) r) as [rg|] eqn:N; try discriminate.
  destruct (ev_regions _ _ E _ _ N) as (rg' & -> & R).
  destruct (re_children _ _ R) as [l ->].
  rewrite alookup_app. destruct (alookup a (r_children rg)); try discriminate.
  eapply IHnames; eauto.
Qed.
Lemma get_subparameter_evo names : forall s s' r c, evo s s' ->
  get_subparameter s r names = Some c -> get_subparameter s' r names = Some c.
Proof.
  induction names; simpl; intros s s' r c E H; auto.
  destruct (nth_error (st_params s) r) as [rg|] eqn:N; try discriminate.
  destruct (ev_params _ _ E _ _ N) as (rg' & -> & R).
  destruct (pe_children _ _ R) as [l ->].
  rewrite alookup_app. destruct (alookup a (p_children rg)); try discriminate.
  eapply IHnames; eauto.
Qed.

Lemma subregion_created s r n s' c :
  get_or_create_subregion s r n = (s', Ok c) ->
  exists rg, nth_error (st_regions s') r = Some rg /\ alookup n (r_children rg) = Some c.
Proof.
  unfold get_or_create_subregion. intros H.
  destruct (nth_error (st_regions s) r) as [rg|] eqn:E; [|inversion H].
  destruct (alookup n (r_children rg)) as [d|] eqn:L.
  - inversion H; subst. eauto.
  - destruct (r_aggregated rg); inversion H; subst. simpl.
    eexists. split.
    + apply nth_app_old. apply nth_upd_eq. eapply nth_lt; eauto.
    + simpl. rewrite alookup_app, L. simpl. now rewrite String.eqb_refl.
Qed.
Lemma child_parameter_created s r n s' c :
  get_or_create_child_parameter s r n = (s', Ok c) ->
  exists q, nth_error (st_params s') r = Some q /\ alookup n (p_children q) = Some c.
Proof.
  unfold get_or_create_child_parameter. intros H.
  destruct (nth_error (st_params s) r) as [rg|] eqn:E; [|inversion H].
  destruct (alookup n (p_children rg)) as [d|] eqn:L.
  - inversion H; subst. eauto.
  - destruct (p_written rg); [inversion H|]. destruct (p_read rg); inversion H; subst. simpl.
    eexists. split.
    + apply nth_app_old. apply nth_upd_eq. eapply nth_lt; eauto.
    + simpl. rewrite alookup_app, L. simpl. now rewrite String.eqb_refl.
Qed.
Lemma root_parameter_created s r n s' c :
  get_or_create_root_parameter s r n = (s', Ok c) ->
  exists q, nth_error (st_regions s') r = Some q /\ alookup n (r_params q) = Some c.
Proof.
  unfold get_or_create_root_parameter. intros H.
  destruct (nth_error (st_regions s) r) as [rg|] eqn:E; [|inversion H].
  destruct (alookup n (r_params rg)) as [d|] eqn:L.
  - inversion H; subst. eauto.
  - inversion H; subst. simpl. eexists. split.
    + apply nth_upd_eq. eapply nth_lt; eauto.
    + simpl. rewrite alookup_app, L. simpl. now rewrite String.eqb_refl.
Qed.

Lemma subregions_created names : forall s r s' c,
  subregions s r names = (s', Ok c) -> get_subregion s' r names = Some c.
Proof.
  induction names; simpl; intros s r s' c H.
  - inversion H; auto.
  - destruct (get_or_create_subregion s r a) as [s1 [d|e]] eqn:E; [|inversion H].
    pose proof (evo_subregions _ _ _ _ _ H) as Ev.
    destruct (subregion_created _ _ _ _ _ E) as (rg & R1 & R2).
    destruct (ev_regions _ _ Ev _ _ R1) as (rg' & -> & R).
    destruct (re_children _ _ R) as [l ->].
    rewrite alookup_app, R2. eauto.
Qed.
Lemma subparameters_created names : forall s r s' c,
  subparameters s r names = (s', Ok c) -> get_subparameter s' r names = Some c.
Proof.
  induction names; simpl; intros s r s' c H.
  - inversion H; auto.
  - destruct (get_or_create_child_parameter s r a) as [s1 [d|e]] eqn:E; [|inversion H].
    pose proof (evo_subparameters _ _ _ _ _ H) as Ev.
    destruct (child_parameter_created _ _ _ _ _ E) as (rg & R1 & R2).
    destruct (ev_params _ _ Ev _ _ R1) as (rg' & -> & R).
    destruct (pe_children _ _ R) as [l ->].
    rewrite alookup_app, R2. eauto.
Qed.

(** Region and parameter at a path of components. *)
Definition region_at (s : state) (cs : list string) : option nat :=
  match cs with
  | [] => None
  | n :: rest =>
    match nth_error (st_regions s) 0 with
    | None => None
    | Some root => if String.eqb n (r_name root) then get_subregion s 0 rest else None
    end
  end.
Definition param_in (s : state) (r : nat) (cs : list string) : option nat :=
  match cs with
  | [] => None
  | n :: rest =>
    match nth_error (st_regions s) r with
    | None => None
    | Some rg => match alookup n (r_params rg) with
                 | None => None
                 | Some p => get_subparameter s p rest
                 end
    end
  end.
Definition param_at (s : state) (rs ps : list string) : option nat :=
  match region_at s rs with None => None | Some r => param_in s r ps end.

Lemma region_at_evo s s' cs r : evo s s' -> region_at s cs = Some r -> region_at s' cs = Some r.
Proof.
  intros E. unfold region_at. destruct cs; auto.
  destruct (nth_error (st_regions s) 0) as [rt|] eqn:N; try discriminate.
  destruct (ev_regions _ _ E _ _ N) as (rg' & -> & R). rewrite (re_name _ _ R).
  destruct (String.eqb s0 (r_name rt)); try discriminate.
  apply get_subregion_evo; auto.
Qed.
Lemma param_in_evo s s' r cs p : evo s s' -> param_in s r cs = Some p -> param_in s' r cs = Some p.
Proof.
  intros E. unfold param_in. destruct cs; auto.
  destruct (nth_error (st_regions s) r) as [rt|] eqn:N; try discriminate.
  destruct (ev_regions _ _ E _ _ N) as (rg' & -> & R).
  destruct (re_params _ _ R) as [l ->]. rewrite alookup_app.
  destruct (alookup s0 (r_params rt)); try discriminate.
  apply get_subparameter_evo; auto.
Qed.
Lemma param_at_evo s s' rs ps p :
  evo s s' -> param_at s rs ps = Some p -> param_at s' rs ps = Some p.
Proof.
  intros E. unfold param_at. destruct (region_at s rs) eqn:R; try discriminate.
  rewrite (region_at_evo _ _ _ _ E R). apply param_in_evo; auto.
Qed.

Lemma get_or_create_region_found s n r :
  region_at s (hcomponents n) = Some r -> get_or_create_region s n = (s, Ok r).
Proof.
  unfold region_at, get_or_create_region. destruct (hcomponents n); try discriminate.
  destruct (nth_error (st_regions s) 0); try discriminate.
  destruct (String.eqb s0 (r_name r0)); try discriminate.
  apply subregions_found.
Qed.
Lemma get_or_create_region_created s n s' r :
  get_or_create_region s n = (s', Ok r) -> region_at s' (hcomponents n) = Some r.
Proof.
  unfold region_at, get_or_create_region. destruct (hcomponents n); [discriminate|].
  destruct (nth_error (st_regions s) 0) as [rt|] eqn:N; [|discriminate].
  destruct (String.eqb s0 (r_name rt)) eqn:Q; [|discriminate]. intros H.
  pose proof (evo_subregions _ _ _ _ _ H) as E.
  destruct (ev_regions _ _ E _ _ N) as (rg' & -> & R). rewrite (re_name _ _ R), Q.
  eapply subregions_created; eauto.
Qed.
Lemma get_or_create_parameter_found s n r p :
  param_in s r (hcomponents n) = Some p -> get_or_create_parameter s n r = (s, Ok p).
Proof.
  unfold param_in, get_or_create_parameter. destruct (hcomponents n); try discriminate.
  unfold get_or_create_root_parameter.
  destruct (nth_error (st_regions s) r); try discriminate.
  destruct (alookup s0 (r_params r0)); try discriminate.
  apply subparameters_found.
Qed.
Lemma get_or_create_parameter_created s n r s' p :
  get_or_create_parameter s n r = (s', Ok p) -> param_in s' r (hcomponents n) = Some p.
Proof.
  unfold param_in, get_or_create_parameter. destruct (hcomponents n); [discriminate|].
  destruct (get_or_create_root_parameter s r s0) as [s1 [p0|e]] eqn:G; [|discriminate].
  intros H. destruct (root_parameter_created _ _ _ _ _ G) as (rg & R1 & R2).
  pose proof (evo_subparameters _ _ _ _ _ H) as E.
  destruct (ev_regions _ _ E _ _ R1) as (rg' & -> & R).
  destruct (re_params _ _ R) as [k ->]. rewrite alookup_app, R2.
  eapply subparameters_created; eauto.
Qed.

Lemma locate_found s n r p :
  param_at s (hcomponents r) (hcomponents n) = Some p -> locate s n r = (s, Ok p).
Proof.
  unfold param_at, locate. destruct (region_at s (hcomponents r)) eqn:R; try discriminate.
  intros H. rewrite (get_or_create_region_found _ _ _ R).
  now apply get_or_create_parameter_found.
Qed.
Lemma locate_created s n r s' p :
  locate s n r = (s', Ok p) -> param_at s' (hcomponents r) (hcomponents n) = Some p.
Proof.
  unfold param_at, locate. destruct (get_or_create_region s r) as [s1 [rr|e]] eqn:R; [|discriminate].
  intros H. pose proof (get_or_create_region_created _ _ _ _ R) as R1.
  rewrite (region_at_evo _ _ _ _ (evo_parameter _ _ _ _ _ H) R1).
  eapply get_or_create_parameter_created; eauto.
Qed.

Lemma split_nonempty c s : split c s <> [].
Proof.
  destruct s; simpl; try discriminate.
  destruct (Ascii.eqb a c); try discriminate.
  destruct (split c s); discriminate.
Qed.

Lemma get_region_at s r :
  match region_at s (hcomponents r) with
  | Some x => get_region s r = Ok (Some x)
  | None => forall x, get_region s r <> Ok (Some x)
  end.
Proof.
  unfold region_at, get_region. destruct (hcomponents r); [congruence|].
  destruct (nth_error (st_regions s) 0); [|congruence].
  destruct (String.eqb s0 (r_name r0)); [|congruence].
  destruct (get_subregion s 0 l); congruence.
Qed.

Lemma info_at s n r p : info s n r = Ok (Some p) ->
  hempty n = false /\ param_at s (hcomponents r) (hcomponents n) = Some p.
Proof.
  unfold info, param_at. pose proof (get_region_at s r) as G.
  destruct (region_at s (hcomponents r)) as [x|].
  - rewrite G. unfold get_parameter, param_in. destruct (hempty n); [discriminate|].
    destruct (hcomponents n); [discriminate|].
    destruct (nth_error (st_regions s) x); [|discriminate].
    destruct (alookup s0 (r_params r0)); [|discriminate]. split; auto. congruence.
  - destruct (get_region s r) as [[x|]|]; try discriminate. edestruct G; eauto.
Qed.
Lemma at_info s n r p : hempty n = false ->
  param_at s (hcomponents r) (hcomponents n) = Some p -> info s n r = Ok (Some p).
Proof.
  unfold info, param_at. pose proof (get_region_at s r) as G. intros E.
  destruct (region_at s (hcomponents r)) as [x|]; [|discriminate].
  rewrite G. unfold get_parameter, param_in. rewrite E.
  destruct (hcomponents n); [discriminate|].
  destruct (nth_error (st_regions s) x); [|discriminate].
  destruct (alookup s0 (r_params r0)); [|discriminate]. congruence.
Qed.

(** ** [full_name] *)

Lemma pfn_S f s p : param_full_name (S f) s p =
  match nth_error (st_params s) p with
  | None => None
  | Some q => match p_parent q with
              | None => Some [p_name q]
              | Some p' => match param_full_name f s p' with
                           | Some l => Some (l ++ [p_name q]) | None => None end
              end
  end.
Proof. reflexivity. Qed.
Lemma rfn_S f s p : region_full_name (S f) s p =
  match nth_error (st_regions s) p with
  | None => None
  | Some q => match r_parent q with
              | None => Some [r_name q]
              | Some p' => match region_full_name f s p' with
                           | Some l => Some (l ++ [r_name q]) | None => None end
              end
  end.
Proof. reflexivity. Qed.

Lemma pfn_mono s f : forall p l, param_full_name f s p = Some l ->
  param_full_name (S f) s p = Some l.
Proof.
  induction f; intros p l H; [discriminate|].
  rewrite pfn_S in H. rewrite pfn_S.
  destruct (nth_error (st_params s) p); [|discriminate].
  destruct (p_parent p0); [|auto].
  destruct (param_full_name f s n) as [l0|] eqn:E; [|discriminate].
  rewrite (IHf _ _ E). auto.
Qed.
Lemma pfn_le s f g p l : f <= g -> param_full_name f s p = Some l ->
  param_full_name g s p = Some l.
Proof. induction 1; auto. intros. apply pfn_mono; auto. Qed.
Lemma rfn_mono s f : forall p l, region_full_name f s p = Some l ->
  region_full_name (S f) s p = Some l.
Proof.
  induction f; intros p l H; [discriminate|].
  rewrite rfn_S in H. rewrite rfn_S.
  destruct (nth_error (st_regions s) p); [|discriminate].
  destruct (r_parent r); [|auto].
  destruct (region_full_name f s n) as [l0|] eqn:E; [|discriminate].
  rewrite (IHf _ _ E). auto.
Qed.
Lemma rfn_le s f g p l : f <= g -> region_full_name f s p = Some l ->
  region_full_name g s p = Some l.
Proof. induction 1; auto. intros. apply rfn_mono; auto. Qed.

Section N.
Variable s : state.
Hypothesis W : wft s.

Lemma pfn_total f : forall p, p < f -> p < length (st_params s) ->
  exists l, param_full_name f s p = Some l.
Proof.
  induction f; intros p Lt L; [lia|]. simpl.
  destruct (nth_error (st_params s) p) as [q|] eqn:E.
  - destruct (p_parent q) as [p'|] eqn:Pa; [|eauto].
    destruct (wt_pparent s W _ _ _ E Pa) as (q' & Q1 & Q2).
    destruct (wt_pchild s W _ _ _ _ Q1 Q2) as [Lt' _].
    destruct (IHf p') as [l ->]; [lia|lia|]. eauto.
  - apply nth_error_None in E. lia.
Qed.
Lemma rfn_total f : forall p, p < f -> p < length (st_regions s) ->
  exists l, region_full_name f s p = Some l.
Proof.
  induction f; intros p Lt L; [lia|]. simpl.
  destruct (nth_error (st_regions s) p) as [q|] eqn:E.
  - destruct (r_parent q) as [p'|] eqn:Pa; [|eauto].
    destruct (wt_rparent s W _ _ _ E Pa) as (q' & Q1 & Q2).
    destruct (wt_rchild s W _ _ _ _ Q1 Q2) as [Lt' _].
    destruct (IHf p') as [l ->]; [lia|lia|]. eauto.
  - apply nth_error_None in E. lia.
Qed.

Lemma rfn_path f : forall c l, region_full_name f s c = Some l -> region_at s l = Some c.
Proof.
  induction f; simpl; intros c l H; [discriminate|].
  destruct (nth_error (st_regions s) c) as [q|] eqn:E; [|discriminate].
  destruct (r_parent q) as [p'|] eqn:Pa.
  - destruct (region_full_name f s p') as [l0|] eqn:F; [|discriminate].
    apply IHf in F. inversion H; subst. clear H.
    destruct (wt_rparent s W _ _ _ E Pa) as (q' & Q1 & Q2).
    destruct l0 as [|n rest]; [discriminate|]. cbn [region_at app] in *.
    destruct (nth_error (st_regions s) 0); [|discriminate].
    destruct (String.eqb n (r_name r)); [|discriminate].
    rewrite get_subregion_app, F. simpl. rewrite Q1.
    rewrite (In_alookup _ _ _ (wt_rnodup s W _ _ Q1) Q2). auto.
  - inversion H; subst. pose proof (wt_ronly s W _ _ E Pa). subst. cbn [region_at get_subregion].
    rewrite E. now rewrite String.eqb_refl.
Qed.
Lemma rfn_sub names : forall r c f l, region_full_name f s r = Some l ->
  get_subregion s r names = Some c ->
  region_full_name (length names + f) s c = Some (l ++ names).
Proof.
  induction names; cbn [get_subregion length]; intros r c f l F H.
  - inversion H; subst. now rewrite app_nil_r.
  - destruct (nth_error (st_regions s) r) as [rg|] eqn:E; [|discriminate].
    destruct (alookup a (r_children rg)) as [d|] eqn:L; [|discriminate].
    apply alookup_In in L.
    destruct (wt_rchild s W _ _ _ _ E L) as (_ & cg & C1 & C2 & C3).
    assert (F' : region_full_name (S f) s d = Some (l ++ [a])).
    { simpl. rewrite C1, C3, F, C2. auto. }
    pose proof (IHnames _ _ _ _ F' H) as K. rewrite <- app_assoc in K. simpl in K.
    replace (S (length names) + f) with (length names + S f) by lia. exact K.
Qed.
Lemma path_rfn cs c : region_at s cs = Some c ->
  region_full_name (S (length (st_regions s))) s c = Some cs.
Proof.
  destruct cs as [|n rest]; [discriminate|]. cbn [region_at].
  destruct (wt_root s W) as (rt & R1 & R2). rewrite R1.
  destruct (String.eqb_spec n (r_name rt)) as [En|]; [|discriminate]. intros H.
  assert (B : region_full_name 1 s 0 = Some [n]). { rewrite rfn_S. rewrite R1, R2. now rewrite En. }
  pose proof (rfn_sub _ _ _ _ _ B H) as K. simpl in K.
  assert (L : c < length (st_regions s)).
  { destruct rest as [|x rest] using rev_ind.
    - simpl in H. inversion H; subst. eapply nth_lt; eauto.
    - rewrite get_subregion_app in H. destruct (get_subregion s 0 rest); [|discriminate].
      simpl in H. destruct (nth_error (st_regions s) n0) eqn:E; [|discriminate].
      destruct (alookup x (r_children r)) eqn:L; [|discriminate]. inversion H; subst.
      apply alookup_In in L. destruct (wt_rchild s W _ _ _ _ E L) as (_ & cg & C1 & _).
      eapply nth_lt; eauto. }
  destruct (rfn_total (S (length (st_regions s))) c) as [l Hl]; [lia|auto|].
  rewrite Hl. f_equal.
  apply (rfn_le _ _ (Nat.max (S (length (st_regions s))) (length rest + 1))) in Hl; [|lia].
  apply (rfn_le _ _ (Nat.max (S (length (st_regions s))) (length rest + 1))) in K; [|lia].
  congruence.
Qed.

Lemma pfn_path f : forall c l, param_full_name f s c = Some l ->
  exists q, nth_error (st_params s) c = Some q /\ param_in s (p_region q) l = Some c.
Proof.
  induction f; simpl; intros c l H; [discriminate|].
  destruct (nth_error (st_params s) c) as [q|] eqn:E; [|discriminate]. exists q. split; auto.
  destruct (p_parent q) as [p'|] eqn:Pa.
  - destruct (param_full_name f s p') as [l0|] eqn:F; [|discriminate].
    apply IHf in F. destruct F as (q0 & E0 & F). inversion H; subst. clear H.
    destruct (wt_pparent s W _ _ _ E Pa) as (q' & Q1 & Q2).
    assert (q0 = q') by congruence; subst q0.
    destruct (wt_pchild s W _ _ _ _ Q1 Q2) as (_ & cq & C1 & C2 & C3 & C4).
    assert (cq = q) by congruence; subst cq. rewrite C4.
    destruct l0 as [|n rest]; [discriminate|]. simpl in *.
    destruct (nth_error (st_regions s) (p_region q')); [|discriminate].
    destruct (alookup n (r_params r)); [|discriminate].
    rewrite get_subparameter_app, F. simpl. rewrite Q1.
    rewrite (In_alookup _ _ _ (wt_pnodup s W _ _ Q1) Q2). auto.
  - inversion H; subst. destruct (wt_proot s W _ _ E Pa) as (rg & R1 & R2). simpl.
    rewrite R1. now rewrite (In_alookup _ _ _ (wt_rpnodup s W _ _ R1) R2).
Qed.
Lemma pfn_sub names : forall r c f l q, nth_error (st_params s) r = Some q ->
  param_full_name f s r = Some l ->
  get_subparameter s r names = Some c ->
  param_full_name (length names + f) s c = Some (l ++ names) /\
  exists q', nth_error (st_params s) c = Some q' /\ p_region q' = p_region q.
Proof.
  induction names; cbn [get_subparameter length]; intros r c f l q E F H.
  - inversion H; subst. rewrite app_nil_r. eauto.
  - rewrite E in H.
    destruct (alookup a (p_children q)) as [d|] eqn:L; [|discriminate].
    apply alookup_In in L.
    destruct (wt_pchild s W _ _ _ _ E L) as (_ & cg & C1 & C2 & C3 & C4).
    assert (F' : param_full_name (S f) s d = Some (l ++ [a])).
    { simpl. rewrite C1, C3, F, C2. auto. }
    destruct (IHnames _ _ _ _ _ C1 F' H) as [K (q' & K1 & K2)].
    rewrite <- app_assoc in K. simpl in K. split.
    + replace (S (length names) + f) with (length names + S f) by lia. exact K.
    + exists q'. split; auto. congruence.
Qed.

Lemma path_pfn r cs c : param_in s r cs = Some c ->
  param_full_name (S (length (st_params s))) s c = Some cs /\
  exists q, nth_error (st_params s) c = Some q /\ p_region q = r.
Proof.
  destruct cs as [|n rest]; [discriminate|]. simpl param_in.
  destruct (nth_error (st_regions s) r) as [rg|] eqn:R; [|discriminate].
  destruct (alookup n (r_params rg)) as [p|] eqn:L; [|discriminate]. intros H.
  apply alookup_In in L.
  destruct (wt_rparam s W _ _ _ _ R L) as (q & Q1 & Q2 & Q3 & Q4).
  assert (B : param_full_name 1 s p = Some [n]). { simpl. now rewrite Q1, Q3, Q2. }
  destruct (pfn_sub _ _ _ _ _ _ Q1 B H) as [K (q' & K1 & K2)]. simpl in K.
  split; [|exists q'; split; congruence].
  destruct (pfn_total (S (length (st_params s))) c) as [l Hl]; [|eapply nth_lt; eauto|].
  { pose proof (nth_lt _ _ _ K1). lia. }
  rewrite Hl. f_equal.
  apply (pfn_le _ _ (Nat.max (S (length (st_params s))) (length rest + 1))) in Hl; [|lia].
  apply (pfn_le _ _ (Nat.max (S (length (st_params s))) (length rest + 1))) in K; [|lia].
  congruence.
Qed.

Lemma param_at_names rs ps p :
  param_at s rs ps = Some p <-> info_region s p = Some rs /\ info_name s p = Some ps.
Proof.
  unfold param_at, info_region, info_name. split.
  - destruct (region_at s rs) as [r|] eqn:R; [|discriminate]. intros H.
    destruct (path_pfn _ _ _ H) as [K (q & Q1 & Q2)]. rewrite Q1, Q2. split; auto.
    now apply path_rfn.
  - destruct (nth_error (st_params s) p) as [q|] eqn:E; [|intros [? _]; discriminate].
    intros [A B]. apply rfn_path in A. rewrite A.
    apply pfn_path in B. destruct B as (q' & Q1 & Q2).
    assert (q' = q) by congruence. subst. auto.
Qed.

Lemma names_total p : p < length (st_params s) ->
  exists rs ps, info_region s p = Some rs /\ info_name s p = Some ps.
Proof.
  intros L. destruct (nth_error (st_params s) p) as [q|] eqn:E.
  2: { apply nth_error_None in E; lia. }
  destruct (pfn_total (S (length (st_params s))) p) as [ps Hp]; [lia|auto|].
  unfold info_region, info_name. rewrite E, Hp.
  assert (R : exists rg, nth_error (st_regions s) (p_region q) = Some rg).
  { destruct (pfn_path _ _ _ Hp) as (q' & Q1 & Q2). assert (q' = q) by congruence; subst.
    unfold param_in in Q2. destruct ps; [discriminate|].
    destruct (nth_error (st_regions s) (p_region q)); [eauto|discriminate]. }
  destruct R as [rg R].
  destruct (rfn_total (S (length (st_regions s))) (p_region q)) as [rs Hr].
  - pose proof (nth_lt _ _ _ R). lia.
  - eapply nth_lt; eauto.
  - eauto.
Qed.
End N.

Lemma param_at_valid s rs ps p : wft s -> param_at s rs ps = Some p ->
  exists q, nth_error (st_params s) p = Some q.
Proof.
  intros W H. unfold param_at in H. destruct (region_at s rs); [|discriminate].
  destruct (path_pfn s W _ _ _ H) as [_ (q & Q & _)]. eauto.
Qed.

(** Names never change. *)
Lemma names_evo s s' p rs ps : wft s -> wft s' -> evo s s' ->
  info_region s p = Some rs -> info_name s p = Some ps ->
  info_region s' p = Some rs /\ info_name s' p = Some ps.
Proof.
  intros W W' E A B.
  apply (param_at_names s' W'). eapply param_at_evo; eauto.
  apply (param_at_names s W). auto.
Qed.
