(** Proofs of C21 and C22. *)
From Coq Require Import String List Arith Lia Bool ZArith Reals.
From Verif Require Import Base ListFacts Units TimeModel Core CoreEvo CoreTree CoreNames CoreInv
  CoreStep Spec_Core CoreReq CoreP1 CoreP2 CoreLeaves CoreP3 CoreP4.
Import ListNotations.

(** ** A lookup that fails creates nothing *)
Lemma fresh_subs l : forall s p q, nth_error (st_params s) p = Some q -> p_written q = false -> p_read q = false ->
  p_children q = [] -> exists s' c q', subparameters s p l = (s', Ok c) /\ nth_error (st_params s') c = Some q' /\
    (l <> [] \/ p_type q = None -> p_type q' = None).
Proof.
  induction l as [|a l IH]; simpl; intros s p q Q Wr Rd C; [exists s, p, q; split; auto; split; auto; intros [H|H]; congruence|].
  unfold get_or_create_child_parameter. rewrite Q, C, Wr, Rd. simpl.
  set (s1 := mkState _ _ _).
  assert (Q1 : nth_error (st_params s1) (length (st_params s)) = Some (new_param a (Some p) (p_region q))).
  { unfold s1. simpl. rewrite nth_error_app2 by (rewrite upd_length; lia). rewrite upd_length, Nat.sub_diag. auto. }
  destruct (IH _ _ _ Q1) as (s' & c & q' & A & B & D); auto.
  exists s', c, q'. split; auto.
Qed.
Lemma subs_new l : forall s p s' x, subparameters s p l = (s', x) ->
  s' = s \/ exists c q, x = Ok c /\ nth_error (st_params s') c = Some q /\ p_type q = None.
Proof.
  induction l as [|a l IH]; simpl; intros s p s' x H; [inversion H; auto|].
  unfold get_or_create_child_parameter in H.
  destruct (nth_error (st_params s) p) as [q|] eqn:Q; [|inversion H; auto].
  destruct (alookup a (p_children q)); [eapply IH; eauto|].
  destruct (p_written q); [inversion H; auto|]. destruct (p_read q); [inversion H; auto|].
  set (s1 := mkState _ _ _) in H.
  assert (Q1 : nth_error (st_params s1) (length (st_params s)) = Some (new_param a (Some p) (p_region q))).
  { unfold s1. simpl. rewrite nth_error_app2 by (rewrite upd_length; lia). rewrite upd_length, Nat.sub_diag. auto. }
  destruct (fresh_subs l _ _ _ Q1) as (s2 & c & q' & A & B & D); auto.
  rewrite A in H. inversion H; subst. right. exists c, q'. auto.
Qed.
Lemma subregions_fresh l : forall s r rg, nth_error (st_regions s) r = Some rg -> r_children rg = [] ->
  r_aggregated rg = false -> r_params rg = [] ->
  exists s' c rg', subregions s r l = (s', Ok c) /\ nth_error (st_regions s') c = Some rg' /\ r_params rg' = [].
Proof.
  induction l as [|a l IH]; simpl; intros s r rg G C A P; [eauto 6|].
  unfold get_or_create_subregion. rewrite G, C, A. simpl. set (s1 := mkState _ _ _).
  assert (Q1 : nth_error (st_regions s1) (length (st_regions s)) = Some (new_region a r)).
  { unfold s1. simpl. rewrite nth_error_app2 by (rewrite upd_length; lia). rewrite upd_length, Nat.sub_diag. auto. }
  apply (IH _ _ _ Q1); auto.
Qed.
Lemma subregions_new l : forall s r s' x, subregions s r l = (s', x) ->
  s' = s \/ exists c rg, x = Ok c /\ nth_error (st_regions s') c = Some rg /\ r_params rg = [].
Proof.
  induction l as [|a l IH]; simpl; intros s r s' x H; [inversion H; auto|].
  unfold get_or_create_subregion in H.
  destruct (nth_error (st_regions s) r) as [rg|] eqn:Q; [|inversion H; auto].
  destruct (alookup a (r_children rg)); [eapply IH; eauto|].
  destruct (r_aggregated rg); [inversion H; auto|].
  set (s1 := mkState _ _ _) in H.
  assert (Q1 : nth_error (st_regions s1) (length (st_regions s)) = Some (new_region a r)).
  { unfold s1. simpl. rewrite nth_error_app2 by (rewrite upd_length; lia). rewrite upd_length, Nat.sub_diag. auto. }
  destruct (subregions_fresh l _ _ _ Q1) as (s2 & c & q' & A & B & D); auto.
  rewrite A in H. inversion H; subst. right. exists c, q'. auto.
Qed.
Lemma locate_new s n r s' x : locate s n r = (s', x) ->
  s' = s \/ hcomponents n = [] \/ exists p q, x = Ok p /\ nth_error (st_params s') p = Some q /\ p_type q = None.
Proof.
  unfold locate. destruct (get_or_create_region s r) as [s1 [rr|e]] eqn:G; intros H.
  2: { left. inversion H; subst. unfold get_or_create_region in G. destruct (hcomponents r) as [|a l]; [inversion G; auto|].
       destruct (nth_error (st_regions s) 0); [|inversion G; auto].
       destruct (String.eqb a (r_name r0)); [|inversion G; auto].
       apply subregions_new in G. destruct G as [|(c & rg & X & _)]; [auto|discriminate]. }
  unfold get_or_create_parameter in H. destruct (hcomponents n) as [|a l] eqn:N; [auto|].
  unfold get_or_create_root_parameter in H.
  assert (F : forall rg, s' = s \/ exists p q, x = Ok p /\ nth_error (st_params s') p = Some q /\ p_type q = None \/ alookup a (r_params rg) <> None \/ nth_error (st_regions s1) rr <> Some rg).
  { intros rg. destruct (nth_error (st_regions s1) rr) as [rg'|] eqn:E; [|right; exists 0, (new_param a None 0); right; right; discriminate].
    destruct (alookup a (r_params rg')) eqn:Al; [right; exists 0, (new_param a None 0); right|].
    { destruct (alookup a (r_params rg)) eqn:Al'; [left; discriminate|right]. intros X. inversion X; subst. congruence. }
    set (s2 := mkState _ _ _) in H.
    assert (Q1 : nth_error (st_params s2) (length (st_params s1)) = Some (new_param a None rr)).
    { unfold s2. simpl. rewrite nth_error_app2 by lia. rewrite Nat.sub_diag. auto. }
    destruct (fresh_subs l _ _ _ Q1) as (s3 & c & q' & A & B & D); auto.
    rewrite A in H. inversion H; subst. right. exists c, q'. left. auto. }
  assert (S1 : s1 = s \/ exists rg, nth_error (st_regions s1) rr = Some rg /\ r_params rg = []).
  { unfold get_or_create_region in G. destruct (hcomponents r) as [|b m]; [inversion G; auto|].
    destruct (nth_error (st_regions s) 0); [|inversion G; auto].
    destruct (String.eqb b (r_name r0)); [|inversion G; auto].
    apply subregions_new in G. destruct G as [|(c & rg & X & Y & Z)]; [auto|]. inversion X; subst. eauto. }
  destruct S1 as [->|(rg & Rg & P)].
  - destruct (nth_error (st_regions s) rr) as [rg|] eqn:E; [|inversion H; auto].
    destruct (alookup a (r_params rg)) eqn:Al.
    + apply subs_new in H. destruct H as [|(c & q & H)]; eauto 8.
    + destruct (F rg) as [|(p & q & [X|[X|X]])]; [auto|right; right; eauto|congruence|congruence].
  - destruct (F rg) as [|(p & q & [X|[X|X]])]; [auto|right; right; eauto| |congruence].
    rewrite P in X. simpl in X. congruence.
Qed.

Definition with_children (q : param) (l : list (string * nat)) : param :=
  mkParam (p_name q) (p_parent q) (p_region q) l (p_read q) (p_written q) (p_type q) (p_unit q) (p_time q)
    (p_data q) (p_version q).
Lemma with_children_id q : with_children q (p_children q) = q. Proof. destruct q; auto. Qed.
Lemma subs_cells l : forall s p s' x i q, subparameters s p l = (s', x) -> nth_error (st_params s) i = Some q ->
  exists ch, nth_error (st_params s') i = Some (with_children q ch).
Proof.
  induction l as [|a l IH]; simpl; intros s p s' x i q H Q; [inversion H; subst; exists (p_children q); now rewrite with_children_id|].
  unfold get_or_create_child_parameter in H.
  destruct (nth_error (st_params s) p) as [q0|] eqn:Q0; [|inversion H; subst; exists (p_children q); now rewrite with_children_id].
  destruct (alookup a (p_children q0)); [eapply IH; eauto|].
  destruct (p_written q0); [inversion H; subst; exists (p_children q); now rewrite with_children_id|].
  destruct (p_read q0); [inversion H; subst; exists (p_children q); now rewrite with_children_id|].
  assert (Li : i < length (st_params s)) by (apply nth_error_Some; congruence).
  destruct (Nat.eq_dec p i) as [->|Ne].
  - assert (q0 = q) by congruence; subst q0.
    destruct (IH _ _ _ _ i (p_add_child q a (length (st_params s))) H) as [ch X].
    { simpl. rewrite nth_error_app1 by (rewrite upd_length; auto). apply nth_upd_eq; auto. }
    exists ch. rewrite X. destruct q; auto.
  - apply (IH _ _ _ _ i q H). simpl. rewrite nth_error_app1 by (rewrite upd_length; auto). rewrite nth_upd_neq; auto.
Qed.
Lemma locate_cells s n r s' x i q : locate s n r = (s', x) -> nth_error (st_params s) i = Some q ->
  exists ch, nth_error (st_params s') i = Some (with_children q ch).
Proof.
  unfold locate. intros H Q.
  destruct (get_or_create_region s r) as [s1 [rr|e]] eqn:G;
    pose proof (region_params_same _ _ _ _ G) as P; rewrite <- P in Q.
  2: { inversion H; subst; exists (p_children q); now rewrite with_children_id. }
  unfold get_or_create_parameter in H. destruct (hcomponents n); [inversion H; subst; exists (p_children q); now rewrite with_children_id|].
  unfold get_or_create_root_parameter in H.
  destruct (nth_error (st_regions s1) rr); [|inversion H; subst; exists (p_children q); now rewrite with_children_id].
  destruct (alookup s0 (r_params r0)); [eapply subs_cells; eauto|].
  eapply subs_cells; [exact H|]. simpl. rewrite nth_error_app1; auto. apply nth_error_Some. congruence.
Qed.

Section P.
Variable env : uenv.
Notation wf := (wf env).

Definition other_error (e : err) : Prop := e <> EParameterRead /\ e <> EParameterWritten /\ e <> EParameterType.
Lemma uc_error a b e : unit_converter env a b = Err e -> other_error e.
Proof.
  unfold unit_converter, other_error. destruct a; [|intros H; inversion H; repeat split; discriminate].
  destruct b; [|intros H; inversion H; repeat split; discriminate].
  destruct (env s); [|intros H; inversion H; repeat split; discriminate].
  destruct (env s0); [|intros H; inversion H; repeat split; discriminate].
  destruct (dim_eqb _ _); intros H; inversion H; repeat split; discriminate.
Qed.
Lemma tc_error a b c d e : timeseries_converter a b c d = Err e -> other_error e.
Proof.
  unfold timeseries_converter, other_error. destruct a; [intros H; inversion H; repeat split; discriminate|].
  destruct b as [|b0 [|b1 b]]; [intros H; inversion H; repeat split; discriminate|intros H; inversion H; repeat split; discriminate|].
  destruct (_ >? _)%Z; intros H; inversion H; repeat split; discriminate.
Qed.
Lemma build_error s mk p s' e : (forall i e, mk i = Err e -> other_error e) -> build_view s mk p = (s', Err e) -> other_error e.
Proof.
  intros M H. unfold build_view in H.
  destruct (nth_error (st_params s) p) as [q|]; [|inversion H; repeat split; discriminate].
  destruct (mk p) as [v|] eqn:E; [|inversion H; subst; eapply M; eauto].
  destruct (has_children q); [|inversion H].
  destruct (param_leaves s p) as [ls|]; [|inversion H; repeat split; discriminate].
  destruct (rmap mk ls) as [cs|e'] eqn:Rm; [inversion H|]. inversion H; subst.
  clear - Rm M. induction ls as [|a ls IH]; simpl in Rm; [discriminate|].
  destruct (mk a) eqn:Ma; [|inversion Rm; subst; eapply M; eauto].
  destruct (rmap mk ls); [discriminate|]. inversion Rm; subst. auto.
Qed.
Lemma scalar_leaf_error s u i e : scalar_leaf_view env s u i = Err e -> other_error e.
Proof.
  unfold scalar_leaf_view. destruct (nth_error _ _); [|intros H; inversion H; repeat split; discriminate].
  destruct (unit_converter _ _ _) eqn:U; intros H; inversion H; subst. eapply uc_error; eauto.
Qed.
Lemma ts_leaf_error s u g t x i e : ts_leaf_view env s u g t x i = Err e -> other_error e.
Proof.
  unfold ts_leaf_view. destruct (nth_error _ _); [|intros H; inversion H; repeat split; discriminate].
  destruct (unit_converter _ _ _) eqn:U; [|intros H; inversion H; subst; eapply uc_error; eauto].
  destruct (p_time p); [|intros H; inversion H; repeat split; discriminate].
  destruct (timeseries_converter _ _ _ _) eqn:T; intros H; inversion H; subst. eapply tc_error; eauto.
Qed.
Lemma request_error o n r t u tp s s1 p s2 e : requests o n r t u tp -> locate s n r = (s1, Ok p) ->
  on_param s1 p (fun q => attempt_read q t u tp) = (s2, Ok tt) -> answer env o s = Err e -> other_error e.
Proof.
  intros Rq L K A. unfold answer in A.
  destruct o; simpl in Rq; try tauto; cbn [step] in A.
  - destruct Rq as (-> & -> & -> & -> & ->). unfold ps_scalar in A. rewrite L, K in A.
    destruct (build_view _ _ _) as [s3 [y|e']] eqn:B; simpl in A; [discriminate|]. inversion A; subst.
    eapply build_error; [|exact B]. apply scalar_leaf_error.
  - destruct Rq as (-> & -> & T & -> & -> & (i & I) & (x & X)). unfold ps_timeseries in A. rewrite T, I, X, L, K in A.
    destruct (build_view _ _ _) as [s3 [y|e']] eqn:B; simpl in A; [discriminate|]. inversion A; subst.
    eapply build_error; [|exact B]. apply ts_leaf_error.
  - destruct Rq as (-> & -> & -> & -> & ->). unfold ps_generic in A. rewrite L, K in A. discriminate.
Qed.

(** ** C21 *)
Lemma fail_untouched s o n r t u tp e : wf s -> requests o n r t u tp -> answer env o s = Err e ->
  hcomponents n <> [] -> e = EParameterRead \/ e = EParameterWritten \/ e = EParameterType ->
  after env o s = s.
Proof.
  intros W Rq A N E. pose proof (after_eq env o s) as St.
  destruct (request_inv env _ _ _ _ _ _ _ _ _ W Rq St) as [(s1 & e' & L & X & _)|(s1 & p & L & K)].
  - rewrite X. apply locate_new in L. destruct L as [|[|(p & q & Y & _)]]; [auto|congruence|discriminate].
  - assert (Hh : forall s2 y, on_param s1 p (fun q => attempt_read q t u tp) = (s2, y) ->
      (y = Err EParameterType -> s2 = s1) /\ (y = Err EParameterRead -> False) /\ (y = Err EParameterWritten -> False) /\ (p_type (nth p (st_params s1) (new_param "" None 0)) = None -> y <> Err EParameterType)).
    { intros s2 y H. unfold on_param in H. destruct (nth_error (st_params s1) p) as [q|] eqn:Q; [|inversion H; subst; repeat split; try discriminate].
      rewrite (nth_error_nth _ _ _ Q). unfold attempt_read in H. destruct (p_type q) as [t'|] eqn:T.
      - destruct (ptype_eqb t' t); inversion H; subst; repeat split; try discriminate.
        unfold set_param. rewrite upd_same by auto. destruct s1; auto.
      - destruct t; try (destruct tp; [destruct (_ <? _)%Z|]); try (destruct (has_children q)); inversion H; subst; repeat split; try discriminate. }
    destruct K as [(e' & K & X)|(s2 & K & P & Rg & X)].
    + destruct (Hh _ _ K) as (H1 & H2 & H3 & H4). assert (e' = e) by congruence; subst e'.
      destruct E as [->|[-> | ->]]; [tauto|tauto|]. rewrite (H1 eq_refl).
      apply locate_new in L. destruct L as [|[|(p' & q & Y & Q & T)]]; [auto|congruence|].
      inversion Y; subst p'. exfalso. apply H4; auto. now rewrite (nth_error_nth _ _ _ Q).
    + exfalso. destruct (request_error _ _ _ _ _ _ _ _ _ _ _ Rq L K A) as (E1 & E2 & E3). tauto.
Qed.

(** Once some view of the parameter has been obtained, a failing request changes nothing. *)
Lemma fail_known s o n r t u tp e p q : wf s -> requests o n r t u tp -> answer env o s = Err e ->
  param_at s (hcomponents r) (hcomponents n) = Some p -> nth_error (st_params s) p = Some q -> p_read q = true ->
  after env o s = s.
Proof.
  intros W Rq A P Q Rd. pose proof (after_eq env o s) as St. apply locate_found in P.
  assert (Eq : forall s2 y, on_param s p (fun q => attempt_read q t u tp) = (s2, y) -> s2 = s).
  { intros s2 y H. unfold on_param in H. rewrite Q in H. unfold attempt_read in H.
    destruct (p_type q) as [t'|] eqn:T.
    2: { destruct (pi_untyped _ (wf_params _ _ W _ _ Q) T) as (_ & _ & _ & X & _). congruence. }
    assert (p_set_read q = q). { unfold p_set_read. rewrite <- Rd. now destruct q. }
    rewrite H0 in H. destruct (ptype_eqb t' t); inversion H; subst; unfold set_param; rewrite upd_same by auto; destruct s; auto. }
  destruct (request_inv env _ _ _ _ _ _ _ _ _ W Rq St) as [(s1 & e' & L & X & _)|(s1 & p' & L & K)]; [congruence|].
  rewrite P in L. inversion L; subst s1 p'.
  destruct K as [(e' & K & X)|(s2 & K & Ps & Rg & X)]; [eapply Eq; eauto|].
  rewrite A in X. pose proof (Eq _ _ K). subst s2. destruct (after env o s), s; simpl in *. congruence.
Qed.

Lemma C21_proof s o n r e : reachable env s -> asks o n r -> answer env o s = Err e -> hcomponents n <> [] ->
  (forall t u tp, ~ requests o n r t u tp) \/
  (e = EParameterRead \/ e = EParameterWritten \/ e = EParameterType) \/
  (exists root h1 o' n' r' vi h2, s = run env (after env o' (run env (init_state root) h1)) h2 /\
     asks o' n' r' /\ same_name n' n /\ same_name r' r /\ answer env o' (run env (init_state root) h1) = Ok (VView vi)) ->
  after env o s = s.
Proof.
  intros R As A N H. pose proof (reachable_wf _ _ R) as W.
  assert (Ir : forall o n r, asks o n r -> is_request o = Some (n, r)).
  { intros o0 n0 r0 X. destruct o0; simpl in *; try tauto; destruct X; subst; auto. }
  destruct (request_cases env _ _ _ (Ir _ _ _ As)) as [(t & u & tp & Rq)|Rq].
  2: { destruct (Rq s) as (e' & X). unfold after. now rewrite X. }
  destruct H as [H|[H|(root & h1 & o' & n' & r' & vi & h2 & -> & As' & Sn & Sr & A')]].
  - exfalso. eapply H; eauto.
  - eapply fail_untouched; eauto.
  - destruct (request_cases env _ _ _ (Ir _ _ _ As')) as [(t' & u' & tp' & Rq')|Rq'].
    2: { destruct (Rq' (run env (init_state root) h1)) as (e' & X). unfold answer in A'. rewrite X in A'. discriminate. }
    destruct (request_ok_reports env _ _ _ _ _ _ _ _ (wf_reachable env root h1) Rq' A') as (p & q & P & Q & _ & Rd & _).
    set (s1 := after env o' _) in *.
    pose proof (evo_run env h2 s1) as Ev. destruct (ev_params _ _ Ev _ _ Q) as (q2 & Q2 & Pe).
    eapply fail_known; eauto.
    + eapply param_at_evo; eauto. unfold same_name in *. rewrite <- Sn, <- Sr. eauto.
    + apply Pe; auto.
Qed.

(** What a failing request never changes. *)
Lemma C21_kept_proof s o n r e : reachable env s -> asks o n r -> answer env o s = Err e ->
  st_views (after env o s) = st_views s /\
  forall i q, nth_error (st_params s) i = Some q -> p_type q <> None ->
    exists q', nth_error (st_params (after env o s)) i = Some q' /\ p_data q' = p_data q /\
      p_version q' = p_version q /\ p_written q' = p_written q /\ p_type q' = p_type q /\
      p_unit q' = p_unit q /\ p_time q' = p_time q.
Proof.
  intros R As A. pose proof (reachable_wf _ _ R) as W.
  assert (Ir : is_request o = Some (n, r)) by (destruct o; simpl in *; try tauto; destruct As; subst; auto).
  destruct (request_cases env _ _ _ Ir) as [(t & u & tp & Rq)|Rq].
  2: { destruct (Rq s) as (e' & X). unfold after. rewrite X. simpl. split; auto. intros i q Q T. exists q; auto 8. }
  pose proof (after_eq env o s) as St.
  assert (On : forall s1 p s2 y i q, on_param s1 p (fun q => attempt_read q t u tp) = (s2, y) ->
    nth_error (st_params s1) i = Some q -> p_type q <> None ->
    exists q', nth_error (st_params s2) i = Some q' /\ p_data q' = p_data q /\
      p_version q' = p_version q /\ p_written q' = p_written q /\ p_type q' = p_type q /\
      p_unit q' = p_unit q /\ p_time q' = p_time q).
  { intros s1 p s2 y i q H Q T. unfold on_param in H.
    destruct (nth_error (st_params s1) p) as [q1|] eqn:Q1; [|inversion H; subst; exists q; auto 8].
    destruct (Nat.eq_dec i p) as [->|Ne].
    - assert (q1 = q) by congruence; subst q1. unfold attempt_read in H.
      destruct (p_type q) as [t'|] eqn:T'; [|congruence].
      assert (Lp : p < length (st_params s1)) by (apply nth_error_Some; congruence).
      destruct (ptype_eqb t' t); inversion H; subst; simpl; rewrite nth_upd_eq by auto; eexists; split; auto; simpl; auto 8.
    - destruct (attempt_read q1 t u tp) as [q2 z]. inversion H; subst. simpl. rewrite nth_upd_neq by auto.
      exists q; auto 8. }
  assert (Lo : forall s1 y i q, locate s n r = (s1, y) -> nth_error (st_params s) i = Some q -> p_type q <> None ->
    exists q', nth_error (st_params s1) i = Some q' /\ p_data q' = p_data q /\
      p_version q' = p_version q /\ p_written q' = p_written q /\ p_type q' = p_type q /\
      p_unit q' = p_unit q /\ p_time q' = p_time q).
  { intros s1 y i q L Q T. destruct (locate_cells _ _ _ _ _ _ _ L Q) as (ch & Q'). eexists. split; [exact Q'|]. simpl. auto 8. }
  destruct (request_inv env _ _ _ _ _ _ _ _ _ W Rq St) as [(s1 & e' & L & X & _)|(s1 & p & L & K)].
  - rewrite X. destruct (pcells_locate _ _ _ _ _ L) as [Vl _]. split; auto. intros; eapply Lo; eauto.
  - destruct (pcells_locate _ _ _ _ _ L) as [Vl _].
    assert (Both : forall s2 y, on_param s1 p (fun q => attempt_read q t u tp) = (s2, y) ->
      forall i q, nth_error (st_params s) i = Some q -> p_type q <> None ->
      exists q', nth_error (st_params s2) i = Some q' /\ p_data q' = p_data q /\
        p_version q' = p_version q /\ p_written q' = p_written q /\ p_type q' = p_type q /\
        p_unit q' = p_unit q /\ p_time q' = p_time q).
    { intros s2 y H i q Q T. destruct (Lo _ _ _ _ L Q T) as (q1 & Q1 & A1 & A2 & A3 & A4 & A5 & A6).
      destruct (On _ _ _ _ _ _ H Q1) as (q2 & Q2 & B1 & B2 & B3 & B4 & B5 & B6); [congruence|].
      exists q2. repeat split; congruence. }
    destruct K as [(e' & K & X)|(s2 & K & Ps & Rg & X)].
    + pose proof (on_param_views _ _ _ _ _ K) as Vw. split; [congruence|]. eapply Both; eauto.
    + pose proof (on_param_views _ _ _ _ _ K) as Vw. rewrite A in X. split; [congruence|]. rewrite Ps. eapply Both; eauto.
Qed.

(** ** C22 *)
Lemma written_leaf root h : forall p q, nth_error (st_params (run env (init_state root) h)) p = Some q ->
  p_written q = true -> p_children q = [].
Proof.
  induction h as [|o h IH] using rev_ind; intros p q Q Wr; [destruct p; discriminate|].
  rewrite run_app in Q. set (s := run env (init_state root) h) in *. change (run env s [o]) with (after env o s) in Q.
  assert (W : wf s) by apply wf_reachable.
  pose proof (vw_step env o s p q W Q) as V. destruct (nth_error (st_params s) p) as [q0|] eqn:Q0.
  2: { destruct V as (_ & V & _). congruence. }
  destruct V as [_ V]. destruct (p_written q0) eqn:W0.
  - destruct (ev_params _ _ (evo_step env _ _ _ _ (after_eq env o s)) _ _ Q0) as (q' & Q' & Pe).
    assert (q' = q) by congruence; subst. rewrite (pe_frozen _ _ Pe); eauto.
  - destruct (V Wr) as [|(vi & Tg & v & Vi & Pb & Vp)]; [congruence|].
    assert (Ov : op_view o = Some vi) by (destruct o; inversion Tg; subst; auto).
    pose proof (write_step env o vi v s _ _ W Ov Vi (after_eq env o s)) as Ws.
    rewrite <- Vp in Q0. destruct (ws_param _ _ _ _ _ Ws _ Q0) as (q' & Q' & Pw). rewrite Vp in Q'.
    assert (q' = q) by congruence; subst q'. destruct Pw; simpl in *; try congruence; auto.
Qed.

Lemma C22_first_proof s n r q : reachable env s -> reports env s n r q -> p_children q <> [] ->
  p_type q <> Some GENERIC ->
  answer env (OGeneric n r) s = Err (if p_type q then EParameterType else EParameterAggregation).
Proof.
  intros R Rp C T. destruct (reports_at env _ _ _ _ Rp) as (p & E & P & Q). apply locate_found in P.
  unfold answer. cbn [step]. unfold ps_generic. rewrite P. unfold on_param. rewrite Q. unfold attempt_read.
  destruct (p_type q) as [t|].
  - destruct (ptype_eqb t GENERIC) eqn:B; [apply ptype_eqb_eq in B; congruence|]. auto.
  - unfold has_children. destruct (p_children q); [congruence|]. auto.
Qed.

Lemma C22_again_proof s n r q : reachable env s -> reports env s n r q -> p_children q <> [] -> p_type q = None ->
  answer env (OGeneric n r) s = Err EParameterAggregation /\
  succeeds env (OGeneric n r) (after env (OGeneric n r) s).
Proof.
  intros R Rp C T. split.
  { rewrite (C22_first_proof s n r q); auto; rewrite T; auto; discriminate. }
  destruct (reports_at env _ _ _ _ Rp) as (p & E & P & Q).
  set (s' := after env (OGeneric n r) s).
  assert (X : s' = set_param s p (p_set_type q GENERIC None)).
  { unfold s', after. cbn [step]. unfold ps_generic. rewrite (locate_found _ _ _ _ P). unfold on_param. rewrite Q.
    unfold attempt_read. rewrite T. unfold has_children. destruct (p_children q); [congruence|]. auto. }
  assert (P' : param_at s' (hcomponents r) (hcomponents n) = Some p).
  { eapply param_at_evo; [|exact P]. apply (evo_step env _ _ _ _ (after_eq env (OGeneric n r) s)). }
  apply locate_found in P'. unfold succeeds, answer. cbn [step]. unfold ps_generic. rewrite P'. unfold on_param.
  assert (Q' : nth_error (st_params s') p = Some (p_set_type q GENERIC None)).
  { rewrite X. simpl. apply nth_upd_eq. apply nth_error_Some. congruence. }
  rewrite Q'. unfold attempt_read. simpl. eauto.
Qed.

Lemma C22_useless_proof s vi p q : reachable env s -> generic_view s vi p -> nth_error (st_params s) p = Some q ->
  p_children q <> [] ->
  answer env (OGetGeneric vi) s = Err EParameterEmpty /\
  forall g, answer env (OSetGeneric vi g) s = Err EParameterReadonly.
Proof.
  intros R G Q C. pose proof G as (v & V & Pb & Vp & K). split.
  - destruct R as (root & h & ->). unfold answer. cbn [step]. unfold with_view. rewrite V, Pb, K. unfold generic_get. rewrite Vp, Q.
    destruct (p_written q) eqn:Wr; [|auto]. apply written_leaf in Q; auto. congruence.
  - intros g. destruct (C04_setters env s vi p q R) as (_ & _ & X); auto; [exists v; auto|].
    unfold answer. rewrite (X g G). auto.
Qed.
End P.
