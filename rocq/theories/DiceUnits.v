(** The DICE adapter does not notice the units of the user (C76). *)
From Coq Require Import String List Arith Lia Bool ZArith Reals Lra.
From Verif Require Import Base ListFacts Units TimeModel TimeConv ConvShape Calendar Core CoreEvo CoreTree CoreNames CoreInv Spec_Core Spec_Time CoreP2
  Adapters Dice Spec_Dice Spec_Relabel RelabelNum RelabelSim RelabelProps Spec_DiceUnits.
Import ListNotations.
Local Open Scope string_scope.
Local Open Scope list_scope.

Section S.
Variable env : uenv.
Hypothesis G : good_env env.

(** ** The same call (those the adapter makes) *)
Definition plain_op (o : op) : Prop :=
  match o with
  | OScalar _ u _ | OTimeseries _ u _ _ _ _ _ => same_dimension env u u
  | OSetValues _ a => a_int a = false
  | OInfo _ _ | OHandleGet _ _ | OHandleArray _ | OHandleSet _ _ _ | OHandleIAdd _ _ => False
  | _ => True
  end.
Lemma kf_one u : kf env u u = 1%R.
Proof. unfold kf. apply Rinv_r. now apply usc_nz. Qed.
Lemma map_nsc_one l : map (nsc 1) l = l.
Proof. rewrite <- (map_id l) at 2. apply map_ext. apply nsc_one. Qed.
Lemma rr_imp {A B} (P Q : A -> B -> Prop) x y : rr P x y -> (forall a b, P a b -> Q a b) -> rr Q x y.
Proof. destruct x, y; simpl; auto. Qed.

Lemma sim_same s s' o : rel env s s' -> wf env s -> wf env s' -> plain_op o ->
  (forall v, works_on o = Some v -> unit_of s v = unit_of s' v) ->
  sim env eq (step env o s) (step env o s').
Proof.
  intros H W W' O U.
  assert (UV : forall vi v v', works_on o = Some vi -> nth_error (st_views s) vi = Some v -> nth_error (st_views s') vi = Some v' -> vk env v v' = 1%R).
  { intros vi v v' X V V'. specialize (U vi X). unfold unit_of in U. rewrite V, V' in U. simpl in U. inversion U as [Y].
    unfold vk. rewrite Y. apply kf_one. }
  clear U. destruct o; cbn [works_on] in UV; simpl plain_op in O; try contradiction; cbn [step];
    try (eapply sim_lift; [first [now apply sim_ps_scalar | now apply sim_ps_timeseries | now apply sim_ps_generic]|now intros x y ->]);
    (apply sim_with; auto; intros w w' V V' E Pb K; pose proof (UV _ _ _ eq_refl V V') as One).
  - apply (sim_lift env eq); [|now intros x y ->]. split; [exact H|]. eapply rr_imp; [now apply (sim_scalar_get env G s s' v)|].
    change (kf env (v_unit w) (v_unit w')) with (vk env w w'). rewrite One. intros x y ->. symmetry. apply nsc_one.
  - apply (sim_lift env eq); [|now intros; simpl]. apply (sim_scalar_set env G); auto.
    change (kf env (v_unit w) (v_unit w')) with (vk env w w'). rewrite One. symmetry. apply nsc_one.
  - apply (sim_lift env eq); [|now intros x y ->]. split; [exact H|]. now apply (sim_generic_get env).
  - apply (sim_lift env eq); [|now intros; simpl]. now apply sim_generic_set.
  - apply (sim_lift env eq); [|now intros x y ->]. eapply sim_imp; [now apply (sim_ts_get env G s s' v w w')|].
    rewrite One. intros x y ->. symmetry. apply map_nsc_one.
  - apply (sim_lift env eq); [|now intros; simpl]. destruct a as [b l]. simpl in O. subst b.
    replace (mkArr false l) with (mkArr false (map (nsc (vk env w w')) l)) at 2 by (rewrite One; f_equal; apply map_nsc_one).
    apply (sim_ts_set env G); auto.
  - apply (sim_lift env eq); [|now intros; simpl].
    replace x with (nsc (vk env w w') x) at 2 by (rewrite One; apply nsc_one).
    apply (sim_ts_setitem env G); auto.
  - apply sim_ok; [|reflexivity]. apply rel_set_view; auto. now apply vrel_locked.
  - apply (sim_lift env eq); [|now intros; simpl]. unfold ts_unlock. destruct (vrel_fields _ _ _ E) as (Epb & Ek & _).
    eapply (sim_ts_write env G).
    + apply rel_set_view; auto. apply vrel_locked; eauto.
    + now apply wf_lock.
    + apply wf_lock; auto. congruence.
    + eapply set_view_nth; eauto.
    + eapply set_view_nth; eauto.
    + exact K.
Qed.

(** ** Units of views *)
Lemma unit_after s o v u : unit_of s v = Some u -> unit_of (fst (step env o s)) v = Some u.
Proof.
  unfold unit_of. intros H. destruct (nth_error (st_views s) v) as [x|] eqn:V; [|discriminate].
  destruct (step env o s) as [s' r] eqn:E. pose proof (evo_step env _ _ _ _ E) as Ev.
  destruct (ev_views _ _ Ev _ _ V) as (y & Y & Z). simpl. rewrite Y. simpl. now rewrite (ve_unit _ _ Z).
Qed.
Lemma build_unit s mk p s' v u : build_view s mk p = (s', Ok v) -> (forall p x, mk p = Ok x -> v_unit x = u) -> unit_of s' v = Some u.
Proof.
  unfold build_view, unit_of. intros H M.
  destruct (nth_error (st_params s) p) as [q|]; [|discriminate]. destruct (mk p) as [x|] eqn:X; [|discriminate].
  destruct (has_children q).
  - destruct (param_leaves s p) as [ls|]; [|discriminate]. destruct (rmap mk ls) as [cvs|]; [|discriminate].
    inversion H; subst. simpl. rewrite app_assoc, nth_error_app2; rewrite app_length; [|lia].
    rewrite Nat.sub_diag. simpl. now rewrite (M _ _ X).
  - inversion H; subst. simpl. rewrite nth_error_app2, Nat.sub_diag by lia. simpl. now rewrite (M _ _ X).
Qed.
Definition request_unit (o : op) : option string :=
  match o with OScalar _ u _ | OTimeseries _ u _ _ _ _ _ => Some u | OGeneric _ _ => Some "" | _ => None end.
Lemma request_has o u s s' v : request_unit o = Some u -> step env o s = (s', Ok (VView v)) -> unit_of s' v = Some u.
Proof.
  intros Ru. destruct o; try discriminate; injection Ru as <-; cbn [step]; unfold lift; intros H.
  - unfold ps_scalar in H. destruct (locate s name region) as [t [p|e]]; [|discriminate].
    destruct (on_param t p _) as [t' [[]|e]]; [|discriminate].
    destruct (build_view t' _ p) as [t2 [x|e]] eqn:B; inversion H; subst. simpl.
    apply (build_unit _ _ _ _ _ _ B). intros r x. unfold scalar_leaf_view. destruct (nth_error _ r); [|discriminate].
    destruct (unit_converter _ _ _); [|discriminate]. intros X; inversion X; reflexivity.
  - unfold ps_timeseries in H. destruct (from_timeseries_type ty); [|discriminate]. destruct (from_interpolation_type ip); [|discriminate].
    destruct (from_extrapolation_type ex); [|discriminate]. destruct (locate s name region) as [t [p1|e]]; [|discriminate].
    destruct (on_param t p1 _) as [t' [[]|e1]]; [|discriminate].
    destruct (build_view t' _ p1) as [t2 [x|e1]] eqn:B; inversion H; subst. simpl.
    apply (build_unit _ _ _ _ _ _ B). intros r x. unfold ts_leaf_view. destruct (nth_error _ r) as [q|]; [|discriminate].
    destruct (unit_converter _ _ _); [|discriminate]. destruct (p_time q); [|discriminate].
    destruct (timeseries_converter _ _ _ _); [|discriminate]. intros X; inversion X; reflexivity.
  - unfold ps_generic in H. destruct (locate s name region) as [t [p|e]]; [|discriminate].
    destruct (on_param t p _) as [t' [[]|e]]; inversion H; subst. unfold unit_of. simpl.
    rewrite nth_error_app2, Nat.sub_diag by lia. reflexivity.
Qed.

(** ** Two adapters *)
Definition side_of (name : string) : side := if existsb (String.eqb name) series_names then Out_ else In_.
Definition part (sd : side) (w : world) : state := match sd with In_ => w_in w | Out_ => w_out w end.
(** A view with the same unit for both. *)
Definition agreed (sd : side) (v : nat) (w w' : world) : Prop :=
  exists u, unit_of (part sd w) v = Some u /\ unit_of (part sd w') v = Some u.

Record wrel (w w' : world) : Prop := {
  wr_rel : forall sd, rel env (part sd w) (part sd w');
  wr_wf : forall sd, wf env (part sd w);
  wr_wf' : forall sd, wf env (part sd w');
  wr_views : w_views w' = w_views w;
  wr_coef : w_coef w' = w_coef w;
  wr_time : w_time w' = w_time w;
  wr_step : w_timestep w' = w_timestep w;
  wr_count : w_count w' = w_count w;
  wr_junk : w_junk w' = w_junk w;
  wr_units : forall n v, alookup n (w_views w) = Some v -> agreed (side_of n) v w w' }.

Definition msim {A} (P : A -> world -> world -> Prop) (x y : world * res A) : Prop :=
  wrel (fst x) (fst y) /\ match snd x, snd y with
    | Ok a, Ok b => a = b /\ P a (fst x) (fst y)
    | Err e, Err e' => e = e'
    | _, _ => False end.
Definition any {A} (_ : A) (_ _ : world) : Prop := True.
Definition mr {A} (m : M A) : Prop := forall w w', wrel w w' -> msim any (m w) (m w').

Lemma mr_ret {A} (a : A) : mr (ret a).
Proof. intros w w' H. split; simpl; auto. split; auto. exact I. Qed.
Lemma mr_raise {A} e : mr (@raise A e).
Proof. intros w w' H. split; simpl; auto. Qed.
Lemma mr_lift {A} (r : res A) : mr (lift_res r).
Proof. intros w w' H. split; simpl; auto. destruct r; auto. split; auto. exact I. Qed.
Lemma msim_bind {A B} P (m m' : world -> world * res A) (f : A -> M B) (Q : B -> world -> world -> Prop) w w' :
  msim P (m w) (m' w') -> (forall a v v', wrel v v' -> P a v v' -> msim Q (f a v) (f a v')) ->
  msim Q (bind m f w) (bind m' f w').
Proof.
  intros [A1 A2] F. unfold bind. destruct (m w) as [v [a|e]], (m' w') as [v' [a'|e']]; simpl in A1, A2; try contradiction.
  - destruct A2 as [<- A2]. now apply F.
  - subst. split; simpl; auto.
Qed.
Lemma mr_bind {A B} (m : M A) (f : A -> M B) : mr m -> (forall a, mr (f a)) -> mr (bind m f).
Proof. intros H F w w' R. eapply msim_bind; [now apply H|]. intros. now apply F. Qed.
Lemma mr_if {A} (b : bool) (m m' : M A) : mr m -> mr m' -> mr (if b then m else m').
Proof. now destruct b. Qed.

(** An operation of the adapter. *)
Definition upd_part (sd : side) (s : state) (w : world) : world :=
  match sd with
  | In_ => mkWorld s (w_out w) (w_views w) (w_coef w) (w_time w) (w_timestep w) (w_count w) (w_junk w)
  | Out_ => mkWorld (w_in w) s (w_views w) (w_coef w) (w_time w) (w_timestep w) (w_count w) (w_junk w)
  end.
Lemma op_on_eq sd o w : op_on env sd o w = (upd_part sd (fst (step env o (part sd w))) w, snd (step env o (part sd w))).
Proof. destruct sd; simpl; destruct (step env o _); reflexivity. Qed.
Lemma part_upd sd sd' s w : part sd (upd_part sd' s w) = s \/ part sd (upd_part sd' s w) = part sd w.
Proof. destruct sd, sd'; simpl; auto. Qed.
Lemma part_upd_same sd s w : part sd (upd_part sd s w) = s.
Proof. destruct sd; reflexivity. Qed.
Lemma unit_op sd sd' o w v u : unit_of (part sd w) v = Some u ->
  unit_of (part sd (upd_part sd' (fst (step env o (part sd' w))) w)) v = Some u.
Proof. intros H. destruct sd, sd'; simpl in *; auto; now apply unit_after. Qed.
Lemma wf_step o s : wf env s -> wf env (fst (step env o s)).
Proof. intros W. exact (wf_after env o s W). Qed.
Lemma wrel_ops sd o o' w w' : wrel w w' ->
  rel env (fst (step env o (part sd w))) (fst (step env o' (part sd w'))) ->
  wrel (fst (op_on env sd o w)) (fst (op_on env sd o' w')).
Proof.
  intros H R. rewrite !op_on_eq. simpl. pose proof (wr_rel _ _ H) as A. pose proof (wr_wf _ _ H) as B. pose proof (wr_wf' _ _ H) as C.
  constructor.
  - intros sd0. pose proof (A sd0). destruct sd, sd0; simpl in *; auto.
  - intros sd0. pose proof (B sd0). pose proof (B sd). destruct sd, sd0; simpl in *; auto using wf_step.
  - intros sd0. pose proof (C sd0). pose proof (C sd). destruct sd, sd0; simpl in *; auto using wf_step.
  - destruct sd; apply H.
  - destruct sd; apply H.
  - destruct sd; apply H.
  - destruct sd; apply H.
  - destruct sd; apply H.
  - destruct sd; apply H.
  - intros n v E. assert (E' : alookup n (w_views w) = Some v) by (destruct sd; exact E).
    destruct (wr_units _ _ H n v E') as (u & U & U'). exists u. split; now apply unit_op.
Qed.
Lemma agreed_op sd sd' o o' v w w' : agreed sd v w w' -> agreed sd v (fst (op_on env sd' o w)) (fst (op_on env sd' o' w')).
Proof. intros (u & U & U'). rewrite !op_on_eq. exists u. split; simpl; now apply unit_op. Qed.

Lemma m_op sd o w w' : wrel w w' -> plain_op o -> (forall v, works_on o = Some v -> agreed sd v w w') ->
  msim (fun r x x' => forall v, r = VView v -> request_unit o <> None -> agreed sd v x x') (op_on env sd o w) (op_on env sd o w').
Proof.
  intros H O U.
  destruct (sim_same (part sd w) (part sd w') o (wr_rel _ _ H sd) (wr_wf _ _ H sd) (wr_wf' _ _ H sd) O) as [A B].
  { intros v V. destruct (U v V) as (u & -> & ->). reflexivity. }
  pose proof (wrel_ops sd o o w w' H A) as R. split; [exact R|]. rewrite !op_on_eq. cbn [fst snd].
  destruct (step env o (part sd w)) as [s [r|e]] eqn:E, (step env o (part sd w')) as [s' [r'|e']] eqn:E'; simpl in B |- *; try contradiction; auto.
  subst r'. split; auto. intros v -> N. destruct (request_unit o) as [u|] eqn:Ru; [|congruence]. exists u.
  rewrite !part_upd_same. split; eapply request_has; eauto.
Qed.

Lemma m_view_of n w w' : wrel w w' -> msim (fun v x x' => agreed (side_of n) v x x') (view_of n w) (view_of n w').
Proof.
  intros H. split; simpl; auto. rewrite (wr_views _ _ H). pose proof (wr_units _ _ H n) as U.
  destruct (alookup n (w_views w)); auto.
Qed.
Lemma mr_coef n : mr (coef n).
Proof. intros w w' H. split; simpl; auto. rewrite (wr_coef _ _ H). destruct (alookup _ _); auto. split; auto. exact I. Qed.
Ltac other H := split; [|simpl; split; [reflexivity|exact I]]; destruct H; constructor; simpl; auto; congruence.
Lemma mr_set_coef n x : mr (set_coef n x).
Proof. intros w w' H. other H. Qed.
Lemma mr_set_timestep n : mr (set_timestep n).
Proof. intros w w' H. other H. Qed.
Lemma mr_set_count n : mr (set_count n).
Proof. intros w w' H. other H. Qed.
Lemma mr_set_time n : mr (set_time n).
Proof. intros w w' H. other H. Qed.
Lemma mr_clear : mr clear_values.
Proof. intros w w' H. other H. Qed.
Lemma mr_timestep : mr timestep.
Proof. intros w w' H. split; simpl; auto. rewrite (wr_step _ _ H). destruct (w_timestep w); auto. split; auto. exact I. Qed.
Lemma mr_count : mr count.
Proof. intros w w' H. split; simpl; auto. rewrite (wr_count _ _ H). destruct (w_count w); auto. split; auto. exact I. Qed.
Lemma mr_current_time : mr current_time.
Proof. intros w w' H. split; simpl; auto. split; [symmetry; apply H|exact I]. Qed.
Lemma m_np_empty n w w' : wrel w w' -> msim (fun a _ _ => a_int a = false) (np_empty n w) (np_empty n w').
Proof.
  intros H. unfold np_empty. destruct (n <? 0)%Z; [split; simpl; auto|].
  split.
  - destruct H. constructor; simpl; auto. now rewrite wr_junk0.
  - simpl. rewrite (wr_junk _ _ H). auto.
Qed.
Lemma m_set_view_of n v w w' : wrel w w' -> agreed (side_of n) v w w' -> msim any (set_view_of n v w) (set_view_of n v w').
Proof.
  intros H A. split; [|simpl; split; [reflexivity|exact I]]. destruct H. constructor; simpl; auto; try congruence.
  intros m x E. destruct (String.eqb m n) eqn:Q; [|now apply wr_units0].
  apply String.eqb_eq in Q. subst. inversion E; subst. exact A.
Qed.


(** ** What the adapter reads and writes *)
Lemma mr_scalar n : side_of n = In_ -> mr (scalar env n).
Proof.
  intros S w w' H. unfold scalar. eapply msim_bind; [now apply m_view_of|]. intros v x x' X V.
  eapply msim_bind; [apply m_op; [exact X|exact I|]|].
  - simpl. intros v0 E. inversion E; subst. now rewrite <- S.
  - intros r y y' Y _. destruct r; first [now apply mr_ret|now apply mr_raise].
Qed.
Lemma mr_generic n : side_of n = In_ -> mr (generic env n).
Proof.
  intros S w w' H. unfold generic. eapply msim_bind; [now apply m_view_of|]. intros v x x' X V.
  eapply msim_bind; [apply m_op; [exact X|exact I|]|].
  - simpl. intros v0 E. inversion E; subst. now rewrite <- S.
  - intros r y y' Y _. destruct r; first [now apply mr_ret|now apply mr_raise].
Qed.
Lemma mr_as_time g : mr (as_time g).
Proof. destruct g; first [apply mr_ret|apply mr_raise]. Qed.
Lemma mr_as_delta g : mr (as_delta g).
Proof. destruct g; first [apply mr_ret|apply mr_raise]. Qed.
Lemma mr_time_of n : side_of n = In_ -> mr (time_of env n).
Proof. intros S. apply mr_bind; [now apply mr_generic|apply mr_as_time]. Qed.
Lemma mr_delta_of n : side_of n = In_ -> mr (delta_of env n).
Proof. intros S. apply mr_bind; [now apply mr_generic|apply mr_as_delta]. Qed.
Lemma mr_item sd n i : side_of n = sd -> mr (item env sd n i).
Proof.
  intros S w w' H. unfold item. eapply msim_bind; [now apply m_view_of|]. intros v x x' X V.
  eapply msim_bind; [apply m_op; [exact X|exact I|]|].
  - simpl. intros v0 E. inversion E; subst. exact V.
  - intros r y y' Y _. destruct r; try now apply mr_raise.
    destruct (pyindex _ i); [|now apply mr_raise]. destruct (nth_error _ _); first [now apply mr_ret|now apply mr_raise].
Qed.
Lemma mr_out_op n (o : nat -> op) : side_of n = Out_ -> (forall v, plain_op (o v) /\ works_on (o v) = Some v) ->
  mr (v <- view_of n ;; op_on env Out_ (o v) ;;; ret tt).
Proof.
  intros S O w w' H. eapply msim_bind; [now apply m_view_of|]. intros v x x' X V. destruct (O v) as [O1 O2].
  eapply msim_bind; [apply m_op; [exact X|exact O1|]|].
  - rewrite O2. intros v0 E. inversion E; subst. now rewrite <- S.
  - intros r y y' Y _. now apply mr_ret.
Qed.
Lemma mr_set_item n i x : side_of n = Out_ -> mr (set_item env n i x).
Proof. intros S. apply (mr_out_op n (fun v => OSetItem v i x)); auto. intros v; split; [exact I|reflexivity]. Qed.
Lemma mr_lock n : side_of n = Out_ -> mr (lock env n).
Proof. intros S. apply (mr_out_op n OLock); auto. intros v; split; [exact I|reflexivity]. Qed.
Lemma mr_unlock n : side_of n = Out_ -> mr (unlock env n).
Proof. intros S. apply (mr_out_op n OUnlock); auto. intros v; split; [exact I|reflexivity]. Qed.
Lemma mr_set_values n a : side_of n = Out_ -> a_int a = false -> mr (set_values env n a).
Proof. intros S A. apply (mr_out_op n (fun v => OSetValues v a)); auto. Qed.

Lemma m_a_view sd o w w' : wrel w w' -> plain_op o -> request_unit o <> None ->
  msim (fun v x x' => agreed sd v x x') (a_view env sd o w) (a_view env sd o w').
Proof.
  intros H O R. unfold a_view. eapply msim_bind; [apply m_op; [exact H|exact O|]|].
  - intros v E. destruct o; try discriminate; exfalso; apply R; reflexivity.
  - intros r x x' X V. destruct r; split; simpl; auto.
Qed.
Lemma same_param s s' v : rel env s s' ->
  match param_of_view s v, param_of_view s' v with
  | Some q, Some q' => param_empty q' = param_empty q
  | None, None => True
  | _, _ => False end.
Proof.
  intros H. unfold param_of_view. pose proof (Forall2_nth _ _ _ (rl_views _ _ _ H) v) as E.
  destruct (nth_error (st_views s) v) as [x|], (nth_error (st_views s') v) as [x'|]; try contradiction; auto.
  destruct (vrel_fields _ _ _ E) as (_ & _ & -> & _).
  pose proof (Forall2_nth _ _ _ (rl_params _ _ _ H) (v_param x)) as P.
  destruct (nth_error (st_params s) (v_param x)) as [q|], (nth_error (st_params s') (v_param x)) as [q'|]; try contradiction; auto.
  destruct (prel_fields _ _ _ P) as (Pw & _). unfold param_empty. now rewrite Pw.
Qed.
Lemma mr_is_empty v : mr (is_empty v).
Proof.
  intros w w' H. split; simpl; auto. pose proof (same_param _ _ v (wr_rel _ _ H In_)) as P. simpl in P.
  destruct (param_of_view (w_in w) v), (param_of_view (w_in w') v); try contradiction; auto. split; [now symmetry|exact I].
Qed.

Hypothesis AU : adapter_units_plain env.
Lemma plain_unit u : In u adapter_units -> same_dimension env u u.
Proof.
  intros H. unfold same_dimension. destruct (env u) as [a|] eqn:E; auto. pose proof (AU u a H E). auto.
Qed.

Lemma mr_set_parameter n full d u : side_of n = In_ -> (forall x, u = Some x -> In x adapter_units) -> mr (set_parameter env n full d u).
Proof.
  intros S U w w' H. unfold set_parameter.
  eapply msim_bind; [apply m_a_view; [exact H| |]|].
  - destruct u as [u|]; simpl; auto. apply plain_unit, U; reflexivity.
  - now destruct u.
  - intros p x x' X A. eapply (msim_bind (fun _ => agreed In_ p)).
    { destruct (mr_is_empty p x x' X) as [B1 B2]. split; [exact B1|]. simpl in B2 |- *.
      destruct (param_of_view (w_in x) p), (param_of_view (w_in x') p); try contradiction; auto. destruct B2; auto. }
    intros e y y' Y A'. eapply (msim_bind (fun _ => agreed In_ p)).
    + assert (N : msim (fun _ => agreed In_ p) (ret tt y) (ret tt y')) by (split; simpl; auto).
      destruct d as [r|g|]; destruct e; auto.
      * eapply (msim_bind (fun _ => agreed In_ p)).
        { destruct (m_op In_ (OSetValue p (Some r)) y y' Y I) as [C1 C2]; [simpl; intros v E; inversion E; subst; auto|].
          split; [exact C1|]. destruct (snd _), (snd _); auto. destruct C2. split; auto. now apply agreed_op. }
        intros _ z z' Z1 Z2. split; simpl; auto.
      * eapply (msim_bind (fun _ => agreed In_ p)).
        { destruct (m_op In_ (OSetGeneric p g) y y' Y I) as [C1 C2]; [simpl; intros v E; inversion E; subst; auto|].
          split; [exact C1|]. destruct (snd _), (snd _); auto. destruct C2. split; auto. now apply agreed_op. }
        intros _ z z' Z1 Z2. split; simpl; auto.
    + intros _ z z' Z1 Z2. apply m_set_view_of; auto. now rewrite S.
Qed.
Lemma mr_for_each {A} (l : list A) f : (forall a, In a l -> mr (f a)) -> mr (for_each l f).
Proof.
  induction l as [|a l IH]; intros F; [apply mr_ret|]. apply mr_bind; [apply F; now left|]. intros _. apply IH. intros; apply F; now right.
Qed.
Ltac units := let x := fresh in let E := fresh in intros x E; first [discriminate E | inversion E; subst; simpl; tauto].
Lemma mr_initialize_model : mr (initialize_model env).
Proof.
  apply mr_bind; [apply mr_clear|]. intros _. apply mr_bind.
  - intros. apply mr_for_each. intros e E.
    repeat (destruct E as [<-|E]; [apply mr_set_parameter; [reflexivity|units]|]). destruct E.
  - intros _. apply mr_for_each. intros e E.
    repeat (destruct E as [<-|E]; [apply mr_set_parameter; [reflexivity|units]|]). destruct E.
Qed.
Lemma mr_series n sd o : side_of n = sd -> plain_op o -> request_unit o <> None -> mr (v <- a_view env sd o ;; set_view_of n v).
Proof.
  intros S O R w w' H. eapply msim_bind; [now apply m_a_view|]. intros v x x' X A. apply m_set_view_of; auto. now rewrite S.
Qed.
Lemma mr_series_then {B} n sd o (k : M B) : side_of n = sd -> plain_op o -> request_unit o <> None -> mr k ->
  mr (v <- a_view env sd o ;; set_view_of n v ;;; k).
Proof.
  intros S O R K w w' H. eapply msim_bind; [now apply m_a_view|]. intros v x x' X A.
  eapply msim_bind; [apply m_set_view_of; auto; now rewrite S|]. intros _ y y' Y _. now apply K.
Qed.
Lemma mr_out_series n full u tp ty : side_of n = Out_ -> In u adapter_units -> mr (out_series env n full u tp ty).
Proof. intros S U. apply mr_series; auto; [|discriminate]. now apply plain_unit. Qed.
Ltac known := simpl; tauto.
Lemma mr_initialize_run : mr (initialize_run_parameters env).
Proof.
  unfold initialize_run_parameters.
  repeat (apply mr_bind; [first [apply mr_set_timestep|apply mr_set_count|apply mr_lift|now apply mr_time_of|now apply mr_delta_of|now apply mr_generic]|intros ?]).
  apply mr_series_then; [reflexivity| |discriminate|].
  - simpl. apply plain_unit. destruct (truthy _); known.
  - repeat (apply mr_bind; [apply mr_out_series; [reflexivity|known]|intros ?]). apply mr_out_series; [reflexivity|known].
Qed.
Lemma mr_start_series n m : side_of n = Out_ -> mr m -> mr (start_series env n m).
Proof.
  intros S H. apply mr_bind; [apply mr_count|]. intros k w w' X. eapply msim_bind; [now apply m_np_empty|].
  intros a y y' Y A. apply mr_bind; auto; [now apply mr_set_values|]. intros _. apply mr_bind; auto. intros x. now apply mr_set_item.
Qed.
Ltac go := repeat lazymatch goal with
  | |- mr (bind _ _) => apply mr_bind
  | |- forall _, mr _ => intros ?
  | |- mr (set_timestep _) => apply mr_set_timestep
  | |- mr timestep => apply mr_timestep
  | |- mr (set_time _) => apply mr_set_time
  | |- mr current_time => apply mr_current_time
  | |- mr count => apply mr_count
  | |- mr (lift_res _) => apply mr_lift
  | |- mr (coef _) => apply mr_coef
  | |- mr (set_coef _ _) => apply mr_set_coef
  | |- mr (scalar _ _) => apply mr_scalar; reflexivity
  | |- mr (time_of _ _) => apply mr_time_of; reflexivity
  | |- mr (delta_of _ _) => apply mr_delta_of; reflexivity
  | |- mr (generic _ _) => apply mr_generic; reflexivity
  | |- mr (item _ _ _ _) => apply mr_item; reflexivity
  | |- mr (set_item _ _ _ _) => apply mr_set_item; reflexivity
  | |- mr (lock _ _) => apply mr_lock; reflexivity
  | |- mr (unlock _ _) => apply mr_unlock; reflexivity
  | |- mr (start_series _ _ _) => apply mr_start_series; [reflexivity|]
  | |- mr (ret _) => apply mr_ret
  end.
Lemma mr_initial_forcing : mr (initial_forcing env).
Proof. unfold initial_forcing. go. Qed.
Lemma mr_reset : mr (reset_model env).
Proof. unfold reset_model. go. apply mr_initial_forcing. Qed.
Lemma mr_start_time : mr (start_time env).
Proof.
  intros w w' H. unfold start_time. eapply msim_bind; [now apply m_a_view|]. intros v x x' X A.
  eapply msim_bind; [apply m_op; [exact X|exact I|]|].
  - simpl. intros v0 E. inversion E; subst. exact A.
  - intros r y y' Y _. destruct r; try now apply mr_raise. apply mr_bind; auto; [apply mr_as_time|]. intros. apply mr_set_time.
Qed.
Lemma mr_calc_step : mr (calc_step env).
Proof. unfold calc_step. go. Qed.
Lemma mr_repeat n m : mr m -> mr (repeat_m n m).
Proof. intros H. induction n; [apply mr_ret|]. apply mr_bind; auto. Qed.
Lemma mr_run : mr (run_model env).
Proof. unfold run_model. go. apply mr_repeat, mr_calc_step. Qed.

(** ** The adapter *)
Definition arel (a b : adapter world) : Prop :=
  wrel (a_world _ a) (a_world _ b) /\ a_initialized _ b = a_initialized _ a /\ a_log _ b = a_log _ a.
Definition asim (x y : adapter world * res unit) : Prop := arel (fst x) (fst y) /\ snd y = snd x.
Lemma asim_call (h : M unit) e a b : mr h -> arel a b -> asim (call world h e a) (call world h e b).
Proof.
  intros H (R & Ii & L). destruct (H _ _ R) as [A B]. unfold call.
  destruct (h (a_world _ a)) as [w r], (h (a_world _ b)) as [w' r']. simpl in A, B.
  assert (r' = r) as -> by (destruct r, r'; try contradiction; [destruct B; congruence|congruence]).
  split; [|reflexivity]. split; [exact A|]. simpl. split; congruence.
Qed.
Lemma asim_then x y f : asim x y -> (forall a b, arel a b -> asim (f a) (f b)) -> asim (then_do world x f) (then_do world y f).
Proof.
  intros [A B] F. destruct x as [a r], y as [b r']. simpl in A, B. subst r'. destruct r; simpl; auto. split; auto.
Qed.
Notation H_ := (dice_hooks env).
Lemma asim_ensure a b : arel a b -> asim (ensure_initialized world H_ a) (ensure_initialized world H_ b).
Proof.
  intros R. pose proof R as (_ & E & _). unfold ensure_initialized. rewrite E. destruct (a_initialized _ a).
  - split; auto.
  - apply asim_then; [apply asim_call; auto; apply mr_initialize_model|]. intros x y (A & B & C). split; [|reflexivity].
    split; [exact A|]. split; [reflexivity|exact C].
Qed.
Lemma asim_reset a b : arel a b -> asim (adapter_reset world H_ a) (adapter_reset world H_ b).
Proof.
  intros (R & E & L). unfold adapter_reset. destruct (mr_start_time _ _ R) as [A B]. cbn [h_start_time dice_hooks].
  destruct (start_time env (a_world _ a)) as [w r], (start_time env (a_world _ b)) as [w' r']. simpl in A, B.
  destruct r as [u|e], r' as [u'|e']; try contradiction.
  - apply asim_call; [apply mr_reset|]. split; [exact A|]. simpl. auto.
  - subst. split; [|reflexivity]. split; [exact A|]. simpl. auto.
Qed.
Lemma asim_do c a b : arel a b -> asim (do_call world H_ c a) (do_call world H_ c b).
Proof.
  intros R.
  assert (X1 : forall a b, arel a b -> asim (Adapters.initialize_model_input world H_ a) (Adapters.initialize_model_input world H_ b)).
  { intros. apply asim_then; [now apply asim_ensure|]. intros. apply asim_call; auto. apply mr_ret. }
  assert (X2 : forall a b, arel a b -> asim (Adapters.initialize_run_parameters world H_ a) (Adapters.initialize_run_parameters world H_ b)).
  { intros. apply asim_then; [now apply asim_ensure|]. intros. apply asim_call; auto. apply mr_initialize_run. }
  assert (X3 : forall a b, arel a b -> asim (scm_reset_stepping world H_ a) (scm_reset_stepping world H_ b)).
  { intros. apply asim_then; [apply asim_then; auto|]. apply asim_reset. }
  destruct c; cbn [do_call].
  - auto.
  - auto.
  - now apply asim_reset.
  - apply asim_call; auto. apply mr_run.
  - apply asim_call; auto. apply mr_calc_step.
  - auto.
  - apply asim_then; auto. intros. apply asim_call; auto. apply mr_run.
  - apply asim_call; auto. apply mr_calc_step.
Qed.

Lemma part_params sd a : params_of sd a = part sd (a_world _ a).
Proof. reflexivity. Qed.
Lemma use_rel a b : same_use env a b -> arel a b.
Proof.
  induction 1 as [root root2 h h' k k' junk A B|c a b H IH|sd o o' a b H IH R].
  - destruct (sim_run env G h h' _ _ (rel_init env root) (wf_init env root) (wf_init env root) A) as (R1 & W1 & W1').
    destruct (sim_run env G k k' _ _ (rel_init env root2) (wf_init env root2) (wf_init env root2) B) as (R2 & W2 & W2').
    split; [|split; reflexivity]. constructor; try reflexivity; try (intros []; simpl; assumption). discriminate.
  - apply (asim_do c a b IH).
  - destruct IH as (W & E & L). split; [|split; simpl; auto]. simpl. apply wrel_ops; auto.
    rewrite !part_params in R. apply (sim_step env G); auto; apply W.
Qed.

Lemma mr_eq {A} (m : M A) a b : mr m -> arel a b -> snd (m (a_world _ a)) = snd (m (a_world _ b)).
Proof.
  intros H (R & _). destruct (H _ _ R) as [_ B]. destruct (snd (m (a_world _ a))), (snd (m (a_world _ b))); try contradiction; auto.
  - destruct B. congruence.
  - congruence.
Qed.
Lemma side_scalar n : In n scalar_names -> side_of n = In_.
Proof. intros H. repeat (destruct H as [<-|H]; [reflexivity|]). destruct H. Qed.
Lemma side_series n : In n series_names -> side_of n = Out_.
Proof. intros H. repeat (destruct H as [<-|H]; [reflexivity|]). destruct H. Qed.

Lemma C76_proof a b : same_use env a b ->
  (forall c, snd (do_call world (dice_hooks env) c a) = snd (do_call world (dice_hooks env) c b)) /\
  (forall name i, In name series_names -> out env a name i = out env b name i) /\
  (forall name, In name scalar_names -> value env a name = value env b name) /\
  (forall i, emission env a i = emission env b i) /\
  now a = now b /\ points a = points b /\
  (forall sd o o', restated env (params_of sd a) (params_of sd b) o o' ->
     same_answer env (params_of sd a) (params_of sd b) (works_on o)
       (answer env o (params_of sd a)) (answer env o' (params_of sd b))).
Proof.
  intros U. pose proof (use_rel a b U) as R. split; [|split; [|split; [|split; [|split; [|split]]]]].
  - intros c. symmetry. apply (asim_do c a b R).
  - intros name i N. apply (mr_eq (item env Out_ name (Z.of_nat i))); auto. apply mr_item. now apply side_series.
  - intros name N. apply (mr_eq (scalar env name)); auto. apply mr_scalar. now apply side_scalar.
  - intros i. apply (mr_eq (item env In_ "E" (Z.of_nat i))); auto. now apply mr_item.
  - symmetry. apply R.
  - symmetry. apply R.
  - intros sd o o' X. destruct R as (W & _). exact (proj2 (sim_step env G _ _ o o' (wr_rel _ _ W sd) (wr_wf _ _ W sd) (wr_wf' _ _ W sd) X)).
Qed.
End S.
