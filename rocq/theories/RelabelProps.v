(** Histories with quantities in other units (C75). *)
From Coq Require Import String List Arith Lia Bool ZArith Reals Lra.
From Verif Require Import Base ListFacts Units TimeModel TimeConv ConvShape Core CoreEvo CoreTree CoreNames CoreInv Spec_Core Spec_Time CoreP2 Spec_Relabel RelabelNum RelabelSim.
Import ListNotations.

Section S.
Variable env : uenv.
Hypothesis G : good_env env.

Lemma same_for_iff s s' vi v v' x x' : wf env s -> wf env s' -> nth_error (st_views s) vi = Some v -> nth_error (st_views s') vi = Some v' ->
  vrel env v v' -> v_kind v <> KGeneric -> (same_for env s s' vi x x' <-> x' = nsc (vk env v v') x).
Proof.
  intros W W' V V' E K. unfold same_for, unit_of. rewrite V, V'. simpl.
  assert (N : exists a b, env (v_unit v) = Some a /\ env (v_unit v') = Some b).
  { destruct (wf_views _ _ W _ _ V) as (q & _ & I). destruct (wf_views _ _ W' _ _ V') as (q' & _ & I').
    destruct (vrel_fields _ _ _ E) as (_ & Ek & _).
    destruct (unit_converter_inv _ _ _ _ (vi_uconv _ _ _ _ _ I K)) as (? & w & ? & b & _ & X & _ & B & _). inversion X; subst w.
    destruct (unit_converter_inv _ _ _ _ (vi_uconv _ _ _ _ _ I' ltac:(congruence))) as (? & w & ? & b' & _ & X' & _ & B' & _). inversion X'; subst w.
    eauto. }
  pose proof (same_num_scaled env G (v_unit v) (v_unit v') x x' N (proj1 E K)) as Q. unfold vk.
  split.
  - intros H. apply Q. now apply H.
  - intros H u u' A B. inversion A; inversion B; subst u u'. now apply Q.
Qed.
Lemma same_for_list s s' vi v v' l l' : wf env s -> wf env s' -> nth_error (st_views s) vi = Some v -> nth_error (st_views s') vi = Some v' ->
  vrel env v v' -> v_kind v <> KGeneric -> (Forall2 (same_for env s s' vi) l l' <-> l' = map (nsc (vk env v v')) l).
Proof.
  intros W W' V V' E K. revert l'. induction l as [|x l IH]; intros l'; simpl.
  - split; [intros H; inversion H; auto|intros ->; constructor].
  - split.
    + intros H. inversion H; subst. f_equal; [|now apply IH]. now apply (same_for_iff s s' vi).
    + intros ->. constructor; [now apply (proj2 (same_for_iff s s' vi v v' _ _ W W' V V' E K))|now apply IH].
Qed.

Lemma sim_with s s' vi k f f' (P : val -> val -> Prop) : rel env s s' ->
  (forall v v', nth_error (st_views s) vi = Some v -> nth_error (st_views s') vi = Some v' -> vrel env v v' -> v_public v = true -> v_kind v = k ->
     sim env P (f v) (f' v')) ->
  sim env P (with_view s vi k f) (with_view s' vi k f').
Proof.
  intros H F. unfold with_view. pose proof (Forall2_nth _ _ _ (rl_views _ _ _ H) vi) as E.
  destruct (nth_error (st_views s) vi) as [v|] eqn:V, (nth_error (st_views s') vi) as [v'|] eqn:V'; try contradiction; [|now apply sim_err].
  destruct (vrel_fields _ _ _ E) as (-> & -> & _).
  destruct (v_public v) eqn:Pb; [|now apply sim_err].
  destruct (v_kind v) eqn:K, k; try (now apply sim_err); auto.
Qed.
Lemma sim_lift {A B} (P : A -> B -> Prop) (Q : val -> val -> Prop) g g' x y : sim env P x y -> (forall a b, P a b -> Q (g a) (g' b)) ->
  sim env Q (lift g x) (lift g' y).
Proof. intros [H K] I. destruct x as [s [a|e]], y as [s' [b|e']]; simpl in *; try contradiction; split; simpl; auto. Qed.

Lemma sim_step s s' o o' : rel env s s' -> wf env s -> wf env s' -> restated env s s' o o' ->
  sim env (same_value env s s' (works_on o)) (step env o s) (step env o' s').
Proof.
  intros H W W' R. destruct R; cbn [step works_on].
  - eapply sim_lift; [now apply sim_ps_scalar|]. now intros a b ->.
  - eapply sim_lift; [now apply sim_ps_timeseries|]. now intros a b ->.
  - apply sim_with; auto. intros w w' V V' E Pb K. eapply sim_lift; [|now intros; simpl].
    apply (sim_scalar_set env G); auto. apply (same_for_iff s s' v); auto. congruence.
  - apply sim_with; auto. intros w w' V V' E Pb K. eapply sim_lift; [|now intros; simpl].
    assert (l' = map (nsc (vk env w w')) l) as -> by (apply (same_for_list s s' v); auto; congruence).
    apply (sim_ts_set env G); auto.
  - apply sim_with; auto. intros w w' V V' E Pb K. eapply sim_lift; [|now intros; simpl].
    assert (x' = nsc (vk env w w') x) as -> by (apply (same_for_iff s s' v); auto; congruence).
    apply (sim_ts_setitem env G); auto.
  - apply sim_with; auto. intros w w' V V' E Pb K. eapply sim_lift; [|now intros; simpl].
    assert (x' = nsc (vk env w w') x) as -> by (apply (same_for_iff s s' v); auto; congruence).
    apply (sim_handle_set env G); auto.
  - apply sim_with; auto. intros w w' V V' E Pb K. eapply sim_lift; [|now intros; simpl].
    assert (X : Some x' = nsc (vk env w w') (Some x)) by (apply (same_for_iff s s' v); auto; congruence).
    inversion X; subst. apply (sim_handle_iadd env G); auto.
  - eapply sim_lift; [now apply sim_ps_generic|]. now intros a b ->.
  - eapply (sim_lift eq); [|now intros a b ->]. rewrite (same_info _ _ _ _ _ H). split; simpl; auto. destruct (info s n r); simpl; auto.
  - apply sim_with; auto. intros w w' V V' E Pb K.
    eapply (sim_lift (times (vk env w w'))).
    + split; [exact H|]. apply (sim_scalar_get env G s s' v); auto.
    + intros a b X. exists v. split; [reflexivity|]. apply (proj2 (same_for_iff s s' v w w' _ _ W W' V V' E ltac:(congruence))); auto.
  - apply sim_with; auto. intros w w' V V' E Pb K.
    eapply (sim_lift eq); [|now intros a b ->]. split; [exact H|]. now apply (sim_generic_get env).
  - apply sim_with; auto. intros w w' V V' E Pb K. eapply sim_lift; [|now intros; simpl]. now apply sim_generic_set.
  - apply sim_with; auto. intros w w' V V' E Pb K.
    eapply (sim_lift (times_l (vk env w w'))).
    + now apply (sim_ts_get env G).
    + intros a b X. exists v. split; [reflexivity|]. apply (same_for_list s s' v w w'); auto. congruence.
  - apply sim_with; auto. intros w w' V V' E Pb K. pose proof (vrel_cache _ _ _ E) as D.
    destruct (v_data w) as [d|], (v_data w') as [d'|]; try contradiction; [|now apply sim_err].
    destruct (sim_ts_get env G s s' v w w' H W W' V V' K) as [A B].
    destruct (ts_get s v) as [t [x|e]], (ts_get s' v) as [t' [x'|e']]; simpl in A, B; try contradiction; subst; [|now apply sim_err].
    unfold times_l in B. subst x'. rewrite map_length. split; [exact A|]. simpl. destruct (pyindex _ i) as [j|]; [|reflexivity].
    rewrite nth_nsc. destruct (nth_error x j); simpl; [|reflexivity].
    exists v. split; [reflexivity|]. apply (proj2 (same_for_iff s s' v w w' _ _ W W' V V' E ltac:(congruence))); auto.
  - apply sim_with; auto. intros w w' V V' E Pb K. pose proof (vrel_cache _ _ _ E) as D.
    split; [exact H|]. simpl. destruct (v_data w) as [d|], (v_data w') as [d'|]; try contradiction; [|reflexivity].
    destruct D as (l & -> & ->). simpl. exists v. split; [reflexivity|]. apply (same_for_list s s' v w w'); auto. congruence.
  - apply sim_with; auto. intros w w' V V' E Pb K. apply sim_ok; [|reflexivity]. apply rel_set_view; auto. now apply vrel_locked.
  - apply sim_with; auto. intros w w' V V' E Pb K. eapply sim_lift; [|now intros; simpl]. unfold ts_unlock.
    destruct (vrel_fields _ _ _ E) as (Epb & Ek & _).
    eapply (sim_ts_write env G).
    + apply rel_set_view; auto. apply vrel_locked; eauto.
    + now apply wf_lock.
    + apply wf_lock; auto. congruence.
    + eapply set_view_nth; eauto.
    + eapply set_view_nth; eauto.
    + exact K.
Qed.

Lemma sim_run h : forall h' s s', rel env s s' -> wf env s -> wf env s' -> restated_run env s s' h h' ->
  rel env (run env s h) (run env s' h') /\ wf env (run env s h) /\ wf env (run env s' h').
Proof.
  induction h as [|o h IH]; intros [|o' h'] s s' H W W' R; simpl in R; try contradiction; [auto|].
  destruct R as [R1 R2]. apply (IH h' (after env o s) (after env o' s')); auto using wf_after.
  apply (sim_step s s' o o' H W W' R1).
Qed.

Lemma C75_proof root h h' o o' : restated_run env (init_state root) (init_state root) h h' ->
  let s := run env (init_state root) h in let s' := run env (init_state root) h' in
  restated env s s' o o' -> same_answer env s s' (works_on o) (answer env o s) (answer env o' s').
Proof.
  intros R s s' O.
  destruct (sim_run h h' (init_state root) (init_state root) (rel_init env root) (wf_init env root) (wf_init env root) R) as (A & B & C).
  exact (proj2 (sim_step s s' o o' A B C O)).
Qed.
End S.
