(** Frames in which one variable lies below another cannot be stored (for C54). *)
From Coq Require Import String Ascii List Arith Lia Bool ZArith QArith Qcanon Reals.
From Verif Require Import Base ListFacts Units TimeModel Core CoreEvo CoreTree CoreNames CoreInv CoreStep Spec_Core CoreReq
  Filters ParameterType Frame Spec_Frame FrameInterp InterpProps FrameStore Spec_Store StoreHolds StorePut StoreProps.
Import ListNotations.
Local Open Scope string_scope.
Local Open Scope list_scope.

(** A parameter that has been used and has no children: it will never have any. *)
Definition sealed (s : state) (rs ns : list string) : Prop :=
  exists p q, param_at s rs ns = Some p /\ nth_error (st_params s) p = Some q /\ p_read q = true /\ p_children q = [].

Lemma sealed_evo s s' rs ns : evo s s' -> sealed s rs ns -> sealed s' rs ns.
Proof.
  intros E (p & q & A & Q & R & C). destruct (ev_params _ _ E _ _ Q) as (q' & Q' & PE).
  exists p, q'. split; [now apply (param_at_evo s)|]. split; [exact Q'|]. split; [now apply (pe_read _ _ PE)|].
  rewrite (pe_frozen _ _ PE); auto.
Qed.
Lemma sealed_end s rs ns x m : sealed s rs ns -> ns <> [] -> ~ sealed s rs (ns ++ x :: m).
Proof.
  intros (p & q & A & Q & _ & C) NE (p' & q' & A' & _).
  unfold param_at in *. destruct (region_at s rs) as [r|]; [|discriminate]. unfold param_in in *.
  destruct ns as [|n ns]; [contradiction|]. cbn [app] in A'. destruct (nth_error (st_regions s) r) as [rg|]; [|discriminate].
  destruct (alookup n (r_params rg)) as [i|]; [|discriminate]. rewrite get_subparameter_app, A in A'.
  cbn [get_subparameter] in A'. rewrite Q, C in A'. discriminate.
Qed.

Lemma put_series_seals env cols times vals row s s' : wf env s -> put_series env cols times vals row s = (s', Ok tt) ->
  wf env s' /\ evo s s' /\
  exists v r, cell cols row "variable" = MStr v /\ cell cols row "region" = MStr r /\ sealed s' (split "|"%char r) (split "|"%char v).
Proof.
  intros W H. unfold put_series in H.
  destruct (cell cols row "variable") as [v| | |]; try discriminate. destruct (cell cols row "region") as [r| | |]; try discriminate.
  destruct (cell cols row "unit") as [u| | |]; try discriminate. destruct (row_type env cols row v u) as [ty|]; [|discriminate].
  destruct (match ty with AVERAGE_TIMESERIES => extended times | _ => Ok times end) as [tps|]; [|discriminate].
  destruct (step env (series_request v u tps r ty) s) as [s1 [[]|]] eqn:S1; try discriminate.
  destruct (step env (OSetValues v0 (mkArr false vals)) s1) as [s2 [x|]] eqn:S2; [|discriminate]. injection H as ->.
  assert (RQ : requests (series_request v u tps r ty) (HStr v) (HStr r) ty (Some u) (Some (mkTP 1 tps))).
  { cbn. repeat split; eauto. destruct ty; try reflexivity; cbn in S1; discriminate. }
  pose proof (wf_step env _ _ _ _ W S1) as W1. pose proof (wf_step env _ _ _ _ W1 S2) as W2.
  pose proof (evo_step env _ _ _ _ S1) as E1. pose proof (evo_step env _ _ _ _ S2) as E2.
  split; [exact W2|]. split; [eapply evo_trans; eauto|]. exists v, r. split; [reflexivity|]. split; [reflexivity|].
  destruct (request_ok_reports env s _ _ _ _ _ _ v0 W RQ) as (p & q & PA & Q & _ & RD & w & V & PB & VP & _ & _ & _ & VK).
  { unfold answer. now rewrite S1. }
  unfold after in *. rewrite S1 in *. cbn [fst] in *. cbn [hcomponents] in PA.
  assert (C : p_children q = []).
  { cbn [step] in S2. unfold with_view in S2. rewrite V, PB in S2. destruct (v_kind w) eqn:K; try discriminate.
    destruct (ts_set s1 v0 w (mkArr false vals)) as [s3 [z|e]] eqn:TS; [|discriminate].
    rewrite <- VP in Q. pose proof (ts_set_eff env _ _ _ _ _ _ _ W1 V PB K Q TS) as X. cbn in X. apply X. }
  apply (sealed_evo s1 s' _ _ E2). exists p, q. auto.
Qed.

Lemma put_all_seals env f data : forall s s', wf env s -> put_all_series env f data s = (s', Ok tt) ->
  wf env s' /\ evo s s' /\ forall l vals, In (l, vals) data -> exists row v r, row_at l (fr_meta f) = Some row /\
    cell (fr_cols f) row "variable" = MStr v /\ cell (fr_cols f) row "region" = MStr r /\ sealed s' (split "|"%char r) (split "|"%char v).
Proof.
  induction data as [|[l vals] data IH]; intros s s' W H; cbn [put_all_series] in H.
  - injection H as <-. split; [exact W|]. split; [apply evo_refl|]. intros l vals [].
  - destruct (row_at l (fr_meta f)) as [row|] eqn:RA; [|discriminate].
    destruct (put_series env (fr_cols f) (fr_times f) vals row s) as [s1 [[]|]] eqn:P; [|discriminate].
    destruct (put_series_seals _ _ _ _ _ _ _ W P) as (W1 & E1 & v & r & CV & CR & S1).
    destruct (IH _ _ W1 H) as (W2 & E2 & A). split; [exact W2|]. split; [eapply evo_trans; eauto|].
    intros l' vals' [I|I]; [|now apply (A l' vals')]. injection I as <- <-. exists row, v, r. repeat split; auto. now apply (sealed_evo s1).
Qed.

Lemma split_app a x : split "|"%char (a ++ "|" ++ x)%string = split "|"%char a ++ split "|"%char x.
Proof.
  change ("|" ++ x)%string with (String "|"%char x).
  induction a as [|c a IH]; [reflexivity|]. cbn [append split]. destruct (Ascii.eqb c "|"%char); [cbn; now rewrite IH|].
  rewrite IH. destruct (split "|"%char a) as [|w ws] eqn:E; [now destruct (split_ne a)|reflexivity].
Qed.

Lemma nested_never env f s s' l l' v x r : wf env s -> aligned f ->
  meta_of f l "variable" (MStr v) -> meta_of f l' "variable" (MStr (v ++ "|" ++ x)) ->
  meta_of f l "region" (MStr r) -> meta_of f l' "region" (MStr r) ->
  to_parameterset env f s <> (s', Ok tt).
Proof.
  intros W AL MV MV' MR MR' H. unfold to_parameterset in H.
  destruct (distinct_rows _) as [|values [|]]; try discriminate.
  match type of H with (if ?b then _ else _) = _ => destruct b; [|discriminate] end.
  destruct (put_all_series env f (fr_data f) s) as [s1 [[]|]] eqn:P; [|discriminate].
  destruct (put_all_seals env f _ _ _ W P) as (_ & _ & A).
  assert (N : NoDup (map fst (fr_meta f))) by (rewrite <- (al_labels _ AL); apply AL).
  assert (X : forall k w, meta_of f k "variable" (MStr w) -> meta_of f k "region" (MStr r) -> sealed s1 (split "|"%char r) (split "|"%char w)).
  { intros k w MW MK. destruct (cell_meta _ _ _ _ AL MW) as (row & I & CW & _). destruct (cell_meta _ _ _ _ AL MK) as (row' & I' & CR & _).
    pose proof (row_at_in _ _ _ N I) as R1. pose proof (row_at_in _ _ _ N I') as R2. assert (row' = row) by congruence. subst row'.
    apply (in_map fst) in I. cbn in I. rewrite <- (al_labels _ AL) in I. apply in_map_iff in I. destruct I as ([k' vals] & <- & I).
    cbn [fst] in *. destruct (A _ _ I) as (row2 & w2 & r2 & R3 & CW2 & CR2 & S). assert (row2 = row) by congruence. subst row2.
    assert (w2 = w) by congruence. assert (r2 = r) by congruence. now subst. }
  pose proof (X l' _ MV' MR') as B. rewrite split_app in B. pose proof (X l _ MV MR) as C.
  destruct (split "|"%char x) as [|y m] eqn:E; [now destruct (split_ne x)|]. revert B. apply sealed_end; [exact C|apply split_ne].
Qed.

(** ** Fewer than three times *)
Lemma to_param_short v l : (length l < 3)%nat -> forall xs, to_param v l <> Ok xs.
Proof.
  intros L xs. unfold to_param, nconvert, tconvert_to.
  set (m := map (option_map (uconvert_to (v_uconv v))) l). assert (LM : (length m < 3)%nat) by (unfold m; now rewrite map_length).
  assert (X : forall w : list R, length w = length m -> forall a b ys, convert_R (tc_type (v_tconv v)) (tc_extra (v_tconv v)) w a b <> Ok ys).
  { intros w E a b ys. unfold convert_R. rewrite (proj2 (Nat.ltb_lt (length w) 3)) by lia. discriminate. }
  destruct (all_some m) as [w|] eqn:A.
  - assert (E : length w = length m).
    { clear -A. revert w A. induction m as [|[x|] m IH]; intros w A; cbn in A; [injection A as <-; reflexivity| |discriminate].
      destruct (all_some m) as [ws|]; [|discriminate]. injection A as <-. cbn. now rewrite (IH ws). }
    destruct (convert_R _ _ w _ _) as [ys|] eqn:C; [|discriminate]. now apply X in C.
  - match goal with |- context [convert_R _ _ ?w _ _] => assert (E : length w = length m) by (now rewrite map_length); destruct (convert_R _ _ w _ _) as [ys|] eqn:C; [|discriminate] end.
    now apply X in C.
Qed.

Lemma put_series_length env cols times vals row s s' : wf env s -> put_series env cols times vals row s = (s', Ok tt) -> (3 <= length vals)%nat.
Proof.
  intros W H. destruct (Nat.le_gt_cases 3 (length vals)) as [L|L]; [exact L|exfalso]. unfold put_series in H.
  destruct (cell cols row "variable") as [v| | |]; try discriminate. destruct (cell cols row "region") as [r| | |]; try discriminate.
  destruct (cell cols row "unit") as [u| | |]; try discriminate. destruct (row_type env cols row v u) as [ty|]; [|discriminate].
  destruct (match ty with AVERAGE_TIMESERIES => extended times | _ => Ok times end) as [tps|]; [|discriminate].
  destruct (step env (series_request v u tps r ty) s) as [s1 [[]|]] eqn:S1; try discriminate.
  destruct (step env (OSetValues v0 (mkArr false vals)) s1) as [s2 [x|]] eqn:S2; [|discriminate].
  assert (RQ : requests (series_request v u tps r ty) (HStr v) (HStr r) ty (Some u) (Some (mkTP 1 tps))).
  { cbn. repeat split; eauto. destruct ty; try reflexivity; cbn in S1; discriminate. }
  pose proof (wf_step env _ _ _ _ W S1) as W1.
  destruct (request_inv env _ _ _ _ _ _ _ _ _ W RQ S1) as [(? & ? & _ & _ & X)|(sl & p & _ & [(? & _ & X)|(sr & RD & PP & _ & vi & X & F)])]; try discriminate.
  injection X as <-. destruct F as (w & V & _ & PB & VP & _ & _ & _ & _ & _ & LK & _).
  assert (Q : exists q, nth_error (st_params s1) p = Some q).
  { destruct (request_ok_reports env s _ _ _ _ _ _ v0 W RQ) as (p' & q & _ & Q & _ & _ & w' & V' & _ & VP' & _); [unfold answer; now rewrite S1|].
    unfold after in *. rewrite S1 in *. cbn [fst] in *. assert (w' = w) by congruence. subst w'. exists q. now rewrite <- VP, VP'. }
  destruct Q as (q & Q). cbn [step] in S2. unfold with_view in S2. rewrite V, PB in S2. destruct (v_kind w) eqn:K; try discriminate.
  destruct (ts_set s1 v0 w (mkArr false vals)) as [s3 [z|e]] eqn:TS; [|discriminate].
  rewrite <- VP in Q. pose proof (ts_set_eff env _ _ _ _ _ _ _ W1 V PB K Q TS) as Y. cbn in Y.
  destruct Y as (_ & _ & [[Y _]|(_ & xs & Y & _)]); [congruence|]. now apply (to_param_short w vals L xs).
Qed.

Lemma short_never env f s s' : wf env s -> aligned f -> fr_data f <> [] -> (length (fr_times f) < 3)%nat ->
  to_parameterset env f s <> (s', Ok tt).
Proof.
  intros W AL NE L H. unfold to_parameterset in H.
  destruct (distinct_rows _) as [|values [|]]; try discriminate.
  match type of H with (if ?b then _ else _) = _ => destruct b; [|discriminate] end.
  destruct (put_all_series env f (fr_data f) s) as [s1 [[]|]] eqn:P; [|discriminate].
  pose proof (al_values _ AL) as LV. destruct (fr_data f) as [|[l vals] data]; [contradiction|]. apply Forall_cons_iff in LV. destruct LV as [LV _]. cbn in LV.
  cbn [put_all_series] in P. destruct (row_at l (fr_meta f)) as [row|]; [|discriminate].
  destruct (put_series env (fr_cols f) (fr_times f) vals row s) as [s2 [[]|]] eqn:PS; [|discriminate].
  apply (put_series_length _ _ _ _ _ _ _ W) in PS. lia.
Qed.
