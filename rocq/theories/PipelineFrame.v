(** The emissions of a data frame in the parameter set (for C90). *)
From Coq Require Import String Ascii List Arith Lia Bool ZArith QArith Qcanon Reals Sorted Permutation.
From Verif Require Import Base ListFacts Units TimeModel Core CoreEvo CoreTree CoreNames CoreInv Spec_Core CoreReq
  Spec_Time TimeProps Spec_Names NamesProps Filters ParameterType Frame Spec_Frame FrameFilter FrameEdit FrameInterp Spec_Interp InterpProps AppendProps AlignProps
  FrameStore Spec_Store StoreHolds StoreCalls StoreWalk StoreBack StorePut StoreProps.
Import ListNotations.
Local Open Scope string_scope.
Local Open Scope list_scope.

Section F.
Context (env : uenv) (f : frame).
Hypothesis (G : good_env env) (ST : storable env f).

(** A function that gives back the numbers of the frame. *)
Lemma numbers_back : exists q_of : R -> Qc, forall c l q, meta_of f l c (MNum q) -> q_of (num_of_q q) = q.
Proof.
  set (qs := flat_map (fun r => flat_map (fun v => match v with MNum q => [q] | _ => [] end) (snd r)) (fr_meta f)).
  exists (fun r => match find (fun q => if Req_EM_T (num_of_q q) r then true else false) qs with Some q => q | None => 0%Qc end).
  intros c l q M. assert (I : In q qs).
  { destruct M as (row & I & N). unfold qs. apply in_flat_map. exists (l, row). split; [exact I|].
    apply in_flat_map. exists (MNum q). split; [eapply in_combine_r; exact N|now left]. }
  destruct (find _ qs) as [q'|] eqn:F.
  - apply find_some in F. destruct F as [_ F]. destruct (Req_EM_T (num_of_q q') (num_of_q q)) as [E|]; [|discriminate].
    apply Qc_is_canon. now apply Qreals.eqR_Qeq.
  - exfalso. apply (find_none _ _ F) in I. destruct (Req_EM_T (num_of_q q) (num_of_q q)); [discriminate|congruence].
Qed.

Lemma series_kept v r u xs s : has_typed_series f v r u "average" (map Some xs) ->
  to_parameterset env f (init_state "World") = (s, Ok tt) ->
  exists p q, param_at s (split "|"%char r) (split "|"%char v) = Some p /\ nth_error (st_params s) p = Some q /\
    p_type q = Some AVERAGE_TIMESERIES /\ p_unit q = Some u /\ p_time q = Some (mkTP 1 (closed (fr_times f))) /\
    p_data q = Some (PArr (map Some xs)) /\ p_read q = true /\ p_written q = true /\ p_children q = [] /\
    wf env s /\ increasing (closed (fr_times f)) /\ length (closed (fr_times f)) = S (length xs) /\ (3 <= length xs)%nat.
Proof.
  intros (l & I & MV & MR & MU & MT) TP.
  destruct numbers_back as (q_of & QO).
  destruct (stored env q_of f G ST QO) as (s' & ES & EM & values & TP' & H & _ & FS & _).
  assert (s' = s) by congruence. subst s'.
  destruct (forall2_in_l _ _ _ _ FS I) as (ek & IE & X).
  destruct X as (row & v1 & r1 & u1 & ty & ys & rest & RA & CV & CR & CU & MV1 & MR1 & MU1 & RT & U & T & IC & B & L3 & EV & HR & EK).
  cbn [fst snd] in *.
  pose proof (meta_same env f ST _ _ _ _ MV MV1) as E1. pose proof (meta_same env f ST _ _ _ _ MR MR1) as E2. pose proof (meta_same env f ST _ _ _ _ MU MU1) as E3.
  injection E1 as <-. injection E2 as <-. injection E3 as <-.
  assert (TY : ty = AVERAGE_TIMESERIES).
  { destruct (meta_row env f ST _ _ _ MT) as (row2 & RA2 & _ & CT & ICl). assert (row2 = row) by congruence. subst row2.
    unfold row_type in RT. rewrite (proj2 (mem_in _ _) ICl), CT in RT. cbn in RT. now injection RT as <-. }
  subst ty. assert (ys = xs).
  { clear -EV. revert ys EV. induction xs as [|x l IH]; intros [|y l'] E; try discriminate; [reflexivity|]. cbn in E. injection E as -> E. f_equal. now apply IH. }
  subst ys. destruct (h_in _ _ _ H (fst ek)) as (p & q & PA & Q & TYq & QU & QT & QD & RD & WR & CH).
  { apply in_map, in_app_iff. now left. }
  subst ek. cbn [fst e_region e_name e_type e_unit e_time e_data] in *.
  exists p, q. repeat (split; [assumption|]). split; [apply (h_wf _ _ _ H)|]. split; [exact IC|]. split; [|exact L3].
  destruct B as [B N]. rewrite B. cbn [value_count]. destruct (closed (fr_times f)); [contradiction|cbn; lia].
Qed.

(** The new parameter set is one that a program can make. *)
Lemma step_reachable o s : reachable env s -> reachable env (fst (step env o s)).
Proof. exact (reachable_after env o s). Qed.
Ltac a_step o s := pose proof (step_reachable o s); destruct (step env o s) as [? [?|?]]; cbn [fst] in *; auto.
Lemma put_series_reachable cols times vals row s : reachable env s -> reachable env (fst (put_series env cols times vals row s)).
Proof.
  intros R. unfold put_series. repeat match goal with
  | |- context [match step env ?o ?s with _ => _ end] => a_step o s
  | |- context [match ?x with _ => _ end] => destruct x; cbn [fst]; auto
  end.
Qed.
Lemma put_all_series_reachable d : forall s, reachable env s -> reachable env (fst (put_all_series env f d s)).
Proof.
  induction d as [|[l vals] d IH]; intros s R; [exact R|]. cbn [put_all_series]. destruct (row_at l (fr_meta f)) as [row|]; [|exact R].
  pose proof (put_series_reachable (fr_cols f) (fr_times f) vals row s R). destruct (put_series _ _ _ _ _ _) as [s1 [?|?]]; cbn [fst] in *; auto.
Qed.
Lemma put_meta_reachable k v s : reachable env s -> reachable env (fst (put_meta env k v s)).
Proof.
  intros R. unfold put_meta. repeat match goal with
  | |- context [match step env ?o ?s with _ => _ end] => a_step o s
  | |- context [match ?x with _ => _ end] => destruct x; cbn [fst]; auto
  end.
Qed.
Lemma put_all_meta_reachable d : forall s, reachable env s -> reachable env (fst (put_all_meta env d s)).
Proof.
  induction d as [|[k v] d IH]; intros s R; [exact R|]. cbn [put_all_meta].
  pose proof (put_meta_reachable k v s R). destruct (put_meta _ _ _ _) as [s1 [?|?]]; cbn [fst] in *; auto.
Qed.
Lemma frame_reachable s : reachable env s -> reachable env (fst (to_parameterset env f s)).
Proof.
  intros R. unfold to_parameterset. destruct (distinct_rows _) as [|values [|]]; auto.
  destruct (match (if mem _ _ then _ else _) with MStr m => _ | _ => _ end); auto.
  pose proof (put_all_series_reachable (fr_data f) s R) as X. destruct (put_all_series _ _ _ _) as [s1 [?|?]]; cbn [fst] in *; auto.
  now apply put_all_meta_reachable.
Qed.
End F.
