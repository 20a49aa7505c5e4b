(** Proofs of C01, C02, C03, C05, C06. *)
From Coq Require Import String List Arith Lia Bool ZArith Reals.
From Verif Require Import Base ListFacts Units TimeModel Core CoreEvo CoreTree CoreNames CoreInv
  CoreStep Spec_Core CoreReq.
Import ListNotations.

Section P.
Variable env : uenv.

Lemma C01_stable s n r q t : reachable env s -> reports env s n r q -> p_type q = Some t ->
  forall h,
  (exists q', reports env (run env s h) n r q' /\ p_type q' = Some t) /\
  (forall o n' r' t' u tp, requests o n' r' t' u tp -> same_name n' n -> same_name r' r ->
     t' <> t -> answer env o (run env s h) = Err EParameterType).
Proof.
  intros R H T h. destruct (type_stable env _ h _ _ _ _ H T) as (q' & H' & T' & _). split; [eauto|].
  intros o n' r' t' u tp Rq Sn Sr Ne. unfold answer.
  erewrite type_conflict; eauto. apply reachable_wf, reachable_run; auto.
Qed.
Lemma C01_typed s o n r t u tp : reachable env s -> requests o n r t u tp -> hempty n = false ->
  succeeds env o s -> exists q, reports env (after env o s) n r q /\ p_type q = Some t.
Proof.
  intros R Rq E [x A].
  assert (exists vi, x = VView vi).
  { destruct (request_inv env _ _ _ _ _ _ _ _ _ (reachable_wf _ _ R) Rq (after_eq _ _ _))
      as [(s1 & e & _ & _ & X)|(s1 & p & _ & [(e & _ & X)|(s2 & _ & _ & _ & X)])]; try congruence.
    rewrite A in X. destruct X as (vi & -> & _). eauto. }
  destruct H as [vi ->].
  destruct (request_ok_reports env _ _ _ _ _ _ _ _ (reachable_wf _ _ R) Rq A)
    as (p & q & At & Q & T & _). exists q. split; auto. eapply at_reports; eauto.
Qed.

(** A cell that exists has had its names from the start. *)
Lemma at_back s s' rs ps p q : wft s -> wft s' -> evo s s' ->
  param_at s' rs ps = Some p -> nth_error (st_params s) p = Some q -> param_at s rs ps = Some p.
Proof.
  intros W W' E A Q. destruct (names_total s W p (nth_lt _ _ _ Q)) as (rs' & ps' & N1 & N2).
  destruct (names_evo _ _ _ _ _ W W' E N1 N2) as [M1 M2].
  apply (param_at_names s' W') in A. destruct A as [A1 A2].
  apply (param_at_names s W). split; congruence.
Qed.
Lemma reports_cell s n r p q : wft s -> hempty n = false ->
  param_at s (hcomponents r) (hcomponents n) = Some p -> reports env s n r q ->
  nth_error (st_params s) p = Some q.
Proof.
  intros W E A H. apply reports_at in H. destruct H as (p' & _ & A' & Q). congruence.
Qed.

Lemma C02_first root h : forall n r q t,
  reports env (run env (init_state root) h) n r q -> p_type q = Some t ->
  exists h1 o h2 n' r' u tp, h = h1 ++ o :: h2 /\
    ~ typed env (run env (init_state root) h1) n r /\
    requests o n' r' t u tp /\ same_name n' n /\ same_name r' r /\ p_unit q = u /\
    (p_time q = tp \/
     p_time q = None /\ ~ succeeds env o (run env (init_state root) h1)).
Proof.
  induction h as [|o h] using rev_ind; intros n r q t H T.
  { simpl in H. destruct H as (p & _ & Q). simpl in Q. destruct p; discriminate. }
  set (s := run env (init_state root) h) in *.
  assert (Rs : reachable env s) by (exists root, h; reflexivity).
  pose proof (reachable_wf _ _ Rs) as W.
  rewrite run_app in H. fold s in H. change (run env s [o]) with (after env o s) in H.
  pose proof (evo_step env _ _ _ _ (after_eq env o s)) as Ev.
  assert (W' : wf env (after env o s)) by (eapply wf_step; [exact W|apply after_eq]).
  pose proof (reports_at _ _ _ _ _ H) as (p & E & A & Q).
  assert (D : (exists q0, nth_error (st_params s) p = Some q0 /\ p_type q0 <> None) \/
              (forall q0, nth_error (st_params s) p = Some q0 -> p_type q0 = None)).
  { destruct (nth_error (st_params s) p) as [q0|]; [|right; discriminate].
    destruct (p_type q0) eqn:T0; [left; exists q0; split; congruence|right; congruence]. }
  destruct D as [(q0 & Q0 & T0)|D].
  - assert (H0 : reports env s n r q0).
    { eapply at_reports; eauto. eapply at_back; eauto; [apply W|apply W']. }
    destruct (ev_params _ _ Ev _ _ Q0) as (q1 & Q1 & Pe). assert (q1 = q) by congruence; subst q1.
    destruct (pe_type _ _ Pe T0) as (B1 & B2 & B3).
    destruct (IHh _ _ _ t H0) as (h1 & o1 & h2 & n' & r' & u & tp & Eh & X); [congruence|].
    exists h1, o1, (h2 ++ [o]), n', r', u, tp. rewrite Eh, <- app_assoc. split; auto.
    rewrite B2, B3. auto.
  - destruct (typing_step env _ _ _ _ _ _ W (after_eq env o s) Q) as (n' & r' & t' & u & tp & Rq & A' & T' & U' & X).
    { congruence. } { auto. }
    assert (t' = t) by congruence; subst t'.
    exists h, o, [], n', r', u, tp. split; auto. split.
    { intros (q0 & H0 & T0). apply T0. apply D. apply reports_at in H0. destruct H0 as (p0 & _ & A0 & Q0).
      fold s in A0, Q0. pose proof (param_at_evo _ _ _ _ _ Ev A0). congruence. }
    split; auto.
    apply (param_at_names _ (wf_tree _ _ W')) in A. apply (param_at_names _ (wf_tree _ _ W')) in A'.
    destruct A as [N1 N2], A' as [N3 N4]. unfold same_name.
    split; [congruence|]. split; [congruence|]. split; auto.
    destruct X as [X|(X & e & Y)]; auto. right. split; auto.
    intros [z Hz]. fold s in Hz. congruence.
Qed.

Lemma C02_kept s n r q : reports env s n r q -> p_type q <> None -> forall h,
  exists q', reports env (run env s h) n r q' /\ p_unit q' = p_unit q /\ p_time q' = p_time q.
Proof.
  intros H T h. destruct (p_type q) as [t|] eqn:E; [|congruence].
  destruct (type_stable env _ h _ _ _ _ H E) as (q' & A & _ & B & C). eauto.
Qed.

(** ** C03 *)

Lemma subparameters_app s l : forall p c m, get_subparameter s p l = Some c ->
  subparameters s p (l ++ m) = subparameters s c m.
Proof.
  induction l; simpl; intros p c m H; [congruence|].
  unfold get_or_create_child_parameter.
  destruct (nth_error (st_params s) p); [|discriminate].
  destruct (alookup a (p_children p0)); [|discriminate]. auto.
Qed.
Lemma locate_below s n r l c rest p q : 
  param_at s (hcomponents r) l = Some p -> nth_error (st_params s) p = Some q ->
  alookup c (p_children q) = None -> p_read q = true -> hcomponents n = l ++ c :: rest ->
  exists e, locate s n r = (s, Err e) /\ (e = EParameterRead \/ e = EParameterWritten).
Proof.
  intros A Q N Rd H. unfold param_at in A. unfold locate.
  destruct (region_at s (hcomponents r)) as [rr|] eqn:Rr; [|discriminate].
  rewrite (get_or_create_region_found _ _ _ Rr). unfold get_or_create_parameter. rewrite H.
  destruct l as [|n0 l]; [discriminate|]. simpl in *.
  unfold get_or_create_root_parameter.
  destruct (nth_error (st_regions s) rr); [|discriminate].
  destruct (alookup n0 (r_params r0)) as [p0|]; [|discriminate].
  rewrite (subparameters_app _ _ _ _ _ A). simpl. unfold get_or_create_child_parameter.
  rewrite Q, N, Rd. destruct (p_written q); eauto.
Qed.
Lemma param_at_snoc s rs l c p q : param_at s rs l = Some p -> nth_error (st_params s) p = Some q ->
  param_at s rs (l ++ [c]) = alookup c (p_children q).
Proof.
  unfold param_at. destruct (region_at s rs) as [rr|]; [|discriminate].
  destruct l as [|n0 l]; [discriminate|]. simpl.
  destruct (nth_error (st_regions s) rr); [|discriminate].
  destruct (alookup n0 (r_params r)) as [p0|]; [|discriminate].
  intros A Q. rewrite get_subparameter_app, A. simpl. rewrite Q.
  destruct (alookup c (p_children q)); auto.
Qed.

Lemma hempty_snoc l (c : string) : hempty (HSeq (l ++ [c])) = false.
Proof. destruct l; auto. Qed.

Lemma C03_children s o n r t u tp vi : reachable env s -> requests o n r t u tp ->
  answer env o s = Ok (VView vi) -> forall h c,
  let s1 := after env o s in
  let s2 := run env s1 h in
  let child := HSeq (hcomponents n ++ [c]) in
  (forall q, reports env s2 child r q -> exists q0, reports env s1 child r q0) /\
  (forall q, reports env s1 child r q -> exists q0, reports env s2 child r q0) /\
  ((forall q, ~ reports env s1 child r q) ->
   forall o' n' r' t' u' tp' rest, requests o' n' r' t' u' tp' ->
     hcomponents n' = hcomponents n ++ c :: rest -> same_name r' r ->
     answer env o' s2 = Err EParameterRead \/ answer env o' s2 = Err EParameterWritten).
Proof.
  intros R Rq A h c s1 s2 child.
  destruct (request_ok_reports env _ _ _ _ _ _ _ _ (reachable_wf _ _ R) Rq A)
    as (p & q1 & At & Q1 & T & Rd & _). fold s1 in At, Q1.
  assert (R2 : reachable env s2) by (apply reachable_run, reachable_after; auto).
  pose proof (evo_run env h s1) as Ev. fold s2 in Ev.
  destruct (ev_params _ _ Ev _ _ Q1) as (q2 & Q2 & Pe).
  pose proof (param_at_evo _ _ _ _ _ Ev At) as At2.
  assert (Ch : p_children q2 = p_children q1) by (apply (pe_frozen _ _ Pe); auto).
  assert (Ex : forall st p' q', param_at st (hcomponents r) (hcomponents n) = Some p' ->
    nth_error (st_params st) p' = Some q' -> forall q, reports env st child r q ->
    alookup c (p_children q') <> None).
  { intros st p' q' A' Q' q H. apply reports_at in H. destruct H as (pc & _ & Ac & _).
    unfold child in Ac. cbn [hcomponents] in Ac.
    rewrite (param_at_snoc _ _ _ _ _ _ A' Q') in Ac. congruence. }
  assert (R1 : reachable env s1) by (apply reachable_after; auto).
  split; [|split].
  - intros q H. pose proof (Ex _ _ _ At2 Q2 _ H) as N. rewrite Ch in N.
    destruct (alookup c (p_children q1)) as [pc|] eqn:L; [|congruence].
    assert (Ac : param_at s1 (hcomponents r) (hcomponents n ++ [c]) = Some pc).
    { rewrite (param_at_snoc _ _ _ _ _ _ At Q1). auto. }
    destruct (param_at_valid _ _ _ _ (wf_tree _ _ (reachable_wf _ _ R1)) Ac) as (qc & Qc).
    exists qc. eapply at_reports; eauto. apply hempty_snoc.
  - intros q H. destruct (reports_run env s1 child r q h H) as (q' & H' & _). eauto.
  - intros N o' n' r' t' u' tp' rest Rq' Hn Sr.
    assert (L : alookup c (p_children q2) = None).
    { rewrite Ch. destruct (alookup c (p_children q1)) as [pc|] eqn:L; auto. exfalso.
      assert (Ac : param_at s1 (hcomponents r) (hcomponents n ++ [c]) = Some pc).
      { rewrite (param_at_snoc _ _ _ _ _ _ At Q1). auto. }
      destruct (param_at_valid _ _ _ _ (wf_tree _ _ (reachable_wf _ _ R1)) Ac) as (qc & Qc).
      apply (N qc). eapply at_reports; eauto. apply hempty_snoc. }
    unfold same_name in Sr. rewrite <- Sr in At2.
    destruct (locate_below _ n' r' _ _ _ _ _ At2 Q2 L (pe_read _ _ Pe Rd) Hn) as (e & Lc & De).
    destruct (request_inv env _ _ _ _ _ _ _ _ _ (reachable_wf _ _ R2) Rq' (after_eq _ _ _))
      as [(s3 & e' & L3 & _ & X)|(s3 & p3 & L3 & _)]; [|congruence].
    rewrite X. assert (e' = e) by congruence; subst. destruct De; subst; auto.
Qed.

(** ** C05 *)

Lemma views_evo s s' vi v : evo s s' -> nth_error (st_views s) vi = Some v ->
  exists v', nth_error (st_views s') vi = Some v' /\ vevo v v'.
Proof. intros E V. apply (ev_views _ _ E); auto. Qed.

Lemma C05_names s o n r t u tp vi : reachable env s -> requests o n r t u tp ->
  answer env o s = Ok (VView vi) -> forall h,
  view_name (run env (after env o s) h) vi = Some (hcomponents n) /\
  view_region (run env (after env o s) h) vi = Some (hcomponents r).
Proof.
  intros R Rq A h.
  destruct (request_ok_reports env _ _ _ _ _ _ _ _ (reachable_wf _ _ R) Rq A)
    as (p & q1 & At & Q1 & T & Rd & v & V & Pb & Vp & _).
  pose proof (evo_run env h (after env o s)) as Ev.
  destruct (views_evo _ _ _ _ Ev V) as (v' & V' & Ve).
  unfold view_name, view_region. rewrite V', (ve_param _ _ Ve), Vp.
  assert (W2 : wft (run env (after env o s) h)).
  { apply reachable_wf with (env := env). apply reachable_run, reachable_after; auto. }
  apply and_comm. apply (param_at_names _ W2). eapply param_at_evo; eauto.
Qed.

Lemma C05_same s o1 n1 r1 t1 u1 tp1 v1 h o2 n2 r2 t2 u2 tp2 v2 :
  reachable env s ->
  requests o1 n1 r1 t1 u1 tp1 -> answer env o1 s = Ok (VView v1) ->
  let s1 := run env (after env o1 s) h in
  requests o2 n2 r2 t2 u2 tp2 -> answer env o2 s1 = Ok (VView v2) ->
  let s2 := after env o2 s1 in
  (exists p, views s2 v1 p /\ views s2 v2 p) <-> same_name n1 n2 /\ same_name r1 r2.
Proof.
  intros R Rq1 A1 s1 Rq2 A2 s2.
  assert (R1 : reachable env s1) by (apply reachable_run, reachable_after; auto).
  destruct (request_ok_reports env _ _ _ _ _ _ _ _ (reachable_wf _ _ R) Rq1 A1)
    as (p1 & q1 & At1 & Q1 & _ & _ & w1 & V1 & Pb1 & Vp1 & _).
  destruct (request_ok_reports env _ _ _ _ _ _ _ _ (reachable_wf _ _ R1) Rq2 A2)
    as (p2 & q2 & At2 & Q2 & _ & _ & w2 & V2 & Pb2 & Vp2 & _). fold s2 in At2, Q2, V2.
  assert (Ev : evo (after env o1 s) s2).
  { eapply evo_trans; [apply evo_run|]. eapply evo_step. apply after_eq. }
  pose proof (param_at_evo _ _ _ _ _ Ev At1) as At1'.
  destruct (views_evo _ _ _ _ Ev V1) as (w1' & V1' & Ve1).
  assert (W2 : wft s2) by (apply reachable_wf with (env := env), reachable_after; auto).
  unfold same_name. split.
  - intros (p & (x1 & X1 & _ & Y1) & (x2 & X2 & _ & Y2)).
    assert (p = p1) by (rewrite V1' in X1; inversion X1; subst; rewrite (ve_param _ _ Ve1); auto).
    assert (p = p2) by (rewrite V2 in X2; inversion X2; subst; auto).
    subst p. subst p2. apply (param_at_names _ W2) in At1', At2.
    destruct At1', At2. split; congruence.
  - intros [Sn Sr]. rewrite Sn, Sr in At1'. assert (p1 = p2) by congruence. exists p1. split.
    + exists w1'. rewrite (ve_public _ _ Ve1), (ve_param _ _ Ve1). auto.
    + exists w2. subst; auto.
Qed.

(** ** C06 *)

Lemma asks_is o n r : is_request o = Some (n, r) -> asks o n r.
Proof. destruct o; simpl; intros H; inversion H; auto. Qed.

Lemma C06_pure s n r : after env (OInfo n r) s = s.
Proof. unfold after. cbn [step]. destruct (info s n r); reflexivity. Qed.
Lemma C06_created root h : forall n r q,
  reports env (run env (init_state root) h) n r q ->
  exists h1 o h2 n' r' rest, h = h1 ++ o :: h2 /\
    (forall q0, ~ reports env (run env (init_state root) h1) n r q0) /\
    asks o n' r' /\ hcomponents n' = hcomponents n ++ rest /\ same_name r' r.
Proof.
  induction h as [|o h] using rev_ind; intros n r q H.
  { simpl in H. destruct H as (p & _ & Q). simpl in Q. destruct p; discriminate. }
  set (s := run env (init_state root) h) in *.
  assert (Rs : reachable env s) by (exists root, h; reflexivity).
  pose proof (reachable_wf _ _ Rs) as W.
  rewrite run_app in H. fold s in H. change (run env s [o]) with (after env o s) in H.
  pose proof (evo_step env _ _ _ _ (after_eq env o s)) as Ev.
  assert (W' : wf env (after env o s)) by (eapply wf_step; [exact W|apply after_eq]).
  pose proof (reports_at _ _ _ _ _ H) as (p & E & A & Q).
  destruct (nth_error (st_params s) p) as [q0|] eqn:Q0.
  - assert (H0 : reports env s n r q0).
    { eapply at_reports; eauto. eapply at_back; eauto; [apply W|apply W']. }
    destruct (IHh _ _ _ H0) as (h1 & o1 & h2 & n' & r' & rest & Eh & X).
    exists h1, o1, (h2 ++ [o]), n', r', rest. rewrite Eh, <- app_assoc. split; auto.
  - destruct (created_step env _ _ _ _ _ _ W (after_eq env o s) Q) as [[q0 Q0']|(n' & r' & l1 & l2 & Rq & Hn & A')]; [congruence|].
    apply (param_at_names _ (wf_tree _ _ W')) in A, A'. destruct A as [N1 N2], A' as [N3 N4].
    exists h, o, [], n', r', l2. split; auto. split.
    { intros q1 H1. apply reports_at in H1. destruct H1 as (p1 & _ & A1 & Q1). fold s in A1, Q1.
      pose proof (param_at_evo _ _ _ _ _ Ev A1) as A1'. apply (param_at_names _ (wf_tree _ _ W')) in A1'.
      assert (p1 = p); [|subst; congruence].
      assert (X1 : param_at (after env o s) (hcomponents r) (hcomponents n) = Some p1) by (apply (param_at_names _ (wf_tree _ _ W')); auto).
      assert (X2 : param_at (after env o s) (hcomponents r) (hcomponents n) = Some p) by (apply (param_at_names _ (wf_tree _ _ W')); auto).
      congruence. }
    split; [apply asks_is; auto|]. unfold same_name. split; congruence.
Qed.

Lemma param_at_prefix s rs l m p : l <> [] -> param_at s rs (l ++ m) = Some p ->
  exists p', param_at s rs l = Some p'.
Proof.
  unfold param_at. destruct (region_at s rs) as [rr|]; [|discriminate].
  destruct l as [|n0 l]; [congruence|]. simpl. intros _.
  destruct (nth_error (st_regions s) rr); [|discriminate].
  destruct (alookup n0 (r_params r)) as [p0|]; [|discriminate].
  rewrite get_subparameter_app. destruct (get_subparameter s p0 l); [eauto|discriminate].
Qed.

Lemma C06_exists s o n r t u tp vi n0 r0 rest : reachable env s -> requests o n r t u tp ->
  answer env o s = Ok (VView vi) ->
  hcomponents n = hcomponents n0 ++ rest -> same_name r r0 -> hempty n0 = false ->
  forall h, exists q, reports env (run env (after env o s) h) n0 r0 q.
Proof.
  intros R Rq A Hn Sr E h.
  destruct (request_ok_reports env _ _ _ _ _ _ _ _ (reachable_wf _ _ R) Rq A)
    as (p & q1 & At & _). unfold same_name in Sr. rewrite Hn, Sr in At.
  apply param_at_prefix in At.
  2: { destruct n0; simpl in *; [apply split_nonempty|destruct l; congruence]. }
  destruct At as (p' & At). assert (R1 : reachable env (after env o s)) by (apply reachable_after; auto).
  destruct (param_at_valid _ _ _ _ (wf_tree _ _ (reachable_wf _ _ R1)) At) as (q & Q).
  assert (H : reports env (after env o s) n0 r0 q) by (eapply at_reports; eauto).
  destruct (reports_run env _ _ _ _ h H) as (q' & H' & _). eauto.
Qed.

Lemma C06_describes s n r p : reachable env s -> answer env (OInfo n r) s = Ok (VInfo (Some p)) ->
  info_name s p = Some (hcomponents n) /\ info_region s p = Some (hcomponents r).
Proof.
  intros R A. unfold answer in A. cbn [step] in A.
  destruct (info s n r) as [y|e] eqn:I; simpl in A; [|discriminate]. inversion A; subst.
  apply info_at in I. destruct I as [_ I]. apply and_comm.
  apply (param_at_names _ (wf_tree _ _ (reachable_wf _ _ R))). auto.
Qed.

Lemma C06_total s n r : reachable env s -> hempty n = false -> hcomponents r <> [] ->
  exists x, answer env (OInfo n r) s = Ok (VInfo x).
Proof.
  intros R E Hr. pose proof (wf_tree _ _ (reachable_wf _ _ R)) as W.
  unfold answer. cbn [step]. unfold info, get_region.
  destruct (hcomponents r) as [|n0 rest]; [congruence|].
  destruct (wt_root _ W) as (rt & R1 & R2). rewrite R1.
  destruct (String.eqb n0 (r_name rt)); simpl; [|eauto].
  destruct (get_subregion s 0 rest) as [rr|] eqn:G; simpl; [|eauto].
  unfold get_parameter. rewrite E.
  assert (N : hcomponents n <> []).
  { destruct n; simpl in *; [apply split_nonempty|destruct l; congruence]. }
  destruct (hcomponents n) as [|m l]; [congruence|].
  assert (exists rg, nth_error (st_regions s) rr = Some rg).
  { clear - G W R1. destruct rest as [|x rest] using rev_ind.
    - simpl in G. inversion G; subst. eauto.
    - rewrite get_subregion_app in G. destruct (get_subregion s 0 rest); [|discriminate].
      simpl in G. destruct (nth_error (st_regions s) n) eqn:E; [|discriminate].
      destruct (alookup x (r_children r)) eqn:L; [|discriminate]. inversion G; subst.
      apply alookup_In in L. destruct (wt_rchild s W _ _ _ _ E L) as (_ & cg & C1 & _). eauto. }
  destruct H as [rg ->]. destruct (alookup m (r_params rg)); simpl; eauto.
Qed.

End P.
