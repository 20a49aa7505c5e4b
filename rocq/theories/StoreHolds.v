(** What a parameter set holds, and how calls for new parameters extend it (for C54). *)
From Coq Require Import String List Arith Lia Bool ZArith Reals.
From Verif Require Import Base ListFacts Units TimeModel Core CoreEvo CoreTree CoreNames CoreInv Spec_Core CoreReq CoreP1 CoreP2.
Import ListNotations.
Local Open Scope string_scope.
Local Open Scope list_scope.

Record entry := mkEntry {
  e_region : list string; e_name : list string; e_type : ptype; e_unit : option string;
  e_time : option timepoints; e_data : pdata }.

Definition is_entry (q : param) (e : entry) : Prop :=
  p_type q = Some (e_type e) /\ p_unit q = e_unit e /\ p_time q = e_time e /\ p_data q = Some (e_data e) /\
  p_read q = true /\ p_written q = true /\ p_children q = [].

Record holds (env : uenv) (s : state) (E : list entry) : Prop := {
  h_wf : wf env s;
  h_root : region_at s ["World"] = Some 0;
  h_in : forall e, In e E -> exists p q, param_at s (e_region e) (e_name e) = Some p /\
    nth_error (st_params s) p = Some q /\ is_entry q e;
  h_all : forall rs l p, param_at s rs l = Some p -> exists e rest, In e E /\ e_region e = rs /\ e_name e = l ++ rest;
  h_typed : forall p q, nth_error (st_params s) p = Some q -> p_type q <> None ->
    exists e, In e E /\ param_at s (e_region e) (e_name e) = Some p }.

(** Names that do not lie on top of each other. *)
Definition prefix (a b : list string) : Prop := exists m, b = a ++ m.
Definition apart (e : entry) (E : list entry) : Prop :=
  forall e', In e' E -> e_region e' = e_region e -> ~ prefix (e_name e) (e_name e') /\ ~ prefix (e_name e') (e_name e).

Lemma holds_init env : holds env (init_state "World") [].
Proof.
  constructor; try easy.
  - apply wf_init.
  - intros rs l p H. unfold param_at, region_at in H. destruct rs as [|a rs]; [easy|].
    cbn in H. destruct (String.eqb a "World"); [|easy].
    destruct rs as [|b rs]; [|easy]. unfold param_in in H. destruct l; [easy|]. cbn in H. easy.
  - intros [|p] q H; discriminate.
Qed.

(** ** Locating a new parameter *)

Lemma subregions_total names : forall s r, wft s -> (exists rg, nth_error (st_regions s) r = Some rg) ->
  exists s' c, subregions s r names = (s', Ok c).
Proof.
  induction names as [|n names IH]; intros s r W [rg R]; [exists s, r; reflexivity|].
  cbn [subregions]. destruct (get_or_create_subregion s r n) as [s1 x] eqn:G.
  pose proof (wft_subregion _ _ _ _ _ W G) as W1.
  assert (X : exists c, x = Ok c).
  { unfold get_or_create_subregion in G. rewrite R in G. destruct (alookup n (r_children rg)).
    - inversion G; subst; eauto.
    - rewrite (wt_agg _ W _ _ R) in G. inversion G; subst; eauto. }
  destruct X as [c ->]. apply (IH s1 c W1).
  apply subregion_created in G. destruct G as (rg1 & R1 & A).
  apply alookup_In in A. destruct (wt_rchild _ W1 _ _ _ _ R1 A) as (_ & cg & C & _). eauto.
Qed.

Lemma sub_ok names : forall s p, wft s -> (exists q, nth_error (st_params s) p = Some q) ->
  (forall l m p' q', names = l ++ m -> m <> [] -> get_subparameter s p l = Some p' ->
     nth_error (st_params s) p' = Some q' -> p_read q' = false /\ p_written q' = false) ->
  exists s' c, subparameters s p names = (s', Ok c).
Proof.
  induction names as [|n names IH]; intros s p W [q Q] F; [exists s, p; reflexivity|].
  cbn [subparameters]. unfold get_or_create_child_parameter. rewrite Q.
  destruct (F [] (n :: names) p q eq_refl) as [F1 F2]; [discriminate|reflexivity|exact Q|].
  destruct (alookup n (p_children q)) as [c|] eqn:A.
  - apply IH; [exact W| |].
    + apply alookup_In in A. destruct (wt_pchild _ W _ _ _ _ Q A) as (_ & cq & C & _). eauto.
    + intros l m p' q' E M G. apply (F (n :: l) m p' q'); [now rewrite E|exact M|].
      cbn [get_subparameter]. now rewrite Q, A.
  - rewrite F1, F2.
    set (s1 := mkState _ _ _).
    assert (G : get_or_create_child_parameter s p n = (s1, Ok (length (st_params s)))).
    { unfold get_or_create_child_parameter. now rewrite Q, A, F1, F2. }
    pose proof (wft_child_parameter _ _ _ _ _ W G) as W1.
    assert (N : nth_error (st_params s1) (length (st_params s)) = Some (new_param n (Some p) (p_region q))).
    { unfold s1. cbn [st_params]. rewrite nth_error_app2 by (rewrite upd_length; lia).
      now rewrite upd_length, Nat.sub_diag. }
    apply IH; [exact W1|eauto|].
    intros l m p' q' E M S Q'. destruct l as [|a l].
    + cbn in S. injection S as <-. rewrite N in Q'. injection Q' as <-. auto.
    + cbn [get_subparameter] in S. rewrite N in S. discriminate.
Qed.

Lemma locate_ok s n r rest : wft s -> region_at s ["World"] = Some 0 -> hcomponents r = "World" :: rest ->
  hcomponents n <> [] ->
  (forall l m p q, hcomponents n = l ++ m -> m <> [] -> param_at s (hcomponents r) l = Some p ->
     nth_error (st_params s) p = Some q -> p_read q = false /\ p_written q = false) ->
  exists s1 p, locate s n r = (s1, Ok p).
Proof.
  intros W R0 HR HN F. unfold locate.
  assert (G : exists s1 x, get_or_create_region s r = (s1, Ok x)).
  { unfold get_or_create_region. rewrite HR. unfold region_at in R0.
    destruct (nth_error (st_regions s) 0) as [rg|] eqn:E; [|discriminate].
    destruct (String.eqb "World" (r_name rg)) eqn:N; [|discriminate].
    apply subregions_total; [exact W|eauto]. }
  destruct G as (s1 & x & G). rewrite G.
  pose proof (wft_region _ _ _ _ W G) as W1. pose proof (evo_region _ _ _ _ G) as Ev.
  pose proof (region_params_same _ _ _ _ G) as SP.
  pose proof (get_or_create_region_created _ _ _ _ G) as RA.
  assert (F1 : forall l m p q, hcomponents n = l ++ m -> m <> [] -> param_in s1 x l = Some p ->
     nth_error (st_params s1) p = Some q -> p_read q = false /\ p_written q = false).
  { intros l m p q E M P Q. rewrite SP in Q. apply (F l m p q E M); [|exact Q].
    apply (at_back s s1 _ _ p q W W1 Ev); [|exact Q]. unfold param_at. now rewrite RA. }
  unfold get_or_create_parameter. destruct (hcomponents n) as [|a names] eqn:HA; [contradiction|].
  unfold get_or_create_root_parameter.
  assert (Rx : exists rg, nth_error (st_regions s1) x = Some rg).
  { pose proof (path_rfn s1 W1 _ _ RA) as P. rewrite rfn_S in P.
    destruct (nth_error (st_regions s1) x); [eauto|discriminate]. }
  destruct Rx as [rg Rg]. rewrite Rg.
  destruct (alookup a (r_params rg)) as [p|] eqn:A.
  - apply sub_ok; [exact W1| |].
    + apply alookup_In in A. destruct (wt_rparam _ W1 _ _ _ _ Rg A) as (q & Q & _). eauto.
    + intros l m p' q' E M S Q'. apply (F1 (a :: l) m p' q'); [now rewrite E|exact M| |exact Q'].
      unfold param_in. now rewrite Rg, A.
  - set (s2 := mkState _ _ _).
    assert (G2 : get_or_create_root_parameter s1 x a = (s2, Ok (length (st_params s1)))).
    { unfold get_or_create_root_parameter. now rewrite Rg, A. }
    pose proof (wft_root_parameter _ _ _ _ _ W1 G2) as W2.
    assert (N : nth_error (st_params s2) (length (st_params s1)) = Some (new_param a None x)).
    { unfold s2. cbn [st_params]. rewrite nth_error_app2 by lia. now rewrite Nat.sub_diag. }
    apply sub_ok; [exact W2|eauto|].
    intros l m p' q' E M S Q'. destruct l as [|b l].
    + cbn in S. injection S as <-. rewrite N in Q'. injection Q' as <-. auto.
    + cbn [get_subparameter] in S. rewrite N in S. discriminate.
Qed.

(** A new parameter, away from those that are held. *)
Lemma locate_new env s E e n r rest : holds env s E -> apart e E -> hcomponents r = "World" :: rest ->
  hcomponents r = e_region e -> hcomponents n = e_name e -> e_name e <> [] ->
  exists s1 p q, locate s n r = (s1, Ok p) /\ nth_error (st_params s1) p = Some q /\
    p_type q = None /\ p_children q = [] /\ wf env s1 /\ evo s s1 /\
    param_at s1 (e_region e) (e_name e) = Some p /\
    (forall rs l i, param_at s1 rs l = Some i -> param_at s rs l = Some i \/ rs = e_region e /\ prefix l (e_name e)) /\
    (forall i q', nth_error (st_params s1) i = Some q' -> p_type q' <> None -> nth_error (st_params s) i = Some q') /\
    (forall i q', nth_error (st_params s) i = Some q' -> p_read q' = true -> nth_error (st_params s1) i = Some q').
Proof.
  intros H A HR ER EN NE. pose proof (h_wf _ _ _ H) as W. pose proof (wf_tree _ _ W) as WT.
  assert (NOT : forall m p, param_at s (e_region e) (e_name e ++ m) = Some p -> False).
  { intros m p P. destruct (h_all _ _ _ H _ _ _ P) as (e' & m' & I & R' & N').
    apply (proj1 (A e' I R')). exists (m ++ m'). now rewrite app_assoc. }
  destruct (locate_ok s n r rest WT (h_root _ _ _ H) HR) as (s1 & p & L); [congruence| |].
  { intros l m p q En M P Q. rewrite ER in P.
    assert (T : p_type q = None).
    { destruct (p_type q) eqn:T; [|reflexivity].
      destruct (h_typed _ _ _ H _ _ Q) as (e' & I & P'); [congruence|].
      apply (param_at_names s WT) in P, P'. destruct P as [P1 P2], P' as [P1' P2'].
      exfalso. apply (proj2 (A e' I ltac:(congruence))). exists m. congruence. }
    pose proof (pi_untyped _ (wf_params _ _ W _ _ Q) T). tauto. }
  pose proof (wf_locate env _ _ _ _ _ W L) as W1. pose proof (evo_locate _ _ _ _ _ L) as Ev.
  pose proof (locate_created _ _ _ _ _ L) as P. rewrite ER, EN in P.
  destruct (param_at_valid _ _ _ _ (wf_tree _ _ W1) P) as [q Q].
  assert (OLD : forall rs l i, param_at s1 rs l = Some i -> param_at s rs l = Some i \/ rs = e_region e /\ prefix l (e_name e)).
  { intros rs l i X. destruct (param_at_valid _ _ _ _ (wf_tree _ _ W1) X) as [qi Qi].
    destruct (locate_prefix _ _ _ _ _ i qi L Qi) as [[q0 Q0]|(l1 & l2 & E1 & E2)].
    - left. eapply (at_back s s1); eauto using wf_tree.
    - right. apply (param_at_names s1 (wf_tree _ _ W1)) in X, E2. destruct X as [X1 X2], E2 as [Y1 Y2].
      split; [congruence|]. exists l2. congruence. }
  assert (TY : forall i q', nth_error (st_params s1) i = Some q' -> p_type q' <> None -> nth_error (st_params s) i = Some q').
  { intros i q' Q' T. destruct (locate_untyped _ _ _ _ _ i q' L Q' T) as (q0 & Q0 & T0 & _).
    destruct (h_typed _ _ _ H _ _ Q0) as (e' & I & P'); [congruence|].
    destruct (h_in _ _ _ H e' I) as (p' & q1 & P1 & Q1 & _ & _ & _ & _ & RD & _).
    assert (p' = i) by congruence. subst p'. assert (q1 = q0) by congruence. subst q1.
    pose proof (locate_keeps _ _ _ _ _ i q0 L Q0 (or_introl RD)) as K. congruence. }
  exists s1, p, q. repeat (split; [assumption|]).
  assert (T : p_type q = None).
  { destruct (p_type q) eqn:T; [|reflexivity]. exfalso.
    assert (Q0 : nth_error (st_params s) p = Some q) by (apply TY; congruence).
    apply (NOT [] p). rewrite app_nil_r. eapply (at_back s s1); eauto using wf_tree. }
  split; [exact T|]. split.
  { destruct (p_children q) as [|[c i] cs] eqn:C; [reflexivity|]. exfalso.
    assert (X : param_at s1 (e_region e) (e_name e ++ [c]) = Some i).
    { rewrite (param_at_snoc s1 _ _ c p q P Q), C. cbn. now rewrite String.eqb_refl. }
    destruct (OLD _ _ _ X) as [Y|[_ [m Y]]]; [now apply (NOT [c] i)|].
    apply (f_equal (@length string)) in Y. rewrite !app_length in Y. cbn in Y. lia. }
  repeat (split; [assumption|]).
  intros i q' Q' RD. exact (locate_keeps _ _ _ _ _ i q' L Q' (or_introl RD)).
Qed.

(** Only the content of cells changes: paths stay. *)
Definition same_shape (s s' : state) : Prop :=
  st_regions s' = st_regions s /\
  forall i, option_map p_children (nth_error (st_params s') i) = option_map p_children (nth_error (st_params s) i).

Lemma shape_sub s s' l : same_shape s s' -> forall p, get_subparameter s' p l = get_subparameter s p l.
Proof.
  intros [_ C]. induction l as [|a l IH]; intros p; [reflexivity|]. cbn [get_subparameter].
  specialize (C p). destruct (nth_error (st_params s') p), (nth_error (st_params s) p); try discriminate; [|reflexivity].
  cbn in C. injection C as ->. destruct (alookup a (p_children p1)); [apply IH|reflexivity].
Qed.
Lemma shape_region s s' l : same_shape s s' -> forall r, get_subregion s' r l = get_subregion s r l.
Proof.
  intros [R _]. induction l as [|a l IH]; intros r; [reflexivity|]. cbn [get_subregion]. rewrite R.
  destruct (nth_error (st_regions s) r); [|reflexivity]. destruct (alookup a (r_children r0)); [apply IH|reflexivity].
Qed.
Lemma shape_region_at s s' rs : same_shape s s' -> region_at s' rs = region_at s rs.
Proof.
  intros S. unfold region_at. destruct rs as [|a rs]; [reflexivity|]. rewrite (proj1 S).
  destruct (nth_error (st_regions s) 0); [|reflexivity]. destruct (String.eqb a (r_name r)); [|reflexivity].
  now apply shape_region.
Qed.
Lemma shape_at s s' rs l : same_shape s s' -> param_at s' rs l = param_at s rs l.
Proof.
  intros S. unfold param_at. rewrite (shape_region_at _ _ _ S). destruct (region_at s rs) as [r|]; [|reflexivity].
  unfold param_in. destruct l as [|a l]; [reflexivity|]. rewrite (proj1 S).
  destruct (nth_error (st_regions s) r); [|reflexivity]. destruct (alookup a (r_params r0)); [|reflexivity].
  now apply shape_sub.
Qed.

Lemma holds_shape env s s' E : holds env s E -> wf env s' -> st_regions s' = st_regions s ->
  st_params s' = st_params s -> holds env s' E.
Proof.
  intros H W R P. assert (S : same_shape s s') by (split; [exact R|intros i; now rewrite P]).
  constructor.
  - exact W.
  - rewrite (shape_region_at _ _ _ S). apply H.
  - intros e I. rewrite (shape_at _ _ _ _ S), P. now apply H.
  - intros rs l p. rewrite (shape_at _ _ _ _ S). now apply H.
  - intros p q. rewrite P. intros Q T. destruct (h_typed _ _ _ H _ _ Q T) as (e & I & X).
    exists e. now rewrite (shape_at _ _ _ _ S).
Qed.

Lemma holds_add env s E e n r rest s1 p q s' qf :
  holds env s E -> apart e E -> hcomponents r = "World" :: rest ->
  hcomponents r = e_region e -> hcomponents n = e_name e -> e_name e <> [] ->
  locate s n r = (s1, Ok p) -> nth_error (st_params s1) p = Some q ->
  wf env s' -> st_regions s' = st_regions s1 -> st_params s' = upd (st_params s1) p qf ->
  p_children qf = p_children q -> is_entry qf e -> holds env s' (E ++ [e]).
Proof.
  intros H A HR ER EN NE L Q W' R' P' CH IE.
  destruct (locate_new env s E e n r rest H A HR ER EN NE)
    as (s1' & p' & q' & L' & Q' & T & C & W1 & Ev & PA & OLD & TY & KEEP).
  rewrite L in L'. injection L' as <- <-. rewrite Q in Q'. injection Q' as <-.
  pose proof (nth_lt _ _ _ Q) as LT.
  assert (S : same_shape s1 s').
  { split; [exact R'|]. intros i. rewrite P', nth_upd. destruct (Nat.eqb_spec p i) as [<-|]; [|reflexivity].
    rewrite Q. cbn. now rewrite CH. }
  constructor.
  - exact W'.
  - rewrite (shape_region_at _ _ _ S). eapply region_at_evo; [exact Ev|apply H].
  - intros e' I. apply in_app_iff in I. destruct I as [I|[<-|[]]].
    + destruct (h_in _ _ _ H e' I) as (i & qi & Pi & Qi & IEi).
      pose proof IEi as (_ & _ & _ & _ & RD & _).
      exists i, qi. rewrite (shape_at _ _ _ _ S). split; [eapply param_at_evo; eauto|]. split; [|exact IEi].
      rewrite P', nth_upd_neq; [now apply KEEP|]. intros ->.
      pose proof (KEEP _ _ Qi RD) as K. rewrite Q in K. injection K as ->. destruct IEi as [TT _]. congruence.
    + exists p, qf. rewrite (shape_at _ _ _ _ S). split; [exact PA|]. split; [|exact IE].
      rewrite P'. now apply nth_upd_eq.
  - intros rs l i X. rewrite (shape_at _ _ _ _ S) in X. destruct (OLD _ _ _ X) as [Y|[-> [m Y]]].
    + destruct (h_all _ _ _ H _ _ _ Y) as (e' & m & I & Z1 & Z2). exists e', m.
      split; [apply in_app_iff; now left|]. auto.
    + exists e, m. split; [apply in_app_iff; right; now left|]. auto.
  - intros i qi Qi Ti. rewrite P' in Qi. destruct (Nat.eq_dec i p) as [->|N].
    + exists e. split; [apply in_app_iff; right; now left|]. now rewrite (shape_at _ _ _ _ S).
    + rewrite nth_upd_neq in Qi by auto. pose proof (TY _ _ Qi Ti) as Q0.
      destruct (h_typed _ _ _ H _ _ Q0 Ti) as (e' & I & X). exists e'.
      split; [apply in_app_iff; now left|]. rewrite (shape_at _ _ _ _ S). eapply param_at_evo; eauto.
Qed.
