(** Proofs of C11, C12, C13. *)
From Coq Require Import String List Arith Lia Bool ZArith Reals Lra.
From Verif Require Import Base ListFacts Units TimeModel Core CoreEvo CoreTree CoreNames CoreInv
  CoreStep Spec_Core CoreReq CoreP1 CoreP2 CoreLeaves.
Import ListNotations.

(** ** C11: reads depend only on the view, its parameter, and its child views *)

Definition same_at (s s' : state) (c : nat) : Prop :=
  nth_error (st_views s') c = nth_error (st_views s) c /\
  forall v, nth_error (st_views s) c = Some v ->
    nth_error (st_params s') (v_param v) = nth_error (st_params s) (v_param v).

Lemma leaf_get_same s s' c : same_at s s' c -> scalar_leaf_get s' c = scalar_leaf_get s c.
Proof.
  intros [V P]. unfold scalar_leaf_get. rewrite V. destruct (nth_error (st_views s) c) as [v|] eqn:E; auto.
  rewrite (P v); auto.
Qed.
Lemma rmap_ext {A B} (f g : A -> res B) l : (forall a, In a l -> f a = g a) -> rmap f l = rmap g l.
Proof.
  induction l; simpl; auto. intros H. rewrite (H a), IHl; auto.
Qed.

Lemma leaf_read_same s s' c : same_at s s' c ->
  match read_with leaf_values s c, read_with leaf_values s' c with
  | (t, x), (t', x') => x = x' /\ st_params t = st_params s /\ st_params t' = st_params s' /\
     ((t = s /\ t' = s') \/ exists v v', nth_error (st_views s) c = Some v /\ v_param v' = v_param v /\
        t = set_view s c v' /\ t' = set_view s' c v')
  end.
Proof.
  intros [V P]. unfold read_with, leaf_values. rewrite V.
  destruct (nth_error (st_views s) c) as [v|] eqn:E; [|auto 10].
  rewrite (P v) by auto. destruct (nth_error (st_params s) (v_param v)) as [q|] eqn:Q; [|auto 10].
  assert (D : forall w, v_param w = v_param v -> (set_view s c w = s /\ set_view s' c w = s') \/
    exists v0 v', Some v = Some v0 /\ v_param v' = v_param v0 /\ set_view s c w = set_view s c v' /\
      set_view s' c w = set_view s' c v').
  { intros w X. right. exists v, w. auto. }
  destruct (v_data v).
  - destruct (v_version v); [|auto 10]. destruct (_ =? _); [auto 10|].
    destruct (has_children q); [auto 10|]. destruct (ts_own v q); [|auto 10].
    destruct (a_int a); [auto 10|].
    split; [auto|split; [auto|split; [auto|]]]. apply D. auto.
  - destruct (has_children q); [auto 10|]. destruct (ts_own v q); [|auto 10].
    split; [auto|split; [auto|split; [auto|]]]. apply D. auto.
Qed.

Lemma same_at_set s s' c v v' d : same_at s s' c -> same_at s s' d ->
  nth_error (st_views s) c = Some v -> v_param v' = v_param v ->
  same_at (set_view s c v') (set_view s' c v') d.
Proof.
  intros [Vc Pc] [Vd Pd] V X. unfold same_at. simpl. destruct (Nat.eq_dec c d) as [->|N].
  - pose proof (nth_lt _ _ _ V) as L. rewrite !nth_upd_eq; auto.
    + split; auto. intros w E. inversion E; subst. rewrite X. apply Pc. auto.
    + rewrite V in Vc. apply nth_lt in Vc. auto.
  - rewrite !nth_upd_neq; auto.
Qed.

Lemma sum_children_same cs : forall s s' acc, (forall c, In c cs -> same_at s s' c) ->
  snd (sum_children s cs acc) = snd (sum_children s' cs acc).
Proof.
  induction cs as [|c cs]; simpl; intros s s' acc H; auto.
  pose proof (leaf_read_same s s' c (H c (or_introl eq_refl))) as X.
  destruct (read_with leaf_values s c) as [t x], (read_with leaf_values s' c) as [t' x'].
  destruct X as (<- & _ & _ & D).
  assert (H' : forall d, In d cs -> same_at t t' d).
  { intros d I. destruct D as [[-> ->]|(v & v' & V & Pv & -> & ->)]; auto.
    eapply same_at_set; eauto. }
  destruct x; auto. destruct acc as [ac|]; [destruct (arr_add ac a); auto|]; apply IHcs; auto.
Qed.

Definition same_view (s s' : state) (w : nat) : Prop :=
  same_at s s' w /\
  forall v cs c, nth_error (st_views s) w = Some v -> v_children v = Some cs -> In c cs -> same_at s s' c.

Lemma scalar_get_same s s' w v : same_view s s' w -> nth_error (st_views s) w = Some v ->
  scalar_get s' v = scalar_get s v.
Proof.
  intros [[V P] C] E. unfold scalar_get. rewrite (P v) by auto.
  destruct (nth_error (st_params s) (v_param v)); auto. destruct (has_children p); auto.
  destruct (v_children v) as [cs|] eqn:Cs; auto.
  rewrite (rmap_ext (scalar_leaf_get s') (scalar_leaf_get s)); auto.
  intros c I. apply leaf_get_same. eauto.
Qed.

Lemma ts_get_same s s' w : same_view s s' w -> snd (ts_get s' w) = snd (ts_get s w).
Proof.
  intros [[V P] C]. unfold ts_get, read_with. rewrite V.
  destruct (nth_error (st_views s) w) as [v|] eqn:E; auto. rewrite (P v) by auto.
  destruct (nth_error (st_params s) (v_param v)) as [q|] eqn:Q; auto.
  assert (G : snd (get_values s' v) = snd (get_values s v)).
  { unfold get_values. rewrite (P v), Q by auto. destruct (has_children q); auto.
    destruct (v_children v) as [cs|] eqn:Cs; auto. symmetry. apply sum_children_same. eauto. }
  destruct (get_values s' v) as [t' x'], (get_values s v) as [t x]. simpl in G. subst x'.
  destruct (v_data v).
  - destruct (v_version v); auto. destruct (_ =? _); auto. destruct x; auto. destruct (a_int a); auto.
  - destruct x; auto.
Qed.

Definition is_read (o : op) (w : nat) : Prop :=
  o = OGetValue w \/ o = OGetGeneric w \/ o = OGetValues w \/ (exists i, o = OHandleGet w i) \/
  o = OHandleArray w.

Section P.
Variable env : uenv.

Lemma read_same s s' w r : same_view s s' w -> is_read r w -> answer env r s' = answer env r s.
Proof.
  intros H R. pose proof H as [[V P] C]. unfold answer.
  assert (Sp : forall A (g : A -> val) (x y : state * res A), snd x = snd y -> snd (lift g x) = snd (lift g y)).
  { intros A g [a x] [b y] E. simpl in E. subst. destruct y; auto. }
  destruct R as [->|[->|[->|[[i ->]| ->]]]]; cbn [step]; unfold with_view; rewrite V;
    destruct (nth_error (st_views s) w) as [v|] eqn:E; auto; destruct (v_public v); auto;
    destruct (v_kind v); auto.
  - apply Sp. simpl. eapply scalar_get_same; eauto.
  - apply Sp. simpl. unfold generic_get. rewrite (P v); auto.
  - apply Sp. apply ts_get_same; auto.
  - destruct (v_data v); auto. pose proof (ts_get_same _ _ _ H) as G.
    destruct (ts_get s' w) as [t' x'], (ts_get s w) as [t x]. simpl in G. subst. destruct x; auto.
Qed.

Lemma below_names s p i np : wf env s -> info_name s p = Some np -> below s p i ->
  (exists rest, info_name s i = Some (np ++ rest)) /\ info_region s i = info_region s p.
Proof.
  intros W N B. pose proof (wf_tree _ _ W) as Wt. induction B as [|j c B [[rest IH] Rj] C].
  - split; auto. exists []. rewrite app_nil_r. auto.
  - destruct C as (q & n & Q & I). destruct (wt_pchild s Wt _ _ _ _ Q I) as (Lt & cq & Cq & Nm & Pa & Rg).
    split.
    + exists (rest ++ [p_name cq]). unfold info_name in *. rewrite pfn_S, Cq, Pa.
      destruct (pfn_total s Wt (length (st_params s)) j) as [l Hl]; [apply nth_lt in Q; lia|apply nth_lt in Q; lia|].
      rewrite (pfn_mono _ _ _ _ Hl) in IH. inversion IH; subst. rewrite Hl, app_assoc. auto.
    + rewrite <- Rj. unfold info_region. rewrite Cq, Q, Rg. auto.
Qed.

Lemma C11_proof s o vi w r : reachable env s -> write_target o = Some vi ->
  ~ (exists nw rest, view_name s w = Some nw /\ view_name s vi = Some (nw ++ rest) /\
       view_region s w = view_region s vi) ->
  is_read r w -> answer env r (after env o s) = answer env r s.
Proof.
  intros R T N Rd. pose proof (reachable_wf _ _ R) as W. pose proof (family_reachable _ _ R) as F.
  rewrite <- op_view_target in T.
  destruct (nth_error (st_views s) vi) as [v|] eqn:V.
  2: { unfold after. rewrite missing_noop with (vi := vi); auto. }
  destruct (v_public v) eqn:Pb.
  2: { unfold after. rewrite private_noop with (vi := vi) (v := v); auto. }
  pose proof (write_step env _ _ _ _ _ _ W T V (after_eq env o s)) as Ws.
  pose proof (evo_step env _ _ _ _ (after_eq env o s)) as Ev.
  destruct (nth_error (st_views s) w) as [u|] eqn:U.
  2: { assert (U' : nth_error (st_views (after env o s)) w = None).
       { apply nth_error_None. rewrite (ws_vlen _ _ _ _ _ Ws). apply nth_error_None; auto. }
       unfold answer. destruct Rd as [->|[->|[->|[[i ->]| ->]]]]; cbn [step]; unfold with_view; rewrite U, U'; auto. }
  destruct (v_public u) eqn:Pu.
  2: { destruct (ev_views _ _ Ev _ _ U) as (u' & U' & Ve). assert (Pu' : v_public u' = false) by (rewrite (ve_public _ _ Ve); auto).
       unfold answer. destruct Rd as [->|[->|[->|[[i ->]| ->]]]]; cbn [step]; unfold with_view; rewrite U, U', Pu, Pu'; auto. }
  apply read_same with (w := w); auto.
  assert (NB : ~ below s (v_param u) (v_param v)).
  { intros B. destruct (view_cell _ _ _ _ W U) as (qu & Qu & _).
    destruct (names_total s (wf_tree _ _ W) _ (nth_lt _ _ _ Qu)) as (ru & nu & Ru & Nu).
    destruct (below_names _ _ _ _ W Nu B) as ((rest & Nv) & Rg).
    apply N. exists nu, rest. unfold view_name, view_region. rewrite U, V. auto. }
  assert (X : forall c cv, nth_error (st_views s) c = Some cv -> below s (v_param u) (v_param cv) ->
    ~ touched vi v c -> same_at s (after env o s) c).
  { intros c cv Cv B Nt. split.
    - apply (ws_views _ _ _ _ _ Ws); auto.
    - intros cv' Cv'. assert (cv' = cv) by congruence; subst. apply (ws_params _ _ _ _ _ Ws).
      intros E. apply NB. rewrite <- E. auto. }
  assert (Wv : w <> vi) by (intros ->; apply NB; assert (u = v) by congruence; subst; constructor).
  split.
  - eapply X; eauto; [constructor|]. intros [E|(cs & Cs & I)]; [auto|].
    destruct (F _ _ _ V Cs) as (_ & _ & Fc). destruct (Fc _ I) as (cv & Cv & Pv & _). congruence.
  - intros u' cs c U' Cs I. assert (u' = u) by congruence; subst u'.
    destruct (F _ _ _ U Cs) as (_ & _ & Fc). destruct (Fc _ I) as (cv & Cv & Pv & B).
    eapply X; eauto. intros [E|(cs' & Cs' & I')]; [congruence|].
    apply Wv. eapply family_disjoint with (c := c); eauto.
Qed.

(** ** C12 *)

Lemma nsum_acc l : forall a, fold_left nadd l a = nadd a (total l).
Proof.
  induction l as [|a l IHl]; intros acc.
  - destruct acc; simpl; auto. rewrite Rplus_0_r. auto.
  - simpl. rewrite IHl. destruct acc as [x|], a as [y|], (total l) as [z|]; simpl; auto.
    rewrite Rplus_assoc. auto.
Qed.
Lemma nsum_total l : nsum l = total l.
Proof. unfold nsum. rewrite nsum_acc. destruct (total l); simpl; auto. rewrite Rplus_0_l. auto. Qed.

(** A parameter typed as scalar has been read from. *)
Lemma scalar_read root h : forall i q, nth_error (st_params (run env (init_state root) h)) i = Some q ->
  p_type q = Some SCALAR -> p_read q = true.
Proof.
  induction h as [|o h] using rev_ind; intros i q Q T.
  { destruct i; discriminate. }
  set (s := run env (init_state root) h) in *.
  assert (W : wf env s) by apply wf_reachable.
  rewrite run_app in Q. fold s in Q. change (run env s [o]) with (after env o s) in Q.
  pose proof (evo_step env _ _ _ _ (after_eq env o s)) as Ev.
  assert (Old : forall q0, nth_error (st_params s) i = Some q0 -> p_type q0 <> None -> p_read q = true).
  { intros q0 Q0 T0. destruct (ev_params _ _ Ev _ _ Q0) as (q1 & Q1 & Pe).
    assert (q1 = q) by congruence; subst q1. destruct (pe_type _ _ Pe T0) as (E & _).
    apply (pe_read _ _ Pe). eapply IHh; eauto. congruence. }
  assert (D : (exists q0, nth_error (st_params s) i = Some q0 /\ p_type q0 <> None) \/
              (forall q0, nth_error (st_params s) i = Some q0 -> p_type q0 = None)).
  { destruct (nth_error (st_params s) i) as [q0|]; [|right; intros; discriminate].
    destruct (p_type q0) eqn:T0; [left; exists q0; split; [auto|congruence]|].
    right. intros q1 E. inversion E; subst; auto. }
  destruct D as [(q0 & Q0 & T0)|U]; [eapply Old; eauto|].
  assert (T' : p_type q <> None) by congruence.
  pose proof (after_eq env o s) as St.
  destruct (typing_step env _ _ _ _ _ _ W St Q T' U) as (n & r & t & u & tp & Rq & _ & Tq & _).
  assert (t = SCALAR) by congruence. subst t.
  destruct (request_inv env _ _ _ _ _ _ _ _ _ W Rq St) as [(s1 & e & L & E & X)|(s1 & p & L & K)].
  { rewrite E in Q. destruct (locate_untyped _ _ _ _ _ _ _ L Q T') as (q0 & Q0 & T0 & _).
    apply U in Q0. congruence. }
  assert (C : forall s2 x, on_param s1 p (fun q => attempt_read q SCALAR u tp) = (s2, x) ->
    nth_error (st_params s2) i = Some q -> p_read q = true).
  { clear K. intros s2 x O Q2. unfold on_param in O.
    destruct (nth_error (st_params s1) p) as [q1|] eqn:Q1.
    2: { inversion O; subst. destruct (locate_untyped _ _ _ _ _ _ _ L Q2 T') as (q0 & Q0 & T0 & _).
         apply U in Q0. congruence. }
    destruct (attempt_read q1 SCALAR u tp) as [q1' y] eqn:A. inversion O; subst. simpl in Q2.
    destruct (Nat.eq_dec i p) as [->|N].
    - rewrite nth_upd_eq in Q2 by (eapply nth_lt; eauto). inversion Q2; subst.
      unfold attempt_read in A. destruct (p_type q1) eqn:T1.
      + destruct (ptype_eqb p0 SCALAR); inversion A; subst; auto.
        assert (T1' : p_type q <> None) by congruence.
        destruct (locate_untyped _ _ _ _ _ _ _ L Q1 T1') as (q0 & Q0 & T0 & _). apply U in Q0. congruence.
      + inversion A; subst. auto.
    - rewrite nth_upd_neq in Q2 by auto.
      destruct (locate_untyped _ _ _ _ _ _ _ L Q2 T') as (q0 & Q0 & T0 & _). apply U in Q0. congruence. }
  destruct K as [(e & O & X)|(s2 & O & Ps & _)].
  - eapply C; eauto.
  - eapply C; eauto. rewrite <- Ps. auto.
Qed.

(** Reading one leaf view in [s2]. *)
Definition leaf_result (s2 : state) (u : string) (c i : nat) : Prop :=
  exists q y, nth_error (st_params s2) i = Some q /\
    scalar_leaf_get s2 c = (if p_written q then Ok y else Err EParameterEmpty) /\
    (p_written q = true -> exists w x, holds s2 i w x /\ same_num env w x u y).

Lemma leaf_results_empty s2 u cs ls : Forall2 (leaf_result s2 u) cs ls ->
  (exists i q, In i ls /\ nth_error (st_params s2) i = Some q /\ p_written q = false) ->
  rmap (scalar_leaf_get s2) cs = Err EParameterEmpty.
Proof.
  induction 1 as [|c i cs ls (q & y & Q & E & _) H IH]; intros (j & qj & I & Qj & Wj); [destruct I|].
  cbn [rmap]. rewrite E. destruct (p_written q) eqn:Wq; auto.
  destruct I as [->|I]; [congruence|]. rewrite IH; eauto.
Qed.
Lemma leaf_results_all s2 u cs ls : Forall2 (leaf_result s2 u) cs ls ->
  (forall i q, In i ls -> nth_error (st_params s2) i = Some q -> p_written q = true) ->
  exists ys, Forall2 (fun i y => exists w x, holds s2 i w x /\ same_num env w x u y) ls ys /\
    rmap (scalar_leaf_get s2) cs = Ok ys.
Proof.
  induction 1 as [|c i cs ls (q & y & Q & E & Y) H IH]; intros A.
  - exists []. split; auto.
  - destruct IH as (ys & F & Rm); [intros; eapply A; [right|]; eauto|].
    assert (Wq : p_written q = true) by (eapply A; [left|]; eauto).
    exists (y :: ys). split; [constructor; auto|]. cbn [rmap]. rewrite E, Wq, Rm. auto.
Qed.

Lemma C12_proof s o n r u vi : good_env env -> reachable env s ->
  requests o n r SCALAR (Some u) None -> answer env o s = Ok (VView vi) ->
  let s1 := after env o s in
  forall p q, views s1 vi p -> nth_error (st_params s1) p = Some q -> p_children q <> [] ->
  (forall i qi, leaf_of s1 p i -> nth_error (st_params s1) i = Some qi -> p_type qi = Some SCALAR) ->
  exists ls, NoDup ls /\ (forall i, In i ls <-> leaf_of s1 p i) /\
  forall h, let s2 := run env s1 h in
    ((exists i qi, In i ls /\ nth_error (st_params s2) i = Some qi /\ p_written qi = false) ->
       answer env (OGetValue vi) s2 = Err EParameterEmpty) /\
    ((forall i qi, In i ls -> nth_error (st_params s2) i = Some qi -> p_written qi = true) ->
       exists ys, Forall2 (fun i y => exists w x, holds s2 i w x /\ same_num env w x u y) ls ys /\
         answer env (OGetValue vi) s2 = Ok (VNum (total ys))).
Proof.
  intros G R Rq A s1 p q Vw Q C Ty.
  pose proof (reachable_wf _ _ R) as W.
  assert (R1 : reachable env s1) by (apply reachable_after; auto).
  pose proof (reachable_wf _ _ R1) as W1.
  pose proof (request_views env _ _ _ _ _ _ _ W Rq) as RR. unfold request_result in RR. rewrite A in RR.
  fold s1 in RR. destruct RR as (p' & q' & cvs & v & Pa & Q' & Vs & Y & Vp & Pb & Vt & Cv & _ & Ch).
  inversion Y; subst vi.
  assert (V : nth_error (st_views s1) (length (st_views s) + length cvs) = Some v).
  { rewrite Vs, nth_error_app2 by lia. replace (_ - _) with (length cvs) by lia.
    rewrite nth_error_app2 by lia. rewrite Nat.sub_diag. auto. }
  destruct Vw as (v0 & V0 & _ & Vp0). assert (v0 = v) by congruence; subst v0.
  assert (p' = p) by congruence; subst p'. assert (q' = q) by congruence; subst q'.
  destruct Ch as [Chv Lv]; auto; [discriminate|].
  rewrite Vp0 in *. destruct (param_leaves_spec s1 p _ (wf_tree _ _ W1) Lv) as [Nd Sp].
  exists (map v_param cvs). split; auto. split; auto.
  intros h s2.
  assert (R2 : reachable env s2) by (apply reachable_run; auto).
  pose proof (reachable_wf _ _ R2) as W2.
  assert (Ev : evo s1 s2) by apply evo_run.
  assert (K : v_kind v = KScalar).
  { unfold vtype in Vt. destruct (v_kind v) eqn:K; auto; [|discriminate].
    pose proof V as V'. apply view_cell with (env := env) in V'; auto. destruct V' as (q2 & _ & I).
    destruct (vi_ktype _ _ _ _ _ I K) as [X|X]; congruence. }
  assert (U : v_unit v = u).
  { destruct (request_inv env _ _ _ _ _ _ _ _ _ W Rq (after_eq env o s)) as
      [(a & e & _ & _ & X)|(a & b & _ & [(e & _ & X)|(a2 & _ & _ & _ & X)])]; try congruence.
    rewrite A in X. destruct X as (vi & Ey & v1 & V1 & _ & _ & _ & _ & _ & Fu & _). inversion Ey; subst vi.
    fold s1 in V1. assert (v1 = v) by congruence; subst v1. apply (Fu u); auto. }
  destruct (ev_views _ _ Ev _ _ V) as (v2 & V2 & Ve).
  destruct (ev_params _ _ Ev _ _ Q) as (q2 & Q2 & Pe).
  assert (Get : answer env (OGetValue (length (st_views s) + length cvs)) s2 =
    match rmap (scalar_leaf_get s2) (seq (length (st_views s)) (length cvs)) with
    | Ok xs => Ok (VNum (nsum xs)) | Err e => Err e end).
  { rewrite (scalar_view_get env s2 _ v2 V2); [|rewrite (ve_public _ _ Ve); auto|rewrite (ve_kind _ _ Ve); auto].
    unfold scalar_get. rewrite (ve_param _ _ Ve), Vp0, Q2. unfold has_children.
    destruct (pe_children _ _ Pe) as [l El]. destruct (p_children q2) eqn:C2.
    { symmetry in El. apply app_eq_nil in El. tauto. }
    rewrite (ve_children _ _ Ve), Chv. destruct (rmap _ _); auto. }
  assert (F : Forall2 (leaf_result s2 u) (seq (length (st_views s)) (length cvs)) (map v_param cvs)).
  { assert (X : forall j cv, nth_error cvs j = Some cv -> leaf_result s2 u (length (st_views s) + j) (v_param cv)).
    { intros j cv Hj.
      assert (Vj : nth_error (st_views s1) (length (st_views s) + j) = Some cv).
      { rewrite Vs, nth_error_app2 by lia. replace (_ - _) with j by lia.
        rewrite nth_error_app1; auto. eapply nth_lt; eauto. }
      destruct (Cv cv) as (Pc & Cc & Kc & Uc & Dc); [eapply nth_error_In; eauto|].
      destruct (ev_views _ _ Ev _ _ Vj) as (cv2 & Vj2 & Vje).
      destruct (view_cell _ _ _ _ W1 Vj) as (qi & Qi & Ii).
      assert (Lf : leaf_of s1 p (v_param cv)).
      { apply Sp. apply in_map. eapply nth_error_In; eauto. }
      pose proof (Ty _ _ Lf Qi) as Ti. destruct Lf as (_ & qi' & Qi' & Ci). assert (qi' = qi) by congruence; subst qi'.
      assert (Ri : p_read qi = true).
      { destruct R1 as (root & h1 & E1). rewrite E1 in Qi. eapply scalar_read; eauto. }
      destruct (ev_params _ _ Ev _ _ Qi) as (qi2 & Qi2 & Pei).
      assert (Ci2 : p_children qi2 = []) by (rewrite (pe_frozen _ _ Pei); auto).
      destruct (pe_type _ _ Pei) as (Ti2 & Ui2 & _); [congruence|].
      destruct (view_cell _ _ _ _ W2 Vj2) as (qi3 & Qi3 & Ii2).
      rewrite (ve_param _ _ Vje) in Qi3. assert (qi3 = qi2) by congruence; subst qi3.
      assert (K2 : v_kind cv2 = KScalar) by (rewrite (ve_kind _ _ Vje); congruence).
      assert (U2 : v_unit cv2 = u) by (rewrite (ve_unit _ _ Vje); congruence).
      pose proof (vi_uconv _ _ _ _ _ Ii2) as Uv. rewrite K2, U2 in Uv. specialize (Uv ltac:(discriminate)).
      destruct (pi_scalar _ (wf_params _ _ W2 _ _ Qi2)) as [x Dx]; [congruence|].
      destruct (p_unit qi2) as [w|] eqn:Uw; [|discriminate].
      exists qi2, (option_map (uconvert_from (v_uconv cv2)) x). split; auto. split.
      - unfold scalar_leaf_get. rewrite Vj2, (ve_param _ _ Vje), Qi2. unfold has_children. rewrite Ci2.
        unfold scalar_own. rewrite Dx. auto.
      - intros Wr. exists w, x. split; [exists qi2; auto|].
        destruct x as [x|]; simpl; auto. apply uconv_phys; auto. }
    clear - X. revert X. generalize (length (st_views s)) as n.
    induction cvs as [|cv cvs IH]; intros n X; simpl; constructor.
    - specialize (X 0 cv eq_refl). rewrite Nat.add_0_r in X. auto.
    - apply IH. intros j cv' Hj. specialize (X (S j) cv' Hj). rewrite Nat.add_succ_r in X. auto. }
  split.
  - intros E. rewrite Get, (leaf_results_empty _ _ _ _ F E). auto.
  - intros E. destruct (leaf_results_all _ _ _ _ F E) as (ys & F2 & Rm).
    exists ys. split; auto. rewrite Get, Rm, nsum_total. auto.
Qed.

(** What a view of the leaf itself reads is what the leaf holds, in the view's unit. *)
Lemma C12_own s vi p u q : good_env env -> reachable env s -> scalar_view s vi p u ->
  nth_error (st_params s) p = Some q -> p_children q = [] -> forall y,
  answer env (OGetValue vi) s = Ok (VNum y) -> exists w x, holds s p w x /\ same_num env w x u y.
Proof.
  intros G R (v & V & Pb & Vp & K & U) Q C y A. pose proof (reachable_wf _ _ R) as W.
  rewrite (scalar_view_get env _ _ _ V Pb K) in A. unfold scalar_get in A. rewrite Vp, Q in A.
  unfold has_children in A. rewrite C in A. unfold scalar_own in A.
  destruct (p_written q) eqn:Wr; [|discriminate].
  destruct (p_data q) as [[x| |]|] eqn:D; try discriminate. inversion A; subst.
  destruct (view_cell _ _ _ _ W V) as (q0 & Q0 & I). assert (q0 = q) by congruence; subst.
  pose proof (vi_uconv _ _ _ _ _ I) as Uv. rewrite K in Uv. specialize (Uv ltac:(discriminate)).
  destruct (p_unit q) as [w|] eqn:Uw; [|discriminate].
  exists w, x. split; [exists q; auto|]. destruct x as [x|]; simpl; auto. apply uconv_phys; auto.
Qed.

(** ** C13 *)

Lemma below_frozen s h p : (forall i q, below s p i -> nth_error (st_params s) i = Some q -> p_read q = true) ->
  wf env s -> forall i, (exists q, nth_error (st_params s) p = Some q) ->
  below (run env s h) p i -> below s p i.
Proof.
  intros Fr W i [q0 Q0] B. induction B as [|j c B IH C]; [constructor|].
  destruct (below_valid s p j q0 (wf_tree _ _ W) Q0 IH) as [qj Qj].
  destruct (ev_params _ _ (evo_run env h s) _ _ Qj) as (qj2 & Qj2 & Pe).
  destruct C as (q & n & Q & I). assert (q = qj2) by congruence; subst.
  rewrite (pe_frozen _ _ Pe) in I by (left; eapply Fr; eauto).
  eapply below_child; eauto. exists qj, n. auto.
Qed.

Lemma C13_proof s h p q : reachable env s -> nth_error (st_params s) p = Some q ->
  (forall i qi, below s p i -> nth_error (st_params s) i = Some qi -> p_read qi = true) ->
  forall i, leaf_of (run env s h) p i <-> leaf_of s p i.
Proof.
  intros R Q Fr i. pose proof (reachable_wf _ _ R) as W.
  assert (Ev : evo s (run env s h)) by apply evo_run. split.
  - intros (B & qi & Qi & C). assert (B0 : below s p i) by (eapply below_frozen; eauto).
    split; auto. destruct (below_valid s p i q (wf_tree _ _ W) Q B0) as [q0 Q0]. exists q0. split; auto.
    destruct (ev_params _ _ Ev _ _ Q0) as (q1 & Q1 & Pe). assert (q1 = qi) by congruence; subst.
    rewrite (pe_frozen _ _ Pe) in C; auto. left. eapply Fr; eauto.
  - intros (B & qi & Qi & C). split; [eapply below_evo; eauto|].
    destruct (ev_params _ _ Ev _ _ Qi) as (q1 & Q1 & Pe). exists q1. split; auto.
    rewrite (pe_frozen _ _ Pe); auto. left. eapply Fr; eauto.
Qed.
End P.
