(** Leaves of a parameter, and the families of views created for them. *)
From Coq Require Import String List Arith Lia Bool ZArith Reals.
From Verif Require Import Base ListFacts Units TimeModel Core CoreEvo CoreTree CoreNames CoreInv
  CoreStep Spec_Core CoreReq.
Import ListNotations.

Lemma opt_concat_in {A B} (f : B -> option (list A)) l r : opt_concat (map f l) = Some r ->
  forall x, In x r <-> exists b a, In b l /\ f b = Some a /\ In x a.
Proof.
  revert r; induction l as [|b l]; simpl; intros r H x.
  - inversion H; subst. simpl. split; [tauto|]. intros (b & a & [] & _).
  - destruct (f b) as [a|] eqn:F; [|discriminate].
    destruct (opt_concat (map f l)) as [r'|] eqn:O; [|discriminate]. inversion H; subst.
    rewrite in_app_iff. rewrite (IHl r' eq_refl). split.
    + intros [I|(b' & a' & I & E & X)]; [exists b, a; auto|exists b', a'; auto].
    + intros (b' & a' & [->|I] & E & X); [left; congruence|right; eauto].
Qed.
Lemma opt_concat_some {A B} (f : B -> option (list A)) l : (forall b, In b l -> exists a, f b = Some a) ->
  exists r, opt_concat (map f l) = Some r.
Proof.
  induction l as [|b l]; simpl; intros H; [eauto|].
  destruct (H b) as [a ->]; auto. destruct IHl as [r ->]; eauto.
Qed.
Lemma opt_concat_NoDup {A B} (f : B -> option (list A)) l r : opt_concat (map f l) = Some r ->
  (forall b a, In b l -> f b = Some a -> NoDup a) ->
  NoDup l ->
  (forall b b' a a' x, In b l -> In b' l -> f b = Some a -> f b' = Some a' -> In x a -> In x a' -> b = b') ->
  NoDup r.
Proof.
  revert r; induction l as [|b l]; simpl; intros r H N D X; [inversion H; constructor|].
  destruct (f b) as [a|] eqn:F; [|discriminate].
  destruct (opt_concat (map f l)) as [r'|] eqn:O; [|discriminate]. inversion H; subst.
  inversion D; subst.
  assert (Na : NoDup a) by eauto.
  assert (Nr : NoDup r') by (apply IHl; eauto).
  assert (Dis : forall x, In x a -> ~ In x r').
  { intros x I1 I2. apply (opt_concat_in _ _ _ O) in I2. destruct I2 as (b' & a' & Ib & Fb & Ix).
    assert (b = b') by (eapply X; eauto). subst. auto. }
  clear - Na Nr Dis. induction a; simpl; auto. inversion Na; subst. constructor.
  - rewrite in_app_iff. intros [|]; auto. apply (Dis a); simpl; auto.
  - apply IHa; auto. intros x I. apply Dis. simpl; auto.
Qed.

Lemma below_trans s a b c : below s a b -> below s b c -> below s a c.
Proof. intros H K. induction K; auto. eapply below_child; eauto. Qed.
Lemma below_le s p i : wft s -> below s p i -> p <= i.
Proof.
  intros W. induction 1; auto. destruct H0 as (q & n & Q & I).
  destruct (wt_pchild s W _ _ _ _ Q I) as (Lt & _). lia.
Qed.
Lemma below_valid s p i q : wft s -> nth_error (st_params s) p = Some q -> below s p i ->
  exists qi, nth_error (st_params s) i = Some qi.
Proof.
  intros W Q H. inversion H; subst; eauto. destruct H1 as (q0 & n & Q0 & I).
  destruct (wt_pchild s W _ _ _ _ Q0 I) as (_ & cq & C & _). eauto.
Qed.
(** Going down: either the cell itself or through one of its children. *)
Lemma below_inv s p i : below s p i -> p = i \/ exists c, child_of s p c /\ below s c i.
Proof.
  induction 1; auto. destruct IHbelow as [->|(c' & C & B)].
  - right. exists c. split; auto. constructor.
  - right. exists c'. split; auto. eapply below_child; eauto.
Qed.
Lemma child_parent s p c : wft s -> child_of s p c ->
  exists cq, nth_error (st_params s) c = Some cq /\ p_parent cq = Some p.
Proof. intros W (q & n & Q & I). destruct (wt_pchild s W _ _ _ _ Q I) as (_ & cq & C & _ & P & _). eauto. Qed.
(** Ancestors of a cell form a chain. *)
Lemma below_chain s a b i : wft s -> below s a i -> below s b i -> below s a b \/ below s b a.
Proof.
  intros W H. revert b. induction H as [|i c H IH C]; intros b Hb.
  - auto.
  - inversion Hb as [|i' c' H' C']; subst.
    + left. eapply below_child; eauto.
    + destruct (child_parent _ _ _ W C) as (q1 & Q1 & P1).
      destruct (child_parent _ _ _ W C') as (q2 & Q2 & P2).
      assert (i' = i) by congruence; subst. auto.
Qed.
Lemma siblings_disjoint s p c c' i : wft s -> child_of s p c -> child_of s p c' ->
  below s c i -> below s c' i -> c = c'.
Proof.
  intros W C C' B B'.
  assert (X : forall a b, child_of s p a -> child_of s p b -> below s a b -> a = b).
  { intros a b Ca Cb H. inversion H as [|j b' H' Cj]; subst; auto. exfalso.
    destruct (child_parent _ _ _ W Cb) as (q1 & Q1 & P1).
    destruct (child_parent _ _ _ W Cj) as (q2 & Q2 & P2).
    assert (j = p) by congruence; subst. apply below_le in H'; auto.
    destruct Ca as (q & n & Q & I). destruct (wt_pchild s W _ _ _ _ Q I). lia. }
  destruct (below_chain _ _ _ _ W B B') as [H|H]; [|symmetry]; eauto.
Qed.

Lemma leaves_S f ps p : leaves (S f) ps p =
  match nth_error ps p with
  | None => None
  | Some q => match p_children q with
              | [] => Some [p]
              | _ => opt_concat (map (fun c => leaves f ps (snd c)) (p_children q))
              end
  end.
Proof. simpl. destruct (nth_error ps p); auto. destruct (p_children p0); auto. Qed.

Lemma leaves_total s : wft s -> forall f p q, length (st_params s) <= p + f ->
  nth_error (st_params s) p = Some q -> exists ls, leaves (S f) (st_params s) p = Some ls.
Proof.
  intros W. induction f; intros p q L Q.
  - apply nth_lt in Q. lia.
  - rewrite leaves_S, Q. destruct (p_children q) as [|c0 cs] eqn:C; [eauto|]. rewrite <- C.
    apply opt_concat_some. intros [n c] I. simpl snd.
    destruct (wt_pchild s W _ _ _ _ Q I) as (Lt & cq & Cq & _). eapply IHf; eauto. lia.
Qed.
Lemma leaves_spec s : wft s -> forall f p ls, leaves f (st_params s) p = Some ls ->
  NoDup ls /\ forall i, In i ls <-> leaf_of s p i.
Proof.
  intros W. induction f; intros p ls H; [discriminate|].
  rewrite leaves_S in H. destruct (nth_error (st_params s) p) as [q|] eqn:Q; [|discriminate].
  destruct (p_children q) as [|c0 cs] eqn:C.
  - inversion H; subst. split; [repeat constructor; auto|]. intros i. split.
    + intros [->|[]]. split; [constructor|eauto].
    + intros [B _]. apply below_inv in B. destruct B as [->|(c & (q' & n & Q' & I) & _)]; simpl; auto.
      assert (q' = q) by congruence; subst. rewrite C in I. destruct I.
  - rewrite <- C in H.
    assert (Cd : forall b, In b (p_children q) -> child_of s p (snd b)).
    { intros [n c] I. exists q, n. auto. }
    split.
    + eapply opt_concat_NoDup; eauto.
      * intros b a I E. apply IHf in E. apply E.
      * eapply NoDup_map_inv. eapply wt_pnodup; eauto.
      * intros [n1 b] [n2 b'] a a' x I1 I2 E1 E2 X1 X2. simpl in *.
        apply (proj2 (IHf _ _ E1)) in X1. apply (proj2 (IHf _ _ E2)) in X2.
        assert (b = b').
        { eapply siblings_disjoint; eauto; [apply (Cd _ I1)|apply (Cd _ I2)|apply X1|apply X2]. }
        subst b'. f_equal.
        destruct (wt_pchild s W _ _ _ _ Q I1) as (_ & q1 & Q1 & N1 & _).
        destruct (wt_pchild s W _ _ _ _ Q I2) as (_ & q2 & Q2 & N2 & _). congruence.
    + intros i. rewrite (opt_concat_in _ _ _ H). split.
      * intros ([n c] & a & I & E & X). simpl in E. apply (proj2 (IHf _ _ E)) in X.
        destruct X as [B L]. split; auto. eapply below_trans; [|exact B].
        eapply below_child; [constructor|]. apply (Cd _ I).
      * intros [B L]. apply below_inv in B. destruct B as [->|(c & (q' & n & Q' & I) & B)].
        { destruct L as (q' & Q' & L). assert (q' = q) by congruence; subst. congruence. }
        assert (q' = q) by congruence; subst q'.
        destruct (opt_concat_some (fun c => leaves f (st_params s) (snd c)) (p_children q)).
        { intros b Ib. clear - H Ib. revert ls H. induction (p_children q); simpl; intros ls H; [destruct Ib|].
          destruct (leaves f (st_params s) (snd a)) eqn:E; [|discriminate].
          destruct Ib as [->|Ib]; [eauto|].
          destruct (opt_concat (map (fun c => leaves f (st_params s) (snd c)) l)); [|discriminate]. eauto. }
        assert (Ea : exists a, leaves f (st_params s) c = Some a).
        { clear - H I. revert ls H. induction (p_children q) as [|a l]; simpl; intros ls H; [destruct I|].
          destruct (leaves f (st_params s) (snd a)) eqn:E; [|discriminate].
          destruct I as [->|Ib]; [simpl in E; eauto|].
          destruct (opt_concat (map (fun c => leaves f (st_params s) (snd c)) l)); [|discriminate]. eauto. }
        destruct Ea as [a Ea]. exists (n, c), a. split; auto. split; auto.
        apply (proj2 (IHf _ _ Ea)). split; auto.
Qed.
Lemma param_leaves_total s p q : wft s -> nth_error (st_params s) p = Some q ->
  exists ls, param_leaves s p = Some ls.
Proof. intros W Q. eapply leaves_total; eauto. lia. Qed.
Lemma param_leaves_spec s p ls : wft s -> param_leaves s p = Some ls ->
  NoDup ls /\ forall i, In i ls <-> leaf_of s p i.
Proof. intros W H. eapply leaves_spec; eauto. Qed.

Lemma below_evo s s' p i : evo s s' -> below s p i -> below s' p i.
Proof.
  intros E. induction 1; [constructor|]. eapply below_child; eauto.
  destruct H0 as (q & n & Q & I). destruct (ev_params _ _ E _ _ Q) as (q' & Q' & Pe).
  exists q', n. split; auto. destruct (pe_children _ _ Pe) as [l ->]. apply in_app_iff; auto.
Qed.

(** ** Families of views *)

Definition family (s : state) : Prop :=
  forall vi v cs, nth_error (st_views s) vi = Some v -> v_children v = Some cs ->
    length cs <= vi /\ cs = seq (vi - length cs) (length cs) /\
    forall c, In c cs -> exists cv, nth_error (st_views s) c = Some cv /\ v_public cv = false /\
      below s (v_param v) (v_param cv).

Section F.
Variable env : uenv.

Lemma build_view_views s mk p s' x k u tgt t ex : wf env s -> mkspec env s mk k u tgt t ex ->
  build_view s mk p = (s', x) ->
  match x with
  | Err _ => s' = s
  | Ok vi => exists q cvs v, nth_error (st_params s) p = Some q /\
      st_views s' = st_views s ++ cvs ++ [v] /\ vi = length (st_views s) + length cvs /\
      v_param v = p /\ v_public v = true /\ v_kind v = k /\ v_unit v = u /\
      tc_type (v_tconv v) = t /\ tc_target (v_tconv v) = tgt /\
      (forall cv, In cv cvs -> leafy cv k (v_param cv) u tgt t ex) /\
      (p_children q = [] -> cvs = [] /\ v_children v = None) /\
      (p_children q <> [] -> v_children v = Some (seq (length (st_views s)) (length cvs)) /\
         param_leaves s p = Some (map v_param cvs))
  end.
Proof.
  intros W M H. unfold build_view in H.
  destruct (nth_error (st_params s) p) as [q|] eqn:Q; [|inversion H; subst; auto].
  destruct (mk p) as [v|e] eqn:Mk; [|inversion H; subst; auto].
  destruct (M _ _ Mk) as [Lv (q' & Q' & Iv)].
  unfold has_children in H. destruct (p_children q) as [|ch chs] eqn:C.
  - inversion H; subst. exists q, [], (v_set_public v). simpl. destruct Lv.
    split; auto. split; auto. split; [lia|]. split; auto. split; auto. split; auto. split; auto.
    split; auto. split; auto. split; [tauto|]. split; auto. rewrite C. congruence.
  - destruct (param_leaves s p) as [ls|] eqn:PL; [|inversion H; subst; auto].
    destruct (rmap mk ls) as [cvs|] eqn:Rm; [|inversion H; subst; auto].
    inversion H; subst.
    assert (Cv : forall j cv, nth_error cvs j = Some cv -> exists p', nth_error ls j = Some p' /\
        leafy cv k p' u tgt t ex).
    { intros j cv Hj. destruct (rmap_nth_inv _ _ _ _ _ Rm Hj) as (p' & P1 & P2).
      exists p'. split; auto. apply M; auto. }
    exists q, cvs, (v_set_public (v_set_children v (seq (length (st_views s)) (length cvs)))).
    destruct Lv. simpl.
    split; auto. split; auto. split; auto. split; auto. split; auto. split; auto. split; auto.
    split; auto. split; auto. split.
    { intros cv I. apply In_nth_error in I. destruct I as [j I].
      destruct (Cv _ _ I) as (p' & _ & L). destruct L as [X1 X2 X3 X4]. rewrite X3. constructor; auto. }
    split; [rewrite C; discriminate|]. intros _. split; auto. f_equal.
    clear - Cv Rm. apply rmap_length in Rm.
    revert ls Rm Cv. induction cvs as [|cv cvs]; intros [|a ls] L Cv; simpl in *; try discriminate; auto.
    f_equal.
    + destruct (Cv 0 cv eq_refl) as (p' & E & Lf). inversion E; subst. symmetry. apply Lf.
    + apply IHcvs; [lia|]. intros j cv' Hj. apply (Cv (S j)); auto.
Qed.

(** The views a request creates. *)
Definition request_result (o : op) (n r : hname) (t : ptype) (s : state) : Prop :=
  match answer env o s with
  | Err _ => st_views (after env o s) = st_views s
  | Ok y => exists p q cvs v,
      param_at (after env o s) (hcomponents r) (hcomponents n) = Some p /\
      nth_error (st_params (after env o s)) p = Some q /\
      st_views (after env o s) = st_views s ++ cvs ++ [v] /\
      y = VView (length (st_views s) + length cvs) /\
      v_param v = p /\ v_public v = true /\ vtype v = t /\
      (forall cv, In cv cvs -> v_public cv = false /\ v_children cv = None /\
         v_kind cv = v_kind v /\ v_unit cv = v_unit v /\ v_data cv = None) /\
      (t = GENERIC \/ p_children q = [] -> cvs = [] /\ v_children v = None) /\
      (t <> GENERIC -> p_children q <> [] ->
         v_children v = Some (seq (length (st_views s)) (length cvs)) /\
         param_leaves (after env o s) p = Some (map v_param cvs))
  end.

Lemma request_build o n r t u tp s s1 p s2 k y tgt ex mk : locate s n r = (s1, Ok p) ->
  on_param s1 p (fun q0 => attempt_read q0 t u tp) = (s2, Ok tt) ->
  k <> KGeneric -> (match k with KTimeseries => t | KScalar => SCALAR | KGeneric => GENERIC end = t) ->
  mkspec env s2 mk k y tgt t ex -> wf env s2 ->
  step env o s = lift VView (build_view s2 mk p) ->
  t <> GENERIC -> request_result o n r t s.
Proof.
  intros L O K Tk M W2 St Tn. unfold request_result.
  assert (Vs : st_views s2 = st_views s).
  { destruct (pcells_locate _ _ _ _ _ L) as [<- _]. clear - O. unfold on_param in O.
    destruct (nth_error (st_params s1) p); [|discriminate].
    destruct (attempt_read p0 t u tp). inversion O; auto. }
  destruct (build_view s2 mk p) as [s3 [vi|e]] eqn:B.
  - assert (Ans : answer env o s = Ok (VView vi)) by (unfold answer; rewrite St; auto).
    assert (Aft : after env o s = s3) by (unfold after; rewrite St; auto).
    rewrite Ans.
    pose proof (build_view_views _ _ _ _ _ _ _ _ _ _ W2 M B) as
      (q & cvs & v & Q & Ev & Ei & Vp & Pb & Kv & Un & Tc & Tg & Lf & C0 & C1).
    destruct (build_view_inv env _ _ _ _ _ _ _ _ _ _ M B) as (P3 & R3 & _).
    assert (E23 : evo s1 s3).
    { eapply evo_trans; [eapply evo_on_read|eapply evo_build_view]; eauto. }
    exists p, q, cvs, v. rewrite Aft, P3, Ev, Vs. rewrite Vs in *.
    split; [eapply param_at_evo; [exact E23|]; eapply locate_created; eauto|].
    split; auto. split; auto. split; [congruence|]. split; auto. split; auto.
    split. { unfold vtype. rewrite Kv. destruct k; congruence. }
    split. { intros cv I. destruct (Lf _ I). repeat split; congruence. }
    split. { intros [T|C]; [congruence|]. apply C0; auto. }
    intros _ C. destruct (C1 C) as [D1 D2]. split; auto.
    unfold param_leaves in *. rewrite P3. auto.
  - unfold answer, after. rewrite St. simpl.
    pose proof (build_view_views _ _ _ _ _ _ _ _ _ _ W2 M B) as ->. auto.
Qed.

Lemma on_read_views s p t u tp s2 x : on_param s p (fun q0 => attempt_read q0 t u tp) = (s2, x) ->
  st_views s2 = st_views s.
Proof.
  unfold on_param. intros O. destruct (nth_error (st_params s) p); [|inversion O; auto].
  destruct (attempt_read p0 t u tp). inversion O; auto.
Qed.

Lemma request_views o n r t u tp s : wf env s -> requests o n r t u tp -> request_result o n r t s.
Proof.
  intros W Rq. destruct o; simpl in Rq; try tauto.
  - destruct Rq as (-> & -> & -> & -> & ->). destruct (locate s n r) as [s1 [p|e]] eqn:L.
    2: { unfold request_result, answer, after. cbn [step]. unfold ps_scalar. rewrite L. simpl.
         apply (pcells_locate _ _ _ _ _ L). }
    destruct (on_param s1 p (fun q => attempt_read q SCALAR (Some unit) None)) as [s2 [[]|e]] eqn:O.
    + eapply request_build with (k := KScalar); eauto; try discriminate.
      * apply mkspec_scalar. apply (wf_locate env) in L; auto. apply (wf_on_read env) in O; auto. apply O.
      * apply (wf_locate env) in L; auto. apply (wf_on_read env) in O; auto. apply O.
      * cbn [step]. unfold ps_scalar. rewrite L, O. reflexivity.
    + unfold request_result, answer, after. cbn [step]. unfold ps_scalar. rewrite L, O. simpl.
      rewrite (on_read_views _ _ _ _ _ _ _ O). apply (pcells_locate _ _ _ _ _ L).
  - destruct Rq as (-> & -> & Ft & -> & -> & [i Fi] & [x Fx]). destruct (locate s n r) as [s1 [p|e]] eqn:L.
    2: { unfold request_result, answer, after. cbn [step]. unfold ps_timeseries. rewrite Ft, Fi, Fx, L. simpl.
         apply (pcells_locate _ _ _ _ _ L). }
    destruct (on_param s1 p (fun q => attempt_read q t (Some unit) (Some tps))) as [s2 [[]|e]] eqn:O.
    + pose proof (from_timeseries_type_ts _ _ Ft) as Ts.
      eapply request_build with (k := KTimeseries); eauto; try discriminate.
      * apply mkspec_ts; auto. apply (wf_locate env) in L; auto. apply (wf_on_read env) in O; auto. apply O.
      * apply (wf_locate env) in L; auto. apply (wf_on_read env) in O; auto. apply O.
      * cbn [step]. unfold ps_timeseries. rewrite Ft, Fi, Fx, L, O. reflexivity.
      * destruct Ts; subst; discriminate.
    + unfold request_result, answer, after. cbn [step]. unfold ps_timeseries. rewrite Ft, Fi, Fx, L, O. simpl.
      rewrite (on_read_views _ _ _ _ _ _ _ O). apply (pcells_locate _ _ _ _ _ L).
  - destruct Rq as (-> & -> & -> & -> & ->). unfold request_result, answer, after. cbn [step].
    unfold ps_generic. destruct (locate s n r) as [s1 [p|e]] eqn:L.
    2: { simpl. apply (pcells_locate _ _ _ _ _ L). }
    destruct (on_param s1 p (fun q => attempt_read q GENERIC None None)) as [s2 [[]|e]] eqn:O; simpl.
    + pose proof (on_read_views _ _ _ _ _ _ _ O) as V2. pose proof (pcells_locate _ _ _ _ _ L) as [V1 _].
      pose proof (locate_created _ _ _ _ _ L) as A.
      pose proof (param_at_evo _ _ _ _ _ (evo_on_read _ _ _ _ _ _ _ O) A) as A2.
      assert (Q : exists q, nth_error (st_params s2) p = Some q).
      { unfold on_param in O. destruct (nth_error (st_params s1) p) eqn:Q; [|discriminate].
        destruct (attempt_read p0 _ _ _). inversion O; subst. eexists. simpl. apply nth_upd_eq. eapply nth_lt; eauto. }
      destruct Q as [q Q].
      exists p, q, [], (mkView true KGeneric p "" dummy_uconv dummy_tconv None false None false None).
      simpl. rewrite V2, V1.
      split; [eapply param_at_evo; [|exact A2]; rewrite <- V1, <- V2; apply evo_app_views|].
      split; auto. split; auto. split; [do 2 f_equal; lia|].
      split; auto. split; auto. split; auto. split; [tauto|]. split; auto. congruence.
    + rewrite (on_read_views _ _ _ _ _ _ _ O). apply (pcells_locate _ _ _ _ _ L).
Qed.

(** Views after any call: the old ones (evolved) or freshly created by a request. *)
Lemma family_step o s : wf env s -> family s -> family (after env o s).
Proof.
  intros W F. pose proof (evo_step env _ _ _ _ (after_eq env o s)) as E.
  assert (Old : forall vi v0 v cs, nth_error (st_views s) vi = Some v0 ->
    nth_error (st_views (after env o s)) vi = Some v -> v_children v = Some cs ->
    length cs <= vi /\ cs = seq (vi - length cs) (length cs) /\
    forall c, In c cs -> exists cv, nth_error (st_views (after env o s)) c = Some cv /\ v_public cv = false /\
      below (after env o s) (v_param v) (v_param cv)).
  { intros vi v0 v cs V0 V C. destruct (ev_views _ _ E _ _ V0) as (v' & V' & Ve).
    assert (v' = v) by congruence; subst v'. rewrite (ve_children _ _ Ve) in C.
    destruct (F _ _ _ V0 C) as (A & B & D). split; auto. split; auto.
    intros c I. destruct (D _ I) as (cv & D1 & D2 & D3).
    destruct (ev_views _ _ E _ _ D1) as (cv' & E1 & Ve'). exists cv'. split; auto.
    rewrite (ve_public _ _ Ve'), (ve_param _ _ Ve'), (ve_param _ _ Ve). split; auto.
    eapply below_evo; eauto. }
  intros vi v cs V C.
  destruct (nth_error (st_views s) vi) as [v0|] eqn:V0; [eauto|]. 
  assert (Len : forall l, st_views (after env o s) = l -> length l = length (st_views s) -> False).
  { intros l <- Le. apply nth_lt in V. apply nth_error_None in V0. lia. }
  destruct (is_request o) as [[n r]|] eqn:Rq.
  - destruct (request_cases env _ _ _ Rq) as [(t & u & tp & Rt)|Fl].
    2: { destruct (Fl s) as (e & F'). exfalso. eapply Len; [unfold after; rewrite F'; reflexivity|auto]. }
    pose proof (request_views _ _ _ _ _ _ _ W Rt) as X. unfold request_result in X.
    destruct (answer env o s) as [y|e].
    2: { exfalso. eapply Len; [exact X|auto]. }
    destruct X as (p & q & cvs & w & At & Q & Vs & _ & Wp & Pb & Wt & Cv & C0 & C1).
    rewrite Vs in V |- *. rewrite app_assoc in V. apply nth_app_inv in V. destruct V as [V|[Ei ->]].
    { rewrite nth_error_app2 in V by (apply nth_error_None in V0; lia).
      apply nth_error_In in V. destruct (Cv _ V) as (_ & X & _). congruence. }
    rewrite app_length in Ei.
    destruct (p_children q) as [|c0 l0] eqn:Ch; [destruct C0; auto; congruence|].
    assert (Tn : t <> GENERIC) by (intros ->; destruct C0; auto; congruence).
    destruct (C1 Tn) as [D1 D2]; [discriminate|]. rewrite D1 in C. inversion C; subst cs.
    rewrite seq_length. split; [lia|]. split; [f_equal; lia|].
    intros c I. apply in_seq in I.
    destruct (nth_error cvs (c - length (st_views s))) as [cv|] eqn:Hc.
    2: { apply nth_error_None in Hc. lia. }
    exists cv. split.
    { rewrite nth_error_app2 by lia. now apply nth_app_old. }
    assert (Icv : In cv cvs) by (eapply nth_error_In; eauto).
    split; [apply Cv; auto|].
    assert (W' : wf env (after env o s)) by (eapply wf_step; [exact W|apply after_eq]).
    destruct (param_leaves_spec _ _ _ (wf_tree _ _ W') D2) as [_ Sp].
    rewrite Wp. apply Sp. apply in_map; auto.
  - exfalso. destruct (op_view o) as [vj|] eqn:Ov.
    + destruct (nth_error (st_views s) vj) as [vv|] eqn:Vj.
      * pose proof (write_step env _ _ _ _ _ _ W Ov Vj (after_eq env o s)) as WS.
        eapply Len; [reflexivity|apply WS].
      * eapply Len; [reflexivity|]. unfold after. destruct o; inversion Ov; subst; cbn [step]; unfold with_view; rewrite Vj; auto.
    + destruct (other_step env _ _ _ _ Rq Ov (after_eq env o s)) as (_ & _ & L).
      eapply Len; [reflexivity|auto].
Qed.
Lemma family_reachable s : reachable env s -> family s.
Proof.
  intros (root & h & ->). induction h as [|o h] using rev_ind.
  - intros [|] v cs V; discriminate.
  - rewrite run_app. apply family_step; auto. apply wf_reachable.
Qed.

(** Children of two views are disjoint. *)
Lemma family_disjoint s v1 w1 c1 v2 w2 c2 c : wf env s -> family s ->
  nth_error (st_views s) v1 = Some w1 -> v_children w1 = Some c1 -> In c c1 ->
  nth_error (st_views s) v2 = Some w2 -> v_children w2 = Some c2 -> In c c2 -> v1 = v2.
Proof.
  intros W F V1 C1 I1 V2 C2 I2.
  assert (X : forall v1 w1 c1 v2 w2 c2, nth_error (st_views s) v1 = Some w1 -> v_children w1 = Some c1 -> In c c1 ->
    nth_error (st_views s) v2 = Some w2 -> v_children w2 = Some c2 -> In c c2 -> ~ v1 < v2).
  { clear -W F. intros v1 w1 c1 v2 w2 c2 V1 C1 I1 V2 C2 I2 Lt.
    destruct (F _ _ _ V1 C1) as (A1 & B1 & D1). destruct (F _ _ _ V2 C2) as (A2 & B2 & D2).
    pose proof I1 as J1. pose proof I2 as J2.
    rewrite B1 in J1. rewrite B2 in J2. apply in_seq in J1. apply in_seq in J2.
    assert (In v1 c2) by (rewrite B2; apply in_seq; lia).
    destruct (D2 _ H) as (cv & V & Pb & _). assert (cv = w1) by congruence; subst.
    destruct (wf_views _ _ W _ _ V1) as (q & Q & I). destruct (vi_private _ _ _ _ _ I Pb). congruence. }
  destruct (lt_eq_lt_dec v1 v2) as [[L|E]|L]; auto; exfalso.
  - eapply X with (v1 := v1) (v2 := v2); eauto.
  - eapply X with (v1 := v2) (v2 := v1); eauto.
Qed.
End F.
