(** Proofs of C34, C35 and C36. *)
From Coq Require Import String List Arith Lia Bool ZArith QArith Qreals Reals Field.
From Verif Require Import Base ListFacts Units TimeModel Core CoreEvo CoreTree CoreNames CoreInv
  CoreStep Spec_Core CoreReq CoreP1 CoreP2 CoreLeaves Gases GasesFacts Spec_Units.
Import ListNotations.

Lemma uconv_exact env a b c : good_env env -> unit_converter env (Some a) (Some b) = Ok c ->
  exists x y, env a = Some x /\ env b = Some y /\ u_dim x = u_dim y /\
    u_scale x <> 0%R /\ u_scale y <> 0%R /\
    uc_scaling c = (u_scale x / u_scale y)%R /\ uc_offset c = ((u_offset x - u_offset y) / u_scale y)%R.
Proof.
  intros G H. destruct (unit_converter_inv _ _ _ _ H) as (u & w & x & y & E1 & E2 & A & B & D & S & O).
  injection E1 as <-. injection E2 as <-.
  assert (u_scale x <> 0 /\ u_scale y <> 0)%R as [Na Nb] by (split; eauto).
  assert (Sc : uc_scaling c = (u_scale x / u_scale y)%R).
  { rewrite S. unfold pint_to. field. auto. }
  exists x, y. repeat split; auto.
  rewrite O, Sc. unfold pint_to. field. auto.
Qed.

Lemma C35_inverse_proof env a b c x : good_env env -> unit_converter env (Some a) (Some b) = Ok c ->
  uconvert_to c (uconvert_from c x) = x /\ uconvert_from c (uconvert_to c x) = x.
Proof.
  intros G H. destruct (uconv_exact _ _ _ _ G H) as (ua & ub & _ & _ & _ & Na & Nb & S & O).
  unfold uconvert_to, uconvert_from. rewrite S, O. split; field; auto.
Qed.

Lemma C35_reverse_proof env a b c c' x : good_env env -> unit_converter env (Some a) (Some b) = Ok c ->
  unit_converter env (Some b) (Some a) = Ok c' -> uconvert_from c' x = uconvert_to c x.
Proof.
  intros G H H'. destruct (uconv_exact _ _ _ _ G H) as (ua & ub & A & B & _ & Na & Nb & S & O).
  destruct (uconv_exact _ _ _ _ G H') as (vb & va & B' & A' & _ & _ & _ & S' & O').
  rewrite A in A'. rewrite B in B'. injection A' as <-. injection B' as <-.
  unfold uconvert_to, uconvert_from. rewrite S, O, S', O'. field; auto.
Qed.

Lemma C35_chain_proof env a b d c1 c2 : good_env env ->
  unit_converter env (Some a) (Some b) = Ok c1 -> unit_converter env (Some b) (Some d) = Ok c2 ->
  exists c3, unit_converter env (Some a) (Some d) = Ok c3 /\
    forall x, uconvert_from c2 (uconvert_from c1 x) = uconvert_from c3 x /\
              uconvert_to c1 (uconvert_to c2 x) = uconvert_to c3 x.
Proof.
  intros G H1 H2.
  destruct (uconv_exact _ _ _ _ G H1) as (ua & ub & A & B & D1 & Na & Nb & S1 & O1).
  destruct (uconv_exact _ _ _ _ G H2) as (vb & ud & B' & D & D2 & _ & Nd & S2 & O2).
  rewrite B in B'. injection B' as <-.
  assert (exists c3, unit_converter env (Some a) (Some d) = Ok c3) as (c3 & H3).
  { unfold unit_converter. rewrite A, D, D1, D2, dim_eqb_refl. eauto. }
  exists c3. split; auto. intros x.
  destruct (uconv_exact _ _ _ _ G H3) as (wa & wd & A' & D' & _ & _ & _ & S3 & O3).
  rewrite A in A'. rewrite D in D'. injection A' as <-. injection D' as <-.
  unfold uconvert_to, uconvert_from. rewrite S1, S2, S3, O1, O2, O3. split; field; auto.
Qed.

Lemma C36_converter_proof env a b :
  ((exists c, unit_converter env (Some a) (Some b) = Ok c) <-> commensurable env a b) /\
  (unit_converter env (Some a) (Some b) = Err EUndefinedUnit <-> unknown env a \/ unknown env b) /\
  (unit_converter env (Some a) (Some b) = Err EDimensionality <-> incommensurable env a b).
Proof.
  unfold unit_converter, commensurable, incommensurable, unknown.
  destruct (env a) as [x|] eqn:A.
  2: { repeat split; try (intros (c & H); discriminate); try discriminate; auto.
       - intros (? & ? & ? & _). discriminate.
       - intros (? & ? & ? & _). discriminate. }
  destruct (env b) as [y|] eqn:B.
  2: { repeat split; try (intros (c & H); discriminate); try discriminate; auto.
       - intros (? & ? & _ & ? & _). discriminate.
       - intros (? & ? & _ & ? & _). discriminate. }
  destruct (dim_eqb (u_dim x) (u_dim y)) eqn:D.
  - apply dim_eqb_true in D. repeat split; try discriminate; eauto.
    + intros [H|H]; discriminate.
    + intros (p & q & P & Q & N). injection P as <-. injection Q as <-. contradiction.
  - apply dim_eqb_false in D. repeat split; try discriminate; eauto.
    + intros (c & H); discriminate.
    + intros (p & q & P & Q & N). injection P as <-. injection Q as <-. contradiction.
    + intros [H|H]; discriminate.
Qed.

Section Views.
Variable env : uenv.

(** What a request for a typed parameter does, up to the construction of the view. *)
Lemma request_typed s n r p q t u tp :
  param_at s (hcomponents r) (hcomponents n) = Some p -> nth_error (st_params s) p = Some q ->
  p_type q = Some t ->
  locate s n r = (s, Ok p) /\
  on_param s p (fun q => attempt_read q t u tp) = (set_param s p (p_set_read q), Ok tt).
Proof.
  intros A Q T. split; [now apply locate_found|].
  unfold on_param. rewrite Q. unfold attempt_read. rewrite T.
  assert (ptype_eqb t t = true) as -> by (destruct t; reflexivity). reflexivity.
Qed.

Lemma set_read_nth s p q i qi : nth_error (st_params s) p = Some q ->
  nth_error (st_params s) i = Some qi ->
  nth_error (st_params (set_param s p (p_set_read q))) i = Some (if Nat.eqb i p then p_set_read qi else qi).
Proof.
  intros Q I. simpl. destruct (Nat.eqb_spec i p) as [->|N].
  - rewrite nth_upd_eq by (apply nth_error_Some; congruence). congruence.
  - rewrite nth_upd_neq by auto. exact I.
Qed.

Lemma set_read_child s p q i c : nth_error (st_params s) p = Some q ->
  child_of (set_param s p (p_set_read q)) i c <-> child_of s i c.
Proof.
  intros Q. split.
  - intros (qi & n & Qi & I). simpl in Qi. destruct (Nat.eq_dec i p) as [->|N].
    + rewrite nth_upd_eq in Qi by (apply nth_error_Some; congruence).
      apply some_inj in Qi. subst qi. exists q, n. split; [exact Q|exact I].
    + rewrite nth_upd_neq in Qi by auto. exists qi, n. split; [exact Qi|exact I].
  - intros (qi & n & Qi & I). pose proof (set_read_nth s p q i qi Q Qi) as Qi'.
    eexists _, n. split; [exact Qi'|]. destruct (Nat.eqb i p), qi; exact I.
Qed.

Lemma set_read_leaf s p q j i : nth_error (st_params s) p = Some q ->
  leaf_of (set_param s p (p_set_read q)) j i <-> leaf_of s j i.
Proof.
  intros Q. unfold leaf_of.
  assert (B : below (set_param s p (p_set_read q)) j i <-> below s j i).
  { split; intros H.
    - induction H; [constructor|]. eapply below_child; eauto. eapply set_read_child; eauto.
    - induction H; [constructor|]. eapply below_child; eauto. eapply set_read_child; eauto. }
  rewrite B. split; intros (Bl & qi & Qi & C); split; auto.
  - simpl in Qi. destruct (Nat.eq_dec i p) as [->|N].
    + rewrite nth_upd_eq in Qi by (apply nth_error_Some; congruence).
      apply some_inj in Qi. subst qi. exists q. split; [exact Q|exact C].
    + rewrite nth_upd_neq in Qi by auto. eauto.
  - pose proof (set_read_nth s p q i qi Q Qi) as Qi'. eexists. split; [exact Qi'|].
    destruct (Nat.eqb i p), qi; exact C.
Qed.

(** The unit part of a view. *)
Lemma scalar_leaf_unit s u p q : nth_error (st_params s) p = Some q ->
  scalar_leaf_view env s u p =
  match unit_converter env (p_unit q) (Some u) with
  | Err e => Err e
  | Ok uc => Ok (mkView false KScalar p u uc dummy_tconv None false None false None)
  end.
Proof. intros Q. unfold scalar_leaf_view. now rewrite Q. Qed.

Lemma ts_leaf_unit s u tgt t ex p q e : nth_error (st_params s) p = Some q ->
  e = EUndefinedUnit \/ e = EDimensionality ->
  ts_leaf_view env s u tgt t ex p = Err e <-> unit_converter env (p_unit q) (Some u) = Err e.
Proof.
  intros Q E. unfold ts_leaf_view. rewrite Q.
  destruct (unit_converter env (p_unit q) (Some u)); [|split; congruence].
  split; [|congruence].
  destruct (p_time q) as [tp|]; [|intros H; destruct E; congruence].
  unfold timeseries_converter.
  destruct (tp_ticks tp) as [|s0 src]; [intros H; destruct E; congruence|].
  destruct tgt as [|t0 [|t1 tgt]]; try (intros H; destruct E; congruence).
  destruct (s0 >? t1)%Z; intros H; destruct E; congruence.
Qed.

Lemma C36_view_proof s o n r t u tp q w :
  reports env s n r q -> p_type q = Some t -> p_unit q = Some w -> p_children q = [] ->
  requests o n r t (Some u) tp ->
  (answer env o s = Err EUndefinedUnit <-> unknown env w \/ unknown env u) /\
  (answer env o s = Err EDimensionality <-> incommensurable env w u).
Proof.
  intros R T U C Rq. apply reports_at in R. destruct R as (p & _ & A & Q).
  destruct (request_typed s n r p q t (Some u) tp A Q T) as [L O].
  pose proof (set_read_nth s p q p q Q Q) as Q'. rewrite Nat.eqb_refl in Q'.
  set (s2 := set_param s p (p_set_read q)) in *.
  assert (U' : p_unit (p_set_read q) = Some w) by (destruct q; exact U).
  assert (Hc : has_children (p_set_read q) = false) by (destruct q; simpl in *; subst; reflexivity).
  assert (K : forall e, e = EUndefinedUnit \/ e = EDimensionality ->
    (answer env o s = Err e <-> unit_converter env (Some w) (Some u) = Err e)).
  { intros e E. destruct o; try contradiction.
    - destruct Rq as (-> & -> & -> & X & ->). injection X as <-.
      unfold answer. cbn [step]. unfold ps_scalar. rewrite L, O.
      unfold build_view. rewrite Q'. rewrite (scalar_leaf_unit s2 u p _ Q'), U'.
      destruct (unit_converter env (Some w) (Some u)).
      + rewrite Hc. simpl. split; discriminate.
      + simpl. split; congruence.
    - destruct Rq as (-> & -> & Ty & X & -> & (i & Ip) & (x & Ex)). injection X as <-.
      unfold answer. cbn [step]. unfold ps_timeseries. rewrite Ty, Ip, Ex, L, O.
      unfold build_view. rewrite Q'.
      pose proof (ts_leaf_unit s2 u (tp_ticks tps) t x p _ e Q' E) as TL. rewrite U' in TL.
      destruct (ts_leaf_view env s2 u (tp_ticks tps) t x p) as [v|e'].
      + rewrite Hc. simpl. split; [discriminate|]. intros H. apply TL in H. discriminate.
      + simpl. split; intros H; [apply TL; congruence|]. apply TL in H. congruence.
    - destruct Rq as (_ & _ & _ & X & _). discriminate. }
  destruct (C36_converter_proof env w u) as (_ & B & D).
  split; [rewrite K by auto; exact B|rewrite K by auto; exact D].
Qed.

Lemma rmap_ok_iff {A B} (f : A -> res B) l :
  (exists ys, rmap f l = Ok ys) <-> forall x, In x l -> exists y, f x = Ok y.
Proof.
  induction l as [|a l IH]; simpl.
  - split; [intros _ x []|]. intros _. eauto.
  - destruct (f a) as [b|e] eqn:F.
    + destruct (rmap f l) as [bs|e] eqn:M.
      * split; eauto. intros _ x [<-|I]; eauto. apply IH; eauto.
      * split; [intros (ys & H); discriminate|]. intros H.
        destruct IH as [_ IH]. destruct IH as (ys & Y); [auto|]. congruence.
    + split; [intros (ys & H); discriminate|]. intros H. destruct (H a); auto. congruence.
Qed.

(** An aggregated scalar view can be made exactly when the requested unit fits the unit of
    the parameter and of all its leaves. *)
Lemma C36_aggregate_proof s n r p q u w :
  reachable env s -> answer env (OInfo n r) s = Ok (VInfo (Some p)) -> nth_error (st_params s) p = Some q ->
  p_type q = Some SCALAR -> p_unit q = Some w -> p_children q <> [] ->
  succeeds env (OScalar n u r) s <->
  commensurable env w u /\
  forall i qi, leaf_of s p i -> nth_error (st_params s) i = Some qi ->
    exists wi, p_unit qi = Some wi /\ commensurable env wi u.
Proof.
  intros R An Q T U C. pose proof (reachable_wf _ _ R) as W.
  assert (Rp : reports env s n r q) by (exists p; auto).
  apply reports_at in Rp. destruct Rp as (p' & _ & A & Q0).
  assert (p' = p).
  { unfold answer in An. cbn [step] in An. destruct (info s n r) as [y|e] eqn:I; simpl in An; [|discriminate].
    injection An as ->. apply info_at in I. destruct I. congruence. }
  subst p'. clear Q0.
  destruct (request_typed s n r p q SCALAR (Some u) None A Q T) as [L O].
  pose proof (set_read_nth s p q p q Q Q) as Q'. rewrite Nat.eqb_refl in Q'.
  set (s2 := set_param s p (p_set_read q)) in *.
  assert (U' : p_unit (p_set_read q) = Some w) by (destruct q; exact U).
  assert (Hc : has_children (p_set_read q) = true).
  { destruct q; simpl in *. destruct p_children; [contradiction|reflexivity]. }
  destruct (wf_on_read env _ _ _ _ _ _ _ W O) as (W2 & _ & _).
  assert (Tr : wft s2) by apply W2.
  destruct (param_leaves_total s2 p _ Tr Q') as (ls & Ls).
  destruct (param_leaves_spec s2 p ls Tr Ls) as (_ & Lv).
  assert (Same : forall i, leaf_of s2 p i <-> leaf_of s p i) by (intros i; now apply set_read_leaf).
  assert (K : succeeds env (OScalar n u r) s <->
    (exists v, scalar_leaf_view env s2 u p = Ok v) /\ exists vs, rmap (scalar_leaf_view env s2 u) ls = Ok vs).
  { unfold succeeds, answer. cbn [step]. unfold ps_scalar. rewrite L, O.
    unfold build_view. rewrite Q'. destruct (scalar_leaf_view env s2 u p) as [v|e].
    - rewrite Hc, Ls. destruct (rmap (scalar_leaf_view env s2 u) ls) as [vs|e]; simpl.
      + split; eauto.
      + split; [intros (x & H); discriminate|intros (_ & vs & H); discriminate].
    - simpl. split; [intros (x & H); discriminate|intros ((v & H) & _); discriminate]. }
  rewrite K, rmap_ok_iff.
  assert (One : forall i qi, nth_error (st_params s) i = Some qi ->
    (exists v, scalar_leaf_view env s2 u i = Ok v) <-> exists wi, p_unit qi = Some wi /\ commensurable env wi u).
  { intros i qi Qi. pose proof (set_read_nth s p q i qi Q Qi) as Qi'.
    rewrite (scalar_leaf_unit s2 u i _ Qi').
    assert (p_unit (if Nat.eqb i p then p_set_read qi else qi) = p_unit qi) as -> by (destruct (Nat.eqb i p), qi; reflexivity).
    destruct (p_unit qi) as [wi|].
    - destruct (C36_converter_proof env wi u) as ((B1 & B2) & _).
      split.
      + intros (v & V). exists wi. split; auto. apply B1.
        destruct (unit_converter env (Some wi) (Some u)); [eauto|discriminate].
      + intros (wi' & E & Cm). injection E as <-. destruct (B2 Cm) as (c & ->). eauto.
    - simpl. split; [intros (v & V); discriminate|intros (wi & E & _); discriminate]. }
  rewrite (One p q Q), U. split.
  - intros ((wi & E & Cm) & All). injection E as <-. split; auto.
    intros i qi Lf Qi. apply (One i qi Qi). apply All. now apply Lv, Same.
  - intros (Cm & All). split; [eauto|]. intros i I. apply Lv, Same in I.
    destruct I as (B & qi & Qi & Ci). apply (One i qi Qi). eapply All; eauto. split; eauto.
Qed.
End Views.
