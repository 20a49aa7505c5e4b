(** The region and parameter trees: well-formedness, its preservation by every operation,
    and what it says about names. *)
From Coq Require Import String List Arith Lia Bool ZArith.
From Verif Require Import Base ListFacts Units TimeModel Core CoreEvo.
Import ListNotations.

Record wft (s : state) : Prop := {
  wt_root : exists rg, nth_error (st_regions s) 0 = Some rg /\ r_parent rg = None;
  wt_agg : forall r rg, nth_error (st_regions s) r = Some rg -> r_aggregated rg = false;
  wt_rchild : forall r rg n c,
    nth_error (st_regions s) r = Some rg -> In (n, c) (r_children rg) ->
    r < c /\ exists cg, nth_error (st_regions s) c = Some cg /\ r_name cg = n /\
                        r_parent cg = Some r;
  wt_rnodup : forall r rg, nth_error (st_regions s) r = Some rg ->
    NoDup (map fst (r_children rg));
  wt_rparent : forall c cg r,
    nth_error (st_regions s) c = Some cg -> r_parent cg = Some r ->
    exists rg, nth_error (st_regions s) r = Some rg /\ In (r_name cg, c) (r_children rg);
  wt_ronly : forall c cg, nth_error (st_regions s) c = Some cg -> r_parent cg = None -> c = 0;
  wt_rparam : forall r rg n p,
    nth_error (st_regions s) r = Some rg -> In (n, p) (r_params rg) ->
    exists q, nth_error (st_params s) p = Some q /\ p_name q = n /\ p_parent q = None /\
              p_region q = r;
  wt_rpnodup : forall r rg, nth_error (st_regions s) r = Some rg ->
    NoDup (map fst (r_params rg));
  wt_pchild : forall p q n c,
    nth_error (st_params s) p = Some q -> In (n, c) (p_children q) ->
    p < c /\ exists cq, nth_error (st_params s) c = Some cq /\ p_name cq = n /\
                        p_parent cq = Some p /\ p_region cq = p_region q;
  wt_pnodup : forall p q, nth_error (st_params s) p = Some q ->
    NoDup (map fst (p_children q));
  wt_pparent : forall c cq p,
    nth_error (st_params s) c = Some cq -> p_parent cq = Some p ->
    exists q, nth_error (st_params s) p = Some q /\ In (p_name cq, c) (p_children q);
  wt_proot : forall p q,
    nth_error (st_params s) p = Some q -> p_parent q = None ->
    exists rg, nth_error (st_regions s) (p_region q) = Some rg /\
               In (p_name q, p) (r_params rg);
  wt_written : forall p q, nth_error (st_params s) p = Some q -> p_written q = true ->
    p_children q = [] }.

Lemma wft_init n : wft (init_state n).
Proof.
  constructor; simpl; eauto.
  - intros [|[|]] rg E; inversion E; auto.
  - intros [|[|]] rg nn c E I; inversion E; subst; simpl in I; tauto.
  - intros [|[|]] rg E; inversion E; subst; simpl; constructor.
  - intros [|[|]] cg r E; inversion E; subst; simpl; discriminate.
  - intros [|[|]] cg E; inversion E; auto.
  - intros [|[|]] rg nn c E I; inversion E; subst; simpl in I; tauto.
  - intros [|[|]] rg E; inversion E; subst; simpl; constructor.
  - intros [|] q nn c E; discriminate.
  - intros [|] q E; discriminate.
  - intros [|] q nn E; discriminate.
  - intros [|] q E; discriminate.
  - intros [|] q E; discriminate.
Qed.

Ltac cell H :=
  first [ apply nth_app_inv in H; destruct H as [H|[? H]]; subst; try rewrite nth_upd in H
        | rewrite nth_upd in H ].

Lemma wft_subregion s r n s' x : wft s ->
  get_or_create_subregion s r n = (s', x) -> wft s'.
Proof.
  intros W H. unfold get_or_create_subregion in H.
  destruct (nth_error (st_regions s) r) as [rg|] eqn:E; [|inversion H; subst; auto].
  destruct (alookup n (r_children rg)) as [c|] eqn:L; [inversion H; subst; auto|].
  rewrite (wt_agg s W _ _ E) in H. inversion H; subst; clear H.
  set (len := length (st_regions s)).
  assert (Hr : r < len) by (eapply nth_lt; eauto).
  set (rg' := mkRegion (r_name rg) (r_parent rg) (r_children rg ++ [(n, len)]) (r_params rg)
                false).
  assert (F : forall i y, nth_error (upd (st_regions s) r rg' ++ [new_region n r]) i = Some y ->
     (i = len /\ y = new_region n r) \/ (i = r /\ y = rg') \/
     (i <> r /\ nth_error (st_regions s) i = Some y)).
  { intros i y Hi. cell Hi.
    - destruct (Nat.eqb_spec r i).
      + destruct (nth_error (st_regions s) i); inversion Hi; subst; auto.
      + auto.
    - rewrite upd_length. auto. }
  assert (G1 : nth_error (upd (st_regions s) r rg' ++ [new_region n r]) len
               = Some (new_region n r)).
  { unfold len. rewrite <- (upd_length (st_regions s) r rg'). apply nth_app_new. }
  assert (G2 : nth_error (upd (st_regions s) r rg' ++ [new_region n r]) r = Some rg').
  { apply nth_app_old. apply nth_upd_eq. auto. }
  assert (G3 : forall i y, i <> r -> nth_error (st_regions s) i = Some y ->
     nth_error (upd (st_regions s) r rg' ++ [new_region n r]) i = Some y).
  { intros. apply nth_app_old. rewrite nth_upd_neq; auto. }
  assert (G4 : forall i y, nth_error (st_regions s) i = Some y ->
     exists y', nth_error (upd (st_regions s) r rg' ++ [new_region n r]) i = Some y' /\
       r_name y' = r_name y /\ r_parent y' = r_parent y /\ r_params y' = r_params y /\
       incl (r_children y) (r_children y')).
  { intros i y Hy. destruct (Nat.eq_dec i r).
    - subst. exists rg'. assert (y = rg) by congruence. subst. repeat split; auto.
      simpl. apply incl_appl, incl_refl.
    - exists y. repeat split; auto. apply incl_refl. }
  constructor; simpl.
  - destruct (wt_root s W) as (y & Y1 & Y2). destruct (G4 _ _ Y1) as (y' & ? & ? & ? & _).
    exists y'. split; auto. congruence.
  - intros i y Hi. destruct (F _ _ Hi) as [[_ ->]|[[_ ->]|[_ Hy]]]; auto.
    eapply wt_agg; eauto.
  - intros i y m c Hi I. destruct (F _ _ Hi) as [[_ ->]|[[-> ->]|[N Hy]]].
    + simpl in I. tauto.
    + simpl in I. apply in_app_iff in I. destruct I as [I|[I|[]]].
      * destruct (wt_rchild s W _ _ _ _ E I) as (Lt & cg & C1 & C2 & C3).
        destruct (G4 _ _ C1) as (y' & ? & ? & ? & _). split; auto. exists y'.
        repeat split; congruence.
      * inversion I; subst. split; auto. eexists. split; [exact G1|]. split; reflexivity.
    + destruct (wt_rchild s W _ _ _ _ Hy I) as (Lt & cg & C1 & C2 & C3).
      destruct (G4 _ _ C1) as (y' & ? & ? & ? & _). split; auto. exists y'.
      repeat split; congruence.
  - intros i y Hi. destruct (F _ _ Hi) as [[_ ->]|[[-> ->]|[N Hy]]].
    + simpl. constructor.
    + simpl. rewrite map_app. simpl. apply NoDup_snoc.
      * eapply wt_rnodup; eauto.
      * eapply alookup_None; eauto.
    + eapply wt_rnodup; eauto.
  - intros c cg i Hc Pa. destruct (F _ _ Hc) as [[-> ->]|[[-> ->]|[N Hy]]].
    + simpl in Pa. inversion Pa; subst. exists rg'. split; auto. simpl.
      apply in_app_iff. right. simpl; auto.
    + simpl in *. destruct (wt_rparent s W _ _ _ E Pa) as (y & Y1 & Y2).
      destruct (G4 _ _ Y1) as (y' & ? & ? & ? & ? & Inc). exists y'. split; auto.
    + destruct (wt_rparent s W _ _ _ Hy Pa) as (y & Y1 & Y2).
      destruct (G4 _ _ Y1) as (y' & ? & ? & ? & ? & Inc). exists y'. split; auto.
  - intros c cg Hc Pa. destruct (F _ _ Hc) as [[-> ->]|[[-> ->]|[N Hy]]].
    + discriminate.
    + eapply wt_ronly; eauto.
    + eapply wt_ronly; eauto.
  - intros i y m p Hi I. destruct (F _ _ Hi) as [[-> ->]|[[-> ->]|[N Hy]]].
    + simpl in I; tauto.
    + eapply wt_rparam; eauto.
    + eapply wt_rparam; eauto.
  - intros i y Hi. destruct (F _ _ Hi) as [[-> ->]|[[-> ->]|[N Hy]]].
    + simpl; constructor.
    + exact (wt_rpnodup s W _ _ E).
    + eapply wt_rpnodup; eauto.
  - apply W.
  - apply W.
  - apply W.
  - intros p q Hp Pa. destruct (wt_proot s W _ _ Hp Pa) as (y & Y1 & Y2).
    destruct (G4 _ _ Y1) as (y' & ? & ? & ? & Ep & _). exists y'. split; auto. congruence.
  - apply W.
Qed.

Lemma wft_subregions names : forall s r s' x, wft s ->
  subregions s r names = (s', x) -> wft s'.
Proof.
  induction names; simpl; intros s r s' x W H.
  - inversion H; subst; auto.
  - destruct (get_or_create_subregion s r a) as [s1 [c|e]] eqn:E.
    + eapply IHnames; [|eauto]. eapply wft_subregion; eauto.
    + inversion H; subst. eapply wft_subregion; eauto.
Qed.

Lemma wft_region s n s' x : wft s -> get_or_create_region s n = (s', x) -> wft s'.
Proof.
  intros W. unfold get_or_create_region. destruct (hcomponents n); intros H.
  - inversion H; subst; auto.
  - destruct (nth_error (st_regions s) 0); [|inversion H; subst; auto].
    destruct (String.eqb s0 (r_name r)); [|inversion H; subst; auto].
    eapply wft_subregions; eauto.
Qed.

Lemma wft_root_parameter s r n s' x : wft s ->
  get_or_create_root_parameter s r n = (s', x) -> wft s'.
Proof.
  intros W H. unfold get_or_create_root_parameter in H.
  destruct (nth_error (st_regions s) r) as [rg|] eqn:E; [|inversion H; subst; auto].
  destruct (alookup n (r_params rg)) as [c|] eqn:L; [inversion H; subst; auto|].
  inversion H; subst; clear H.
  set (len := length (st_params s)).
  assert (Hr : r < length (st_regions s)) by (eapply nth_lt; eauto).
  set (rg' := mkRegion (r_name rg) (r_parent rg) (r_children rg) (r_params rg ++ [(n, len)])
                (r_aggregated rg)).
  assert (F : forall i y, nth_error (upd (st_regions s) r rg') i = Some y ->
     (i = r /\ y = rg') \/ (i <> r /\ nth_error (st_regions s) i = Some y)).
  { intros i y Hi. cell Hi. destruct (Nat.eqb_spec r i).
      + destruct (nth_error (st_regions s) i); inversion Hi; subst; auto.
      + auto. }
  assert (G4 : forall i y, nth_error (st_regions s) i = Some y ->
     exists y', nth_error (upd (st_regions s) r rg') i = Some y' /\
       r_name y' = r_name y /\ r_parent y' = r_parent y /\ r_children y' = r_children y /\
       incl (r_params y) (r_params y')).
  { intros i y Hy. destruct (Nat.eq_dec i r).
    - subst. exists rg'. assert (y = rg) by congruence. subst. repeat split; auto.
      + apply nth_upd_eq; auto.
      + simpl. apply incl_appl, incl_refl.
    - exists y. rewrite nth_upd_neq by auto. repeat split; auto. apply incl_refl. }
  assert (P1 : nth_error (st_params s ++ [new_param n None r]) len = Some (new_param n None r))
    by apply nth_app_new.
  constructor; simpl.
  - destruct (wt_root s W) as (y & Y1 & Y2). destruct (G4 _ _ Y1) as (y' & ? & ? & ? & _).
    exists y'. split; auto. congruence.
  - intros i y Hi. destruct (F _ _ Hi) as [[_ ->]|[_ Hy]]; simpl; eapply wt_agg; eauto.
  - intros i y m c Hi I.
    assert (Z : exists y0, nth_error (st_regions s) i = Some y0 /\ r_children y0 = r_children y).
    { destruct (F _ _ Hi) as [[-> ->]|[N Hy]]; eauto. }
    destruct Z as (y0 & Hy & Ec). rewrite <- Ec in I.
    destruct (wt_rchild s W _ _ _ _ Hy I) as (Lt & cg & C1 & C2 & C3).
    destruct (G4 _ _ C1) as (y' & ? & ? & ? & _). split; auto. exists y'.
    repeat split; congruence.
  - intros i y Hi. destruct (F _ _ Hi) as [[-> ->]|[N Hy]]; simpl; eapply wt_rnodup; eauto.
  - intros c cg i Hc Pa.
    assert (Z : exists y0, nth_error (st_regions s) c = Some y0 /\ r_parent y0 = r_parent cg
        /\ r_name y0 = r_name cg).
    { destruct (F _ _ Hc) as [[-> ->]|[N Hy]]; eauto. }
    destruct Z as (y0 & Hy & Ep & En). rewrite <- Ep in Pa. rewrite <- En.
    destruct (wt_rparent s W _ _ _ Hy Pa) as (y & Y1 & Y2).
    destruct (G4 _ _ Y1) as (y' & ? & ? & ? & Ec & Inc). exists y'. split; auto. congruence.
  - intros c cg Hc Pa. destruct (F _ _ Hc) as [[-> ->]|[N Hy]]; eapply wt_ronly; eauto.
  - intros i y m p Hi I. destruct (F _ _ Hi) as [[-> ->]|[N Hy]].
    + simpl in I. apply in_app_iff in I. destruct I as [I|[I|[]]].
      * destruct (wt_rparam s W _ _ _ _ E I) as (q & Q1 & Q2).
        exists q. split; auto. now apply nth_app_old.
      * inversion I; subst. eexists. split; [exact P1|]. simpl; auto.
    + destruct (wt_rparam s W _ _ _ _ Hy I) as (q & Q1 & Q2).
      exists q. split; auto. now apply nth_app_old.
  - intros i y Hi. destruct (F _ _ Hi) as [[-> ->]|[N Hy]].
    + simpl. rewrite map_app. simpl. apply NoDup_snoc.
      * eapply wt_rpnodup; eauto.
      * eapply alookup_None; eauto.
    + eapply wt_rpnodup; eauto.
  - intros p q m c Hp I. cell Hp.
    + destruct (wt_pchild s W _ _ _ _ Hp I) as (Lt & cq & C1 & C2). split; auto.
      exists cq. split; auto. now apply nth_app_old.
    + simpl in I; tauto.
  - intros p q Hp. cell Hp.
    + eapply wt_pnodup; eauto.
    + simpl; constructor.
  - intros c cq p Hc Pa. cell Hc.
    + destruct (wt_pparent s W _ _ _ Hc Pa) as (q & Q1 & Q2). exists q. split; auto.
      now apply nth_app_old.
    + discriminate.
  - intros p q Hp Pa. cell Hp.
    + destruct (wt_proot s W _ _ Hp Pa) as (y & Y1 & Y2).
      destruct (G4 _ _ Y1) as (y' & ? & ? & ? & Ep & Inc). exists y'. split; auto.
    + simpl. exists rg'. split.
      * apply nth_upd_eq; auto.
      * simpl. apply in_app_iff; right; simpl; auto.
  - intros p q Hp Wr. cell Hp; [eapply wt_written; eauto|discriminate].
Qed.

Lemma wft_child_parameter s r n s' x : wft s ->
  get_or_create_child_parameter s r n = (s', x) -> wft s'.
Proof.
  intros W H. unfold get_or_create_child_parameter in H.
  destruct (nth_error (st_params s) r) as [rg|] eqn:E; [|inversion H; subst; auto].
  destruct (alookup n (p_children rg)) as [c|] eqn:L; [inversion H; subst; auto|].
  destruct (p_written rg) eqn:Wr; [inversion H; subst; auto|].
  destruct (p_read rg) eqn:Rd; [inversion H; subst; auto|].
  inversion H; subst; clear H.
  set (len := length (st_params s)).
  assert (Hr : r < len) by (eapply nth_lt; eauto).
  set (rg' := p_add_child rg n len).
  set (np := new_param n (Some r) (p_region rg)).
  assert (F : forall i y, nth_error (upd (st_params s) r rg' ++ [np]) i = Some y ->
     (i = len /\ y = np) \/ (i = r /\ y = rg') \/
     (i <> r /\ nth_error (st_params s) i = Some y)).
  { intros i y Hi. cell Hi.
    - destruct (Nat.eqb_spec r i).
      + destruct (nth_error (st_params s) i); inversion Hi; subst; auto.
      + auto.
    - rewrite upd_length. auto. }
  assert (G1 : nth_error (upd (st_params s) r rg' ++ [np]) len = Some np).
  { unfold len. rewrite <- (upd_length (st_params s) r rg'). apply nth_app_new. }
  assert (G4 : forall i y, nth_error (st_params s) i = Some y ->
     exists y', nth_error (upd (st_params s) r rg' ++ [np]) i = Some y' /\
       p_name y' = p_name y /\ p_parent y' = p_parent y /\ p_region y' = p_region y /\
       incl (p_children y) (p_children y')).
  { intros i y Hy. destruct (Nat.eq_dec i r).
    - subst. exists rg'. assert (y = rg) by congruence. subst. repeat split; auto.
      + apply nth_app_old. apply nth_upd_eq. auto.
      + simpl. apply incl_appl, incl_refl.
    - exists y. repeat split; auto.
      + apply nth_app_old. rewrite nth_upd_neq; auto.
      + apply incl_refl. }
  constructor; simpl; try apply W.
  - intros i y m p Hi I. destruct (wt_rparam s W _ _ _ _ Hi I) as (q & Q1 & Q2 & Q3 & Q4).
    destruct (G4 _ _ Q1) as (q' & ? & ? & ? & ? & _). exists q'. repeat split; congruence.
  - intros p q m c Hp I. destruct (F _ _ Hp) as [[_ ->]|[[-> ->]|[N Hy]]].
    + simpl in I. tauto.
    + simpl in I. apply in_app_iff in I. destruct I as [I|[I|[]]].
      * destruct (wt_pchild s W _ _ _ _ E I) as (Lt & cg & C1 & C2 & C3 & C4).
        destruct (G4 _ _ C1) as (y' & ? & ? & ? & ? & _). split; auto. exists y'.
        simpl. repeat split; congruence.
      * inversion I; subst. split; auto. eexists. split; [exact G1|]. split; auto.
    + destruct (wt_pchild s W _ _ _ _ Hy I) as (Lt & cg & C1 & C2 & C3 & C4).
      destruct (G4 _ _ C1) as (y' & ? & ? & ? & ? & _). split; auto. exists y'.
      repeat split; congruence.
  - intros p q Hp. destruct (F _ _ Hp) as [[_ ->]|[[-> ->]|[N Hy]]].
    + simpl. constructor.
    + simpl. rewrite map_app. simpl. apply NoDup_snoc.
      * eapply wt_pnodup; eauto.
      * eapply alookup_None; eauto.
    + eapply wt_pnodup; eauto.
  - intros c cg i Hc Pa. destruct (F _ _ Hc) as [[-> ->]|[[-> ->]|[N Hy]]].
    + simpl in Pa. inversion Pa; subst. exists rg'. split.
      * apply nth_app_old. apply nth_upd_eq. auto.
      * simpl. apply in_app_iff. right. simpl; auto.
    + simpl in *. destruct (wt_pparent s W _ _ _ E Pa) as (y & Y1 & Y2).
      destruct (G4 _ _ Y1) as (y' & ? & ? & ? & ? & Inc). exists y'. split; auto.
    + destruct (wt_pparent s W _ _ _ Hy Pa) as (y & Y1 & Y2).
      destruct (G4 _ _ Y1) as (y' & ? & ? & ? & ? & Inc). exists y'. split; auto.
  - intros c cg Hc Pa. destruct (F _ _ Hc) as [[-> ->]|[[-> ->]|[N Hy]]].
    + discriminate.
    + simpl in *. eapply wt_proot; eauto.
    + eapply wt_proot; eauto.
  - intros c cg Hc Wc. destruct (F _ _ Hc) as [[-> ->]|[[-> ->]|[N Hy]]].
    + discriminate.
    + simpl in Wc. congruence.
    + eapply wt_written; eauto.
Qed.

Lemma wft_subparameters names : forall s r s' x, wft s ->
  subparameters s r names = (s', x) -> wft s'.
Proof.
  induction names; simpl; intros s r s' x W H.
  - inversion H; subst; auto.
  - destruct (get_or_create_child_parameter s r a) as [s1 [c|e]] eqn:E.
    + eapply IHnames; [|eauto]. eapply wft_child_parameter; eauto.
    + inversion H; subst. eapply wft_child_parameter; eauto.
Qed.

Lemma wft_parameter s n r s' x : wft s -> get_or_create_parameter s n r = (s', x) -> wft s'.
Proof.
  intros W. unfold get_or_create_parameter. destruct (hcomponents n); intros H.
  - inversion H; subst; auto.
  - destruct (get_or_create_root_parameter s r s0) as [s1 [c|e]] eqn:E.
    + eapply wft_subparameters; [|eauto]. eapply wft_root_parameter; eauto.
    + inversion H; subst. eapply wft_root_parameter; eauto.
Qed.

Lemma wft_locate s n r s' x : wft s -> locate s n r = (s', x) -> wft s'.
Proof.
  intros W. unfold locate. intros H.
  destruct (get_or_create_region s r) as [s1 [c|e]] eqn:E.
  - eapply wft_parameter; [|eauto]. eapply wft_region; eauto.
  - inversion H; subst. eapply wft_region; eauto.
Qed.

(** Operations after the lookup leave the trees alone. *)
Definition tproj (q : param) := (p_name q, p_parent q, p_region q, p_children q).
Definition wok (q q' : param) := p_written q' = true -> p_written q = true \/ p_children q = [].
Record tsame (s s' : state) : Prop := {
  ts_regions : st_regions s' = st_regions s;
  ts_params : map tproj (st_params s') = map tproj (st_params s);
  ts_written : forall p q q', nth_error (st_params s) p = Some q ->
     nth_error (st_params s') p = Some q' -> wok q q' }.

Lemma tsame_refl s : tsame s s.
Proof. constructor; auto. intros p q q' A B. unfold wok. intros. left. congruence. Qed.

Lemma tsame_nth s s' p q' : tsame s s' -> nth_error (st_params s') p = Some q' ->
  exists q, nth_error (st_params s) p = Some q /\ tproj q' = tproj q /\ wok q q'.
Proof.
  intros T H. pose proof (ts_params _ _ T) as M.
  assert (K : nth_error (map tproj (st_params s')) p = Some (tproj q')) by now apply map_nth_error.
  rewrite M, nth_error_map in K. destruct (nth_error (st_params s) p) as [q|] eqn:E; inversion K.
  exists q. split; [auto|split; [unfold tproj; congruence|]]. eapply ts_written; eauto.
Qed.
Lemma tsame_nth' s s' p q : tsame s s' -> nth_error (st_params s) p = Some q ->
  exists q', nth_error (st_params s') p = Some q' /\ tproj q' = tproj q /\ wok q q'.
Proof.
  intros T H. pose proof (ts_params _ _ T) as M.
  assert (K : nth_error (map tproj (st_params s)) p = Some (tproj q)) by now apply map_nth_error.
  rewrite <- M, nth_error_map in K. destruct (nth_error (st_params s') p) as [q'|] eqn:E; inversion K.
  exists q'. split; [auto|split; [unfold tproj; congruence|]]. eapply ts_written; eauto.
Qed.
Lemma tsame_trans a b c : tsame a b -> tsame b c -> tsame a c.
Proof.
  intros H K. constructor.
  - rewrite (ts_regions _ _ K). apply H.
  - rewrite (ts_params _ _ K). apply H.
  - intros p q q'' A C.
    destruct (tsame_nth _ _ _ _ K C) as (q' & B & E & W2).
    destruct (tsame_nth _ _ _ _ H B) as (q0 & A0 & E0 & W1).
    assert (q0 = q) by congruence. subst q0. intros X.
    destruct (W2 X) as [Y|Y].
    + destruct (W1 Y); auto.
    + right. inversion E0. congruence.
Qed.

Lemma wft_tsame s s' : wft s -> tsame s s' -> wft s'.
Proof.
  intros W T. pose proof (ts_regions _ _ T) as R.
  constructor; rewrite ?R; try apply W.
  - intros r rg n p Hr I. destruct (wt_rparam s W _ _ _ _ Hr I) as (q & Q1 & Q2 & Q3 & Q4).
    destruct (tsame_nth' _ _ _ _ T Q1) as (q' & A & E & _). inversion E.
    exists q'. repeat split; congruence.
  - intros p q n c Hp I. destruct (tsame_nth _ _ _ _ T Hp) as (q0 & A & E & _). inversion E.
    rewrite H3 in I. destruct (wt_pchild s W _ _ _ _ A I) as (Lt & cq & C1 & C2 & C3 & C4).
    destruct (tsame_nth' _ _ _ _ T C1) as (cq' & A' & E' & _). inversion E'.
    split; auto. exists cq'. repeat split; congruence.
  - intros p q Hp. destruct (tsame_nth _ _ _ _ T Hp) as (q0 & A & E & _). inversion E.
    rewrite H3. eapply wt_pnodup; eauto.
  - intros c cq p Hc Pa. destruct (tsame_nth _ _ _ _ T Hc) as (q0 & A & E & _). inversion E.
    rewrite H1 in Pa. destruct (wt_pparent s W _ _ _ A Pa) as (q & Q1 & Q2).
    destruct (tsame_nth' _ _ _ _ T Q1) as (cq' & A' & E' & _). inversion E'.
    exists cq'. split; congruence.
  - intros p q Hp Pa. destruct (tsame_nth _ _ _ _ T Hp) as (q0 & A & E & _). inversion E.
    rewrite H1 in Pa. destruct (wt_proot s W _ _ A Pa) as (rg & Q1 & Q2).
    exists rg. split; congruence.
  - intros p q Hp Wr. destruct (tsame_nth _ _ _ _ T Hp) as (q0 & A & E & K). inversion E.
    rewrite H3. destruct (K Wr) as [Y|Y]; auto. eapply wt_written; eauto.
Qed.

Lemma tsame_set_param s p q q' : nth_error (st_params s) p = Some q ->
  tproj q' = tproj q -> wok q q' -> tsame s (set_param s p q').
Proof.
  intros E T K. constructor; simpl; auto.
  - clear K. revert p E. generalize (st_params s). induction l; intros [|p] H; simpl in *; try discriminate.
    + inversion H; subst. now rewrite T.
    + f_equal; auto.
  - intros i a b A B. rewrite nth_upd in B. destruct (Nat.eqb_spec p i).
    + subst. rewrite A in B. inversion B; subst. assert (a = q) by congruence. subst; auto.
    + intros X. left. congruence.
Qed.
Lemma tsame_views s v : tsame s (mkState (st_regions s) (st_params s) v).
Proof. constructor; simpl; auto. intros p q q' A B X. left; congruence. Qed.
Lemma tsame_set_view s i v : tsame s (set_view s i v).
Proof. apply tsame_views. Qed.
Lemma tsame_rd s s' : rd s s' -> tsame s s'.
Proof.
  intros []. constructor; auto; try congruence.
  intros p q q' A B X. left. congruence.
Qed.

Lemma tproj_attempt_read q t u tp q' x : attempt_read q t u tp = (q', x) ->
  tproj q' = tproj q /\ p_written q' = p_written q.
Proof.
  unfold attempt_read. intros H.
  destruct (p_type q) as [t'|].
  - destruct (ptype_eqb t' t); inversion H; auto.
  - destruct t; simpl in H; [| | |destruct (has_children q)];
      try (destruct tp as [tp|]; [destruct (_ <? 0)%Z|]); inversion H; auto.
Qed.
Lemma tproj_attempt_write q t u tp q' x : attempt_write q t u tp = (q', x) ->
  tproj q' = tproj q /\ wok q q'.
Proof.
  unfold attempt_write, has_children. intros H.
  destruct (p_children q) eqn:C.
  - destruct (attempt_read q t u tp) as [q1 [y|e]] eqn:A; apply tproj_attempt_read in A;
      destruct A as [A B]; inversion H; subst.
    + split; [exact A|]. unfold wok. auto.
    + split; [exact A|]. unfold wok. auto.
  - inversion H; subst. split; auto. unfold wok. auto.
Qed.

Lemma tsame_on_read s p t u tp s' x :
  on_param s p (fun q => attempt_read q t u tp) = (s', x) -> tsame s s'.
Proof.
  unfold on_param. destruct (nth_error (st_params s) p) as [q|] eqn:E; intros H.
  - destruct (attempt_read q t u tp) as [q' y] eqn:A. inversion H; subst.
    apply tproj_attempt_read in A. destruct A as [A B].
    eapply tsame_set_param; eauto. intros X. left. congruence.
  - inversion H; subst. apply tsame_refl.
Qed.
Lemma tsame_on_write s p t u tp s' x :
  on_param s p (fun q => attempt_write q t u tp) = (s', x) -> tsame s s'.
Proof.
  unfold on_param. destruct (nth_error (st_params s) p) as [q|] eqn:E; intros H.
  - destruct (attempt_write q t u tp) as [q' y] eqn:A. inversion H; subst.
    apply tproj_attempt_write in A. destruct A as [A B].
    eapply tsame_set_param; eauto.
  - inversion H; subst. apply tsame_refl.
Qed.
Lemma tsame_build_view s mk p s' x : build_view s mk p = (s', x) -> tsame s s'.
Proof.
  unfold build_view. intros H.
  destruct (nth_error (st_params s) p); [|inversion H; apply tsame_refl].
  destruct (mk p); [|inversion H; apply tsame_refl].
  destruct (has_children p0).
  - destruct (param_leaves s p); [|inversion H; apply tsame_refl].
    destruct (rmap mk l); inversion H; subst; try apply tsame_refl.
    apply tsame_views.
  - inversion H; subst. apply tsame_views.
Qed.
Lemma tsame_check_write s vi v t u tp s' x :
  check_write s vi v t u tp = (s', x) -> tsame s s'.
Proof.
  unfold check_write. intros H.
  destruct (v_writable v); [inversion H; apply tsame_refl|].
  destruct (on_param s (v_param v) _) as [s1 [y|e]] eqn:O; inversion H; subst.
  - eapply tsame_trans; [eapply tsame_on_write; eauto|apply tsame_set_view].
  - eapply tsame_on_write; eauto.
Qed.
Lemma tsame_store s p d : tsame s (store s p d).
Proof.
  unfold store. destruct (nth_error (st_params s) p) eqn:E; [|apply tsame_refl].
  eapply tsame_set_param; eauto. intros X; left; auto.
Qed.
Lemma tsame_scalar_set s vi v y s' x : scalar_set s vi v y = (s', x) -> tsame s s'.
Proof.
  unfold scalar_set. intros H.
  destruct (check_write s vi v _ _ _) as [s1 [z|e]] eqn:C; inversion H; subst.
  - eapply tsame_trans; [eapply tsame_check_write; eauto|apply tsame_store].
  - eapply tsame_check_write; eauto.
Qed.
Lemma tsame_generic_set s vi v y s' x : generic_set s vi v y = (s', x) -> tsame s s'.
Proof.
  unfold generic_set. intros H.
  destruct (check_write s vi v _ _ _) as [s1 [z|e]] eqn:C; inversion H; subst.
  - eapply tsame_trans; [eapply tsame_check_write; eauto|apply tsame_store].
  - eapply tsame_check_write; eauto.
Qed.
Lemma tsame_ts_write s vi s' x : ts_write s vi = (s', x) -> tsame s s'.
Proof.
  unfold ts_write. intros H.
  destruct (nth_error (st_views s) vi) as [v|] eqn:V; [|inversion H; apply tsame_refl].
  destruct (v_locked v); [inversion H; apply tsame_refl|].
  destruct (v_data v) as [d|]; [|inversion H; apply tsame_refl].
  destruct (nth_error (st_params s) (v_param v)) as [q|] eqn:P; [|inversion H; apply tsame_refl].
  destruct (to_param v (a_val d)); inversion H; subst; try apply tsame_refl.
  eapply tsame_trans; [|apply tsame_set_view].
  eapply tsame_set_param; [eauto|reflexivity|]. intros X; left; auto.
Qed.
Lemma tsame_ts_set s vi v a s' x : ts_set s vi v a = (s', x) -> tsame s s'.
Proof.
  unfold ts_set. intros H.
  destruct (check_write s vi v _ _ _) as [s1 [z|e]] eqn:C.
  2: { inversion H; subst. eapply tsame_check_write; eauto. }
  eapply tsame_trans; [eapply tsame_check_write; eauto|].
  destruct (_ =? _)%Z; [|inversion H; apply tsame_refl].
  destruct (nth_error (st_views s1) vi) as [v1|]; [|inversion H; apply tsame_refl].
  destruct (v_data v1) as [d|].
  - destruct (a_int d && negb (a_int a)); [inversion H; apply tsame_refl|].
    eapply tsame_trans; [apply tsame_set_view|eapply tsame_ts_write; eauto].
  - eapply tsame_trans; [apply tsame_set_view|eapply tsame_ts_write; eauto].
Qed.
Lemma tsame_handle_set s vi i y s' x : handle_set s vi i y = (s', x) -> tsame s s'.
Proof.
  unfold handle_set. intros H.
  destruct (nth_error (st_views s) vi) as [v|] eqn:V; [|inversion H; apply tsame_refl].
  destruct (v_data v) as [d|]; [|inversion H; apply tsame_refl].
  destruct (pyindex _ _); [|inversion H; apply tsame_refl].
  destruct (cast_item _ _); [|inversion H; apply tsame_refl].
  eapply tsame_trans; [apply tsame_set_view|eapply tsame_ts_write; eauto].
Qed.
Lemma tsame_ts_get s vi s' x : ts_get s vi = (s', x) -> tsame s s'.
Proof. intros. eapply tsame_rd, rd_ts_get; eauto. Qed.
Lemma tsame_ts_setitem s vi i y s' x : ts_setitem s vi i y = (s', x) -> tsame s s'.
Proof.
  unfold ts_setitem. intros H.
  destruct (ts_get s vi) as [s1 [z|e]] eqn:G.
  - eapply tsame_trans; [eapply tsame_ts_get; eauto|]. eapply tsame_handle_set; eauto.
  - inversion H; subst. eapply tsame_ts_get; eauto.
Qed.
Lemma tsame_handle_iadd s vi y s' x : handle_iadd s vi y = (s', x) -> tsame s s'.
Proof.
  unfold handle_iadd. intros H.
  destruct (nth_error (st_views s) vi) as [v|] eqn:V; [|inversion H; apply tsame_refl].
  destruct (v_data v) as [d|]; [|inversion H; apply tsame_refl].
  destruct (ts_get s vi) as [s1 [z|e]] eqn:G.
  2: { inversion H; subst. eapply tsame_ts_get; eauto. }
  eapply tsame_trans; [eapply tsame_ts_get; eauto|].
  destruct (nth_error (st_views s1) vi) as [v1|] eqn:V1; [|inversion H; apply tsame_refl].
  destruct (v_data v1) as [d1|]; [|inversion H; apply tsame_refl].
  destruct (a_int d1); [inversion H; apply tsame_refl|].
  eapply tsame_trans; [apply tsame_set_view|eapply tsame_ts_write; eauto].
Qed.
Lemma tsame_ts_unlock s vi v s' x : ts_unlock s vi v = (s', x) -> tsame s s'.
Proof.
  unfold ts_unlock. intros H.
  eapply tsame_trans; [apply tsame_set_view|eapply tsame_ts_write; eauto].
Qed.

(** A request is a lookup followed by operations that leave the trees alone. *)
Definition is_request (o : op) : option (hname * hname) :=
  match o with
  | OScalar n _ r => Some (n, r)
  | OTimeseries n _ _ r _ _ _ => Some (n, r)
  | OGeneric n r => Some (n, r)
  | _ => None
  end.

Section W.
Variable env : uenv.

Lemma tsame_scalar s n u r s' x : ps_scalar env s n u r = (s', x) ->
  exists s1 y, locate s n r = (s1, y) /\ tsame s1 s'.
Proof.
  unfold ps_scalar. intros H.
  destruct (locate s n r) as [s1 [p|e]] eqn:L; exists s1; eexists; (split; [reflexivity|]).
  2: { inversion H; subst. apply tsame_refl. }
  destruct (on_param s1 p _) as [s2 [y|e]] eqn:O.
  - eapply tsame_trans; [eapply tsame_on_read; eauto|]. eapply tsame_build_view; eauto.
  - inversion H; subst. eapply tsame_on_read; eauto.
Qed.
Lemma tsame_generic s n r s' x : ps_generic s n r = (s', x) ->
  exists s1 y, locate s n r = (s1, y) /\ tsame s1 s'.
Proof.
  unfold ps_generic. intros H.
  destruct (locate s n r) as [s1 [p|e]] eqn:L; exists s1; eexists; (split; [reflexivity|]).
  2: { inversion H; subst. apply tsame_refl. }
  destruct (on_param s1 p _) as [s2 [y|e]] eqn:O; inversion H; subst.
  - eapply tsame_trans; [eapply tsame_on_read; eauto|]. apply tsame_views.
  - eapply tsame_on_read; eauto.
Qed.
Lemma tsame_timeseries s n u tp r a b c s' x :
  ps_timeseries env s n u tp r a b c = (s', x) ->
  s' = s \/ exists s1 y, locate s n r = (s1, y) /\ tsame s1 s'.
Proof.
  unfold ps_timeseries. intros H.
  destruct (from_timeseries_type a); [|inversion H; auto].
  destruct (from_interpolation_type b); [|inversion H; auto].
  destruct (from_extrapolation_type c); [|inversion H; auto]. right.
  destruct (locate s n r) as [s1 [p|e]] eqn:L; exists s1; eexists; (split; [reflexivity|]).
  2: { inversion H; subst. apply tsame_refl. }
  destruct (on_param s1 p _) as [s2 [y|e]] eqn:O.
  - eapply tsame_trans; [eapply tsame_on_read; eauto|]. eapply tsame_build_view; eauto.
  - inversion H; subst. eapply tsame_on_read; eauto.
Qed.

Lemma tsame_step o s s' x : step env o s = (s', x) ->
  match is_request o with
  | Some (n, r) => s' = s \/ exists s1 y, locate s n r = (s1, y) /\ tsame s1 s'
  | None => tsame s s'
  end.
Proof.
  destruct o; intros H; cbn [step is_request] in *;
  try (apply lift_inv in H; destruct H as [z H]);
  try (apply with_view_inv in H; destruct H as [[-> _]|(w & V & Pb & K & H)]; [apply tsame_refl|]);
  try (apply lift_inv in H; destruct H as [z H]).
  - right. eapply tsame_scalar; eauto.
  - eapply tsame_timeseries; eauto.
  - right. eapply tsame_generic; eauto.
  - inversion H; apply tsame_refl.
  - inversion H; apply tsame_refl.
  - eapply tsame_scalar_set; eauto.
  - inversion H; apply tsame_refl.
  - eapply tsame_generic_set; eauto.
  - eapply tsame_ts_get; eauto.
  - eapply tsame_ts_set; eauto.
  - eapply tsame_ts_setitem; eauto.
  - destruct (v_data w); [|inversion H; apply tsame_refl].
    destruct (ts_get s v) as [s1 [z|e]] eqn:G; inversion H; subst;
      eapply tsame_ts_get; eauto.
  - inversion H; apply tsame_refl.
  - eapply tsame_handle_set; eauto.
  - eapply tsame_handle_iadd; eauto.
  - inversion H; subst. apply tsame_set_view.
  - eapply tsame_ts_unlock; eauto.
Qed.

Theorem wft_step o s s' x : wft s -> step env o s = (s', x) -> wft s'.
Proof.
  intros W H. apply tsame_step in H. destruct (is_request o) as [[n r]|].
  - destruct H as [->|(s1 & y & L & T)]; auto.
    eapply wft_tsame; [|exact T]. eapply wft_locate; eauto.
  - eapply wft_tsame; eauto.
Qed.
Theorem wft_run h : forall s, wft s -> wft (run env s h).
Proof.
  induction h; simpl; intros s W; auto. apply IHh.
  destruct (step env a s) eqn:E. eapply wft_step; eauto.
Qed.
End W.
