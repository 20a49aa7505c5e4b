(** The walk over the parameters of a parameter set finds what is held in shallow regions (for C54). *)
From Coq Require Import String List Arith Lia Bool ZArith Reals.
From Verif Require Import Base ListFacts Units TimeModel Core CoreEvo CoreTree CoreNames CoreInv Spec_Core CoreReq CoreP1 CoreP2
  FrameStore StoreHolds.
Import ListNotations.
Local Open Scope string_scope.
Local Open Scope list_scope.

Lemma names_eqb_eq a : forall b, names_eqb a b = true <-> a = b.
Proof.
  induction a as [|x a IH]; intros [|y b]; cbn; split; intros H; try easy.
  - apply andb_true_iff in H. destruct H as [H1 H2]. apply String.eqb_eq in H1. apply IH in H2. congruence.
  - injection H as -> ->. apply andb_true_iff. split; [apply String.eqb_refl|now apply IH].
Qed.
Lemma pkey_eqb_eq a b : pkey_eqb a b = true <-> a = b.
Proof.
  destruct a as [a1 a2], b as [b1 b2]. unfold pkey_eqb. cbn [fst snd]. rewrite andb_true_iff, !names_eqb_eq.
  split; [intros [-> ->]; reflexivity|intros H; injection H; auto].
Qed.

Section Dict.
Context {K V : Type} (eqb : K -> K -> bool) (eqb_eq : forall a b, eqb a b = true <-> a = b).

Lemma dict_put_keys k (v : V) d : map fst (dict_put eqb k v d) = map fst d \/ map fst (dict_put eqb k v d) = map fst d ++ [k] /\ ~ In k (map fst d).
Proof.
  induction d as [|[k' v'] d IH]; [right; cbn; auto|]. cbn [dict_put].
  destruct (eqb k k') eqn:E; [left; reflexivity|].
  assert (N : k' <> k) by (intros ->; rewrite (proj2 (eqb_eq k k) eq_refl) in E; discriminate).
  destruct IH as [IH|[IH1 IH2]]; cbn [map fst]; [left; now rewrite IH|].
  right. rewrite IH1. split; [reflexivity|]. intros [I|I]; auto.
Qed.
Lemma dict_put_nodup k (v : V) d : NoDup (map fst d) -> NoDup (map fst (dict_put eqb k v d)).
Proof. intros N. destruct (dict_put_keys k v d) as [->|[-> I]]; [assumption|]. now apply NoDup_snoc. Qed.
Lemma dict_put_in k (v : V) d k' v' : NoDup (map fst d) ->
  In (k', v') (dict_put eqb k v d) <-> k' = k /\ v' = v \/ k' <> k /\ In (k', v') d.
Proof.
  induction d as [|[k1 v1] d IH]; intros N.
  - cbn. split; [intros [E|[]]; injection E; auto|intros [[-> ->]|[_ []]]; auto].
  - cbn [map fst] in N. apply NoDup_cons_iff in N. destruct N as [N1 N2]. cbn [dict_put].
    destruct (eqb k k1) eqn:E.
    + apply eqb_eq in E. subst k1. split.
      * intros [X|X]; [injection X; auto|]. right. split; [|now right].
        intros ->. apply N1. now apply (in_map fst) in X.
      * intros [[-> ->]|[X [Y|Y]]]; [now left|injection Y; congruence|now right].
    + assert (NE : k <> k1) by (intros ->; rewrite (proj2 (eqb_eq k1 k1) eq_refl) in E; discriminate).
      cbn [In]. rewrite (IH N2). split.
      * intros [X|[X|X]]; [|now left|right; tauto]. injection X as <- <-. right. split; [congruence|now left].
      * intros [X|[X [Y|Y]]]; [right; now left|now left|right; right; auto].
Qed.

(** Lists of pairs where the key determines the value. *)
Lemma dict_update_in (P : K -> V -> Prop) l : (forall k v v', P k v -> P k v' -> v = v') ->
  forall d, NoDup (map fst d) -> (forall k v, In (k, v) d -> P k v) -> (forall k v, In (k, v) l -> P k v) ->
  NoDup (map fst (dict_update eqb d l)) /\
  (forall k v, In (k, v) (dict_update eqb d l) <-> In (k, v) d \/ In (k, v) l).
Proof.
  intros F. induction l as [|[k v] l IH]; intros d N Pd Pl.
  - cbn. split; [assumption|]. intros k v. tauto.
  - cbn [dict_update fold_left fst snd]. change (fold_left _ l ?x) with (dict_update eqb x l).
    destruct (IH (dict_put eqb k v d)) as [A B].
    + now apply dict_put_nodup.
    + intros k' v' I. apply dict_put_in in I; [|assumption]. destruct I as [[-> ->]|[_ I]]; auto. apply Pl. now left.
    + intros k' v' I. apply Pl. now right.
    + split; [exact A|]. intros k' v'. rewrite B, dict_put_in by assumption. cbn [In]. split.
      * intros [[[-> ->]|[_ I]]|I]; auto.
      * intros [I|[I|I]]; auto; [|injection I as -> ->; auto].
        assert (D : k' = k \/ k' <> k).
        { destruct (eqb k' k) eqn:E; [left; now apply eqb_eq|right; intros ->].
          rewrite (proj2 (eqb_eq k k) eq_refl) in E. discriminate. }
        destruct D as [->|D]; [|auto]. left. left. split; [reflexivity|].
        apply (F k); [now apply Pd|apply Pl; now left].
Qed.
Lemma dict_fold_in (P : K -> V -> Prop) ls : (forall k v v', P k v -> P k v' -> v = v') ->
  forall d, NoDup (map fst d) -> (forall k v, In (k, v) d -> P k v) -> (forall l k v, In l ls -> In (k, v) l -> P k v) ->
  NoDup (map fst (fold_left (dict_update eqb) ls d)) /\
  (forall k v, In (k, v) (fold_left (dict_update eqb) ls d) <-> In (k, v) d \/ exists l, In l ls /\ In (k, v) l).
Proof.
  intros F. induction ls as [|l ls IH]; intros d N Pd Pl.
  - cbn. split; [assumption|]. intros k v. split; [auto|intros [I|(l & [] & _)]; auto].
  - cbn [fold_left]. destruct (dict_update_in P l F d N Pd) as [A B]; [intros k v; apply Pl; now left|].
    destruct (IH (dict_update eqb d l) A) as [C D].
    + intros k v I. apply B in I. destruct I as [I|I]; [auto|]. apply (Pl l); [now left|assumption].
    + intros l' k v I. apply Pl. now right.
    + split; [exact C|]. intros k v. rewrite D, B. split.
      * intros [[I|I]|(l' & I & J)]; [auto|right; exists l; split; [now left|auto]|right; exists l'; split; [now right|auto]].
      * intros [I|(l' & [<-|I] & J)]; auto. right. eauto.
Qed.
End Dict.

Lemma rmap_total {A B} (f : A -> res B) l : (forall a, In a l -> exists b, f a = Ok b) -> exists bs, rmap f l = Ok bs.
Proof.
  induction l as [|a l IH]; intros H; [exists []; reflexivity|].
  destruct (H a (or_introl eq_refl)) as [b Hb]. destruct IH as [bs Hbs]; [intros x I; apply H; now right|].
  exists (b :: bs). cbn. now rewrite Hb, Hbs.
Qed.
Lemma rmap_in {A B} (f : A -> res B) l bs b : rmap f l = Ok bs -> (In b bs <-> exists a, In a l /\ f a = Ok b).
Proof.
  revert bs. induction l as [|a l IH]; intros bs H.
  - injection H as <-. split; [intros []|intros (a & [] & _)].
  - cbn in H. destruct (f a) as [c|] eqn:Fa; [|discriminate]. destruct (rmap f l) as [cs|] eqn:R; [|discriminate].
    injection H as <-. cbn [In]. rewrite (IH cs eq_refl). split.
    + intros [<-|(a' & I & E)]; [exists a; auto|exists a'; auto].
    + intros (a' & [<-|I] & E); [left; congruence|right; eauto].
Qed.

Definition leaf_at (s : state) (k : pkey) (v : nat) : Prop :=
  param_at s (snd k) (fst k) = Some v /\ exists q, nth_error (st_params s) v = Some q /\ p_children q = [].
Lemma leaf_at_fun s k v v' : leaf_at s k v -> leaf_at s k v' -> v = v'.
Proof. intros [A _] [B _]. congruence. Qed.

Lemma walk_ok s : wft s -> forall fuel past p q rs, nth_error (st_params s) p = Some q ->
  length (st_params s) - p < fuel -> param_at s rs (past ++ [p_name q]) = Some p ->
  exists l, walk_parameters fuel s past p = Ok l /\ NoDup (map fst l) /\
    forall k v, In (k, v) l <-> leaf_at s k v /\ snd k = rs /\ prefix (past ++ [p_name q]) (fst k).
Proof.
  intros W. induction fuel as [|fuel IH]; intros past p q rs Q F P; [lia|].
  cbn [walk_parameters]. rewrite Q. set (full := past ++ [p_name q]) in *.
  destruct (proj1 (param_at_names s W rs full p) P) as [IR INm].
  destruct (p_children q) as [|c0 cs0] eqn:CH.
  - rewrite IR. exists [((full, rs), p)]. split; [reflexivity|]. split; [repeat constructor; intros []|].
    intros k v. split.
    + intros [E|[]]. injection E as <- <-. cbn [fst snd]. repeat split; eauto. exists []. now rewrite app_nil_r.
    + intros ((A & qv & QV & CV) & R & m & M). left. destruct k as [k1 k2]. cbn [fst snd] in *. subst k2 k1.
      destruct m as [|a m]; [rewrite app_nil_r in A |- *; replace v with p by congruence; reflexivity|]. exfalso.
      destruct (param_at_prefix s rs (full ++ [a]) m v) as [p' P']; [now destruct full|now rewrite <- app_assoc|].
      rewrite (param_at_snoc s rs full a p q P Q), CH in P'. discriminate.
  - set (cs := c0 :: cs0) in *.
    assert (CS : forall c, In c cs -> exists cq, nth_error (st_params s) (snd c) = Some cq /\ p_name cq = fst c /\
      p < snd c /\ param_at s rs (full ++ [p_name cq]) = Some (snd c)).
    { intros [n c] I. destruct (wt_pchild _ W p q n c Q) as (LT & cq & C & N & _); [now rewrite CH|].
      exists cq. cbn [fst snd]. repeat split; auto. rewrite (param_at_snoc s rs full _ p q P Q), CH, N.
      apply In_alookup; [|exact I]. pose proof (wt_pnodup _ W p q Q) as ND. now rewrite CH in ND. }
    destruct (rmap_total (fun c => walk_parameters fuel s full (snd c)) cs) as [ls LS].
    { intros c I. destruct (CS c I) as (cq & C & N & LT & PC).
      destruct (IH full (snd c) cq rs C) as (l & L & _); [pose proof (nth_lt _ _ _ C); lia|exact PC|]. eauto. }
    rewrite LS. cbn [rbind].
    assert (EACH : forall l k v, In l ls -> In (k, v) l -> leaf_at s k v).
    { intros l k v I J. apply (proj1 (rmap_in _ _ _ _ LS)) in I. destruct I as (c & Ic & L).
      destruct (CS c Ic) as (cq & C & N & LT & PC).
      destruct (IH full (snd c) cq rs C) as (l' & L' & _ & X); [pose proof (nth_lt _ _ _ C); lia|exact PC|].
      rewrite L in L'. injection L' as <-. now apply X in J. }
    destruct (dict_fold_in pkey_eqb pkey_eqb_eq (leaf_at s) ls (leaf_at_fun s) [] (NoDup_nil _)) as [A B]; [intros k v []|exact EACH|].
    eexists. split; [reflexivity|]. split; [exact A|]. intros k v. rewrite B. split.
    + intros [[]|(l & I & J)]. split; [now apply (EACH l)|].
      apply (proj1 (rmap_in _ _ _ _ LS)) in I. destruct I as (c & Ic & L).
      destruct (CS c Ic) as (cq & C & N & LT & PC).
      destruct (IH full (snd c) cq rs C) as (l' & L' & _ & X); [pose proof (nth_lt _ _ _ C); lia|exact PC|].
      rewrite L in L'. injection L' as <-. apply X in J. destruct J as (_ & R & m & M).
      split; [exact R|]. exists (p_name cq :: m). rewrite M. now rewrite <- app_assoc.
    + intros ((LA & qv & QV & CV) & R & m & M). right. destruct k as [k1 k2]. cbn [fst snd] in *. subst k2 k1.
      destruct m as [|a m].
      { rewrite app_nil_r in LA. assert (v = p) by congruence. subst v. rewrite Q in QV. injection QV as <-. rewrite CH in CV. discriminate. }
      destruct (param_at_prefix s rs (full ++ [a]) m v) as [p' P']; [now destruct full|now rewrite <- app_assoc|].
      pose proof P' as P''. rewrite (param_at_snoc s rs full a p q P Q), CH in P'. apply alookup_In in P'.
      destruct (CS _ P') as (cq & C & N & LT & PC). cbn [fst snd] in *.
      destruct (IH full p' cq rs C) as (l' & L' & _ & X); [pose proof (nth_lt _ _ _ C); lia|exact PC|].
      exists l'. split.
      * apply (proj2 (rmap_in _ _ _ _ LS)). exists (a, p'). auto.
      * apply X. cbn [fst snd]. split; [split; [exact LA|eauto]|]. split; [reflexivity|].
        exists m. rewrite N. now rewrite <- app_assoc.
Qed.

Definition shallow (rs : list string) : Prop := rs = ["World"] \/ exists x, rs = ["World"; x].

Lemma root_params_ok s : wft s -> region_at s ["World"] = Some 0 ->
  exists items, root_params s = Ok items /\ NoDup (map fst items) /\
    forall k v, In (k, v) items <-> leaf_at s k v /\ shallow (snd k).
Proof.
  intros W R0. unfold root_params.
  assert (X : exists root, nth_error (st_regions s) 0 = Some root /\ r_name root = "World").
  { unfold region_at in R0. destruct (nth_error (st_regions s) 0) as [rg|]; [|discriminate].
    destruct (String.eqb_spec "World" (r_name rg)); [|discriminate]. eauto. }
  destruct X as (root & R & RN). rewrite R.
  set (ps := region_params s 0 ++ flat_map (fun c => region_params s (snd c)) (r_children root)).
  assert (RA : forall x c, In (x, c) (r_children root) <-> region_at s ["World"; x] = Some c).
  { intros x c. unfold region_at. rewrite R, RN, String.eqb_refl. cbn [get_subregion]. rewrite R. split.
    - intros I. rewrite (In_alookup _ _ _ (wt_rnodup _ W _ _ R) I). reflexivity.
    - intros H. destruct (alookup x (r_children root)) eqn:A; [|discriminate]. injection H as ->. now apply alookup_In. }
  assert (RP : forall rs r p, region_at s rs = Some r -> In p (region_params s r) ->
    exists q, nth_error (st_params s) p = Some q /\ param_at s rs [p_name q] = Some p).
  { intros rs r p RR I. unfold region_params in I. destruct (nth_error (st_regions s) r) as [rg|] eqn:Rg; [|destruct I].
    apply in_map_iff in I. destruct I as ([n p'] & E & I). cbn in E. subst p'.
    destruct (wt_rparam _ W r rg n p Rg I) as (q & Q & N & _). exists q. split; [exact Q|].
    unfold param_at. rewrite RR. unfold param_in. rewrite Rg, N.
    now rewrite (In_alookup _ _ _ (wt_rpnodup _ W _ _ Rg) I). }
  assert (PR : forall rs r a p, region_at s rs = Some r -> param_at s rs [a] = Some p -> In p (region_params s r)).
  { intros rs r a p RR I. unfold param_at in I. rewrite RR in I. unfold param_in in I.
    unfold region_params. destruct (nth_error (st_regions s) r) as [rg|]; [|discriminate].
    destruct (alookup a (r_params rg)) eqn:A; [|discriminate]. cbn in I. injection I as ->.
    apply alookup_In in A. now apply (in_map snd) in A. }
  assert (PS : forall p, In p ps -> exists q rs, nth_error (st_params s) p = Some q /\ shallow rs /\ param_at s rs [p_name q] = Some p).
  { intros p I. apply in_app_iff in I. destruct I as [I|I].
    - destruct (RP ["World"] 0 p R0 I) as (q & Q & P). exists q, ["World"]. repeat split; auto. now left.
    - apply in_flat_map in I. destruct I as ([x c] & IC & I). apply RA in IC.
      destruct (RP ["World"; x] c p IC I) as (q & Q & P). exists q, ["World"; x]. repeat split; auto. right; eauto. }
  assert (SP : forall rs a p, shallow rs -> param_at s rs [a] = Some p -> In p ps).
  { intros rs a p SH P. apply in_app_iff. destruct SH as [->|[x ->]].
    - left. eapply PR; eauto.
    - right. pose proof P as P0. unfold param_at in P0. destruct (region_at s ["World"; x]) as [c|] eqn:RC; [|discriminate].
      apply in_flat_map. exists (x, c). split; [now apply RA|]. eapply PR; eauto. }
  set (wk := fun p => walk_parameters (S (length (st_params s))) s [] p).
  assert (WK : forall p, In p ps -> exists q rs l, nth_error (st_params s) p = Some q /\ shallow rs /\
    param_at s rs [p_name q] = Some p /\ wk p = Ok l /\ NoDup (map fst l) /\
    forall k v, In (k, v) l <-> leaf_at s k v /\ snd k = rs /\ prefix [p_name q] (fst k)).
  { intros p I. destruct (PS p I) as (q & rs & Q & SH & P). exists q, rs.
    destruct (walk_ok s W (S (length (st_params s))) [] p q rs Q) as (l & L & N & X); [lia|exact P|].
    exists l. repeat (split; [assumption|]). exact X. }
  destruct (rmap_total wk ps) as [ls LS]; [intros p I; destruct (WK p I) as (q & rs & l & _ & _ & _ & L & _); eauto|].
  rewrite LS. cbn [rbind].
  assert (EACH : forall l k v, In l ls -> In (k, v) l -> leaf_at s k v /\ shallow (snd k)).
  { intros l k v I J. apply (proj1 (rmap_in _ _ _ _ LS)) in I. destruct I as (p & Ip & L).
    destruct (WK p Ip) as (q & rs & l' & _ & SH & _ & L' & _ & X).
    rewrite L in L'. injection L' as <-. apply X in J. destruct J as (J1 & -> & _). auto. }
  destruct (dict_fold_in pkey_eqb pkey_eqb_eq (leaf_at s) ls (leaf_at_fun s) [] (NoDup_nil _)) as [A B];
    [intros k v []|intros l k v I J; now apply (EACH l)|].
  eexists. split; [reflexivity|]. split; [exact A|]. intros k v. rewrite B. split.
  - intros [[]|(l & I & J)]. now apply (EACH l).
  - intros [LA SH]. right. destruct k as [k1 k2]. cbn [fst snd] in *.
    pose proof (proj1 LA) as PA. cbn [fst snd] in PA.
    destruct k1 as [|a k1]; [unfold param_at in PA; destruct (region_at s k2); discriminate|].
    destruct (param_at_prefix s k2 [a] k1 v) as [p P]; [discriminate|exact PA|].
    pose proof (SP k2 a p SH P) as I. destruct (WK p I) as (q & rs & l & Q & _ & P' & L & _ & X).
    apply (param_at_names s W) in P, P'. destruct P as [E1 E2], P' as [E3 E4].
    assert (k2 = rs) by congruence. assert (a = p_name q) by congruence. subst rs a.
    exists l. split; [apply (proj2 (rmap_in _ _ _ _ LS)); eauto|]. apply X. split; [exact LA|]. split; [reflexivity|].
    exists k1. reflexivity.
Qed.

(** What is found in a set that holds [E]. *)
Lemma root_params_holds env s E : holds env s E ->
  exists items, root_params s = Ok items /\ NoDup (map fst items) /\
    (forall k v, In (k, v) items -> exists e, In e E /\ k = (e_name e, e_region e) /\ shallow (e_region e) /\
       param_at s (e_region e) (e_name e) = Some v) /\
    (forall e, In e E -> shallow (e_region e) -> exists v, In ((e_name e, e_region e), v) items).
Proof.
  intros H. pose proof (wf_tree _ _ (h_wf _ _ _ H)) as W.
  destruct (root_params_ok s W (h_root _ _ _ H)) as (items & I & N & X). exists items.
  split; [exact I|]. split; [exact N|]. split.
  - intros [k1 k2] v J. apply X in J. cbn [fst snd] in J. destruct J as [[PA (q & Q & C)] SH]. cbn [fst snd] in PA.
    destruct (h_all _ _ _ H _ _ _ PA) as (e & m & IE & R & Nm).
    destruct m as [|a m].
    + rewrite app_nil_r in Nm. exists e. subst. repeat split; auto.
    + exfalso. destruct (h_in _ _ _ H e IE) as (p & qe & P & _). rewrite R, Nm in P.
      destruct (param_at_prefix s k2 (k1 ++ [a]) m p) as [p' P']; [now destruct k1|now rewrite <- app_assoc|].
      rewrite (param_at_snoc s k2 k1 a v q PA Q), C in P'. discriminate.
  - intros e IE SH. destruct (h_in _ _ _ H e IE) as (p & q & P & Q & IQ). exists p. apply X. cbn [fst snd].
    split; [|exact SH]. split; [exact P|]. exists q. split; [exact Q|]. apply IQ.
Qed.
