(** A parameter set used by one user alone, inside a parameter set used by several: requests.  (For C93.) *)
From Coq Require Import String List Arith Lia Bool ZArith Reals.
From Verif Require Import Base ListFacts Units TimeModel Core CoreEvo CoreTree CoreNames Spec_Core CoreLeaves ShareSim.
From Coq Require Import Classical_Prop.
Import ListNotations.

Lemma root_name_evo s s' : wft s -> evo s s' -> option_map r_name (nth_error (st_regions s') 0) = option_map r_name (nth_error (st_regions s) 0).
Proof. intros W E. destruct (wt_root s W) as (g & G & _). destruct (ev_regions _ _ E _ _ G) as (g' & -> & R). rewrite G. cbn. now rewrite (re_name _ _ R). Qed.

Lemma subregion_cells s r n : st_params (fst (get_or_create_subregion s r n)) = st_params s /\ st_views (fst (get_or_create_subregion s r n)) = st_views s.
Proof.
  unfold get_or_create_subregion. destruct (nth_error (st_regions s) r); [|auto]. destruct (alookup n (r_children r0)); [auto|].
  destruct (r_aggregated r0); auto.
Qed.
Lemma subregions_cells l : forall s r, st_params (fst (subregions s r l)) = st_params s /\ st_views (fst (subregions s r l)) = st_views s.
Proof.
  induction l as [|n l IH]; intros s r; [auto|]. cbn [subregions]. pose proof (subregion_cells s r n) as [A B].
  destruct (get_or_create_subregion s r n) as [s1 [c|e]]; cbn [fst] in *; auto. rewrite <- A, <- B. apply IH.
Qed.
Lemma subregions_ok l : forall s r, wft s -> r < length (st_regions s) -> exists c, snd (subregions s r l) = Ok c.
Proof.
  induction l as [|n l IH]; intros s r W L; [cbn; eauto|]. cbn [subregions].
  destruct (get_or_create_subregion s r n) as [s1 x] eqn:E. pose proof (wft_subregion _ _ _ _ _ W E) as W1. unfold get_or_create_subregion in E.
  destruct (nth_error (st_regions s) r) as [g|] eqn:G; [|apply nth_error_None in G; lia]. destruct (alookup n (r_children g)) as [c|] eqn:C.
  - injection E as <- <-. apply IH; auto. destruct (wt_rchild s W _ _ _ _ G (alookup_In _ _ _ C)) as (_ & y & Y & _). eapply nth_lt; eauto.
  - rewrite (wt_agg s W _ _ G) in E. injection E as <- <-. apply IH; auto. cbn. rewrite app_length, upd_length. cbn. lia.
Qed.

(** Longer translations. *)
Lemma nth_longer l e i : i < length l -> nth i (l ++ e) 0 = nth i l 0.
Proof. intros. now apply app_nth1. Qed.
Lemma pmap_longer s mp e r p q : wft s -> length mp = length (st_params s) -> nth_error (st_params s) p = Some q -> pmap (mp ++ e) r q = pmap mp r q.
Proof.
  intros W L Q. unfold pmap. f_equal.
  - destruct (p_parent q) as [k|] eqn:P; [|reflexivity]. cbn. f_equal. apply nth_longer. rewrite L.
    destruct (wt_pparent s W _ _ _ Q P) as (y & Y & _). eapply nth_lt; eauto.
  - apply map_ext_in. intros [n c] I. cbn. f_equal. apply nth_longer. rewrite L. destruct (wt_pchild s W _ _ _ _ Q I) as (_ & y & Y & _). eapply nth_lt; eauto.
Qed.

(** Names one step longer. *)
Lemma at_child s rs ps n p q : param_at s rs ps = Some p -> nth_error (st_params s) p = Some q -> param_at s rs (ps ++ [n]) = alookup n (p_children q).
Proof.
  unfold param_at. destruct (region_at s rs) as [r|]; [|discriminate]. destruct ps as [|m l]; [discriminate|]. cbn [app param_in].
  destruct (nth_error (st_regions s) r) as [g|]; [|discriminate]. destruct (alookup m (r_params g)) as [p0|]; [|discriminate]. intros A Q.
  rewrite get_subparameter_app, A. cbn. rewrite Q. destruct (alookup n (p_children q)); reflexivity.
Qed.
Lemma at_root s rs n r g : region_at s rs = Some r -> nth_error (st_regions s) r = Some g -> param_at s rs [n] = alookup n (r_params g).
Proof. intros R G. unfold param_at. rewrite R. cbn. rewrite G. destruct (alookup n (r_params g)); reflexivity. Qed.
Lemma region_cell s rs r : wft s -> region_at s rs = Some r -> exists g, nth_error (st_regions s) r = Some g.
Proof.
  intros W R. pose proof (path_rfn s W rs r R) as H. unfold region_full_name in H. cbn in H. destruct (nth_error (st_regions s) r); eauto. discriminate.
Qed.
(** One parameter more. *)
Lemma path_grow s s1 rs ps : wft s -> wft s1 -> evo s s1 -> length (st_params s1) = S (length (st_params s)) -> param_at s1 rs ps = Some (length (st_params s)) ->
  param_at s rs ps = None /\ forall rs2 ps2, (rs2, ps2) <> (rs, ps) -> param_at s1 rs2 ps2 = param_at s rs2 ps2.
Proof.
  intros W W1 E L P. split.
  - destruct (param_at s rs ps) as [p|] eqn:A; [|reflexivity]. pose proof (param_at_lt _ _ _ _ W A). pose proof (param_at_evo _ _ _ _ _ E A) as B.
    rewrite P in B. injection B as <-. lia.
  - intros rs2 ps2 D. destruct (param_at s rs2 ps2) as [p|] eqn:A; [now apply (param_at_evo _ _ _ _ _ E)|].
    destruct (param_at s1 rs2 ps2) as [p|] eqn:B; [|reflexivity]. pose proof (param_at_lt _ _ _ _ W1 B) as Lp.
    destruct (Nat.eq_dec p (length (st_params s))) as [->|N].
    + destruct (at_unique _ _ _ _ _ _ W1 P B) as [-> ->]. contradiction.
    + exfalso. assert (L' : p < length (st_params s)) by lia. pose proof (param_at_old s s1 rs2 ps2 p W W1 E L' B). congruence.
Qed.

Section Own.
Variable dom : list string -> list string -> Prop.
Notation sim := (sim dom).
Notation frame := (frame dom).
Notation inside := (inside dom).
Notation onway := (onway dom).
Notation within := (within dom).

Lemma vmap_longer mp mv s t e g i v : sim mp mv s t -> nth_error (st_views s) i = Some v -> vmap (mp ++ e) (mv ++ g) v = vmap mp mv v.
Proof.
  intros S V. unfold vmap. f_equal.
  - apply nth_longer. rewrite (s_lp _ _ _ _ _ S). eapply within_lt; [apply S|]. eapply (s_vparam _ _ _ _ _ S); eauto.
  - destruct (v_children v) as [cs|] eqn:C; [|reflexivity]. cbn. f_equal. apply map_ext_in. intros c I. apply nth_longer.
    rewrite (s_lv _ _ _ _ _ S). eapply (s_vchild _ _ _ _ _ S); eauto.
Qed.

Definition agree {A} (rel : A -> A -> Prop) (x y : res A) : Prop :=
  match x, y with Ok a, Ok b => rel a b | Err e, Err e' => e = e' | _, _ => False end.
(** Both calls went the same way, with translations [mp'], [mv'] afterwards. *)
Record went {A} mv t0 mp' mv' (rel : A -> A -> Prop) (x y : state * res A) : Prop := {
  w_res : agree rel (snd x) (snd y);
  w_sim : sim mp' mv' (fst x) (fst y);
  w_frame : frame mv t0 mv' (fst y) }.
Lemma went_both {A} mp mv t0 (x y : state * res A) : both dom mp mv t0 x y -> went mv t0 mp mv eq x y.
Proof. intros [E S F]. constructor; auto. rewrite E. destruct (snd x); reflexivity. Qed.
Lemma went_fail {A B} mv t0 mp' mv' (rel : A -> A -> Prop) (rel' : B -> B -> Prop) s1 t1 e e' :
  went mv t0 mp' mv' rel (s1, Err e) (t1, Err e') -> went mv t0 mp' mv' rel' (s1, Err e) (t1, Err e').
Proof. intros [E S F]. constructor; auto. Qed.
Lemma went_after {A B} mv t0 mp1 mv1 mp2 mv2 (rel : A -> A -> Prop) (rel' : B -> B -> Prop) x y x' y' :
  went mv t0 mp1 mv1 rel x y -> went mv1 (fst y) mp2 mv2 rel' x' y' -> went mv t0 mp2 mv2 rel' x' y'.
Proof. intros [_ _ F] [? ? F']. constructor; auto. eapply frame_trans; eauto. Qed.

(** New regions. *)
Lemma sim_regions mp mv s t s' t' : sim mp mv s t -> wft s' -> wft t' -> evo s s' -> evo t t' ->
  st_params s' = st_params s -> st_views s' = st_views s -> st_params t' = st_params t -> st_views t' = st_views t ->
  sim mp mv s' t' /\ frame mv t mv t'.
Proof.
  intros S W W' E E' P V P' V'.
  assert (Qs : forall rs ps, param_at s' rs ps = param_at s rs ps) by (intros; apply param_at_same; auto; [apply S|now rewrite P]).
  assert (Qt : forall rs ps, param_at t' rs ps = param_at t rs ps) by (intros; apply param_at_same; auto; [apply S|now rewrite P']).
  assert (Qw : forall p, within s' p <-> within s p).
  { intros p. unfold ShareSim.within. split; intros (rs & ps & I & X); exists rs, ps; split; auto; revert X; now rewrite Qs. }
  split.
  - constructor; auto; rewrite ?P, ?V, ?P', ?V'; try apply S.
    + intros rs ps p. rewrite Qs, Qt. apply S.
    + intros rs ps. rewrite Qs, Qt. apply S.
    + intros rs ps p. rewrite Qs. apply S.
    + intros p q I. apply Qw in I. now apply (s_cell _ _ _ _ _ S).
    + intros rs ps p q N. rewrite Qs. now apply (s_idle _ _ _ _ _ S).
    + intros rs ps p q O N. rewrite Qt. now apply (s_idle_t _ _ _ _ _ S).
    + intros i v Vi. apply Qw. eapply (s_vparam _ _ _ _ _ S); eauto.
    + rewrite (root_name_evo _ _ (s_wt _ _ _ _ _ S) E'), (root_name_evo _ _ (s_ws _ _ _ _ _ S) E). apply S.
  - constructor; auto; rewrite ?P', ?V'; auto.
    + apply root_name_evo; auto. apply S.
    + intros rs ps p. now rewrite Qt.
    + intros rs ps p q _ _ Q. exists q. auto.
    + intros rs ps p. rewrite Qt. congruence.
    + exists []. rewrite app_nil_r. auto.
Qed.
Lemma region_both mp mv s t rn : sim mp mv s t ->
  went mv t mp mv (fun r r' => region_at (fst (get_or_create_region s rn)) (hcomponents rn) = Some r /\
    region_at (fst (get_or_create_region t rn)) (hcomponents rn) = Some r') (get_or_create_region s rn) (get_or_create_region t rn).
Proof.
  intros S. pose proof (s_ws _ _ _ _ _ S) as W. pose proof (s_wt _ _ _ _ _ S) as W'.
  assert (Q : (exists e, get_or_create_region s rn = (s, Err e) /\ get_or_create_region t rn = (t, Err e)) \/
     exists l, get_or_create_region s rn = subregions s 0 l /\ get_or_create_region t rn = subregions t 0 l).
  { unfold get_or_create_region. destruct (hcomponents rn) as [|n l]; [left; eauto|]. pose proof (s_name _ _ _ _ _ S) as N.
    destruct (wt_root s W) as (g & G & _), (wt_root t W') as (g' & G' & _). rewrite G, G' in *. cbn in N. injection N as ->.
    destruct (String.eqb n (r_name g)); [right|left]; eauto. }
  destruct Q as [(e & -> & ->)|(l & A & B)].
  - constructor; cbn; auto. apply frame_refl, S.
  - pose proof (get_or_create_region_created s rn) as C. pose proof (get_or_create_region_created t rn) as C'. rewrite A in *. rewrite B in *.
    destruct (wt_root s W) as (g & G & _), (wt_root t W') as (g' & G' & _).
    destruct (subregions_ok l s 0 W (nth_lt _ _ _ G)) as [c K]. destruct (subregions_ok l t 0 W' (nth_lt _ _ _ G')) as [c' K'].
    pose proof (subregions_cells l s 0) as [P V]. pose proof (subregions_cells l t 0) as [P' V'].
    destruct (subregions s 0 l) as [s1 x] eqn:X, (subregions t 0 l) as [t1 y] eqn:Y. cbn [fst snd] in *. subst x y.
    destruct (sim_regions mp mv s t s1 t1 S) as [S1 F1]; eauto using wft_subregions, evo_subregions.
    constructor; cbn; auto.
Qed.

(** New parameters. *)
Lemma views_bound mp mv s t p : sim mp mv s t -> In p mv -> p < length (st_views t).
Proof.
  intros S I. destruct (In_nth _ _ 0 I) as (i & L & <-). rewrite (s_lv _ _ _ _ _ S) in L.
  destruct (nth_error (st_views s) i) as [q|] eqn:Q; [|apply nth_error_None in Q; lia].
  eapply nth_lt, (s_view _ _ _ _ _ S); eauto.
Qed.
Lemma fp_new mp mv s t p' : sim mp mv s t -> fp (mp ++ [p']) (length (st_params s)) = p'.
Proof. intros S. unfold fp. rewrite <- (s_lp _ _ _ _ _ S), app_nth2, Nat.sub_diag; auto. Qed.
Lemma fp_old mp mv s t p e : sim mp mv s t -> p < length (st_params s) -> fp (mp ++ e) p = fp mp p.
Proof. intros S L. apply nth_longer. now rewrite (s_lp _ _ _ _ _ S). Qed.

Lemma grow mp mv s t s1 t1 rs ps p' : sim mp mv s t -> wft s1 -> wft t1 -> evo s s1 -> evo t t1 -> st_views s1 = st_views s -> st_views t1 = st_views t ->
  inside rs ps \/ onway rs ps ->
  length (st_params s1) = S (length (st_params s)) -> param_at s1 rs ps = Some (length (st_params s)) ->
  (exists q, nth_error (st_params s1) (length (st_params s)) = Some q /\ idle q /\ (inside rs ps -> exists r, nth_error (st_params t1) p' = Some (pmap (mp ++ [p']) r q))) ->
  param_at t1 rs ps = Some p' ->
  (t1 = t /\ ~ inside rs ps) \/ (p' = length (st_params t) /\ length (st_params t1) = S (length (st_params t)) /\ exists q, nth_error (st_params t1) p' = Some q /\ idle q) ->
  (forall p q1, within s p -> nth_error (st_params s1) p = Some q1 -> exists r, nth_error (st_params t1) (fp mp p) = Some (pmap (mp ++ [p']) r q1)) ->
  (forall p q q1, nth_error (st_params s) p = Some q -> nth_error (st_params s1) p = Some q1 -> p_read q1 = p_read q /\ p_written q1 = p_written q) ->
  (forall rs2 ps2 p q, param_at t rs2 ps2 = Some p -> nth_error (st_params t) p = Some q ->
     exists q1, nth_error (st_params t1) p = Some q1 /\ p_read q1 = p_read q /\ p_written q1 = p_written q /\ (~ onway rs2 ps2 -> ~ inside rs2 ps2 -> q1 = q)) ->
  sim (mp ++ [p']) mv s1 t1 /\ frame mv t mv t1.
Proof.
  intros S W1 W1' E E' Vs Vt O Ls Ps (q0 & Q0 & Id0 & C0) Pt T Cs Is Ft.
  pose proof (s_ws _ _ _ _ _ S) as W. pose proof (s_wt _ _ _ _ _ S) as W'. pose proof (fp_new mp mv s t p' S) as Fn.
  destruct (path_grow s s1 rs ps W W1 E Ls Ps) as [Ns Os]. set (k := length (st_params s)) in *.
  assert (Ot : forall rs2 ps2, (rs2, ps2) <> (rs, ps) -> param_at t1 rs2 ps2 = param_at t rs2 ps2).
  { destruct T as [[-> _]|(-> & Lt & _)]; [reflexivity|]. apply (path_grow t t1 rs ps W' W1' E' Lt Pt). }
  assert (dec : forall rs2 ps2, (rs2, ps2) = (rs, ps) \/ (rs2, ps2) <> (rs, ps)).
  { intros rs2 ps2. destruct (list_eq_dec string_dec rs2 rs) as [->|N]; [destruct (list_eq_dec string_dec ps2 ps) as [->|N]; auto|]; right; congruence. }
  assert (Lk : forall rs2 ps2 p, param_at s rs2 ps2 = Some p -> fp (mp ++ [p']) p = fp mp p).
  { intros rs2 ps2 p P. apply (fp_old mp mv s t); auto. eapply param_at_lt; eauto. }
  split.
  - constructor; auto.
    + rewrite app_length, Ls, (s_lp _ _ _ _ _ S). cbn. fold k. lia.
    + rewrite Vs. apply S.
    + apply S.
    + intros rs2 ps2 p P. destruct (dec rs2 ps2) as [D|D].
      * injection D as -> ->. rewrite Ps in P. injection P as <-. now rewrite Fn.
      * rewrite (Os _ _ D) in P. rewrite (Ot _ _ D), (Lk _ _ _ P). now apply S.
    + intros rs2 ps2 I P. destruct (dec rs2 ps2) as [D|D]; [injection D as -> ->; congruence|]. rewrite (Os _ _ D) in P. rewrite (Ot _ _ D). now apply S.
    + intros rs2 ps2 p P. destruct (dec rs2 ps2) as [D|D]; [injection D as -> ->; auto|]. rewrite (Os _ _ D) in P. exact (s_mine _ _ _ _ _ S _ _ _ P).
    + intros p q (rs2 & ps2 & I & P) Q. destruct (dec rs2 ps2) as [D|D].
      * injection D as -> ->. rewrite Ps in P. injection P as <-. rewrite Fn. rewrite Q0 in Q. injection Q as <-. auto.
      * rewrite (Os _ _ D) in P. rewrite (Lk _ _ _ P). apply Cs; auto. exists rs2, ps2. auto.
    + intros rs2 ps2 p q N P Q. destruct (dec rs2 ps2) as [D|D].
      * injection D as -> ->. rewrite Ps in P. injection P as <-. rewrite Q0 in Q. injection Q as <-. auto.
      * rewrite (Os _ _ D) in P. destruct (param_at_valid _ _ _ _ W P) as [q1 Q1]. destruct (s_idle _ _ _ _ _ S _ _ _ _ N P Q1) as [A B].
        destruct (Is p q1 q Q1 Q). split; congruence.
    + intros rs2 ps2 p q O2 N P Q. destruct (dec rs2 ps2) as [D|D].
      * injection D as -> ->. rewrite Pt in P. injection P as <-. destruct T as [[-> _]|(_ & _ & q2 & Q2 & I2)]; [|congruence].
        eapply (s_idle_t _ _ _ _ _ S); eauto.
      * rewrite (Ot _ _ D) in P. destruct (param_at_valid _ _ _ _ W' P) as [q1 Q1]. destruct (s_idle_t _ _ _ _ _ S _ _ _ _ O2 N P Q1) as [A B].
        destruct (Ft _ _ _ _ P Q1) as (q2 & Q2 & E1 & E2 & _). rewrite Q in Q2. injection Q2 as <-. split; congruence.
    + rewrite Vs, Vt. intros i v V. rewrite <- (app_nil_r mv) at 2. rewrite (vmap_longer mp mv s t _ _ i v S V). now apply S.
    + rewrite Vs. intros i v V. destruct (s_vparam _ _ _ _ _ S _ _ V) as (rs2 & ps2 & I & P). exists rs2, ps2. split; auto. eapply param_at_evo; eauto.
    + rewrite Vs. apply S.
    + rewrite (root_name_evo _ _ W' E'), (root_name_evo _ _ W E). apply S.
  - constructor; auto.
    + now apply root_name_evo.
    + intros rs2 ps2 p. now apply param_at_evo.
    + intros rs2 ps2 p q P N Q. destruct (Ft _ _ _ _ P Q) as (q1 & Q1 & E1 & E2 & E3). exists q1. auto.
    + intros rs2 ps2 p P P1. destruct (dec rs2 ps2) as [D|D]; [|rewrite (Ot _ _ D) in P1; congruence]. injection D as -> ->.
      destruct O as [O|O]; auto. right. split; auto. intros N q Q. rewrite Pt in P1. injection P1 as <-.
      destruct T as [[-> _]|(_ & _ & q2 & Q2 & I2)]; [congruence|]. congruence.
    + intros j L _. now rewrite Vt.
    + rewrite Vt. lia.
    + exists []. rewrite app_nil_r. auto.
Qed.

Lemma root_both mp mv s t rs n r r' : sim mp mv s t -> inside rs [n] \/ onway rs [n] -> region_at s rs = Some r -> region_at t rs = Some r' ->
  exists mp', went mv t mp' mv (fun p p' => param_at (fst (get_or_create_root_parameter s r n)) rs [n] = Some p /\ p' = fp mp' p)
    (get_or_create_root_parameter s r n) (get_or_create_root_parameter t r' n).
Proof.
  intros S O R R'. pose proof (s_ws _ _ _ _ _ S) as W. pose proof (s_wt _ _ _ _ _ S) as W'.
  destruct (get_or_create_root_parameter s r n) as [s1 x] eqn:X, (get_or_create_root_parameter t r' n) as [t1 y] eqn:Y.
  pose proof (wft_root_parameter _ _ _ _ _ W X) as W1. pose proof (wft_root_parameter _ _ _ _ _ W' Y) as W1'.
  pose proof (evo_root_parameter _ _ _ _ _ X) as V1. pose proof (evo_root_parameter _ _ _ _ _ Y) as V1'.
  assert (Cs : forall c, x = Ok c -> param_at s1 rs [n] = Some c).
  { intros c ->. unfold param_at. rewrite (region_at_evo _ _ _ _ V1 R). destruct (root_parameter_created _ _ _ _ _ X) as (g & G & A). cbn. now rewrite G, A. }
  assert (Ct : forall c, y = Ok c -> param_at t1 rs [n] = Some c).
  { intros c ->. unfold param_at. rewrite (region_at_evo _ _ _ _ V1' R'). destruct (root_parameter_created _ _ _ _ _ Y) as (g & G & A). cbn. now rewrite G, A. }
  destruct (region_cell s rs r W R) as [g G], (region_cell t rs r' W' R') as [g' G'].
  pose proof (at_root s rs n r g R G) as As. pose proof (at_root t rs n r' g' R' G') as At.
  unfold get_or_create_root_parameter in X, Y. rewrite G in X. rewrite G' in Y.
  destruct (alookup n (r_params g)) as [p|].
  - rewrite (s_path _ _ _ _ _ S _ _ _ As) in At. rewrite <- At in Y. injection X as <- <-. injection Y as <- <-.
    exists mp. constructor; cbn; auto. apply frame_refl, S.
  - injection X as X1 <-. specialize (Cs _ eq_refl).
    assert (Ps : st_params s1 = st_params s ++ [new_param n None r]) by now rewrite <- X1.
    assert (Vs : st_views s1 = st_views s) by now rewrite <- X1.
    assert (Ls : length (st_params s1) = Datatypes.S (length (st_params s))) by (rewrite Ps, app_length; cbn; lia). clear X1.
    assert (Qo : forall p q1, p < length (st_params s) -> nth_error (st_params s1) p = Some q1 -> nth_error (st_params s) p = Some q1).
    { intros p q1 L. rewrite Ps, nth_error_app1; auto. }
    assert (H : exists p', y = Ok p' /\ st_views t1 = st_views t /\
      (exists q, nth_error (st_params s1) (length (st_params s)) = Some q /\ idle q /\ (inside rs [n] -> exists r, nth_error (st_params t1) p' = Some (pmap (mp ++ [p']) r q))) /\
      ((t1 = t /\ ~ inside rs [n]) \/ (p' = length (st_params t) /\ length (st_params t1) = Datatypes.S (length (st_params t)) /\ exists q, nth_error (st_params t1) p' = Some q /\ idle q)) /\
      (forall p q, nth_error (st_params t) p = Some q -> nth_error (st_params t1) p = Some q)).
    { destruct (alookup n (r_params g')) as [p'|]; injection Y as Y1 <-; (eexists; split; [reflexivity|]).
      - subst t1. assert (N : ~ inside rs [n]) by (intros I; rewrite (s_none _ _ _ _ _ S _ _ I As) in At; discriminate).
        split; [auto|]. split; [|split; [left|]; auto]. rewrite Ps. eexists. split; [apply nth_app_new|]. split; [split; reflexivity|]. intros; contradiction.
      - assert (Pt : st_params t1 = st_params t ++ [new_param n None r']) by now rewrite <- Y1.
        split; [now rewrite <- Y1|]. rewrite Ps, Pt. split; [|split; [right|]].
        + eexists. split; [apply nth_app_new|]. split; [split; reflexivity|]. intros _. exists r'. rewrite nth_app_new. reflexivity.
        + split; auto. split; [rewrite app_length; cbn; lia|]. eexists. split; [apply nth_app_new|]. split; reflexivity.
        + intros p q Q. now apply nth_app_old. }
    destruct H as (p' & -> & Vt & H0 & H1 & H2). specialize (Ct _ eq_refl). exists (mp ++ [p']).
    destruct (grow mp mv s t s1 t1 rs [n] p' S W1 W1' V1 V1' Vs Vt O Ls Cs H0 Ct H1) as [S1 F1].
    { intros p q1 I Q1. pose proof (within_lt dom s p W I) as L. apply (Qo p q1 L) in Q1. destruct (s_cell _ _ _ _ _ S _ _ I Q1) as (r0 & Q). exists r0.
      rewrite (pmap_longer s mp _ r0 p q1 W (s_lp _ _ _ _ _ S) Q1). auto. }
    { intros p q q1 Q Q1. rewrite (Qo p q1 (nth_lt _ _ _ Q) Q1) in Q. injection Q as <-. auto. }
    { intros rs2 ps2 p q _ Q. exists q. auto. }
    constructor; cbn [fst snd agree]; auto. split; auto. symmetry. now apply (fp_new mp mv s t).
Qed.
Lemma alookup_map (f : nat -> nat) n l : alookup n (map (fun c : string * nat => (fst c, f (snd c))) l) = option_map f (alookup n l).
Proof. induction l as [|[m c] l IH]; [reflexivity|]. cbn. destruct (String.eqb n m); auto. Qed.
Lemma step_kinds rs ps n : inside rs (ps ++ [n]) \/ onway rs (ps ++ [n]) -> inside rs ps \/ onway rs ps.
Proof.
  intros [(m & rest & D & E)|(rest & D)].
  - destruct rest as [|x rest] using rev_ind.
    + rewrite app_nil_r in E. subst m. right. exists [n]. exact D.
    + rewrite app_assoc in E. apply app_inj_tail in E as [-> _]. left. exists m, rest. auto.
  - right. exists (n :: rest). now rewrite <- app_assoc in D.
Qed.
Lemma inside_more rs ps n : inside rs ps -> inside rs (ps ++ [n]).
Proof. intros (m & rest & D & ->). exists m, (rest ++ [n]). now rewrite app_assoc. Qed.
Lemma child_both mp mv s t rs ps p n : sim mp mv s t -> param_at s rs ps = Some p -> inside rs (ps ++ [n]) \/ onway rs (ps ++ [n]) ->
  exists mp', went mv t mp' mv (fun c c' => param_at (fst (get_or_create_child_parameter s p n)) rs (ps ++ [n]) = Some c /\ c' = fp mp' c)
    (get_or_create_child_parameter s p n) (get_or_create_child_parameter t (fp mp p) n).
Proof.
  intros S P O. pose proof (s_ws _ _ _ _ _ S) as W. pose proof (s_wt _ _ _ _ _ S) as W'. pose proof (s_path _ _ _ _ _ S _ _ _ P) as P'.
  destruct (param_at_valid _ _ _ _ W P) as [q Q]. destruct (param_at_valid _ _ _ _ W' P') as [q' Q'].
  destruct (get_or_create_child_parameter s p n) as [s1 x] eqn:X, (get_or_create_child_parameter t (fp mp p) n) as [t1 y] eqn:Y.
  pose proof (wft_child_parameter _ _ _ _ _ W X) as W1. pose proof (wft_child_parameter _ _ _ _ _ W' Y) as W1'.
  pose proof (evo_child_parameter _ _ _ _ _ X) as V1. pose proof (evo_child_parameter _ _ _ _ _ Y) as V1'.
  assert (Cs : forall c, x = Ok c -> param_at s1 rs (ps ++ [n]) = Some c).
  { intros c ->. destruct (child_parameter_created _ _ _ _ _ X) as (g & G & A). now rewrite (at_child s1 rs ps n p g (param_at_evo _ _ _ _ _ V1 P) G). }
  assert (Ct : forall c, y = Ok c -> param_at t1 rs (ps ++ [n]) = Some c).
  { intros c ->. destruct (child_parameter_created _ _ _ _ _ Y) as (g & G & A). now rewrite (at_child t1 rs ps n (fp mp p) g (param_at_evo _ _ _ _ _ V1' P') G). }
  pose proof (at_child s rs ps n p q P Q) as As. pose proof (at_child t rs ps n _ q' P' Q') as At.
  assert (RW : p_read q' = p_read q /\ p_written q' = p_written q /\ (inside rs ps -> exists r, q' = pmap mp r q)).
  { destruct (classic (inside rs ps)) as [I|N].
    - destruct (s_cell _ _ _ _ _ S p q) as (r & Qr); auto; [exists rs, ps; auto|]. rewrite Q' in Qr. injection Qr as ->. cbn. eauto.
    - destruct (s_idle _ _ _ _ _ S _ _ _ _ N P Q) as [-> ->]. destruct (step_kinds _ _ _ O) as [I|O2]; [contradiction|].
      destruct (s_idle_t _ _ _ _ _ S _ _ _ _ O2 N P' Q') as [-> ->]. repeat split; auto. intros; contradiction. }
  destruct RW as (Rd & Wr & RI).
  unfold get_or_create_child_parameter in X, Y. rewrite Q in X. rewrite Q' in Y.
  destruct (alookup n (p_children q)) as [c|] eqn:Ch.
  - rewrite (s_path _ _ _ _ _ S _ _ _ As) in At. rewrite <- At in Y. injection X as <- <-. injection Y as <- <-.
    exists mp. constructor; cbn; auto. apply frame_refl, S.
  - destruct (classic (inside rs ps /\ (p_written q = true \/ p_read q = true))) as [[I B]|B].
    { (* the parameter is in use: both raise *)
      rewrite (s_none _ _ _ _ _ S _ _ (inside_more _ _ n I) As) in At. rewrite <- At, Rd, Wr in Y.
      assert (E : exists e, (s, Err e) = (s1, x) /\ (t, Err e) = (t1, y)).
      { destruct (p_written q); [eauto|]. destruct (p_read q); [eauto|]. destruct B; discriminate. }
      destruct E as (e & E & E'). injection E as <- <-. injection E' as <- <-. exists mp. constructor; cbn; auto. apply frame_refl, S. }
    assert (Id : p_written q = false /\ p_read q = false).
    { destruct (classic (inside rs ps)) as [I|N]; [|destruct (s_idle _ _ _ _ _ S _ _ _ _ N P Q); auto].
      destruct (p_written q) eqn:E1; [destruct B; auto|]. destruct (p_read q) eqn:E2; [destruct B; auto|]. auto. }
    destruct Id as [I1 I2]. rewrite Wr, Rd, I1, I2 in Y. rewrite I1, I2 in X. clear B.
    injection X as X1 <-. specialize (Cs _ eq_refl). set (k := length (st_params s)) in *.
    assert (Ps : st_params s1 = upd (st_params s) p (p_add_child q n k) ++ [new_param n (Some p) (p_region q)]) by now rewrite <- X1.
    assert (Vs : st_views s1 = st_views s) by now rewrite <- X1.
    assert (Ls : length (st_params s1) = Datatypes.S (length (st_params s))) by (rewrite Ps, app_length, upd_length; cbn; lia). clear X1.
    assert (Qk : nth_error (st_params s1) k = Some (new_param n (Some p) (p_region q))).
    { rewrite Ps. unfold k at 2. rewrite <- (upd_length (st_params s) p (p_add_child q n k)). apply nth_app_new. }
    assert (Qo : forall i z, i < length (st_params s) -> nth_error (st_params s1) i = Some z -> i = p /\ z = p_add_child q n k \/ i <> p /\ nth_error (st_params s) i = Some z).
    { intros i z L. rewrite Ps, nth_error_app1 by now rewrite upd_length. rewrite nth_upd. destruct (Nat.eqb_spec p i) as [<-|N]; [|right; auto].
      rewrite Q. intros E. injection E as <-. auto. }
    assert (Is : forall i z z1, nth_error (st_params s) i = Some z -> nth_error (st_params s1) i = Some z1 -> p_read z1 = p_read z /\ p_written z1 = p_written z).
    { intros i z z1 Z Z1. destruct (Qo i z1 (nth_lt _ _ _ Z) Z1) as [[-> ->]|[_ Z2]]; [rewrite Q in Z; injection Z as <-; auto|].
      rewrite Z in Z2. injection Z2 as <-. auto. }
    destruct (alookup n (p_children q')) as [c'|] eqn:Ch'.
    + (* somebody else has created it *)
      injection Y as <- <-. specialize (Ct _ eq_refl). exists (mp ++ [c']).
      assert (N : ~ inside rs (ps ++ [n])) by (intros I; rewrite (s_none _ _ _ _ _ S _ _ I As) in At; discriminate).
      destruct (grow mp mv s t s1 t rs (ps ++ [n]) c' S W1 W1' V1 V1' Vs eq_refl O Ls Cs) as [S1 F1]; auto.
      * eexists. split; [exact Qk|]. split; [split; reflexivity|]. intros; contradiction.
      * intros i z I Z. pose proof (within_lt dom s i W I) as L. destruct (Qo i z L Z) as [[-> ->]|[Ni Z2]].
        -- destruct I as (rs2 & ps2 & I & P2). destruct (at_unique _ _ _ _ _ _ W P P2) as [-> ->]. destruct (N (inside_more _ _ n I)).
        -- destruct (s_cell _ _ _ _ _ S _ _ I Z2) as (r0 & Q0). exists r0. now rewrite (pmap_longer s mp _ r0 i z W (s_lp _ _ _ _ _ S) Z2).
      * intros rs2 ps2 i z _ Z. exists z. auto.
      * constructor; cbn [fst snd agree]; auto. split; auto. symmetry. now apply (fp_new mp mv s t).
    + injection Y as Y1 <-. specialize (Ct _ eq_refl). set (k' := length (st_params t)) in *. exists (mp ++ [k']).
      pose proof (fp_new mp mv s t k' S) as Fn. fold k in Fn.
      assert (Pt : st_params t1 = upd (st_params t) (fp mp p) (p_add_child q' n k') ++ [new_param n (Some (fp mp p)) (p_region q')]) by now rewrite <- Y1.
      assert (Vt : st_views t1 = st_views t) by now rewrite <- Y1.
      assert (Lt : length (st_params t1) = Datatypes.S (length (st_params t))) by (rewrite Pt, app_length, upd_length; cbn; lia). clear Y1.
      assert (Qk' : nth_error (st_params t1) k' = Some (new_param n (Some (fp mp p)) (p_region q'))).
      { rewrite Pt. unfold k' at 2. rewrite <- (upd_length (st_params t) (fp mp p) (p_add_child q' n k')). apply nth_app_new. }
      assert (Qt : forall i z, nth_error (st_params t) i = Some z -> nth_error (st_params t1) i = Some (if fp mp p =? i then p_add_child q' n k' else z)).
      { intros i z Z. rewrite Pt. apply nth_app_old. rewrite nth_upd. destruct (Nat.eqb_spec (fp mp p) i) as [<-|]; auto. now rewrite Z. }
      pose proof (nth_lt _ _ _ Q) as Lp.
      destruct (grow mp mv s t s1 t1 rs (ps ++ [n]) k' S W1 W1' V1 V1' Vs Vt O Ls Cs) as [S1 F1]; auto.
      * eexists. split; [exact Qk|]. split; [split; reflexivity|]. intros _. exists (p_region q'). rewrite Qk'. unfold pmap, new_param. cbn.
        now rewrite (fp_old mp mv s t p _ S Lp).
      * right. split; auto. split; auto. eexists. split; [exact Qk'|]. split; reflexivity.
      * intros i z I Z. pose proof (within_lt dom s i W I) as L. destruct (Qo i z L Z) as [[-> ->]|[Ni Z2]].
        -- destruct I as (rs2 & ps2 & I & P2). destruct (at_unique _ _ _ _ _ _ W P P2) as [-> ->]. destruct (RI I) as (r0 & ->). exists r0.
           rewrite (Qt _ _ Q'), Nat.eqb_refl. f_equal.
           rewrite <- (pmap_longer s mp [k'] r0 p q W (s_lp _ _ _ _ _ S) Q). unfold pmap, p_add_child. cbn. f_equal.
           rewrite map_app. cbn. now rewrite Fn.
        -- destruct (s_cell _ _ _ _ _ S _ _ I Z2) as (r0 & Q0). exists r0. rewrite (pmap_longer s mp _ r0 i z W (s_lp _ _ _ _ _ S) Z2).
           rewrite (Qt _ _ Q0). destruct (Nat.eqb_spec (fp mp p) (fp mp i)) as [D|_]; auto. destruct Ni. symmetry. eapply fp_inj; eauto.
      * intros rs2 ps2 i z P2 Z. eexists. split; [apply (Qt _ _ Z)|]. destruct (Nat.eqb_spec (fp mp p) i) as [<-|]; [|auto].
        rewrite Q' in Z. injection Z as <-. repeat split; auto. intros N1 N2. destruct (at_unique _ _ _ _ _ _ W' P' P2) as [-> ->].
        destruct (step_kinds _ _ _ O); contradiction.
      * constructor; cbn [fst snd agree]; auto.
Qed.
Lemma subs_both l : forall mp mv s t rs ps p, sim mp mv s t -> param_at s rs ps = Some p ->
  (forall l1 l2, l = l1 ++ l2 -> inside rs (ps ++ l1) \/ onway rs (ps ++ l1)) ->
  exists mp', went mv t mp' mv (fun c c' => param_at (fst (subparameters s p l)) rs (ps ++ l) = Some c /\ c' = fp mp' c)
    (subparameters s p l) (subparameters t (fp mp p) l).
Proof.
  induction l as [|n l IH]; intros mp mv s t rs ps p S P O.
  - exists mp. rewrite app_nil_r. constructor; cbn; auto. apply frame_refl, S.
  - cbn [subparameters]. destruct (child_both mp mv s t rs ps p n S P) as (mp1 & B); [exact (O [n] l eq_refl)|].
    destruct (get_or_create_child_parameter s p n) as [s1 x], (get_or_create_child_parameter t (fp mp p) n) as [t1 y].
    pose proof (w_res _ _ _ _ _ _ _ B) as R. cbn [fst snd] in R. destruct x as [c|e], y as [c'|e']; cbn [agree] in R; try contradiction.
    + destruct R as [Pc ->]. destruct (IH mp1 mv s1 t1 rs (ps ++ [n]) c (w_sim _ _ _ _ _ _ _ B) Pc) as (mp2 & B2).
      { intros l1 l2 ->. rewrite <- app_assoc. apply (O (n :: l1) l2). reflexivity. }
      exists mp2. rewrite <- app_assoc in B2. eapply went_after; eauto.
    + exists mp1. eapply went_fail; eauto.
Qed.
Lemma locate_both mp mv s t nm rn : sim mp mv s t -> (hcomponents nm <> [] -> dom (hcomponents rn) (hcomponents nm)) ->
  exists mp', went mv t mp' mv (fun p p' => param_at (fst (locate s nm rn)) (hcomponents rn) (hcomponents nm) = Some p /\ p' = fp mp' p) (locate s nm rn) (locate t nm rn).
Proof.
  intros S O. unfold locate. pose proof (region_both mp mv s t rn S) as B.
  destruct (get_or_create_region s rn) as [s1 x], (get_or_create_region t rn) as [t1 y].
  pose proof (w_res _ _ _ _ _ _ _ B) as R. cbn [fst snd] in R. destruct x as [r|e], y as [r'|e']; cbn [agree] in R; try contradiction.
  - destruct R as [R R']. unfold get_or_create_parameter. destruct (hcomponents nm) as [|n l].
    + exists mp. eapply went_after; [exact B|]. pose proof (w_sim _ _ _ _ _ _ _ B) as S1. constructor; cbn; auto. apply frame_refl, S1.
    + assert (D : dom (hcomponents rn) (n :: l)) by (apply O; discriminate).
      destruct (root_both mp mv s1 t1 (hcomponents rn) n r r' (w_sim _ _ _ _ _ _ _ B)) as (mp1 & C); auto; [right; exists l; exact D|].
      destruct (get_or_create_root_parameter s1 r n) as [s2 x], (get_or_create_root_parameter t1 r' n) as [t2 y].
      pose proof (w_res _ _ _ _ _ _ _ C) as Q. cbn [fst snd] in Q. destruct x as [c|e], y as [c'|e']; cbn [agree] in Q; try contradiction.
      * destruct Q as [Pc ->]. destruct (subs_both l mp1 mv s2 t2 (hcomponents rn) [n] c (w_sim _ _ _ _ _ _ _ C) Pc) as (mp2 & E).
        { intros l1 l2 ->. right. exists l2. exact D. }
        exists mp2. eapply went_after; [exact B|]. eapply went_after; [exact C|exact E].
      * exists mp1. eapply went_fail. eapply went_after; [exact B|exact C].
  - exists mp. eapply went_fail; eauto.
Qed.

(** Leaves. *)
Lemma opt_concat_map (f g : string * nat -> option (list nat)) (h : string * nat -> string * nat) (k : nat -> nat) l :
  (forall c a, In c l -> f c = Some a -> g (h c) = Some (map k a)) -> forall a, opt_concat (map f l) = Some a -> opt_concat (map g (map h l)) = Some (map k a).
Proof.
  induction l as [|c l IH]; intros H a; [intros E; now injection E as <-|]. cbn.
  destruct (f c) as [b|] eqn:F; [|discriminate]. destruct (opt_concat (map f l)) as [d|] eqn:D; [|discriminate]. intros E. injection E as <-.
  rewrite (H c b (or_introl eq_refl) F), (IH (fun c' a' I => H c' a' (or_intror I)) d eq_refl), map_app. reflexivity.
Qed.
Lemma leaves_more ps f : forall p ls, leaves f ps p = Some ls -> leaves (S f) ps p = Some ls.
Proof.
  induction f as [|f IH]; intros p ls H; [discriminate|]. rewrite leaves_S in *. destruct (nth_error ps p) as [q|]; [|discriminate].
  destruct (p_children q) as [|c0 cs]; auto. revert H. generalize (c0 :: cs). clear c0 cs. intros l. revert ls.
  induction l as [|c l IHl]; intros ls; [auto|]. cbn [map opt_concat]. destruct (leaves f ps (snd c)) as [a|] eqn:A; [|discriminate].
  rewrite (IH _ _ A). destruct (opt_concat (map (fun c => leaves f ps (snd c)) l)) as [b|]; [|discriminate]. now rewrite (IHl _ eq_refl).
Qed.
Lemma leaves_up ps f k : forall p ls, leaves f ps p = Some ls -> leaves (k + f) ps p = Some ls.
Proof. induction k; intros p ls H; auto. cbn [plus]. apply leaves_more; auto. Qed.
Lemma within_child s p q n c : wft s -> within s p -> nth_error (st_params s) p = Some q -> In (n, c) (p_children q) -> within s c.
Proof.
  intros W (rs & ps & I & P) Q C. exists rs, (ps ++ [n]). split; [now apply inside_more|]. rewrite (at_child s rs ps n p q P Q).
  apply In_alookup; auto. eapply wt_pnodup; eauto.
Qed.
Lemma within_cell s p : wft s -> within s p -> exists q, nth_error (st_params s) p = Some q.
Proof. intros W (rs & ps & _ & P). eapply param_at_valid; eauto. Qed.
Lemma within_below s p i : wft s -> within s p -> below s p i -> within s i.
Proof. intros W I B. induction B as [|i c B IH (q & n & Q & C)]; auto. eapply within_child; eauto. Qed.
Lemma leaves_both mp mv s t f : sim mp mv s t -> forall p ls, within s p -> leaves f (st_params s) p = Some ls -> leaves f (st_params t) (fp mp p) = Some (map (fp mp) ls).
Proof.
  intros S. induction f as [|f IH]; intros p ls I H; [discriminate|]. rewrite leaves_S in *. destruct (nth_error (st_params s) p) as [q|] eqn:Q; [|discriminate].
  destruct (s_cell _ _ _ _ _ S _ _ I Q) as (r & ->). change (p_children (pmap mp r q)) with (map (fun c => (fst c, fp mp (snd c))) (p_children q)).
  pose proof (fun c => within_child s p q (fst c) (snd c) (s_ws _ _ _ _ _ S) I Q) as K0.
  destruct (p_children q) as [|c0 cs]; [injection H as <-; reflexivity|].
  pose proof (opt_concat_map (fun c => leaves f (st_params s) (snd c)) (fun c => leaves f (st_params t) (snd c)) (fun c => (fst c, fp mp (snd c))) (fp mp) (c0 :: cs)
    (fun c a J E => IH _ _ (K0 c ltac:(now destruct c)) E) _ H) as K. exact K.
Qed.
Lemma param_leaves_both mp mv s t p : sim mp mv s t -> within s p ->
  exists ls, param_leaves s p = Some ls /\ param_leaves t (fp mp p) = Some (map (fp mp) ls).
Proof.
  intros S L. destruct (within_cell s p (s_ws _ _ _ _ _ S) L) as [q Q]. destruct (s_cell _ _ _ _ _ S _ _ L Q) as (r & Q').
  destruct (param_leaves_total s p q (s_ws _ _ _ _ _ S) Q) as [ls A]. destruct (param_leaves_total t _ _ (s_wt _ _ _ _ _ S) Q') as [ls' A'].
  exists ls. split; auto. pose proof A as B. unfold param_leaves in A, A'.
  apply (leaves_both mp mv s t) in A; auto. unfold param_leaves. rewrite A'. f_equal.
  apply (leaves_up _ _ (Datatypes.S (length (st_params t)))) in A. apply (leaves_up _ _ (Datatypes.S (length (st_params s)))) in A'.
  rewrite Nat.add_comm in A. congruence.
Qed.

(** New views. *)
Definition with_views (s : state) (vs : list view) : state := mkState (st_regions s) (st_params s) (st_views s ++ vs).
Lemma fv_seq mv n k i : i < k -> fv (mv ++ seq n k) (length mv + i) = n + i.
Proof. intros L. unfold fv. rewrite app_nth2 by lia. replace (length mv + i - length mv) with i by lia. now rewrite seq_nth. Qed.
Lemma views_both mp mv s t vs : sim mp mv s t ->
  (forall v, In v vs -> within s (v_param v)) ->
  (forall v cs c, In v vs -> v_children v = Some cs -> In c cs -> c < length (st_views s) + length vs) ->
  let mv' := mv ++ seq (length (st_views t)) (length vs) in let t' := with_views t (map (vmap mp mv') vs) in
  sim mp mv' (with_views s vs) t' /\ frame mv t mv' t'.
Proof.
  intros S P C mv' t'. pose proof (s_lv _ _ _ _ _ S) as Lv.
  assert (Ws : wft (with_views s vs)) by (exact (wft_tsame _ _ (s_ws _ _ _ _ _ S) (tsame_views s _))).
  assert (Wt : wft t') by (exact (wft_tsame _ _ (s_wt _ _ _ _ _ S) (tsame_views t _))).
  assert (Ls : length (st_views (with_views s vs)) = length (st_views s) + length vs) by (cbn; apply app_length).
  pose proof (fun rs ps => param_at_tsame s (with_views s vs) rs ps (tsame_views s _)) as Qs.
  pose proof (fun rs ps => param_at_tsame t t' rs ps (tsame_views t _)) as Qt.
  pose proof (fun p => within_tsame dom s (with_views s vs) p (tsame_views s _)) as Qw.
  split.
  - constructor; auto.
    + apply S.
    + rewrite Ls. unfold mv'. rewrite app_length, seq_length. lia.
    + unfold mv'. pose proof (s_nv _ _ _ _ _ S) as N. clear - N S. revert N. pose proof (fun p => views_bound mp mv s t p S) as B. clear S.
      induction mv as [|j l IH]; intros N; [apply seq_NoDup|]. inversion N as [|? ? N1 N2]; subst. cbn. constructor.
      * rewrite in_app_iff. intros [I|I]; auto. apply in_seq in I. specialize (B j (or_introl eq_refl)). lia.
      * apply IH; auto. intros p I. apply B. now right.
    + intros rs ps p. rewrite !Qs, Qt. apply S.
    + intros rs ps. rewrite !Qs, Qt. apply S.
    + intros rs ps p. rewrite Qs. apply S.
    + intros p q I. apply Qw in I. now apply (s_cell _ _ _ _ _ S).
    + intros rs ps p q N. rewrite Qs. now apply (s_idle _ _ _ _ _ S).
    + intros rs ps p q O N. rewrite Qt. now apply (s_idle_t _ _ _ _ _ S).
    + intros i v V. cbn [with_views st_views] in V. cbn [t' with_views st_views]. destruct (Nat.lt_ge_cases i (length (st_views s))) as [L|L].
      * rewrite nth_error_app1 in V by auto. assert (E : fv mv' i = fv mv i) by (apply nth_longer; lia).
        pose proof (s_view _ _ _ _ _ S _ _ V) as V'. rewrite E, nth_error_app1 by (eapply nth_lt; eauto). rewrite V'. f_equal.
        rewrite <- (app_nil_r mp) at 2. symmetry. exact (vmap_longer mp mv s t _ _ i v S V).
      * rewrite nth_error_app2 in V by auto. pose proof (nth_lt _ _ _ V) as L'. assert (E : fv mv' i = length (st_views t) + (i - length (st_views s))).
        { pose proof (fv_seq mv (length (st_views t)) (length vs) (i - length (st_views s)) L') as K. fold mv' in K. rewrite <- K. f_equal. lia. }
        rewrite E, nth_error_app2 by lia.
        replace (length (st_views t) + (i - length (st_views s)) - length (st_views t)) with (i - length (st_views s)) by lia. now rewrite nth_error_map, V.
    + intros i v V. apply Qw. cbn [with_views st_views] in V. destruct (Nat.lt_ge_cases i (length (st_views s))) as [L|L].
      * rewrite nth_error_app1 in V by auto. eapply (s_vparam _ _ _ _ _ S); eauto.
      * rewrite nth_error_app2 in V by auto. apply P. eapply nth_error_In; eauto.
    + intros i v cs c V Cv I. rewrite Ls. cbn [with_views st_views] in V. destruct (Nat.lt_ge_cases i (length (st_views s))) as [L|L].
      * rewrite nth_error_app1 in V by auto. pose proof (s_vchild _ _ _ _ _ S _ _ _ _ V Cv I). lia.
      * rewrite nth_error_app2 in V by auto. eapply C; eauto. eapply nth_error_In; eauto.
    + apply S.
  - constructor; auto.
    + intros rs ps p. now rewrite Qt.
    + intros rs ps p q _ _ Q. exists q. auto.
    + intros rs ps p. rewrite Qt. congruence.
    + intros j L _. cbn. now apply nth_error_app1.
    + cbn. rewrite app_length. lia.
    + exists (seq (length (st_views t)) (length vs)). split; auto. apply Forall_forall. intros j I. apply in_seq in I. lia.
Qed.
Definition made mp (x y : res view) (p : nat) : Prop :=
  match x with
  | Ok v => y = Ok (mkView (v_public v) (v_kind v) (fp mp (v_param v)) (v_unit v) (v_uconv v) (v_tconv v) None (v_writable v) (v_data v) (v_locked v) (v_version v)) /\
            v_param v = p /\ v_children v = None
  | Err e => y = Err e
  end.
Lemma made_vmap mp mv v : v_children v = None ->
  mkView (v_public v) (v_kind v) (fp mp (v_param v)) (v_unit v) (v_uconv v) (v_tconv v) None (v_writable v) (v_data v) (v_locked v) (v_version v) = vmap mp mv v.
Proof. unfold vmap. now intros ->. Qed.
Lemma made_all mp mk mk' ls : (forall p, In p ls -> made mp (mk p) (mk' (fp mp p)) p) ->
  match rmap mk ls with
  | Ok vs => (forall mv, rmap mk' (map (fp mp) ls) = Ok (map (vmap mp mv) vs)) /\ (forall v, In v vs -> In (v_param v) ls /\ v_children v = None)
  | Err e => rmap mk' (map (fp mp) ls) = Err e
  end.
Proof.
  induction ls as [|p ls IH]; intros H; [cbn; split; [auto|intros v []]|]. cbn [rmap map]. pose proof (H p (or_introl eq_refl)) as M. unfold made in M.
  specialize (IH (fun p' I => H p' (or_intror I))).
  destruct (mk p) as [v|e]; [|now rewrite M]. destruct M as (-> & Pv & Cv). destruct (rmap mk ls) as [vs|e].
  - destruct IH as [A B]. split.
    + intros mv. rewrite (A mv). cbn. now rewrite <- (made_vmap mp mv v Cv).
    + intros w [<-|I]; [split; auto; left; auto|]. destruct (B w I). split; auto. now right.
  - now rewrite IH.
Qed.
Lemma build_both mp mv s t mk mk' p : sim mp mv s t -> within s p -> (forall p, within s p -> made mp (mk p) (mk' (fp mp p)) p) ->
  exists mv', went mv t mp mv' (fun i j => i < length (st_views (fst (build_view s mk p))) /\ j = fv mv' i) (build_view s mk p) (build_view t mk' (fp mp p)).
Proof.
  intros S L H. destruct (within_cell s p (s_ws _ _ _ _ _ S) L) as [q Q]. destruct (s_cell _ _ _ _ _ S _ _ L Q) as (r & Q'). unfold build_view. rewrite Q, Q', kids. pose proof (H p L) as M. unfold made in M.
  pose proof (s_lv _ _ _ _ _ S) as Lv.
  assert (No : forall e, exists mv', went mv t mp mv' (fun i j => i < length (st_views (fst (s, Err e : res nat))) /\ j = fv mv' i) (s, Err e) (t, Err e)).
  { intros e. exists mv. constructor; cbn; auto. apply frame_refl, S. }
  destruct (mk p) as [v|e]; [|rewrite M; apply No]. destruct M as (-> & Pv & Cv). destruct (has_children q).
  - destruct (param_leaves_both mp mv s t p S L) as (ls & A & ->). rewrite A.
    assert (Lb : forall i, In i ls -> within s i).
    { intros i I. apply (param_leaves_spec s p ls (s_ws _ _ _ _ _ S) A) in I. destruct I as [B _]. now apply (within_below s p i (s_ws _ _ _ _ _ S) L). }
    pose proof (made_all mp mk mk' ls (fun i I => H i (Lb i I))) as M. destruct (rmap mk ls) as [vs|e]; [|rewrite M; apply No].
    destruct M as [Ma Mb]. set (n := length (st_views s)). set (v1 := v_set_public (v_set_children v (seq n (length vs)))).
    destruct (views_both mp mv s t (vs ++ [v1]) S) as [S1 F1].
    { intros w I. apply in_app_or in I. destruct I as [I|[<-|[]]]; [apply Lb, Mb; auto|]. cbn. now rewrite Pv. }
    { intros w cs c I Cw Ic. rewrite app_length. cbn [length]. apply in_app_or in I. destruct I as [I|[<-|[]]].
      - destruct (Mb w I) as [_ K]. congruence.
      - cbn in Cw. injection Cw as <-. apply in_seq in Ic. fold n. lia. }
    set (mv' := mv ++ seq (length (st_views t)) (length (vs ++ [v1]))) in *. exists mv'. rewrite (Ma mv'). rewrite map_length.
    assert (E : forall i, i < length (vs ++ [v1]) -> fv mv' (n + i) = length (st_views t) + i).
    { intros i Li. unfold n. rewrite <- Lv. now apply fv_seq. }
    assert (E1 : map (vmap mp mv') vs ++ [v_set_public (v_set_children (mkView (v_public v) (v_kind v) (fp mp (v_param v)) (v_unit v) (v_uconv v) (v_tconv v) None (v_writable v) (v_data v) (v_locked v) (v_version v))
      (seq (length (st_views t)) (length vs)))] = map (vmap mp mv') (vs ++ [v1])).
    { rewrite map_app. f_equal. cbn [map]. f_equal. unfold v1, vmap, v_set_public, v_set_children. cbn [v_public v_kind v_param v_unit v_uconv v_tconv v_children v_writable v_data v_locked v_version option_map]. f_equal. f_equal.
      assert (G : forall k, k <= length vs -> seq (length (st_views t)) k = map (fv mv') (seq n k)).
      { induction k; intros Lk; [reflexivity|]. rewrite !seq_S, map_app, IHk by lia. cbn. f_equal. f_equal. symmetry. apply E. rewrite app_length. cbn. lia. }
      now apply G. }
    rewrite E1. constructor; cbn [fst snd agree]; auto. split.
    + cbn. rewrite !app_length. cbn. fold n. lia.
    + symmetry. apply E. rewrite app_length. cbn. lia.
  - destruct (views_both mp mv s t [v_set_public v] S) as [S1 F1].
    { intros w [<-|[]]. cbn. now rewrite Pv. }
    { intros w cs c [<-|[]] Cw. cbn in Cw. congruence. }
    eexists. constructor; cbn [fst snd agree].
    2: { cbn in S1. unfold with_views in S1. cbn in S1. unfold vmap in S1. cbn in S1. rewrite Cv in S1. exact S1. }
    2: { cbn in F1. unfold with_views in F1. cbn in F1. unfold vmap in F1. cbn in F1. rewrite Cv in F1. exact F1. }
    split; [cbn; rewrite app_length; cbn; lia|]. rewrite <- Lv. pose proof (fv_seq mv (length (st_views t)) 1 0 Nat.lt_0_1) as K. rewrite !Nat.add_0_r in K. now symmetry.
Qed.

(** Requests. *)
Variable env : uenv.
Lemma scalar_made mp mv s t u p : sim mp mv s t -> within s p -> made mp (scalar_leaf_view env s u p) (scalar_leaf_view env t u (fp mp p)) p.
Proof.
  intros S L. destruct (within_cell s p (s_ws _ _ _ _ _ S) L) as [q Q]. destruct (s_cell _ _ _ _ _ S _ _ L Q) as (r & Q'). unfold scalar_leaf_view. rewrite Q, Q'. change (p_unit (pmap mp r q)) with (p_unit q).
  destruct (unit_converter env (p_unit q) (Some u)); cbn; auto.
Qed.
Lemma ts_made mp mv s t u g ty x p : sim mp mv s t -> within s p -> made mp (ts_leaf_view env s u g ty x p) (ts_leaf_view env t u g ty x (fp mp p)) p.
Proof.
  intros S L. destruct (within_cell s p (s_ws _ _ _ _ _ S) L) as [q Q]. destruct (s_cell _ _ _ _ _ S _ _ L Q) as (r & Q'). unfold ts_leaf_view. rewrite Q, Q'. change (p_unit (pmap mp r q)) with (p_unit q). change (p_time (pmap mp r q)) with (p_time q).
  destruct (unit_converter env (p_unit q) (Some u)); cbn; auto. destruct (p_time q); cbn; auto. destruct (timeseries_converter _ _ _ _); cbn; auto.
Qed.
Definition as_view (x : state * res nat) mv' : nat -> nat -> Prop := fun i j => i < length (st_views (fst x)) /\ j = fv mv' i.
Definition same_way mv t (x y : state * res nat) : Prop := exists mp' mv', went mv t mp' mv' (as_view x mv') x y.
Lemma request_both mp mv s t nm rn ty u tp k k' : sim mp mv s t -> (hcomponents nm <> [] -> dom (hcomponents rn) (hcomponents nm)) ->
  (forall mp mv s t p, sim mp mv s t -> within s p -> same_way mv t (k s p) (k' t (fp mp p))) ->
  same_way mv t
    (match locate s nm rn with (s1, Err e) => (s1, Err e) | (s1, Ok p) => match on_param s1 p (fun q => attempt_read q ty u tp) with (s2, Err e) => (s2, Err e) | (s2, Ok _) => k s2 p end end)
    (match locate t nm rn with (s1, Err e) => (s1, Err e) | (s1, Ok p) => match on_param s1 p (fun q => attempt_read q ty u tp) with (s2, Err e) => (s2, Err e) | (s2, Ok _) => k' s2 p end end).
Proof.
  intros S O K. destruct (locate_both mp mv s t nm rn S O) as (mp1 & B). destruct (locate s nm rn) as [s1 x], (locate t nm rn) as [t1 y].
  pose proof (w_res _ _ _ _ _ _ _ B) as R. cbn [fst snd] in R. destruct x as [p|e], y as [p'|e']; cbn [agree] in R; try contradiction.
  - destruct R as [L0 ->]. pose proof (w_sim _ _ _ _ _ _ _ B) as S1. cbn [fst] in S1, L0.
    assert (L : within s1 p).
    { exists (hcomponents rn), (hcomponents nm). split; auto. exists (hcomponents nm), []. rewrite app_nil_r. split; auto. apply O. intros N. rewrite N in L0.
      unfold param_at in L0. destruct (region_at s1 (hcomponents rn)); discriminate. }
    pose proof (on_read_both dom mp1 mv s1 t1 p ty u tp S1 L) as C.
    pose proof (read_within dom s1 p ty u tp p L) as L2. apply went_both in C.
    destruct (on_param s1 p _) as [s2 x], (on_param t1 (fp mp1 p) _) as [t2 y]. pose proof (w_res _ _ _ _ _ _ _ C) as R. cbn [fst snd] in R, L2.
    destruct x as [a|e], y as [b|e']; cbn [agree] in R; try contradiction.
    + destruct (K mp1 mv s2 t2 p (w_sim _ _ _ _ _ _ _ C) L2) as (mp2 & mv2 & D). exists mp2, mv2. eapply went_after; [exact B|]. eapply went_after; [exact C|exact D].
    + exists mp1, mv. eapply went_fail. eapply went_after; [exact B|exact C].
  - exists mp1, mv. eapply went_fail; eauto.
Qed.
Lemma build_way mp mv s t mk mk' p : sim mp mv s t -> within s p -> (forall p, within s p -> made mp (mk p) (mk' (fp mp p)) p) ->
  same_way mv t (build_view s mk p) (build_view t mk' (fp mp p)).
Proof. intros S L H. destruct (build_both mp mv s t mk mk' p S L H) as (mv' & B). exists mp, mv'. exact B. Qed.
Lemma scalar_way mp mv s t nm u rn : sim mp mv s t -> (hcomponents nm <> [] -> dom (hcomponents rn) (hcomponents nm)) ->
  same_way mv t (ps_scalar env s nm u rn) (ps_scalar env t nm u rn).
Proof.
  intros S O. apply (request_both mp mv s t nm rn SCALAR (Some u) None (fun s2 p => build_view s2 (scalar_leaf_view env s2 u) p) (fun s2 p => build_view s2 (scalar_leaf_view env s2 u) p) S O).
  intros. apply build_way; auto. intros. eapply scalar_made; eauto.
Qed.
Lemma timeseries_way mp mv s t nm u tps rn a b c : sim mp mv s t -> (hcomponents nm <> [] -> dom (hcomponents rn) (hcomponents nm)) ->
  same_way mv t (ps_timeseries env s nm u tps rn a b c) (ps_timeseries env t nm u tps rn a b c).
Proof.
  intros S O. unfold ps_timeseries. assert (No : forall e, same_way mv t (s, Err e) (t, Err e)).
  { intros e. exists mp, mv. constructor; cbn; auto. apply frame_refl, S. }
  destruct (from_timeseries_type a) as [ty|]; [|apply No]. destruct (from_interpolation_type b); [|apply No]. destruct (from_extrapolation_type c) as [x|]; [|apply No].
  apply (request_both mp mv s t nm rn ty (Some u) (Some tps) (fun s2 p => build_view s2 (ts_leaf_view env s2 u (tp_ticks tps) ty x) p) (fun s2 p => build_view s2 (ts_leaf_view env s2 u (tp_ticks tps) ty x) p) S O).
  intros. apply build_way; auto. intros. eapply ts_made; eauto.
Qed.
Lemma generic_way mp mv s t nm rn : sim mp mv s t -> (hcomponents nm <> [] -> dom (hcomponents rn) (hcomponents nm)) ->
  same_way mv t (ps_generic s nm rn) (ps_generic t nm rn).
Proof.
  intros S O. set (k := fun s2 p => (with_views s2 [mkView true KGeneric p "" dummy_uconv dummy_tconv None false None false None], Ok (length (st_views s2)) : res nat)).
  apply (request_both mp mv s t nm rn GENERIC None None k k S O). clear. intros mp mv s t p S L. unfold k.
  destruct (views_both mp mv s t [mkView true KGeneric p "" dummy_uconv dummy_tconv None false None false None] S) as [S1 F1].
  { intros w [<-|[]]. exact L. }
  { intros w cs c [<-|[]] Cw. discriminate. }
  exists mp. eexists. constructor; cbn [fst snd agree].
  2: exact S1.
  2: exact F1.
  split; [cbn; rewrite app_length; cbn; lia|]. rewrite <- (s_lv _ _ _ _ _ S). pose proof (fv_seq mv (length (st_views t)) 1 0 Nat.lt_0_1) as K. rewrite !Nat.add_0_r in K. now symmetry.
Qed.

(** Looking for parameters. *)
Lemma at_both mp mv s t rs ps : sim mp mv s t -> inside rs ps -> param_at t rs ps = option_map (fp mp) (param_at s rs ps).
Proof.
  intros S I. destruct (param_at s rs ps) as [p|] eqn:A; [now apply (s_path _ _ _ _ _ S)|]. now apply (s_none _ _ _ _ _ S).
Qed.
Lemma names_both mp mv s t p : sim mp mv s t -> p < length (st_params s) -> exists rs ps, param_at s rs ps = Some p /\ param_at t rs ps = Some (fp mp p).
Proof.
  intros S L. destruct (at_total s p (s_ws _ _ _ _ _ S) L) as (rs & ps & A). exists rs, ps. split; auto. now apply (s_path _ _ _ _ _ S).
Qed.
Lemma info_both mp mv s t nm rn : sim mp mv s t -> hempty nm = false -> (hcomponents nm <> [] -> dom (hcomponents rn) (hcomponents nm)) ->
  (exists e, info s nm rn = Err e /\ info t nm rn = Err e) \/
  (exists p, info s nm rn = Ok p /\ info t nm rn = Ok (option_map (fp mp) p) /\ forall k, p = Some k -> within s k).
Proof.
  intros S H O. destruct (wt_root s (s_ws _ _ _ _ _ S)) as (g & G & _), (wt_root t (s_wt _ _ _ _ _ S)) as (g' & G' & _).
  pose proof (s_name _ _ _ _ _ S) as N. rewrite G, G' in N. cbn in N. injection N as N.
  destruct (hcomponents rn) as [|m rr] eqn:R.
  { left. exists EIndexError. unfold info, get_region. now rewrite R. }
  destruct (hcomponents nm) as [|n l] eqn:E.
  { exfalso. destruct nm as [x|[|x l]]; cbn in *; try discriminate. exact (split_nonempty _ _ E). }
  assert (I : forall s0 : state, wft s0 -> forall g0, nth_error (st_regions s0) 0 = Some g0 -> info s0 nm rn = Ok (param_at s0 (m :: rr) (n :: l))).
  { clear - R E H. intros s W g G. unfold info, get_region, param_at, region_at. rewrite R. cbv beta iota. rewrite G. destruct (String.eqb m (r_name g)); [|reflexivity].
    destruct (get_subregion s 0 rr) as [r|] eqn:A; [|reflexivity]. unfold get_parameter. rewrite H, E. cbn [param_in].
    destruct (nth_error (st_regions s) r) as [y|] eqn:Y; [destruct (alookup n (r_params y)); reflexivity|].
    exfalso. assert (B : region_at s (r_name g :: rr) = Some r) by (unfold region_at; rewrite G, String.eqb_refl; exact A).
    pose proof (path_rfn s W _ r B) as K. unfold region_full_name in K. cbn in K. rewrite Y in K. discriminate. }
  right. exists (param_at s (m :: rr) (n :: l)). rewrite (I s (s_ws _ _ _ _ _ S) _ G), (I t (s_wt _ _ _ _ _ S) _ G').
  split; auto. assert (J : inside (m :: rr) (n :: l)) by (exists (n :: l), []; rewrite app_nil_r; split; auto; apply O; discriminate).
  split; [f_equal; apply (at_both mp mv s t); auto|]. intros k K. exists (m :: rr), (n :: l). auto.
Qed.
End Own.
