(** Sequences of unit conversions of data frames.  (For C95.) *)
From Coq Require Import String Ascii List ZArith QArith Qcanon Reals Bool Lia Lra Permutation.
From Verif Require Import Base ListFacts Units TimeModel Core Spec_Core CoreP2 UnitsProps Spec_Units Filters Spec_Filters Offsets Spec_Offsets CivilFacts OffsetsProps Frame Spec_Frame FrameFilter FrameSelect FrameEdit Spec_Convert.
Import ListNotations.
Local Open Scope string_scope.
Local Open Scope list_scope.

Lemma quantity_trans env a x b y c z : same_quantity env a x b y -> same_quantity env b y c z -> same_quantity env a x c z.
Proof.
  intros (p & q & A & B & E) (q' & r & B' & C & E'). rewrite B in B'. injection B' as <-. exists p, r. split; auto. split; auto. lra.
Qed.
Lemma num_trans env a x b y c z : same_num env a x b y -> same_num env b y c z -> same_num env a x c z.
Proof. destruct x, y, z; cbn; try tauto. apply quantity_trans. Qed.
Lemma Forall2_num_trans env a b c : forall xs ys zs, Forall2 (fun x y => same_num env a x b y) xs ys -> Forall2 (fun x y => same_num env b x c y) ys zs ->
  Forall2 (fun x y => same_num env a x c y) xs zs.
Proof.
  intros xs ys zs H. revert zs. induction H as [|x y xs ys P H IH]; intros zs K; inversion K; subst; constructor; auto. eapply num_trans; eauto.
Qed.
Lemma series_trans env a xs b ys c zs : same_series env a xs b ys -> same_series env b ys c zs -> same_series env a xs c zs.
Proof.
  intros [(-> & ->)|H] [(-> & ->)|K]; [left; auto|right; exact K|right; exact H|right]. eapply Forall2_num_trans; eauto.
Qed.
Lemma series_back env u xs ys : good_env env -> same_series env u xs u ys -> ys = xs.
Proof.
  intros G [(_ & E)|H]; [exact E|]. induction H as [|x y xs ys P H IH]; auto. f_equal; auto.
  destruct x as [x|], y as [y|]; cbn in P; try tauto. destruct P as (a & b & A & B & E). rewrite A in B. injection B as <-. f_equal.
  assert (N : u_scale a <> 0%R) by (eapply G; eauto). apply (Rmult_eq_reg_r (u_scale a)); [lra|exact N].
Qed.

Lemma groups_prefix mk unit ctx g : forall us f f' e, convert_groups mk unit ctx g us f = (f', Err e) ->
  exists a b, us = a ++ b /\ convert_groups mk unit ctx g a f = (f', Ok tt).
Proof.
  induction us as [|u us IH]; intros f f' e H; cbn [convert_groups] in H; [discriminate|]. destruct (mk u) as [conv|e'] eqn:M.
  - destruct (IH _ _ _ H) as (a & b & -> & K). exists (u :: a), b. split; auto. cbn [convert_groups]. now rewrite M.
  - injection H as <- <-. exists [], (u :: us). split; reflexivity.
Qed.

(** What one call keeps. *)
Definition holds (env : uenv) (f f' : frame) : Prop :=
  aligned f' /\ fr_times f' = fr_times f /\ map fst (fr_data f') = map fst (fr_data f) /\
  forall l vs, In (l, vs) (fr_data f) ->
    (forall c v, c <> "unit" -> c <> "unit_context" -> meta_of f l c v -> meta_of f' l c v) /\
    (forall u, meta_of f l "unit" (MStr u) -> exists u' vs', meta_of f' l "unit" (MStr u') /\ In (l, vs') (fr_data f') /\ same_series env u vs u' vs') /\
    ((forall u, ~ meta_of f l "unit" (MStr u)) -> In (l, vs) (fr_data f') /\ forall v, meta_of f l "unit" v -> meta_of f' l "unit" v).

Lemma step_holds env unit keep rx hn fl f : good_env env -> aligned f ->
  holds env f (fst (convert_unit (plain_converter env unit) unit None keep rx hn fl f)).
Proof.
  intros G AL. destruct (convert_unit (plain_converter env unit) unit None keep rx hn fl f) as [f' r] eqn:H. cbn [fst].
  destruct (with_context_ok f AL) as (AL0 & T0 & D0 & C0 & L0 & M0). unfold convert_unit in H. set (f0 := with_context f) in *.
  assert (SAME : holds env f f0).
  { split; [exact AL0|]. split; [exact T0|]. split; [now rewrite D0|]. intros l vs I. split; [intros c v _ _ M; apply M0; now left|]. split.
    - intros u M. exists u, vs. split; [apply M0; now left|]. split; [now rewrite D0|]. now left.
    - intros _. split; [now rewrite D0|]. intros v M. apply M0. now left. }
  destruct (fr_filter keep rx hn fl f0) as [g|e] eqn:FG; [|injection H as <- <-; exact SAME].
  destruct (units_of g) as [us0|e] eqn:UG; [|injection H as <- <-; exact SAME].
  assert (X : exists us rest, us0 = us ++ rest /\ convert_groups (plain_converter env unit) unit None g us f0 = (f', Ok tt)).
  { destruct r as [[]|e]; [exists us0, []; split; [now rewrite app_nil_r|exact H]|eapply groups_prefix; eauto]. }
  clear H. destruct X as (us & rest & E & H).
  destruct (filter_selects _ _ _ _ _ _ AL0 FG) as (test & ALg & Cg & SG). destruct (units_ok g us0 UG) as (NU0 & _).
  assert (NU : NoDup us) by (rewrite E in NU0; clear -NU0; induction us as [|x us IH]; [constructor|]; cbn in NU0; inversion NU0; subst; constructor; [intros K; apply H1, in_or_app; now left|auto]).
  assert (DJ : forall l u u', In l (group_labels g u) -> In l (group_labels g u') -> u = u').
  { intros l u u' A B. apply group_in in A as (q & A & EA). apply group_in in B as (q' & B & EB). rewrite (meta_unique g l q q' ALg A B) in EA. congruence. }
  destruct (convert_groups_ok _ unit None g us f0 f' NU DJ H) as (T & C & LD & LM & HD & HM).
  assert (UC : In "unit_context"%string (fr_cols f0)).
  { eapply Permutation_in; [apply Permutation_sym; exact C0|]. destruct (mem "unit_context" (fr_cols f)) eqn:EE; [now apply mem_in|now left]. }
  assert (UU : In "unit"%string (fr_cols f0)) by (apply (al_required _ AL0); cbn; tauto).
  assert (GM : forall l u row, In l (group_labels g u) -> In (l, row) (fr_meta f0) -> cell (fr_cols f0) row "unit" = MStr u).
  { intros l u row A B. apply group_in in A as (q & A & EA). apply SG in A as (A & _). rewrite (meta_unique f0 l row q AL0 B A). now rewrite <- Cg. }
  assert (CASE : forall l, (exists u, In u us /\ In l (group_labels g u)) \/ (forall u, In u us -> ~ In l (group_labels g u))).
  { intros l. destruct (in_dec Z.eq_dec l (concat (map (group_labels g) us))) as [I0|I0].
    - left. apply in_concat in I0 as (ls & I1 & I2). apply in_map_iff in I1 as (u & <- & I1). eauto.
    - right. intros u U J. apply I0, in_concat. eexists. split; [apply in_map_iff; eauto|exact J]. }
  assert (ND : NoDup (map fst (fr_data f'))) by (rewrite LD; apply AL0).
  assert (NM : NoDup (map fst (fr_meta f'))) by (rewrite LM, <- (al_labels _ AL0); apply AL0).
  assert (UD : forall A (d : list (Z * A)) l a b, NoDup (map fst d) -> In (l, a) d -> In (l, b) d -> a = b).
  { clear. intros A d l a b U X Y. induction d as [|[x y] d IH]; [easy|]. cbn in U. inversion U as [|? ? P Q]; subst.
    destruct X as [X|X], Y as [Y|Y]; auto; [congruence| |]; exfalso; apply P; apply in_map_iff; eexists; (split; [|eassumption]); cbn; congruence. }
  assert (AL' : aligned f').
  { pose proof AL0 as [L U V R' Cn Q]. split.
    - rewrite LD, LM. exact L.
    - exact ND.
    - apply Forall_forall. intros [l vs] I. assert (K : In l (map fst (fr_data f0))) by (rewrite <- LD; apply in_map_iff; now exists (l, vs)).
      apply in_map_iff in K as ([l0 vs0] & E0 & K). cbn in E0. subst l0. rewrite Forall_forall in V. pose proof (V _ K) as VL. cbn [snd] in *.
      rewrite T. destruct (HD _ _ K) as (H1 & H2). destruct (CASE l) as [(u & I1 & I2)|N].
      + destruct (H1 u I1 I2) as (conv & _ & J). rewrite (UD _ _ _ _ _ ND I J), map_length. exact VL.
      + rewrite (UD _ _ _ _ _ ND I (H2 N)). exact VL.
    - apply Forall_forall. intros [l row] I. assert (K : In l (map fst (fr_meta f0))) by (rewrite <- LM; apply in_map_iff; now exists (l, row)).
      apply in_map_iff in K as ([l0 row0] & E0 & K). cbn in E0. subst l0. rewrite Forall_forall in R'. pose proof (R' _ K) as RL. cbn [snd] in *.
      rewrite C. destruct (HM _ _ K) as (H1 & H2). destruct (CASE l) as [(u & I1 & I2)|N].
      + rewrite (UD _ _ _ _ _ NM I (H1 u I1 I2)). unfold set_row. rewrite map_cell_length; auto. now apply map_cell_length.
      + rewrite (UD _ _ _ _ _ NM I (H2 N)). exact RL.
    - now rewrite C.
    - now rewrite C. }
  split; [exact AL'|]. split; [congruence|]. split; [congruence|]. intros l vs I. rewrite <- D0 in I.
  assert (K : exists row0, In (l, row0) (fr_meta f0)).
  { assert (X : In l (map fst (fr_meta f0))) by (rewrite <- (al_labels _ AL0); apply in_map_iff; now exists (l, vs)).
    apply in_map_iff in X as ([l0 row0] & E0 & X). cbn in E0. subst l0. eauto. }
  destruct K as (row0 & K). destruct (HD l vs I) as (H1 & H2). destruct (HM l row0 K) as (M1 & M2).
  assert (MC : forall c v, meta_of f l c v -> In (c, v) (combine (fr_cols f0) row0)).
  { intros c v M. assert (X : meta_of f0 l c v) by (apply M0; now left). destruct X as (row & R1 & R2). now rewrite (meta_unique f0 l row row0 AL0 R1 K) in R2. }
  destruct (CASE l) as [(u & I1 & I2)|N].
  - destruct (H1 u I1 I2) as (conv & MK & J). pose proof (M1 u I1 I2) as JM. pose proof (GM l u row0 I2 K) as CU. split; [|split].
    + intros c v N1 N2 M. exists (set_row (fr_cols f0) unit None row0). split; [exact JM|]. rewrite C. unfold set_row.
      apply map_cell_in. exists v. split; [|now rewrite (proj2 (String.eqb_neq "unit_context" c) (not_eq_sym N2))].
      apply map_cell_in. exists v. split; [now apply MC|now rewrite (proj2 (String.eqb_neq "unit" c) (not_eq_sym N1))].
    + intros u1 MU. apply MC in MU. apply in_cell in MU; [|apply AL0]. assert (u1 = u) by congruence. subst u1.
      exists unit, (map conv vs). split; [|split; [exact J|]].
      * exists (set_row (fr_cols f0) unit None row0). split; [exact JM|]. rewrite C. unfold set_row.
        apply map_cell_in. exists (MStr unit). split; [|reflexivity]. apply map_cell_in. exists (MStr u). split; [|reflexivity].
        apply cell_iff; [apply AL0|eapply row_length; eauto|]. split; [exact UU|now symmetry].
      * right. unfold plain_converter in MK. apply rbind_ok in MK as (c & UCV & E1). injection E1 as <-.
        clear - G UCV. induction vs as [|[x|] vs IH]; cbn [map]; constructor; auto; cbn; auto. now apply (uconv_phys env u unit c).
    + intros NO. exfalso. apply (NO u). assert (X : meta_of f0 l "unit" (MStr u)).
      { exists row0. split; [exact K|]. apply cell_iff; [apply AL0|eapply row_length; eauto|]. split; [exact UU|now symmetry]. }
      apply M0 in X as [X|(_ & X & _)]; [exact X|discriminate X].
  - assert (MM : forall c v, meta_of f l c v -> meta_of f' l c v).
    { intros c v M. exists row0. split; [exact (M2 N)|]. rewrite C. now apply MC. }
    split; [auto|]. split; [|intros _; split; [exact (H2 N)|intros v; apply MM]]. intros u MU. exists u, vs. split; [now apply MM|]. split; [exact (H2 N)|now left].
Qed.

Lemma unit_present f l vs : aligned f -> In (l, vs) (fr_data f) -> exists v, meta_of f l "unit" v.
Proof.
  intros AL I. assert (X : In l (map fst (fr_meta f))) by (rewrite <- (al_labels _ AL); apply in_map_iff; now exists (l, vs)).
  apply in_map_iff in X as ([l0 row] & E & X). cbn in E. subst l0. exists (cell (fr_cols f) row "unit"), row. split; [exact X|].
  apply cell_iff; [apply AL|eapply row_length; eauto|]. split; [|reflexivity]. apply (al_required _ AL). cbn. tauto.
Qed.
Lemma meta_fun f l c v w : aligned f -> meta_of f l c v -> meta_of f l c w -> v = w.
Proof.
  intros AL (r & A & B) (r' & A' & B'). rewrite (meta_unique f l r' r AL A' A) in B'. apply in_cell in B; [|apply AL]. apply in_cell in B'; [|apply AL]. congruence.
Qed.

Lemma holds_trans env f g h : aligned f -> aligned g -> holds env f g -> holds env g h -> holds env f h.
Proof.
  intros AF AG (_ & T1 & L1 & H1) (A2 & T2 & L2 & H2). split; [exact A2|]. split; [congruence|]. split; [congruence|]. intros l vs I.
  destruct (H1 l vs I) as (M1 & U1 & N1).
  assert (J : exists ws, In (l, ws) (fr_data g)).
  { assert (X : In l (map fst (fr_data g))) by (rewrite L1; apply in_map_iff; now exists (l, vs)).
    apply in_map_iff in X as ([l0 ws] & E & X). cbn in E. subst l0. eauto. }
  destruct J as (ws & J). destruct (H2 l ws J) as (M2 & U2 & N2). split; [intros c v A B M; apply M2; auto|]. split.
  - intros u MU. destruct (U1 u MU) as (u1 & ws1 & MU1 & J1 & S1). destruct (H2 l ws1 J1) as (_ & U2' & _). destruct (U2' u1 MU1) as (u2 & ws2 & MU2 & J2 & S2).
    exists u2, ws2. split; [exact MU2|]. split; [exact J2|]. eapply series_trans; eauto.
  - intros NO. destruct (N1 NO) as (J1 & MU1). destruct (H2 l vs J1) as (_ & _ & N2').
    assert (NG : forall u, ~ meta_of g l "unit" (MStr u)).
    { intros u MU. destruct (unit_present f l vs AF I) as (v & V). pose proof (MU1 v V) as V'. rewrite (meta_fun g l "unit" v (MStr u) AG V' MU) in V. exact (NO u V). }
    destruct (N2' NG) as (J2 & MU2). split; [exact J2|]. intros v V. apply MU2. now apply MU1.
Qed.

Lemma converted_holds env f g : good_env env -> aligned f -> converted env f g -> holds env f g.
Proof.
  intros G AL H. induction H as [|g unit keep rx hn fl H IH].
  - split; [exact AL|]. split; [reflexivity|]. split; [reflexivity|]. intros l vs I. split; [auto|]. split; [|auto]. intros u M. exists u, vs. split; auto. split; auto. now left.
  - assert (AG : aligned g) by apply IH. eapply holds_trans; [exact AL|exact AG|exact IH|]. now apply step_holds.
Qed.

(** There and back. *)
Lemma alike_data {A} : forall (d e : list (Z * A)), map fst d = map fst e -> NoDup (map fst d) -> (forall l x, In (l, x) d -> In (l, x) e) -> e = d.
Proof.
  induction d as [|[l x] d IH]; intros [|[l' y] e] E N H; try discriminate; auto. cbn in E, N. injection E as <- E. inversion N as [|? ? P Q]; subst.
  assert (X : y = x).
  { destruct (H l x (or_introl eq_refl)) as [[= ->]|X]; auto. exfalso. apply P. rewrite E. apply in_map_iff. now exists (l, x). }
  subst y. f_equal. apply IH; auto. intros k z I. destruct (H k z (or_intror I)) as [[= <- <-]|J]; auto.
  exfalso. apply P. apply in_map_iff. now exists (l, x).
Qed.
Lemma no_filter f : fr_times f <> [] -> fr_meta f <> [] -> aligned f -> exists g, fr_filter true false true [] f = Ok g.
Proof.
  intros T M A. destruct (selection _ f [] true gregorian_exists A T M (Forall_nil _)) as (g & _ & H & _). exists g. exact H.
Qed.
Lemma units_text g : (forall r, In r (fr_meta g) -> exists u, cell (fr_cols g) (snd r) "unit" = MStr u) -> exists us, units_of g = Ok us.
Proof.
  intros H. unfold units_of, column.
  assert (X : exists us, rmap (fun v => match v with MStr s => Ok [s] | MNum _ => Err EInvalid | _ => Ok [] end) (map (fun r => cell (fr_cols g) (snd r) "unit") (fr_meta g)) = Ok us).
  { induction (fr_meta g) as [|r m IH]; [eexists; reflexivity|]. destruct (H r (or_introl eq_refl)) as (u & U). destruct IH as (us & IH); [intros x I; apply H; now right|].
    cbn [map rmap]. rewrite U. cbn. rewrite IH. cbn. eauto. }
  destruct X as (us & X). rewrite X. cbn. eauto.
Qed.
(** Without filters, everything that has a value is selected. *)
Lemma filter_all f g : aligned f -> fr_filter true false true [] f = Ok g -> aligned g /\ fr_cols g = fr_cols f /\
  forall l row, In (l, row) (fr_meta g) <-> In (l, row) (fr_meta f) /\ exists vs x, In (l, vs) (fr_data f) /\ In (Some x) vs.
Proof.
  intros AL H. destruct (filter_ok _ _ _ _ _ _ H) as (N & M & _).
  pose proof (acts_none f : acts (fun f' keep => apply_filters_loop false true [] f' keep []) f (fun _ => true) (fun _ => true)) as A.
  pose proof (apply_result false true [] f _ _ A f (within_refl f N) M) as R0.
  destruct (filter_acts_on false true [] f _ _ A true f (within_refl f N) M AL) as (g' & Hg & ALg & Cg & _). rewrite H in Hg. injection Hg as <-.
  split; auto. split; auto. pose proof (al_values _ AL) as VL. rewrite Forall_forall in VL.
  destruct (aligned_series f AL) as (z & E). set (times := fr_times f) in *. set (cols := fr_cols f) in *. clearbody times cols. subst f.
  assert (ND : NoDup (map s_label z)) by (rewrite <- labels_data; apply AL).
  rewrite (filter_kept true false true [] times cols z (fun _ => true) (fun _ => true) ND R0) in H. injection H as <-.
  intros l row. rewrite kept_labels. cbn [of_series fr_meta fr_data] in *. split.
  - intros (vs & Z' & i & t & x & T & V & W). split; [apply in_map_iff; now exists (l, vs, row)|]. exists vs, x. split; [apply in_map_iff; now exists (l, vs, row)|]. eapply nth_error_In; eauto.
  - intros (I & vs & x & J & V). apply In_nth_error in V as (i & V). pose proof (VL _ J) as LEN. cbn [snd] in LEN.
    assert (T : exists t, nth_error times i = Some t).
    { destruct (nth_error times i) as [t|] eqn:Q; [eauto|]. apply nth_error_None in Q. assert (K : nth_error vs i <> None) by (intros K; unfold num in *; rewrite V in K; discriminate K). apply nth_error_Some in K. lia. }
    destruct T as (t & T). apply in_map_iff in I as ([[l1 vs1] row1] & E1 & I). cbn in E1. injection E1 as -> ->.
    apply in_map_iff in J as ([[l2 vs2] row2] & E2 & J). cbn in E2. injection E2 as -> ->.
    assert ((l, vs1, row) = (l, vs, row2)) as [= -> <-]; [|exists vs; split; auto; exists i, t, x; auto].
    revert ND I J. clear. intros ND I J. induction z as [|a z IH]; [easy|]. cbn in ND. inversion ND as [|? ? A B]; subst.
    destruct I as [->|I], J as [J|J]; auto.
    + exfalso. apply A. change (s_label (l, vs1, row)) with (s_label (l, vs, row2)). now apply in_map.
    + exfalso. apply A. subst a. change (s_label (l, vs, row2)) with (s_label (l, vs1, row)). now apply in_map.
Qed.
Lemma data_fun f l a b : aligned f -> In (l, a) (fr_data f) -> In (l, b) (fr_data f) -> a = b.
Proof.
  intros AL X Y. pose proof (al_unique _ AL) as U. induction (fr_data f) as [|[x y] d IH]; [easy|]. cbn in U. inversion U as [|? ? P Q]; subst.
  destruct X as [X|X], Y as [Y|Y]; auto; [congruence| |]; exfalso; apply P; apply in_map_iff; eexists; (split; [|eassumption]); cbn; congruence.
Qed.
Lemma convert_all env w f : aligned f -> fr_times f <> [] -> fr_data f <> [] ->
  (forall l, In l (map fst (fr_data f)) -> exists u, meta_of f l "unit" (MStr u) /\ commensurable env u w) ->
  exists f', convert_unit (plain_converter env w) w None true false true [] f = (f', Ok tt) /\
    forall l vs, In (l, vs) (fr_data f) ->
      ((exists x, In (Some x) vs) -> meta_of f' l "unit" (MStr w)) /\
      (~ (exists x, In (Some x) vs) -> forall v, meta_of f l "unit" v -> meta_of f' l "unit" v).
Proof.
  intros AL NT ND HU. destruct (with_context_ok f AL) as (AL0 & T0 & D0 & C0 & L0 & M0).
  assert (NM : fr_meta (with_context f) <> []).
  { intros E. apply ND. pose proof (al_labels _ AL0) as L. rewrite D0, E in L. destruct (fr_data f); [reflexivity|discriminate]. }
  destruct (no_filter (with_context f)) as (g & FG); [now rewrite T0|exact NM|exact AL0|].
  destruct (filter_all _ _ AL0 FG) as (ALg & Cg & SG).
  assert (UF : forall l row, In (l, row) (fr_meta (with_context f)) -> exists u, cell (fr_cols (with_context f)) row "unit" = MStr u /\ commensurable env u w).
  { intros l row I. destruct (HU l) as (u & MU & CM). { rewrite (al_labels _ AL), <- L0. apply in_map_iff. now exists (l, row). }
    exists u. split; [|exact CM]. assert (X : meta_of (with_context f) l "unit" (MStr u)) by (apply M0; now left). destruct X as (r & R1 & R2).
    rewrite (meta_unique _ l r row AL0 R1 I) in R2. apply in_cell in R2; [exact R2|apply AL0]. }
  destruct (units_text g) as (us & UG).
  { intros [l row] I. apply SG in I as (I & _). destruct (UF l row I) as (u & U & _). exists u. cbn [snd]. now rewrite Cg. }
  destruct (convert_unit (plain_converter env w) w None true false true [] f) as [f' r] eqn:H.
  assert (OKR : r = Ok tt).
  { change r with (snd (f', r)). rewrite <- H. unfold convert_unit. rewrite FG, UG, convert_groups_accepts. intros u U.
    destruct (units_ok g us UG) as (_ & HUS & _). apply HUS in U as ([l row] & I & E). apply SG in I as (I & _). destruct (UF l row I) as (u' & U' & CM). cbn [snd] in E. rewrite Cg in E.
    assert (u' = u) by congruence. subst u'. unfold plain_converter. destruct (proj2 (proj1 (C36_converter_proof env u w)) CM) as (c & C). rewrite C. cbn. eauto. }
  subst r. exists f'. split; [reflexivity|]. destruct (convert_ok _ _ _ _ _ _ _ _ _ AL H) as (g' & FG' & _ & _ & _ & _ & HC). rewrite FG in FG'. injection FG' as <-.
  intros l vs I. destruct (HC l vs I) as (H1 & H2). assert (IL : In l (map fst (fr_data f))) by (apply in_map_iff; now exists (l, vs)).
  assert (IM : exists row, In (l, row) (fr_meta (with_context f))).
  { rewrite (al_labels _ AL), <- L0 in IL. apply in_map_iff in IL as ([l0 row] & E & X). cbn in E. subst l0. eauto. }
  destruct IM as (row & IM). split.
  - intros (x & X). destruct (HU l IL) as (u & MU & _). destruct (H1 u) as (conv & _ & _ & Q & _); [|exact MU|exact Q]. apply in_map_iff. exists (l, row). split; [reflexivity|]. apply SG. split; [exact IM|].
    exists vs, x. split; [now rewrite D0|exact X].
  - intros NX v V. apply H2; [|apply M0; now left]. left. intros K. apply in_map_iff in K as ([l0 row0] & E & K). cbn in E. subst l0. apply SG in K as (_ & vs' & x & J & X).
    rewrite D0 in J. rewrite (data_fun f l vs' vs AL J I) in X. apply NX. eauto.
Qed.
Lemma there_and_back env u w f : good_env env -> aligned f -> fr_times f <> [] -> fr_data f <> [] -> commensurable env u w ->
  (forall l, In l (map fst (fr_data f)) -> meta_of f l "unit" (MStr u)) ->
  exists f' f'', convert_unit (plain_converter env w) w None true false true [] f = (f', Ok tt) /\
    convert_unit (plain_converter env u) u None true false true [] f' = (f'', Ok tt) /\
    fr_times f'' = fr_times f /\ fr_data f'' = fr_data f /\
    (forall l vs x, In (l, vs) (fr_data f) -> In (Some x) vs -> meta_of f' l "unit" (MStr w)) /\
    forall l c v, c <> "unit_context" -> In l (map fst (fr_data f)) -> meta_of f l c v -> meta_of f'' l c v.
Proof.
  intros G AL NT ND CM HU. destruct (convert_all env w f AL NT ND) as (f' & H & HC). { intros l I. exists u. split; [now apply HU|exact CM]. }
  assert (CV : converted env f f').
  { replace f' with (fst (convert_unit (plain_converter env w) w None true false true [] f)) by (rewrite H; reflexivity). constructor. constructor. }
  destruct (converted_holds env f f' G AL CV) as (AL' & T' & L' & HV).
  assert (VAL : forall l vs vs', In (l, vs) (fr_data f) -> In (l, vs') (fr_data f') -> ((exists x, In (Some x) vs) <-> (exists x, In (Some x) vs'))).
  { intros l vs vs' I I'. destruct (HV l vs I) as (_ & HS & _). destruct (HS u) as (u1 & vs1 & _ & I1 & S1); [apply HU; apply in_map_iff; now exists (l, vs)|].
    rewrite (data_fun f' l vs' vs1 AL' I' I1). destruct S1 as [(_ & ->)|S1]; [tauto|]. clear -S1. induction S1 as [|x y xs ys P H IH]; [tauto|].
    split; intros (z & [Z1|Z1]).
    - subst x. destruct y as [y|]; [|destruct P]. exists y. now left.
    - destruct (proj1 IH (ex_intro _ z Z1)) as (z' & Z2). exists z'. now right.
    - subst y. destruct x as [x|]; [|destruct P]. exists x. now left.
    - destruct (proj2 IH (ex_intro _ z Z1)) as (z' & Z2). exists z'. now right. }
  assert (COM : commensurable env u u /\ commensurable env w u).
  { destruct CM as (a & b & A & B & E). split; [exists a, a|exists b, a]; auto. }
  assert (VD : forall vs : list num, (exists x, In (Some x) vs) \/ ~ exists x, In (Some x) vs).
  { intros vs. induction vs as [|[x|] vs IH]; [right; intros (x & [])|left; exists x; now left|]. destruct IH as [(x & X)|N]; [left; exists x; now right|].
    right. intros (x & [X|X]); [discriminate|]. apply N. eauto. }
  destruct (convert_all env u f' AL') as (f'' & H' & HC'); [now rewrite T'| | |].
  { intros E. apply ND. rewrite E in L'. destruct (fr_data f); [reflexivity|discriminate]. }
  { intros l I. rewrite L' in I. pose proof (HU l I) as MU. apply in_map_iff in I as ([l0 vs] & E & I). cbn in E. subst l0. destruct (HC l vs I) as (Y & N).
    destruct (VD vs) as [V|V]; [exists w|exists u]; split; try apply COM; auto. }
  exists f', f''. split; [exact H|]. split; [exact H'|].
  assert (CV' : converted env f f'').
  { replace f'' with (fst (convert_unit (plain_converter env u) u None true false true [] f')) by (rewrite H'; reflexivity). constructor. exact CV. }
  destruct (converted_holds env f f'' G AL CV') as (AL'' & T'' & L'' & HV').
  assert (UN : forall l, In l (map fst (fr_data f)) -> meta_of f'' l "unit" (MStr u)).
  { intros l I. pose proof (HU l I) as MU. assert (I' : In l (map fst (fr_data f'))) by now rewrite L'.
    apply in_map_iff in I as ([l0 vs] & E & I). cbn in E. subst l0. apply in_map_iff in I' as ([l0 vs'] & E & I'). cbn in E. subst l0.
    destruct (HC' l vs' I') as (Y & N). destruct (VD vs') as [V|V]; [now apply Y|]. apply N; [exact V|]. apply (HC l vs I); [|exact MU]. rewrite (VAL l vs vs' I I'). exact V. }
  split; [exact T''|]. split; [|split; [intros l vs x I X; apply (proj1 (HC l vs I)); now exists x|]].
  - apply alike_data; [now symmetry|apply AL|]. intros l vs I. destruct (HV' l vs I) as (_ & HS & _).
    assert (IL : In l (map fst (fr_data f))) by (apply in_map_iff; now exists (l, vs)). destruct (HS u (HU l IL)) as (u1 & vs1 & U1 & I1 & S1).
    pose proof (meta_fun f'' l "unit" _ _ AL'' U1 (UN l IL)) as E. injection E as ->. now rewrite <- (series_back env u vs vs1 G S1).
  - intros l c v NC IL MV. destruct (string_dec c "unit") as [->|NU]; [rewrite (meta_fun f l "unit" _ _ AL MV (HU l IL)); now apply UN|].
    pose proof IL as I. apply in_map_iff in I as ([l0 vs] & E & I). cbn in E. subst l0. now apply (HV' l vs I).
Qed.
