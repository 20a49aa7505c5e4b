(** A data frame stored in a parameter set and read back (for C54). *)
From Coq Require Import String Ascii List Arith Lia Bool ZArith QArith Qcanon Reals Sorted Permutation.
From Verif Require Import Base ListFacts Units TimeModel Core CoreEvo CoreTree CoreNames CoreInv Spec_Core
  Spec_Time TimeProps Spec_Names NamesProps Filters ParameterType Frame Spec_Frame FrameFilter FrameEdit FrameInterp Spec_Interp InterpProps AppendProps AlignProps
  FrameStore Spec_Store StoreHolds StoreCalls StoreWalk StoreBack StorePut.
Import ListNotations.
Local Open Scope string_scope.
Local Open Scope list_scope.

Lemma choices {A B} (P : A -> B -> Prop) l : (forall x, In x l -> exists y, P x y) -> exists ys, Forall2 P l ys.
Proof.
  induction l as [|x l IH]; intros H; [exists []; constructor|].
  destruct (H x (or_introl eq_refl)) as (y & Y). destruct IH as (ys & YS); [intros z I; apply H; now right|].
  exists (y :: ys). now constructor.
Qed.
Lemma forall2_in_l {A B} (P : A -> B -> Prop) l l' x : Forall2 P l l' -> In x l -> exists y, In y l' /\ P x y.
Proof.
  induction 1 as [|a b l l' H F IH]; intros I; [destruct I|]. destruct I as [<-|I]; [exists b; split; [now left|exact H]|].
  destruct (IH I) as (y & J & Y). exists y. split; [now right|exact Y].
Qed.
Lemma forall2_in_r {A B} (P : A -> B -> Prop) l l' y : Forall2 P l l' -> In y l' -> exists x, In x l /\ P x y.
Proof.
  induction 1 as [|a b l l' H F IH]; intros I; [destruct I|]. destruct I as [<-|I]; [exists a; split; [now left|exact H]|].
  destruct (IH I) as (x & J & X). exists x. split; [now right|exact X].
Qed.
Lemma fst_inj {K V} (d : list (K * V)) k v v' : NoDup (map fst d) -> In (k, v) d -> In (k, v') d -> v = v'.
Proof.
  induction d as [|[k0 v0] d IH]; intros N I J; [destruct I|]. cbn in N. apply NoDup_cons_iff in N. destruct N as [N1 N2].
  destruct I as [I|I], J as [J|J]; try congruence; [..|now apply IH].
  - injection I as -> ->. exfalso. apply N1. now apply (in_map fst) in J.
  - injection J as -> ->. exfalso. apply N1. now apply (in_map fst) in I.
Qed.
Lemma row_at_in l row meta : NoDup (map fst meta) -> In (l, row) meta -> row_at l meta = Some row.
Proof.
  induction meta as [|[l' r] meta IH]; intros N I; [destruct I|]. cbn in N. apply NoDup_cons_iff in N. destruct N as [N1 N2]. cbn [row_at].
  destruct I as [E|I]; [injection E as -> ->; now rewrite Z.eqb_refl|].
  destruct (Z.eqb_spec l l') as [->|]; [|now apply IH]. exfalso. apply N1. now apply (in_map fst) in I.
Qed.
Lemma guess_types matches v : Forall (fun m => timeseries (snd m)) matches -> timeseries (guess_by_name matches v).
Proof.
  induction 1 as [|[p t] m H F IH]; [now right|]. cbn [guess_by_name]. match goal with |- timeseries (if ?b then _ else _) => destruct b end; assumption.
Qed.
Lemma guess_ok env v u : env u <> None -> is_number u = false -> exists ty, guess_parameter_type env v (Some u) = Ok ty /\ timeseries ty.
Proof.
  intros U N. unfold guess_parameter_type. destruct u as [|c u].
  - eexists. split; [reflexivity|]. apply guess_types. unfold parameter_matches. repeat (apply Forall_cons; [first [now left|now right]|]). apply Forall_nil.
  - rewrite N. destruct (env (String c u)) as [d|]; [|contradiction]. destruct (existsb _ _); eexists; split; [reflexivity|now left|reflexivity|now right].
Qed.
Lemma extended_is t : (3 <= length t)%nat -> extended t = Ok (closed t).
Proof.
  intros L. unfold extended, closed. rewrite <- rev_length in L. destruct (rev t) as [|b [|a r]]; cbn in L; try lia. replace (b + (b - a))%Z with (2 * b - a)%Z by lia. reflexivity.
Qed.
Lemma present_vals (vals : list num) : ~ In None vals -> exists xs, vals = map Some xs.
Proof.
  induction vals as [|[x|] vals IH]; intros H; [now exists []| |exfalso; apply H; now left].
  destruct IH as (xs & ->); [intros I; apply H; now right|]. now exists (x :: xs).
Qed.

Section Frame_stored.
Context (env : uenv) (q_of : R -> Qc) (f : frame).
Context (G : good_env env) (ST : storable env f).
Context (QO : forall c l q, meta_of f l c (MNum q) -> q_of (num_of_q q) = q).

Lemma meta_nodup : NoDup (map fst (fr_meta f)).
Proof. rewrite <- (al_labels _ (st_aligned _ _ ST)). apply (al_unique _ (st_aligned _ _ ST)). Qed.
Lemma meta_row l c v : meta_of f l c v -> exists row, row_at l (fr_meta f) = Some row /\ In (l, row) (fr_meta f) /\ cell (fr_cols f) row c = v /\ In c (fr_cols f).
Proof.
  intros M. destruct (cell_meta _ _ _ _ (st_aligned _ _ ST) M) as (row & I & C & IC). exists row.
  split; [apply row_at_in; [apply meta_nodup|exact I]|auto].
Qed.
Lemma meta_same l c v v' : meta_of f l c v -> meta_of f l c v' -> v = v'.
Proof.
  intros A B. destruct (meta_row _ _ _ A) as (r1 & R1 & _ & C1 & _). destruct (meta_row _ _ _ B) as (r2 & R2 & _ & C2 & _).
  assert (r1 = r2) by congruence. now subst.
Qed.

Lemma series_exists d : In d (fr_data f) -> exists ek, series_for env f (closed (fr_times f)) d ek.
Proof.
  destruct d as [l vals]. intros I. pose proof (st_aligned _ _ ST) as AL.
  destruct (st_texts _ _ ST l (in_map fst _ _ I)) as (v & r & u & MV & MR & MU & U & NU & RG).
  destruct (meta_row _ _ _ MV) as (row & RA & IR & CV & _).
  destruct (meta_row _ _ _ MR) as (row2 & RA2 & _ & CR & _). assert (row2 = row) by congruence. subst row2.
  destruct (meta_row _ _ _ MU) as (row2 & RA3 & _ & CU & _). assert (row2 = row) by congruence. subst row2.
  destruct (present_vals vals (st_present _ _ ST l vals I)) as (xs & EV).
  assert (LX : length xs = length (fr_times f)).
  { pose proof (al_values _ AL) as LV. rewrite Forall_forall in LV. specialize (LV _ I). cbn in LV. now rewrite EV, map_length in LV. }
  assert (RT : exists ty, row_type env (fr_cols f) row v u = Ok ty /\ timeseries ty).
  { unfold row_type. destruct (mem "parameter_type" (fr_cols f)) eqn:M; [|now apply guess_ok].
    apply mem_in in M. pose proof (meta_cell f l _ row AL IR M) as MT.
    destruct (st_types _ _ ST _ _ MT) as [-> | ->]; cbn; eexists; (split; [reflexivity|]); [now left|now right]. }
  destruct RT as (ty & RT & T). pose proof (st_three _ _ ST) as L3.
  assert (RS : exists rest, split "|"%char r = "World" :: rest).
  { destruct RG as [->|(x & ->)]; [now exists []|]. exists (split "|"%char x).
    change ("World" ++ "|" ++ x)%string with ("World" ++ String "|"%char x)%string.
    apply split_at. repeat (apply without_cons; split; [discriminate|]). apply without_nil. }
  destruct RS as (rest & HR).
  eexists. exists row, v, r, u, ty, xs, rest. cbv zeta. cbn [fst snd].
  repeat (split; [first [exact RA|exact CV|exact CR|exact CU|exact MV|exact MR|exact MU|exact RT|exact U|exact T]|]).
  split; [destruct T as [->| ->]; [apply closed_increasing|]; apply (st_times _ _ ST)|].
  split; [|split; [lia|split; [exact EV|split; [exact HR|reflexivity]]]].
  destruct T as [->| ->]; unfold belongs, value_count.
  - rewrite closed_length by lia. split; [lia|]. intros E. apply (f_equal (@length _)) in E. rewrite closed_length in E by lia. discriminate.
  - split; [exact LX|]. intros E. rewrite E in L3. cbn in L3. lia.
Qed.

Lemma other_in c : In c (other_cols (fr_cols f)) <-> other_column f c.
Proof.
  unfold other_cols, other_column. rewrite filter_In. fold series_cols. rewrite negb_true_iff, <- not_true_iff_false, mem_in. reflexivity.
Qed.

Lemma meta_exists c v l : other_column f c -> meta_of f l c v -> exists ek, meta_for env q_of (c, v) ek.
Proof.
  intros O M. destruct (st_names _ _ ST c O) as (_ & _ & n & HA). destruct HA as [[W _]|(u & Q)].
  - assert (X : exists pv, mval_of pv = v /\ pyval_of q_of (gval_of v) = Ok pv).
    { destruct v as [s|q| |]; cbn; eexists; (split; [|reflexivity]); try reflexivity. cbn. now rewrite (QO _ _ _ M). }
    destruct X as (pv & MV & PV). eexists. exists pv. cbn [fst snd]. split; [exact MV|]. left. repeat split; auto.
  - destruct (st_quantities _ _ ST c n u l v O Q M) as (U & [->|(q & ->)]).
    + eexists. exists PNaN. cbn [fst snd]. split; [reflexivity|]. right. exists n, u, None. repeat split; auto; apply Q.
    + eexists. exists (PNum (q_of (num_of_q q))). cbn [fst snd]. split; [cbn; now rewrite (QO _ _ _ M)|]. right. exists n, u, (Some (num_of_q q)).
      repeat split; auto; [apply Q..|]. right. eauto.
Qed.

Lemma row_same_refl r : row_same r r = true.
Proof.
  induction r as [|v r IH]; [reflexivity|]. cbn. rewrite IH. destruct v; cbn; rewrite ?String.eqb_refl; auto. now destruct (Qc_eq_dec q q).
Qed.
Lemma distinct_one r rows : Forall (eq r) rows -> rows <> [] -> distinct_rows rows = [r].
Proof.
  induction 1 as [|x rows E F IH]; intros N; [contradiction|]. subst x. cbn [distinct_rows]. destruct rows as [|y rows]; [reflexivity|].
  rewrite IH by discriminate. cbn [filter]. now rewrite row_same_refl.
Qed.

(** The values of the other columns. *)
Lemma other_values : exists values, length values = length (other_cols (fr_cols f)) /\
  distinct_rows (map (fun r => map (cell (fr_cols f) (snd r)) (other_cols (fr_cols f))) (fr_meta f)) = [values] /\
  (forall l c v, other_column f c -> meta_of f l c v -> In (c, v) (combine (other_cols (fr_cols f)) values)) /\
  (forall c v, In (c, v) (combine (other_cols (fr_cols f)) values) -> other_column f c /\ exists l, meta_of f l c v).
Proof.
  pose proof (st_aligned _ _ ST) as AL. set (others := other_cols (fr_cols f)).
  destruct (fr_meta f) as [|[l0 row0] meta] eqn:EM.
  { exfalso. apply (st_some _ _ ST). pose proof (al_labels _ AL) as LB. rewrite EM in LB. destruct (fr_data f); [reflexivity|discriminate]. }
  assert (I0 : In (l0, row0) (fr_meta f)) by (rewrite EM; now left).
  exists (map (cell (fr_cols f) row0) others). split; [now rewrite map_length|]. rewrite <- EM. split; [|split].
  - apply distinct_one; [|rewrite EM; discriminate]. apply Forall_map, Forall_forall. intros [l row] I. cbn [snd].
    apply map_ext_in. intros c IC. apply other_in in IC. apply (st_uniform _ _ ST c l0 l _ _ IC); apply meta_cell; auto; apply IC.
  - intros l c v O M. assert (v = cell (fr_cols f) row0 c).
    { apply (st_uniform _ _ ST c l l0 _ _ O M). apply meta_cell; auto. apply O. }
    subst v. apply other_in in O. fold others in O. clear -O. induction others as [|c' o IH]; [destruct O|]. cbn. destruct O as [->|O]; [now left|right; now apply IH].
  - intros c v I. assert (X : In c others /\ v = cell (fr_cols f) row0 c).
    { clear -I. induction others as [|c' o IH]; [destruct I|]. cbn in I. destruct I as [I|I]; [injection I as -> ->; split; [now left|reflexivity]|].
      destruct (IH I) as [A B]. split; [now right|exact B]. }
    destruct X as [X ->]. apply other_in in X. split; [exact X|]. exists l0. apply meta_cell; auto. apply X.
Qed.

Lemma series_apart d d' ek ek' : fst d <> fst d' -> series_for env f (closed (fr_times f)) d ek -> series_for env f (closed (fr_times f)) d' ek' ->
  aparte (fst ek) (fst ek').
Proof.
  intros N (row & v & r & u & ty & xs & rest & _ & _ & _ & _ & MV & MR & _ & _ & _ & _ & _ & _ & _ & _ & _ & ->)
    (row' & v' & r' & u' & ty' & xs' & rest' & _ & _ & _ & _ & MV' & MR' & _ & _ & _ & _ & _ & _ & _ & _ & _ & ->).
  unfold aparte. cbn [fst e_region e_name]. intros E. apply split_inj in E. subst r'.
  split; intros P; apply prefix_under in P; revert P; [apply (st_apart _ _ ST (fst d) (fst d') v v' r)|apply (st_apart _ _ ST (fst d') (fst d) v' v r)]; auto.
Qed.

Lemma meta_held cv ek : meta_for env q_of cv ek -> exists n, held_as (fst cv) n /\ e_region (fst ek) = ["World"] /\ e_name (fst ek) = split "|"%char n.
Proof.
  intros (pv & _ & [(W & _ & ->)|(n & u & x & Q & _ & _ & _ & ->)]); [exists (fst cv)|exists n]; cbn; repeat split; auto; [left|right]; eauto.
Qed.

Lemma stored : exists s ES EM values,
  to_parameterset env f (init_state "World") = (s, Ok tt) /\ holds env s (map fst (ES ++ EM)) /\
  ForallOrdPairs aparte (map fst (ES ++ EM)) /\
  Forall2 (series_for env f (closed (fr_times f))) (fr_data f) ES /\
  Forall2 (meta_for env q_of) (combine (other_cols (fr_cols f)) values) EM /\
  length values = length (other_cols (fr_cols f)) /\
  (forall l c v, other_column f c -> meta_of f l c v -> In (c, v) (combine (other_cols (fr_cols f)) values)) /\
  (forall c v, In (c, v) (combine (other_cols (fr_cols f)) values) -> other_column f c /\ exists l, meta_of f l c v).
Proof.
  pose proof (st_aligned _ _ ST) as AL. set (others := other_cols (fr_cols f)).
  destruct other_values as (values & LV & DR & V1 & V2). fold others in LV, DR, V1, V2.
  destruct (choices _ _ series_exists) as (ES & FS).
  destruct (choices (meta_for env q_of) (combine others values)) as (EM & FM).
  { intros [c v] I. destruct (V2 c v I) as (O & l & M). eapply meta_exists; eauto. }
  assert (NO : NoDup others) by (apply NoDup_filter, AL).
  assert (FO : ForallOrdPairs aparte (map fst (ES ++ EM))).
  { rewrite map_app. apply fop_app.
    - apply (fop_of fst _ _ _ FS); [apply AL|]. intros x y e e' _ _ N A B. now apply (series_apart x y).
    - apply (fop_of fst _ _ _ FM); [rewrite combine_fst by easy; exact NO|]. intros [c v] [c' v'] e e' I J N A B _.
      destruct (V2 _ _ I) as (O & _). destruct (V2 _ _ J) as (O' & _).
      destruct (meta_held _ _ A) as (n & HN & _ & ->). destruct (meta_held _ _ B) as (n' & HN' & _ & ->). cbn [fst] in *.
      split; intros P; apply prefix_under in P; revert P; [apply (st_names_apart _ _ ST c c')|apply (st_names_apart _ _ ST c' c)]; auto.
    - intros x y I J R. apply in_map_iff in I. destruct I as (ex & <- & I). apply in_map_iff in J. destruct J as (ey & <- & J).
      destruct (forall2_in_r _ _ _ _ FS I) as (d & _ & SD). destruct (forall2_in_r _ _ _ _ FM J) as ([c w] & IC & MD).
      destruct (meta_held _ _ MD) as (n & HN & RW & NE). destruct (V2 _ _ IC) as (O & _). cbn [fst] in HN.
      destruct SD as (row & v & r & u & ty & xs & rest & _ & _ & _ & _ & MV & MR & _ & _ & _ & _ & _ & _ & _ & _ & _ & ->).
      cbn [fst e_region e_name] in *. rewrite RW in R. rewrite NE.
      assert (r = "World") by (now apply split_inj). subst r.
      destruct (st_names_series _ _ ST c n (fst d) v O HN MV MR) as [A B].
      split; intros P; apply prefix_under in P; contradiction. }
  rewrite map_app in FO.
  assert (FO1 : ForallOrdPairs aparte ([] ++ map fst ES)).
  { cbn [app]. clear -FO. induction (map fst ES) as [|e l IH]; [constructor|]. cbn in FO. inversion FO as [|? ? F1 F2]; subst.
    constructor; [apply Forall_app in F1; apply F1|now apply IH]. }
  pose proof (extended_is _ (st_three _ _ ST)) as EX.
  destruct (put_series_all env f _ G EX _ _ FS _ _ (holds_init env) FO1) as (s1 & S1 & H1). cbn [app] in H1.
  destruct (put_meta_all env q_of G _ _ FM s1 _ H1 FO) as (s2 & S2 & H2).
  exists s2, ES, EM, values. rewrite !map_app. split; [|split; [exact H2|split; [exact FO|split; [exact FS|split; [exact FM|split; [exact LV|split; [exact V1|exact V2]]]]]]].
  unfold to_parameterset. fold others. rewrite DR.
  replace (match (if mem "climate_model" others then cell others values "climate_model" else MStr "unspecified") with MStr m => String.eqb m "unspecified" | _ => false end) with true.
  - now rewrite S1, S2.
  - destruct (mem "climate_model" others) eqn:M; [|reflexivity]. apply mem_in in M.
    assert (X : In ("climate_model", cell others values "climate_model") (combine others values)) by (apply cell_iff; auto).
    destruct (V2 _ _ X) as (_ & l & ML). rewrite (st_input _ _ ST _ _ ML). reflexivity.
Qed.

Lemma items_told {A B} (key : A -> B) items (EK : list A) : Permutation (map fst items) (map key EK) ->
  exists EK', Permutation EK EK' /\ map key EK' = map (@fst B nat) items.
Proof. intros P. destruct (Permutation_map_inv _ _ P) as (EK' & E & Q). exists EK'. auto. Qed.

Lemma told_series d ek : series_for env f (closed (fr_times f)) d ek -> tells env q_of (fr_times f) (closed (fr_times f)) (fst ek) (snd ek).
Proof.
  intros (row & v & r & u & ty & xs & rest & _ & _ & _ & _ & _ & _ & _ & _ & U & T & I & B & L3 & _ & _ & ->).
  cbn [fst snd tells]. exists (split "|"%char r), (split "|"%char v). cbv zeta. rewrite !join_split. repeat (split; [first [reflexivity|assumption]|]). exact L3.
Qed.
Lemma told_meta cv ek : meta_for env q_of cv ek -> tells env q_of (fr_times f) (closed (fr_times f)) (fst ek) (snd ek).
Proof.
  intros (pv & _ & [(W & PV & ->)|(n & u & x & Q & U & PV & _ & ->)]); cbn [fst snd tells].
  - exists (split "|"%char (fst cv)). left. exists (gval_of (snd cv)). rewrite join_split. auto.
  - exists (split "|"%char n). right. exists u, x. rewrite join_split. repeat split; auto. apply Q.
Qed.

Definition start_meta (model scenario climate_model : string) : metadata :=
  [("climate_model", [PStr climate_model]); ("scenario", [PStr scenario]); ("model", [PStr model]);
   ("variable", []); ("region", []); ("unit", []); ("parameter_type", [])].

Lemma nth_combine {A} (data : list A) i x : In (Z.of_nat i, x) (combine (map Z.of_nat (seq 0 (length data))) data) <-> nth_error data i = Some x.
Proof.
  assert (X : forall k j, In (Z.of_nat j, x) (combine (map Z.of_nat (seq k (length data))) data) <-> (k <= j)%nat /\ nth_error data (j - k) = Some x).
  { induction data as [|y data IH]; intros k j.
    - cbn. split; [tauto|]. intros [_ E]. destruct (j - k)%nat; discriminate.
    - cbn [length seq map combine In]. rewrite IH. split.
      + intros [E|[L E]].
        * injection E as E1 E2. apply Nat2Z.inj in E1. subst j y. rewrite Nat.sub_diag. auto.
        * split; [lia|]. replace (j - k)%nat with (Datatypes.S (j - Datatypes.S k)) by lia. exact E.
      + intros [L E]. destruct (Nat.eq_dec k j) as [->|N].
        * left. rewrite Nat.sub_diag in E. cbn in E. injection E as ->. reflexivity.
        * right. split; [lia|]. replace (j - k)%nat with (Datatypes.S (j - Datatypes.S k)) in E by lia. exact E. }
  rewrite X. rewrite Nat.sub_0_r. split; [tauto|]. intros E. split; [lia|exact E].
Qed.
Lemma label_nat {A} l (x : A) data : In (l, x) (combine (map Z.of_nat (seq 0 (length data))) data) -> exists i, l = Z.of_nat i.
Proof. intros I. apply in_combine_l in I. apply in_map_iff in I. destruct I as (i & <- & _). eauto. Qed.

Definition shb (rs : list string) : bool := match rs with [a] | [a; _] => String.eqb a "World" | _ => false end.
Lemma shb_iff rs : shb rs = true <-> shallow rs.
Proof.
  unfold shallow. destruct rs as [|a [|b [|c rs]]]; cbn.
  - split; [discriminate|]. intros [|(x & X)]; discriminate.
  - rewrite String.eqb_eq. split; [intros ->; now left|]. intros [X|(x & X)]; [now injection X|discriminate].
  - rewrite String.eqb_eq. split; [intros ->; right; eauto|]. intros [X|(x & X)]; [discriminate|now injection X].
  - split; [discriminate|]. intros [|(x & X)]; discriminate.
Qed.
Lemma near_iff r : near r <-> shallow (split "|"%char r).
Proof.
  split.
  - intros [->|(x & W & ->)]; [now left|]. right. exists x. change ("World|" ++ x)%string with ("World" ++ String "|"%char x)%string.
    rewrite split_at by (repeat (apply without_cons; split; [discriminate|]); apply without_nil). now rewrite (split_without _ _ W).
  - intros [E|(x & E)]; pose proof (split_is_written r) as [_ P]; rewrite <- (join_split r), E; [now left|]. right. exists x. split; [|reflexivity].
    rewrite E in P. apply Forall_cons_iff in P. destruct P as [_ P]. apply Forall_cons_iff in P. apply P.
Qed.

Theorem stored_and_read model scenario climate_model : exists s s' g,
  to_parameterset env f (init_state "World") = (s, Ok tt) /\
  convert_openscm_to_scmdataframe env q_of s (fr_times f) model scenario climate_model = (s', Ok g) /\
  st_params s' = st_params s /\ aligned g /\ fr_times g = fr_times f /\ ((forall l r, meta_of f l "region" (MStr r) -> near r) -> length (fr_data g) = length (fr_data f)) /\
  (forall v r u xs, has_series g v r u xs <-> has_series f v r u xs /\ near r) /\
  (forall v r u t xs, has_typed_series f v r u t xs -> near r -> has_typed_series g v r u t xs) /\
  (forall l l' c v, other_column f c -> meta_of f l c v -> In l' (map fst (fr_data g)) -> meta_of g l' c v) /\
  (forall c, In c (fr_cols g) -> In c (fr_cols f) \/ c = "climate_model" \/ c = "parameter_type").
Proof.
  pose proof (st_aligned _ _ ST) as AL.
  destruct stored as (s & ES0 & EM & values & TP & H & FO & FS & FM & LV & V1 & V2). set (others := other_cols (fr_cols f)) in *.
  destruct (root_params_holds env s _ H) as (items & RP & NI & I1 & I2).
  set (ES := filter (fun ek => shb (e_region (fst ek))) ES0).
  assert (ESIN : forall ek, In ek ES <-> In ek ES0 /\ shallow (e_region (fst ek))) by (intros ek; unfold ES; rewrite filter_In, shb_iff; reflexivity).
  assert (SUB : forall ek, In ek (ES ++ EM) -> In ek (ES0 ++ EM)).
  { intros ek I. apply in_app_iff in I. apply in_app_iff. rewrite ESIN in I. tauto. }
  assert (ESK : forall ek, In ek ES -> exists v r u ty xs, snd ek = KSeries v r u ty xs).
  { intros ek I. apply ESIN in I. destruct I as [I _]. destruct (forall2_in_r _ _ _ _ FS I) as (d & _ & (row & v & r & u & ty & xs & rest & _ & _ & _ & _ & _ & _ & _ & _ & _ & _ & _ & _ & _ & _ & _ & ->)). cbn. eauto 10. }
  set (key := fun ek : entry * kind => (e_name (fst ek), e_region (fst ek))).
  assert (SH : forall ek, In ek (ES ++ EM) <-> In ek (ES0 ++ EM) /\ shallow (e_region (fst ek))).
  { intros ek. rewrite !in_app_iff, ESIN. split; [|tauto]. intros [I|I]; [tauto|]. split; [auto|].
    destruct (forall2_in_r _ _ _ _ FM I) as (d & _ & X). destruct (meta_held _ _ X) as (n & _ & -> & _). now left. }
  assert (PE : Permutation (map fst items) (map key (ES ++ EM))).
  { apply NoDup_Permutation; [exact NI| |].
    - assert (X : NoDup (map key (ES0 ++ EM))).
      { unfold key. rewrite <- (map_map fst (fun e => (e_name e, e_region e))). now apply fop_nodup. }
      revert X. rewrite !map_app. unfold ES. clear. induction ES0 as [|ek l IH]; [auto|]. cbn [filter map app]. intros N. apply NoDup_cons_iff in N. destruct N as [N1 N2].
      destruct (shb _); [|now apply IH]. cbn [map app]. constructor; [|now apply IH]. intros I. apply N1. apply in_app_iff in I. apply in_app_iff.
      destruct I as [I|I]; [left|now right]. apply in_map_iff in I. destruct I as (y & E & I). apply filter_In in I. rewrite <- E. now apply in_map.
    - intros k. split.
      + intros I. apply in_map_iff in I. destruct I as ([k' p] & <- & I). cbn [fst]. destruct (I1 _ _ I) as (e & IE & -> & SE & _).
        apply in_map_iff in IE. destruct IE as (ek & <- & IE). assert (Y : In ek (ES ++ EM)) by (apply SH; auto). now apply (in_map key) in Y.
      + intros I. apply in_map_iff in I. destruct I as (ek & <- & I). apply SH in I. destruct I as [I S].
        destruct (I2 (fst ek) (in_map fst _ _ I) S) as (p & J). now apply (in_map fst) in J. }
  destruct (items_told key items (ES ++ EM) PE) as (EK & PK & KE).
  set (ks := map snd EK). set (times := fr_times f) in *.
  assert (TELL : forall ek, In ek EK -> In (fst ek) (map fst (ES0 ++ EM)) /\ tells env q_of times (closed times) (fst ek) (snd ek)).
  { intros ek I. apply (Permutation_in _ (Permutation_sym PK)), SUB in I. split; [now apply in_map|]. apply in_app_iff in I. destruct I as [I|I].
    - destruct (forall2_in_r _ _ _ _ FS I) as (d & _ & X). now apply (told_series d).
    - destruct (forall2_in_r _ _ _ _ FM I) as (d & _ & X). now apply (told_meta d). }
  assert (F2 : Forall2 (fun item k => exists e, In e (map fst (ES0 ++ EM)) /\ fst item = (e_name e, e_region e) /\ tells env q_of times (closed times) e k) items ks).
  { unfold ks. clear -KE TELL. revert items KE. induction EK as [|ek EK IH]; intros [|it items] KE; try discriminate; [constructor|].
    cbn [map] in *. injection KE as K1 K2. constructor; [|apply IH; [intros x I; apply TELL; now right|exact K2]].
    destruct (TELL ek (or_introl eq_refl)) as [A B]. exists (fst ek). repeat split; auto. }
  set (c0 := mkCollected (start_meta model scenario climate_model) []).
  destruct (collect_ok env q_of times (closed times) _ items ks G F2 s c0 H) as (s' & C & PP & RR & W).
  { intros k v I. destruct (I1 k v I) as (e & IE & KK & _ & PA). eauto. }
  set (c := fold_left absorb ks c0) in *. set (ss := flat_map series_of ks).
  (* what was read *)
  assert (DATA : c_data c = map (fun x => map Some (snd x)) ss) by (unfold c; rewrite fold_data; reflexivity).
  assert (N0 : NoDup (map fst (c_meta c0))).
  { cbn. repeat (apply NoDup_cons_iff; split; [cbn; intuition discriminate|]). constructor. }
  assert (KSIN : forall k, In k ks <-> exists e, In (e, k) (ES ++ EM)).
  { intros k. unfold ks. rewrite in_map_iff. split.
    - intros ([e k'] & <- & I). exists e. now apply (Permutation_in _ (Permutation_sym PK)).
    - intros (e & I). exists (e, k). split; [reflexivity|]. now apply (Permutation_in _ PK). }
  assert (KSER : forall v r u ty xs, In (KSeries v r u ty xs) ks <-> exists d e, In d (fr_data f) /\ series_for env f (closed times) d (e, KSeries v r u ty xs) /\ near r).
  { intros v r u ty xs. rewrite KSIN. split.
    - intros (e & I). apply in_app_iff in I. destruct I as [I|I].
      { apply ESIN in I. destruct I as [I S]. destruct (forall2_in_r _ _ _ _ FS I) as (d & J & X). exists d, e. split; [exact J|]. split; [exact X|].
        destruct X as (row & v1 & r1 & u1 & ty1 & xs1 & rest1 & _ & _ & _ & _ & _ & _ & _ & _ & _ & _ & _ & _ & _ & _ & _ & EQ).
        pose proof (f_equal (fun p => e_region (fst p)) EQ) as E1. apply (f_equal snd) in EQ. cbn in E1, EQ, S. injection EQ as -> -> -> -> ->. apply near_iff. now rewrite <- E1. }
      destruct (forall2_in_r _ _ _ _ FM I) as (d & _ & (pv & _ & [(_ & _ & X)|(n & u' & x & _ & _ & _ & _ & X)])); discriminate.
    - intros (d & e & I & X & NR). destruct (forall2_in_l _ _ _ _ FS I) as (ek & J & Y). exists (fst ek). apply in_app_iff. left.
      assert (SK : snd ek = KSeries v r u ty xs /\ e_region (fst ek) = split "|"%char r).
      { destruct X as (row & v1 & r1 & u1 & ty1 & xs1 & rest1 & RA & CV & CR & CU & _ & _ & _ & RT & _ & _ & _ & _ & _ & EV & _ & EQ).
        destruct Y as (row' & v2 & r2 & u2 & ty2 & xs2 & rest2 & RA' & CV' & CR' & CU' & _ & _ & _ & RT' & _ & _ & _ & _ & _ & EV' & _ & ->).
        assert (row' = row) by congruence. subst row'. assert (v2 = v1) by congruence. assert (r2 = r1) by congruence. assert (u2 = u1) by congruence. subst.
        assert (ty2 = ty1) by congruence. subst ty2.
        assert (xs2 = xs1). { rewrite EV in EV'. clear -EV'. revert xs2 EV'. induction xs1 as [|x l IH]; intros [|y l'] E; try discriminate; [reflexivity|]. cbn in E. injection E as -> E. f_equal. now apply IH. }
        subst xs2. cbn [snd fst e_region]. apply (f_equal snd) in EQ. cbn in EQ. injection EQ as -> -> -> -> ->. auto. }
      destruct SK as [SK SR]. rewrite <- SK, <- surjective_pairing. apply ESIN. split; [exact J|]. rewrite SR. now apply near_iff. }
  assert (KMET : forall k pv, In (KMeta k pv) ks <-> exists v, In (k, v) (combine others values) /\ exists e, In (e, KMeta k pv) EM /\ meta_for env q_of (k, v) (e, KMeta k pv)).
  { intros k pv. rewrite KSIN. split.
    - intros (e & I). apply in_app_iff in I. destruct I as [I|I].
      + destruct (ESK _ I) as (v & r & u & ty & xs & X). discriminate.
      + destruct (forall2_in_r _ _ _ _ FM I) as ([k' v] & J & X). assert (k' = k).
        { destruct X as (pv' & _ & [(_ & _ & X)|(n & u' & x & _ & _ & _ & _ & X)]); apply (f_equal snd) in X; cbn in X; injection X; auto. }
        subst k'. eauto.
    - intros (v & _ & e & I & _). exists e. apply in_app_iff. now right. }
  assert (MK : Permutation (meta_keys ks) others).
  { assert (E : meta_keys (map snd (ES ++ EM)) = others).
    { rewrite map_app. unfold meta_keys. rewrite flat_map_app. replace (flat_map _ (map snd ES)) with (@nil string).
      - cbn [app]. rewrite <- (combine_fst others values) by (symmetry; exact LV). clear -FM. induction FM as [|[k v] ek l EM X F IH]; [reflexivity|].
        cbn [map flat_map fst]. rewrite IH. destruct X as (pv & _ & [(_ & _ & ->)|(n & u' & x & _ & _ & _ & _ & ->)]); reflexivity.
      - clear -ESK. induction ES as [|ek l IH]; [reflexivity|]. cbn [map flat_map]. rewrite <- IH by (intros x I; apply ESK; now right).
        destruct (ESK ek (or_introl eq_refl)) as (v & r & u & ty & xs & ->). reflexivity. }
    rewrite <- E. unfold ks, meta_keys. apply Permutation_flat_map, Permutation_map, Permutation_sym, PK. }
  assert (NO : NoDup others) by (apply NoDup_filter, AL).
  assert (NMK : NoDup (meta_keys ks)) by (apply (Permutation_NoDup (Permutation_sym MK)), NO).
  assert (MKO : forall k, In k (meta_keys ks) <-> other_column f k).
  { intros k. rewrite <- (other_in k). split; apply Permutation_in; [exact MK|apply Permutation_sym, MK]. }
  assert (NC : NoDup (map fst (c_meta c))) by (now apply absorb_keys_nodup).
  assert (MSER : forall k, In k series_cols -> In (k, map (getter k) ss) (c_meta c)).
  { intros k S. apply (absorb_series ks c0 k []); [exact N0|exact S|intros X; apply MKO in X; now destruct X as [_ X]|].
    destruct S as [<-|[<-|[<-|[<-|[]]]]]; cbn; auto 10. }
  assert (MMET : forall k pv, In (KMeta k pv) ks -> In (k, [pv]) (c_meta c)).
  { intros k pv I. apply absorb_meta; auto. apply in_meta_keys, MKO in I. apply I. }
  assert (CLASS : forall k l, In (k, l) (c_meta c) -> In k series_cols /\ l = map (getter k) ss \/ (exists pv, In (KMeta k pv) ks /\ l = [pv]) \/ (exists w, l = [w])).
  { intros k l I. assert (IK : In k (map fst (c_meta c))) by (now apply (in_map fst) in I). apply absorb_keys in IK.
    destruct (in_dec string_dec k (meta_keys ks)) as [MI|MI].
    - destruct (meta_keys_in _ _ MI) as (pv & J). right. left. exists pv. split; [exact J|]. apply (fst_inj _ _ _ _ NC I (MMET _ _ J)).
    - destruct (in_dec string_dec k series_cols) as [SI|SI]; [left; split; [exact SI|]; apply (fst_inj _ _ _ _ NC I (MSER _ SI))|].
      right. right. destruct IK as [IK|IK]; [|contradiction].
      assert (X : exists w, In (k, [w]) (c_meta c0)).
      { cbn [series_cols In] in SI. cbn in IK. destruct IK as [<-|[<-|[<-|[<-|[<-|[<-|[<-|[]]]]]]]]; try tauto; eexists; cbn; auto. }
      destruct X as (w & X). exists w. apply (fst_inj _ _ _ _ NC I). apply absorb_other; auto. }
  set (data := c_data c) in *. set (columns := map (fun kv => (fst kv, Many (snd kv))) (c_meta c)).
  assert (LD : length data = length ss) by (rewrite DATA; now rewrite map_length).
  assert (LSS : length ss = length ES).
  { assert (E : length (flat_map series_of (map snd (ES ++ EM))) = length ES).
    { rewrite map_app, flat_map_app, app_length. replace (length (flat_map series_of (map snd EM))) with 0%nat.
      - rewrite Nat.add_0_r. clear -ESK. induction ES as [|ek l IH]; [reflexivity|]. cbn [map flat_map]. rewrite app_length, IH by (intros x I; apply ESK; now right).
        destruct (ESK ek (or_introl eq_refl)) as (v & r & u & ty & xs & ->). reflexivity.
      - clear -FM. induction FM as [|d ek l EM X F IH]; [reflexivity|]. cbn [map flat_map]. rewrite app_length, <- IH.
        destruct X as (pv & _ & [(_ & _ & ->)|(n & u' & x & _ & _ & _ & _ & ->)]); reflexivity. }
    rewrite <- E. unfold ss, ks. apply Permutation_length, Permutation_flat_map, Permutation_map, Permutation_sym, PK. }
  assert (SSIN : forall v r u ty xs, In (v, r, u, ty, xs) ss <-> In (KSeries v r u ty xs) ks).
  { intros. unfold ss. rewrite in_flat_map. split.
    - intros ([|] & I & J); cbn in J; [|tauto]. destruct J as [J|[]]. injection J as -> -> -> -> ->. exact I.
    - intros I. exists (KSeries v r u ty xs). split; [exact I|now left]. }
  assert (VL : Forall (fun vs => length vs = length times) data).
  { rewrite DATA. apply Forall_map, Forall_forall. intros [[[[v r] u] ty] xs] I. cbn [snd]. apply SSIN, KSER in I. destruct I as (d & e & I & X & _).
    destruct X as (row & v1 & r1 & u1 & ty1 & xs1 & rest1 & _ & _ & _ & _ & _ & _ & _ & _ & _ & _ & _ & _ & _ & EV & _ & EQ).
    apply (f_equal snd) in EQ. cbn in EQ. injection EQ as -> -> -> -> ->. rewrite <- EV.
    pose proof (al_values _ AL) as LVS. rewrite Forall_forall in LVS. now apply LVS. }
  assert (KEYS : map fst columns = map fst (c_meta c)) by (unfold columns; rewrite map_map; reflexivity).
  assert (NCOL : NoDup (map fst columns)) by (rewrite KEYS; exact NC).
  assert (KNOWN : forall k, In k (map fst columns) <-> In k (map fst (c_meta c0)) \/ other_column f k).
  { intros k. rewrite KEYS, <- MKO. apply absorb_keys. }
  assert (COLIN : forall k a, In (k, a) columns <-> exists l, a = Many l /\ In (k, l) (c_meta c)).
  { intros k a. unfold columns. rewrite in_map_iff. split.
    - intros ([k' l] & E & I). cbn in E. injection E as <- <-. eauto.
    - intros (l & -> & I). now exists (k, l). }
  destruct (proj2 (from_ts_accepts times data columns)) as (g & FT).
  { split.
    - intros k I. apply KNOWN. left. cbn in I. destruct I as [<-|[<-|[<-|[<-|[<-|[]]]]]]; cbn; auto 10.
    - intros k a I. apply COLIN in I. destruct I as (l & -> & I). cbn [values_of]. rewrite map_length.
      destruct (CLASS _ _ I) as [[_ ->]|[(pv & _ & ->)|(w & ->)]]; [left; now rewrite map_length|right; reflexivity|right; reflexivity]. }
  destruct (from_ts_ok times data columns g VL NCOL FT) as (AG & TG & DG & CG & MG).
  assert (NE : data <> []).
  { intros E. destruct (st_near _ _ ST) as (l & r & MR & NR). destruct (meta_row _ _ _ MR) as (row & _ & IR & _ & _). apply (in_map fst) in IR. cbn in IR.
    rewrite <- (al_labels _ AL) in IR. apply in_map_iff in IR. destruct IR as (d & <- & I). destruct (forall2_in_l _ _ _ _ FS I) as (ek & J & X).
    destruct X as (row' & v1 & r1 & u1 & ty1 & xs1 & rest1 & _ & _ & _ & _ & _ & MR1 & _ & _ & _ & _ & _ & _ & _ & _ & _ & EQ).
    pose proof (meta_same _ _ _ _ MR MR1) as E1. injection E1 as <-. assert (Y : In ek ES) by (apply ESIN; split; [exact J|]; rewrite EQ; now apply near_iff).
    assert (Z0 : length ES = 0%nat) by (rewrite <- LSS, <- LD, E; reflexivity). apply length_zero_iff_nil in Z0. now rewrite Z0 in Y. }
  assert (CONV : convert_openscm_to_scmdataframe env q_of s times model scenario climate_model = (s', Ok g)).
  { unfold convert_openscm_to_scmdataframe. unfold times at 1. rewrite (extended_is _ (st_three _ _ ST)), RP. fold times. unfold c0, start_meta in C. rewrite C.
    assert (D1 : mem "df" (map fst (c_meta c)) = false).
    { apply not_true_iff_false. intros M. apply mem_in in M. rewrite <- KEYS in M. apply KNOWN in M. destruct M as [M|M].
      - cbn in M. intuition discriminate.
      - now destruct (st_names _ _ ST _ M) as (X & _). }
    assert (D2 : mem "index" (map fst (c_meta c)) = false).
    { apply not_true_iff_false. intros M. apply mem_in in M. rewrite <- KEYS in M. apply KNOWN in M. destruct M as [M|M].
      - cbn in M. intuition discriminate.
      - now destruct (st_names _ _ ST _ M) as (_ & X & _). }
    rewrite D1, D2. cbn [orb]. fold data. destruct data as [|d0 data0] eqn:ED; [contradiction|]. rewrite <- ED in *. fold columns. now rewrite FT. }
  assert (MGS : forall i k v, (i < length ss)%nat -> In k series_cols -> meta_of g (Z.of_nat i) k v <-> exists x, nth_error ss i = Some x /\ v = mval_of (getter k x)).
  { intros i k v L S. rewrite MG by lia. split.
    - intros (a & I & X). apply COLIN in I. destruct I as (l & -> & I). pose proof (fst_inj _ _ _ _ NC I (MSER _ S)) as ->. cbn [values_of] in X.
      destruct (nth_error ss i) as [x|] eqn:E; [|apply nth_error_None in E; lia]. exists x. split; [reflexivity|]. destruct X as [[X _]|X].
      + rewrite !nth_error_map, E in X. cbn in X. congruence.
      + destruct ss as [|y [|z ss']]; try discriminate. cbn in L. assert (i = 0)%nat by lia. subst i. cbn in E, X. congruence.
    - intros (x & E & ->). exists (Many (map (getter k) ss)). split; [apply COLIN; eauto|]. left. cbn [values_of]. rewrite !nth_error_map, E, !map_length. auto. }
  assert (GIN : forall i vals, In (Z.of_nat i, vals) (fr_data g) <-> exists x, nth_error ss i = Some x /\ vals = map Some (snd x)).
  { intros i vals. rewrite DG, nth_combine, DATA, nth_error_map. destruct (nth_error ss i) as [x|]; cbn; split.
    - intros [= <-]. eauto.
    - now intros (y & [= <-] & ->).
    - discriminate.
    - now intros (y & [=] & _). }
  assert (FSER : forall l v r u vals, In (l, vals) (fr_data f) -> meta_of f l "variable" (MStr v) -> meta_of f l "region" (MStr r) -> meta_of f l "unit" (MStr u) ->
     exists ty xs row, vals = map Some xs /\ (near r -> In (v, r, u, ty, xs) ss) /\ row_at l (fr_meta f) = Some row /\ row_type env (fr_cols f) row v u = Ok ty).
  { intros l v r u vals I MV MR MU. destruct (series_exists _ I) as (ek & X). pose proof X as X0.
    destruct X as (row & v1 & r1 & u1 & ty1 & xs1 & rest1 & RA & CV & CR & CU & MV1 & MR1 & MU1 & RT & _ & _ & _ & _ & _ & EV & _ & EQ). cbn [fst snd] in *.
    pose proof (meta_same _ _ _ _ MV MV1) as E1. pose proof (meta_same _ _ _ _ MR MR1) as E2. pose proof (meta_same _ _ _ _ MU MU1) as E3.
    injection E1 as <-. injection E2 as <-. injection E3 as <-. exists ty1, xs1, row. split; [exact EV|]. split; [|auto]. intros NR. apply SSIN, KSER. exists (l, vals), (fst ek).
    split; [exact I|]. split; [subst ek; exact X0|exact NR]. }
  exists s, s', g. split; [exact TP|]. split; [exact CONV|]. split; [exact PP|]. split; [exact AG|]. split; [exact TG|].
  split.
  { intros AN. rewrite DG, combine_length, map_length, seq_length. assert (Y : length ES = length (fr_data f)); [|lia].
    assert (Y : ES = ES0).
    { unfold ES. clear -FS AN. induction FS as [|d ek l l' X F IH]; [reflexivity|]. cbn [filter]. rewrite IH.
      destruct X as (row' & v1 & r1 & u1 & ty1 & xs1 & rest1 & _ & _ & _ & _ & _ & MR1 & _ & _ & _ & _ & _ & _ & _ & _ & _ & ->).
      cbn [fst e_region]. apply AN, near_iff, shb_iff in MR1. now rewrite MR1. }
    rewrite Y. clear -FS. induction FS; cbn; congruence. }
  split; [|split; [|split]].
  - intros v r u vals. split.
    + intros (l & I & MV & MR & MU). assert (X : exists i, l = Z.of_nat i) by (rewrite DG in I; eapply label_nat; eauto). destruct X as (i & ->).
      apply GIN in I. destruct I as ([[[[v' r'] u'] ty] xs] & IS & ->). assert (L : (i < length ss)%nat) by (apply nth_error_Some; congruence).
      apply MGS in MV; [|exact L|cbn; auto]. apply MGS in MR; [|exact L|cbn; auto]. apply MGS in MU; [|exact L|cbn; auto].
      destruct MV as (x & E & MV). rewrite IS in E. injection E as <-. destruct MR as (x & E & MR). rewrite IS in E. injection E as <-.
      destruct MU as (x & E & MU). rewrite IS in E. injection E as <-. cbn in MV, MR, MU. injection MV as ->. injection MR as ->. injection MU as ->.
      apply nth_error_In, SSIN, KSER in IS. destruct IS as ([l vals] & e & I & X & NR). split; [|exact NR]. exists l.
      destruct X as (row & v1 & r1 & u1 & ty1 & xs1 & rest1 & _ & _ & _ & _ & MV1 & MR1 & MU1 & _ & _ & _ & _ & _ & _ & EV & _ & EQ). cbn [fst snd] in *.
      apply (f_equal snd) in EQ. cbn in EQ. injection EQ as -> -> -> -> ->. subst vals. auto.
    + intros ((l & I & MV & MR & MU) & NR). destruct (FSER l v r u vals I MV MR MU) as (ty & xs & _ & -> & IS & _ & _).
      apply IS, In_nth_error in NR. clear IS. rename NR into IS. destruct IS as (i & IS). assert (L : (i < length ss)%nat) by (apply nth_error_Some; congruence).
      exists (Z.of_nat i). split; [apply GIN; eauto|]. repeat split; (apply MGS; [exact L|cbn; auto 10|]); eexists; (split; [exact IS|reflexivity]).
  - intros v r u t vals (l & I & MV & MR & MU & MT) NR. destruct (FSER l v r u vals I MV MR MU) as (ty & xs & row & -> & IS & RA & RT).
    apply IS, In_nth_error in NR. clear IS. rename NR into IS. destruct IS as (i & IS). assert (L : (i < length ss)%nat) by (apply nth_error_Some; congruence).
    assert (TY : t = type_name ty).
    { destruct (meta_row _ _ _ MT) as (row2 & RA2 & _ & CT & IC). assert (row2 = row) by congruence. subst row2.
      unfold row_type in RT. rewrite (proj2 (mem_in _ _) IC), CT in RT. destruct (st_types _ _ ST _ _ MT) as [E|E]; injection E as ->; cbn in RT; injection RT as <-; reflexivity. }
    subst t. exists (Z.of_nat i). split; [apply GIN; eauto|]. repeat split; (apply MGS; [exact L|cbn; auto 10|]); eexists; (split; [exact IS|reflexivity]).
  - intros l l' k v O M IL. pose proof (V1 l k v O M) as IV. destruct (forall2_in_l _ _ _ _ FM IV) as ([e kk] & J & X).
    assert (Y : exists pv, kk = KMeta k pv /\ mval_of pv = v).
    { destruct X as (pv & MVV & [(_ & _ & E)|(n & u' & x & _ & _ & _ & _ & E)]); apply (f_equal snd) in E; cbn in E; eauto. }
    destruct Y as (pv & -> & EV). rewrite DG in IL. rewrite combine_fst in IL by (now rewrite map_length, seq_length).
    apply in_map_iff in IL. destruct IL as (i & <- & IL). apply in_seq in IL. apply MG; [lia|]. exists (Many [pv]). split.
    + apply COLIN. exists [pv]. split; [reflexivity|]. apply MMET, KMET. eauto.
    + right. cbn. now rewrite EV.
  - intros k I. apply CG, KNOWN in I. destruct I as [I|I]; [|left; apply I]. cbn in I.
    pose proof (al_required _ AL) as RQ. destruct I as [<-|[<-|[<-|[<-|[<-|[<-|[<-|[]]]]]]]]; auto; left; apply RQ; cbn; auto 10.
Qed.
End Frame_stored.
