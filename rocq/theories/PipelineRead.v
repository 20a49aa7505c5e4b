(** A parameter set that holds only timeseries, read as a data frame (for C91). *)
From Coq Require Import String Ascii List Arith Lia Bool ZArith QArith Qcanon Reals Sorted Permutation.
From Verif Require Import Base ListFacts Units TimeModel Core CoreEvo CoreTree CoreNames CoreInv Spec_Core
  Spec_Time TimeProps Spec_Names NamesProps Filters ParameterType Frame Spec_Frame FrameFilter FrameEdit FrameInterp Spec_Interp InterpProps AppendProps AlignProps
  FrameStore Spec_Store StoreHolds StoreCalls StoreWalk StoreBack StorePut StoreProps.
Import ListNotations.
Local Open Scope string_scope.
Local Open Scope list_scope.

Definition is_series (k : kind) : Prop := exists v r u ty xs, k = KSeries v r u ty xs.
Definition key (ek : entry * kind) := (e_name (fst ek), e_region (fst ek)).

Lemma absorb_all ks : Forall is_series ks -> forall a b c v r u t,
  c_meta (fold_left absorb ks (mkCollected [("climate_model", a); ("scenario", b); ("model", c); ("variable", v); ("region", r); ("unit", u); ("parameter_type", t)] []))
  = [("climate_model", a); ("scenario", b); ("model", c); ("variable", v ++ map (getter "variable") (flat_map series_of ks));
     ("region", r ++ map (getter "region") (flat_map series_of ks)); ("unit", u ++ map (getter "unit") (flat_map series_of ks));
     ("parameter_type", t ++ map (getter "parameter_type") (flat_map series_of ks))].
Proof.
  intros F a b c. generalize (@nil (list num)) as dat.
  induction F as [|k ks (v & r & u & ty & xs & ->) F IH]; intros dat v0 r0 u0 t0; [cbn; now rewrite !app_nil_r|].
  cbn [fold_left absorb c_meta c_data flat_map series_of app map]. unfold meta_append. cbn [map fst snd String.eqb Ascii.eqb Bool.eqb].
  rewrite IH. cbn [getter String.eqb Ascii.eqb Bool.eqb]. now rewrite <- !app_assoc.
Qed.

Lemma read_held env q_of s EK times model scenario climate_model :
  good_env env -> holds env s (map fst EK) -> NoDup (map key EK) -> (3 <= length times)%nat -> EK <> [] ->
  (forall ek, In ek EK -> shallow (e_region (fst ek)) /\ tells env q_of times (closed times) (fst ek) (snd ek) /\ is_series (snd ek)) ->
  exists s' g, convert_openscm_to_scmdataframe env q_of s times model scenario climate_model = (s', Ok g) /\
    st_params s' = st_params s /\ aligned g /\ fr_times g = times /\ length (fr_data g) = length EK /\
    (forall v r u t vals, has_typed_series g v r u t vals <->
       exists e ty xs, In (e, KSeries v r u ty xs) EK /\ t = type_name ty /\ vals = map Some xs) /\
    (forall l, In l (map fst (fr_data g)) -> meta_of g l "model" (MStr model) /\ meta_of g l "scenario" (MStr scenario) /\
       meta_of g l "climate_model" (MStr climate_model)).
Proof.
  intros G H ND L3 NE All.
  destruct (root_params_holds env s _ H) as (items & RP & NI & I1 & I2).
  assert (PE : Permutation (map fst items) (map key EK)).
  { apply NoDup_Permutation; [exact NI|exact ND|]. intros k. split.
    - intros I. apply in_map_iff in I. destruct I as ([k' p] & <- & I). cbn [fst]. destruct (I1 _ _ I) as (e & IE & -> & SE & _).
      apply in_map_iff in IE. destruct IE as (ek & <- & IE). now apply (in_map key) in IE.
    - intros I. apply in_map_iff in I. destruct I as (ek & <- & I).
      destruct (I2 (fst ek) (in_map fst _ _ I) (proj1 (All _ I))) as (p & J). now apply (in_map fst) in J. }
  destruct (items_told key items EK PE) as (EK' & PK & KE).
  set (ks := map snd EK').
  assert (F2 : Forall2 (fun item k => exists e, In e (map fst EK) /\ fst item = (e_name e, e_region e) /\ tells env q_of times (closed times) e k) items ks).
  { assert (T : forall ek, In ek EK' -> In (fst ek) (map fst EK) /\ tells env q_of times (closed times) (fst ek) (snd ek)).
    { intros ek I. apply (Permutation_in _ (Permutation_sym PK)) in I. split; [now apply in_map|now apply All]. }
    unfold ks. clear -KE T. revert items KE. induction EK' as [|ek EK' IH]; intros [|it items] KE; try discriminate; [constructor|].
    cbn [map] in *. injection KE as K1 K2. constructor; [|apply IH; [intros x I; apply T; now right|exact K2]].
    destruct (T ek (or_introl eq_refl)) as [A B]. exists (fst ek). repeat split; auto. }
  set (c0 := mkCollected (start_meta model scenario climate_model) []).
  destruct (collect_ok env q_of times (closed times) _ items ks G F2 s c0 H) as (s' & C & PP & RR & W).
  { intros k v I. destruct (I1 k v I) as (e & IE & KK & _ & PA). eauto. }
  set (c := fold_left absorb ks c0) in *. set (ss := flat_map series_of ks).
  assert (FS : Forall is_series ks).
  { apply Forall_forall. intros k I. apply in_map_iff in I. destruct I as (ek & <- & I).
    apply (Permutation_in _ (Permutation_sym PK)) in I. now apply All. }
  assert (DATA : c_data c = map (fun x => map Some (snd x)) ss) by (unfold c; rewrite fold_data; reflexivity).
  pose proof (absorb_all ks FS [PStr climate_model] [PStr scenario] [PStr model] [] [] [] []) as META.
  change (mkCollected [("climate_model", [PStr climate_model]); ("scenario", [PStr scenario]); ("model", [PStr model]); ("variable", []); ("region", []); ("unit", []); ("parameter_type", [])] []) with c0 in META.
  fold c in META. fold ss in META. cbn [app] in META.
  assert (LSS : length ss = length EK).
  { rewrite (Permutation_length PK), <- (map_length snd EK'). fold ks. unfold ss. clear -FS. induction FS as [|k ks (v & r & u & ty & xs & ->) F IH]; [reflexivity|].
    cbn. now rewrite IH. }
  assert (SSIN : forall v r u ty xs, In (v, r, u, ty, xs) ss <-> exists e, In (e, KSeries v r u ty xs) EK).
  { intros. unfold ss. rewrite in_flat_map. split.
    - intros (k & I & J). apply in_map_iff in I. destruct I as ([e k'] & E & I). cbn in E. subst k'.
      destruct k; cbn in J; [|tauto]. destruct J as [J|[]]. injection J as -> -> -> -> ->. exists e. now apply (Permutation_in _ (Permutation_sym PK)).
    - intros (e & I). exists (KSeries v r u ty xs). split; [|now left]. apply (Permutation_in _ PK) in I. now apply (in_map snd) in I. }
  set (data := c_data c) in *. set (columns := map (fun kv => (fst kv, Many (snd kv))) (c_meta c)).
  assert (LD : length data = length ss) by (rewrite DATA; now rewrite map_length).
  assert (COL : columns = [("climate_model", Many [PStr climate_model]); ("scenario", Many [PStr scenario]); ("model", Many [PStr model]);
    ("variable", Many (map (getter "variable") ss)); ("region", Many (map (getter "region") ss)); ("unit", Many (map (getter "unit") ss));
    ("parameter_type", Many (map (getter "parameter_type") ss))]) by (unfold columns; rewrite META; reflexivity).
  assert (VL : Forall (fun vs => length vs = length times) data).
  { rewrite DATA. apply Forall_map, Forall_forall. intros [[[[v r] u] ty] xs] I. cbn [snd]. apply SSIN in I. destruct I as (e & I).
    destruct (All _ I) as (_ & T & _). cbn [fst snd tells] in T. destruct T as (rs & ns & _ & _ & _ & _ & T & _ & [B _] & _).
    rewrite map_length. destruct T as [-> | ->]; cbn [value_count] in B; rewrite B; [|reflexivity].
    assert (Lc : length (closed times) = S (length times)).
    { destruct (extended_closed times (closed times)) as [_ X]; [apply extended_is; lia|lia]. }
    rewrite Lc. lia. }
  assert (NCOL : NoDup (map fst columns)).
  { rewrite COL. cbn. repeat (apply NoDup_cons_iff; split; [cbn; intuition discriminate|]). constructor. }
  destruct (proj2 (from_ts_accepts times data columns)) as (g & FT).
  { split.
    - intros k I. rewrite COL. cbn in I |- *. tauto.
    - intros k a I. rewrite COL in I. cbn [In] in I.
      repeat (destruct I as [I|I]; [injection I as <- <-; cbn [values_of]; rewrite map_length; first [right; reflexivity|left; rewrite map_length; now rewrite LD]|]). destruct I. }
  destruct (from_ts_ok times data columns g VL NCOL FT) as (AG & TG & DG & CG & MG).
  assert (NED : data <> []).
  { intros E. assert (Z0 : length EK = 0%nat) by (rewrite <- LSS, <- LD, E; reflexivity). apply length_zero_iff_nil in Z0. contradiction. }
  exists s', g. split.
  { unfold convert_openscm_to_scmdataframe. rewrite (extended_is _ L3), RP. unfold c0, start_meta in C. rewrite C.
    rewrite META at 1 2. cbn [map fst mem existsb String.eqb Ascii.eqb Bool.eqb orb]. fold data. fold columns.
    rewrite FT. destruct data as [|d0 data0]; [contradiction|]. reflexivity. }
  split; [exact PP|]. split; [exact AG|]. split; [exact TG|]. split.
  { rewrite DG, combine_length, map_length, seq_length. lia. }
  assert (GIN : forall i vals, In (Z.of_nat i, vals) (fr_data g) <-> exists x, nth_error ss i = Some x /\ vals = map Some (snd x)).
  { intros i vals. rewrite DG, nth_combine, DATA, nth_error_map. destruct (nth_error ss i) as [x|]; cbn; split.
    - intros [= <-]. eauto.
    - now intros (y & [= <-] & ->).
    - discriminate.
    - now intros (y & [=] & _). }
  assert (MGS : forall i k v, (i < length ss)%nat -> In k series_cols -> meta_of g (Z.of_nat i) k v <-> exists x, nth_error ss i = Some x /\ v = mval_of (getter k x)).
  { intros i k v L S. rewrite MG by lia.
    assert (KC : forall a, In (k, a) columns <-> a = Many (map (getter k) ss)).
    { intros a. split.
      - intros I. apply (fst_inj columns k a _ NCOL I). rewrite COL. destruct S as [<-|[<-|[<-|[<-|[]]]]]; cbn; auto 10.
      - intros ->. rewrite COL. destruct S as [<-|[<-|[<-|[<-|[]]]]]; cbn; auto 10. }
    split.
    - intros (a & I & X). apply KC in I. subst a. cbn [values_of] in X.
      destruct (nth_error ss i) as [x|] eqn:E; [|apply nth_error_None in E; lia]. exists x. split; [reflexivity|]. destruct X as [[X _]|X].
      + rewrite !nth_error_map, E in X. cbn in X. congruence.
      + destruct ss as [|y [|z ss']]; try discriminate. cbn in L. assert (i = 0)%nat by lia. subst i. cbn in E, X. congruence.
    - intros (x & E & ->). exists (Many (map (getter k) ss)). split; [now apply KC|]. left. cbn [values_of]. rewrite !nth_error_map, E, !map_length. auto. }
  split.
  - intros v r u t vals. split.
    + intros (l & I & MV & MR & MU & MT). assert (X : exists i, l = Z.of_nat i) by (rewrite DG in I; eapply label_nat; eauto). destruct X as (i & ->).
      apply GIN in I. destruct I as ([[[[v' r'] u'] ty] xs] & IS & ->). assert (L : (i < length ss)%nat) by (apply nth_error_Some; congruence).
      apply MGS in MV; [|exact L|cbn; auto]. apply MGS in MR; [|exact L|cbn; auto]. apply MGS in MU; [|exact L|cbn; auto]. apply MGS in MT; [|exact L|cbn; auto].
      destruct MV as (x & E & MV). rewrite IS in E. injection E as <-. destruct MR as (x & E & MR). rewrite IS in E. injection E as <-.
      destruct MU as (x & E & MU). rewrite IS in E. injection E as <-. destruct MT as (x & E & MT). rewrite IS in E. injection E as <-.
      cbn in MV, MR, MU, MT. injection MV as ->. injection MR as ->. injection MU as ->. injection MT as ->.
      apply nth_error_In, SSIN in IS. destruct IS as (e & IS). exists e, ty, xs. auto.
    + intros (e & ty & xs & I & -> & ->). assert (IS : In (v, r, u, ty, xs) ss) by (apply SSIN; eauto). apply In_nth_error in IS. destruct IS as (i & IS).
      assert (L : (i < length ss)%nat) by (apply nth_error_Some; congruence).
      exists (Z.of_nat i). split; [apply GIN; eauto|]. repeat split; (apply MGS; [exact L|cbn; auto 10|]); eexists; (split; [exact IS|reflexivity]).
  - intros l IL. rewrite DG in IL. rewrite combine_fst in IL by (now rewrite map_length, seq_length).
    apply in_map_iff in IL. destruct IL as (i & <- & IL). apply in_seq in IL.
    repeat split; (apply MG; [lia|]); eexists; (split; [rewrite COL; cbn; auto 10|right; reflexivity]).
Qed.
