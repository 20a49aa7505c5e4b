(** Calls that write a new parameter or read a held one (for C54). *)
From Coq Require Import String List Arith Lia Lra Bool ZArith QArith Qcanon Reals Qreals Sorted.
From Verif Require Import Base ListFacts Units TimeModel Core CoreEvo CoreTree CoreNames CoreInv Spec_Core CoreReq CoreP1 CoreP2
  Spec_Time TimeProps Filters ParameterType Frame FrameInterp FrameStore StoreHolds.
Import ListNotations.
Local Open Scope string_scope.
Local Open Scope list_scope.

Lemma own_unit env u : good_env env -> env u <> None ->
  exists c, unit_converter env (Some u) (Some u) = Ok c /\ (forall x, uconvert_from c x = x) /\ (forall x, uconvert_to c x = x).
Proof.
  intros G N. destruct (env u) as [a|] eqn:E; [|contradiction].
  assert (X : exists c, unit_converter env (Some u) (Some u) = Ok c).
  { unfold unit_converter. rewrite E. unfold dim_eqb. destruct (list_eq_dec _ _ _); [eauto|contradiction]. }
  destruct X as [c X]. exists c. split; [exact X|].
  split; intros x; pose proof (uconv_phys env u u c G X x) as [A B];
    [apply (same_quantity_unique env u x) in A|apply (same_quantity_unique env u x) in B]; auto.
Qed.

Lemma map_own g l : (forall x, g x = x) -> map (option_map g) l = (l : list num).
Proof. intros H. induction l as [|[x|] l IH]; [reflexivity|..]; cbn; now rewrite IH, ?H. Qed.

Lemma all_some_of xs : all_some (map Some xs) = Some xs.
Proof. induction xs as [|x xs IH]; [reflexivity|]. cbn. now rewrite IH. Qed.

Lemma upd_upd' {A} (l : list A) i x y : upd (upd l i x) i y = upd l i y.
Proof. revert i. induction l as [|a l IH]; intros [|i]; cbn; auto. now rewrite IH. Qed.

Lemma ts_of ty : timeseries ty -> from_timeseries_type (AEnum ty) = Ok ty /\ ptype_eqb ty ty = true.
Proof. intros [->| ->]; split; reflexivity. Qed.

Lemma series_count ty tps xs : timeseries ty -> belongs ty tps xs -> Z.of_nat (length xs) = series_length ty (length tps).
Proof. intros [->| ->] [B N]; rewrite B; destruct tps as [|t tps]; try congruence; cbn [value_count series_length length]; lia. Qed.

(** A new timeseries. *)
Lemma write_series env s E v u tps r ty xs rest : good_env env -> env u <> None -> timeseries ty -> increasing tps ->
  belongs ty tps xs -> (3 <= length xs)%nat -> holds env s E -> hcomponents (HStr r) = "World" :: rest ->
  let e := mkEntry (hcomponents (HStr r)) (hcomponents (HStr v)) ty (Some u) (Some (mkTP 1 tps)) (PArr (map Some xs)) in
  apart e E ->
  exists s1 vi s2, step env (series_request v u tps r ty) s = (s1, Ok (VView vi)) /\
    step env (OSetValues vi (mkArr false (map Some xs))) s1 = (s2, Ok VUnit) /\ holds env s2 (E ++ [e]).
Proof.
  intros G U T I B L3 H HR e A.
  assert (NE : e_name e <> []) by (apply split_nonempty).
  destruct (locate_new env s E e (HStr v) (HStr r) rest H A HR eq_refl eq_refl NE)
    as (s1 & p & q & L & Q & TY & CH & W1 & Ev & PA & _).
  destruct (own_unit env u G U) as (uc & UC & UF & UT).
  destruct (same_grid ty XNONE tps xs T I B L3) as (tc & TC & TF & TT).
  destruct (ts_of ty T) as [FT PE]. pose proof (series_count ty tps xs T B) as SC.
  assert (Etc : tc_type tc = ty /\ tc_target tc = tps).
  { unfold timeseries_converter in TC. destruct tps as [|t0 [|t1 tps]]; try discriminate.
    destruct (t0 >? t1)%Z; [discriminate|]. injection TC as <-. auto. }
  destruct Etc as [Ety Etg].
  set (q1 := p_set_read (p_set_time (p_set_data (p_set_type q ty (Some u)) (PArr (repeat None (Z.to_nat (series_length ty (length tps)))))) (mkTP 1 tps))).
  set (s2 := set_param s1 p q1).
  set (v1 := mkView true KTimeseries p u uc tc None false None false None).
  set (vi := length (st_views s2)).
  set (s3 := mkState (st_regions s2) (st_params s2) (st_views s2 ++ [v1])).
  pose proof (nth_lt _ _ _ Q) as LT.
  assert (Q2 : nth_error (st_params s2) p = Some q1) by (now apply nth_upd_eq).
  assert (S1 : step env (series_request v u tps r ty) s = (s3, Ok (VView vi))).
  { unfold series_request. cbn [step]. unfold ps_timeseries. rewrite FT. cbn [from_interpolation_type from_extrapolation_type].
    rewrite L. unfold on_param at 1. rewrite Q. unfold attempt_read. rewrite TY.
    assert (X : forall (a b : param * res Datatypes.unit), (match ty with SCALAR => a | GENERIC => b | _ =>
       (let n := series_length ty (length tps) in if (n <? 0)%Z then (p_set_type q ty (Some u), Err EValueError) else (q1, Ok tt)) end) = (q1, Ok tt)).
    { intros a b. cbv zeta. rewrite <- SC. destruct (Z.ltb_spec (Z.of_nat (length xs)) 0); [lia|]. destruct T as [->| ->]; reflexivity. }
    cbn [tp_ticks]. fold q1. cbv zeta in X. rewrite X.
    fold s2. unfold build_view. rewrite Q2. unfold ts_leaf_view. rewrite Q2.
    unfold q1 at 1 2. cbn [p_unit p_set_read p_set_time p_set_data p_set_type p_time]. rewrite UC. cbn [tp_ticks]. rewrite TC.
    unfold has_children. change (p_children q1) with (p_children q). rewrite CH. reflexivity. }
  set (q2 := p_set_written (p_set_read q1)).
  set (v2 := v_set_writable v1).
  set (q3 := p_store q2 (PArr (map Some xs))).
  set (v3 := v_set_version (v_set_data v2 (mkArr false (map Some xs))) (Datatypes.S (p_version q2))).
  set (s4 := mkState (st_regions s2) (upd (upd (st_params s2) p q2) p q3)
               (upd (upd (upd (st_views s2 ++ [v1]) vi v2) vi (v_set_data v2 (mkArr false (map Some xs)))) vi v3)).
  assert (V1 : nth_error (st_views s3) vi = Some v1) by apply nth_app_new.
  assert (S2 : step env (OSetValues vi (mkArr false (map Some xs))) s3 = (s4, Ok VUnit)).
  { cbn [step]. unfold with_view. rewrite V1. cbn [v_public v_kind v1]. unfold ts_set, check_write.
    cbn [v_writable v1]. unfold on_param. change (st_params s3) with (st_params s2). cbn [v_param v1]. rewrite Q2.
    unfold attempt_write, has_children. change (p_children q1) with (p_children q). rewrite CH.
    unfold attempt_read. change (p_type q1) with (Some ty). cbn [v_tconv v1]. rewrite Ety, PE.
    fold q2. cbn [a_val]. rewrite map_length, SC. unfold target_length. rewrite Ety, Etg, Z.eqb_refl.
    assert (V2 : nth_error (st_views (set_view (set_param s3 p q2) vi (v_set_writable v1))) vi = Some v2).
    { apply nth_upd_eq. eapply nth_lt. exact V1. }
    fold v2. fold v2 in V2. rewrite V2. cbn [v_data v2 v_set_writable v1]. fold v1. fold v2.
    unfold ts_write.
    assert (V3 : nth_error (st_views (set_view (set_view (set_param s3 p q2) vi v2) vi (v_set_data v2 (mkArr false (map Some xs))))) vi
                 = Some (v_set_data v2 (mkArr false (map Some xs)))).
    { apply nth_upd_eq. cbn [set_view st_views]. rewrite upd_length. eapply nth_lt. exact V1. }
    rewrite V3. change (v_locked (v_set_data v2 (mkArr false (map Some xs)))) with false.
    change (v_data (v_set_data v2 (mkArr false (map Some xs)))) with (Some (mkArr false (map Some xs))).
    cbv iota. change (v_param (v_set_data v2 (mkArr false (map Some xs)))) with p.
    assert (Q3 : nth_error (st_params (set_view (set_view (set_param s3 p q2) vi v2) vi (v_set_data v2 (mkArr false (map Some xs))))) p = Some q2).
    { cbn [set_view st_params set_param]. apply nth_upd_eq. eapply nth_lt. exact Q2. }
    rewrite Q3. cbn [a_val]. unfold to_param.
    change (v_tconv (v_set_data v2 (mkArr false (map Some xs)))) with tc.
    change (v_uconv (v_set_data v2 (mkArr false (map Some xs)))) with uc.
    rewrite (map_own _ _ UT). unfold nconvert. rewrite all_some_of, TT. reflexivity. }
  exists s3, vi, s4. split; [exact S1|]. split; [exact S2|].
  pose proof (wf_step env _ _ _ _ (wf_step env _ _ _ _ (h_wf _ _ _ H) S1) S2) as W4.
  apply (holds_add env s E e (HStr v) (HStr r) rest s1 p q s4 q3 H A HR eq_refl eq_refl NE L Q W4).
  - reflexivity.
  - unfold s4, s2. cbn [st_params set_param]. now rewrite !upd_upd'.
  - reflexivity.
  - unfold is_entry, q3, q2, q1, e. cbn. rewrite CH. repeat split; reflexivity.
Qed.

(** A new generic parameter. *)
Lemma write_generic env s E n r rest g : holds env s E -> hcomponents r = "World" :: rest -> hcomponents n <> [] ->
  let e := mkEntry (hcomponents r) (hcomponents n) GENERIC None None (PGen g) in
  apart e E ->
  exists s1 vi s2, step env (OGeneric n r) s = (s1, Ok (VView vi)) /\
    step env (OSetGeneric vi g) s1 = (s2, Ok VUnit) /\ holds env s2 (E ++ [e]).
Proof.
  intros H HR NE e A.
  destruct (locate_new env s E e n r rest H A HR eq_refl eq_refl NE)
    as (s1 & p & q & L & Q & TY & CH & W1 & Ev & PA & _).
  pose proof (pi_untyped _ (wf_params _ _ W1 _ _ Q) TY) as (_ & QT & _).
  set (q1 := p_set_read (p_set_data (p_set_type q GENERIC None) (PGen GNone))).
  set (s2 := set_param s1 p q1).
  set (v1 := mkView true KGeneric p "" dummy_uconv dummy_tconv None false None false None).
  set (vi := length (st_views s2)).
  set (s3 := mkState (st_regions s2) (st_params s2) (st_views s2 ++ [v1])).
  pose proof (nth_lt _ _ _ Q) as LT.
  assert (Q2 : nth_error (st_params s2) p = Some q1) by (now apply nth_upd_eq).
  assert (S1 : step env (OGeneric n r) s = (s3, Ok (VView vi))).
  { cbn [step]. unfold ps_generic. rewrite L. unfold on_param. rewrite Q. unfold attempt_read. rewrite TY.
    unfold has_children. rewrite CH. reflexivity. }
  set (q2 := p_set_written (p_set_read q1)).
  set (q3 := p_store q2 (PGen g)).
  set (s4 := mkState (st_regions s2) (upd (upd (st_params s2) p q2) p q3) (upd (st_views s2 ++ [v1]) vi (v_set_writable v1))).
  assert (V1 : nth_error (st_views s3) vi = Some v1) by apply nth_app_new.
  assert (S2 : step env (OSetGeneric vi g) s3 = (s4, Ok VUnit)).
  { cbn [step]. unfold with_view. rewrite V1. cbn [v_public v_kind v1]. unfold generic_set, check_write.
    cbn [v_writable v1]. unfold on_param. change (st_params s3) with (st_params s2). cbn [v_param v1]. rewrite Q2.
    unfold attempt_write, has_children. change (p_children q1) with (p_children q). rewrite CH.
    unfold attempt_read. change (p_type q1) with (Some GENERIC). cbn [ptype_eqb].
    fold q2. unfold store.
    change (st_params (set_view (set_param s3 p q2) vi (v_set_writable v1))) with (upd (st_params s2) p q2).
    rewrite nth_upd_eq by (eapply nth_lt; exact Q2). reflexivity. }
  exists s3, vi, s4. split; [exact S1|]. split; [exact S2|].
  pose proof (wf_step env _ _ _ _ (wf_step env _ _ _ _ (h_wf _ _ _ H) S1) S2) as W4.
  apply (holds_add env s E e n r rest s1 p q s4 q3 H A HR eq_refl eq_refl NE L Q W4).
  - reflexivity.
  - unfold s4, s2. cbn [st_params set_param]. now rewrite !upd_upd'.
  - reflexivity.
  - unfold is_entry, q3, q2, q1, e. cbn. rewrite CH, QT. repeat split; reflexivity.
Qed.

(** A new scalar parameter. *)
Lemma write_scalar env s E n u r rest x : good_env env -> env u <> None -> holds env s E -> hcomponents r = "World" :: rest ->
  hcomponents n <> [] ->
  let e := mkEntry (hcomponents r) (hcomponents n) SCALAR (Some u) None (PScalar x) in
  apart e E ->
  exists s1 vi s2, step env (OScalar n u r) s = (s1, Ok (VView vi)) /\
    step env (OSetValue vi x) s1 = (s2, Ok VUnit) /\ holds env s2 (E ++ [e]).
Proof.
  intros G U H HR NE e A.
  destruct (locate_new env s E e n r rest H A HR eq_refl eq_refl NE)
    as (s1 & p & q & L & Q & TY & CH & W1 & Ev & PA & _).
  destruct (own_unit env u G U) as (uc & UC & UF & UT).
  pose proof (pi_untyped _ (wf_params _ _ W1 _ _ Q) TY) as (_ & QT & _).
  set (q1 := p_set_read (p_set_data (p_set_type q SCALAR (Some u)) (PScalar None))).
  set (s2 := set_param s1 p q1).
  set (v1 := mkView true KScalar p u uc dummy_tconv None false None false None).
  set (vi := length (st_views s2)).
  set (s3 := mkState (st_regions s2) (st_params s2) (st_views s2 ++ [v1])).
  pose proof (nth_lt _ _ _ Q) as LT.
  assert (Q2 : nth_error (st_params s2) p = Some q1) by (now apply nth_upd_eq).
  assert (S1 : step env (OScalar n u r) s = (s3, Ok (VView vi))).
  { cbn [step]. unfold ps_scalar. rewrite L. unfold on_param. rewrite Q. unfold attempt_read. rewrite TY.
    fold q1. fold s2. unfold build_view. rewrite Q2. unfold scalar_leaf_view. rewrite Q2.
    change (p_unit q1) with (Some u). rewrite UC.
    unfold has_children. change (p_children q1) with (p_children q). rewrite CH. reflexivity. }
  set (q2 := p_set_written (p_set_read q1)).
  set (q3 := p_store q2 (PScalar x)).
  set (s4 := mkState (st_regions s2) (upd (upd (st_params s2) p q2) p q3) (upd (st_views s2 ++ [v1]) vi (v_set_writable v1))).
  assert (V1 : nth_error (st_views s3) vi = Some v1) by apply nth_app_new.
  assert (S2 : step env (OSetValue vi x) s3 = (s4, Ok VUnit)).
  { cbn [step]. unfold with_view. rewrite V1. cbn [v_public v_kind v1]. unfold scalar_set, check_write.
    cbn [v_writable v1]. unfold on_param. change (st_params s3) with (st_params s2). cbn [v_param v1]. rewrite Q2.
    unfold attempt_write, has_children. change (p_children q1) with (p_children q). rewrite CH.
    unfold attempt_read. change (p_type q1) with (Some SCALAR). cbn [ptype_eqb].
    fold q2. unfold store.
    change (st_params (set_view (set_param s3 p q2) vi (v_set_writable v1))) with (upd (st_params s2) p q2).
    rewrite nth_upd_eq by (eapply nth_lt; exact Q2). cbn [v_uconv v1].
    assert (X : option_map (uconvert_to uc) x = x) by (destruct x; cbn; now rewrite ?UT). rewrite X. reflexivity. }
  exists s3, vi, s4. split; [exact S1|]. split; [exact S2|].
  pose proof (wf_step env _ _ _ _ (wf_step env _ _ _ _ (h_wf _ _ _ H) S1) S2) as W4.
  apply (holds_add env s E e n r rest s1 p q s4 q3 H A HR eq_refl eq_refl NE L Q W4).
  - reflexivity.
  - unfold s4, s2. cbn [st_params set_param]. now rewrite !upd_upd'.
  - reflexivity.
  - unfold is_entry, q3, q2, q1, e. cbn. rewrite CH, QT. repeat split; reflexivity.
Qed.

(** ** Reading what is held *)
Lemma read_again q : p_read q = true -> p_set_read q = q.
Proof. destruct q. cbn. intros ->. reflexivity. Qed.
Lemma upd_same {A} (l : list A) i x : nth_error l i = Some x -> upd l i x = l.
Proof. revert i. induction l as [|a l IH]; intros [|i]; cbn; intros H; try discriminate; [congruence|]. now rewrite IH. Qed.
Lemma set_same s p q : nth_error (st_params s) p = Some q -> set_param s p q = s.
Proof. intros H. unfold set_param. rewrite (upd_same _ _ _ H). now destruct s. Qed.

Lemma read_series env s E e u tps xs : good_env env -> env u <> None -> timeseries (e_type e) -> increasing tps ->
  belongs (e_type e) tps xs -> (3 <= length xs)%nat -> holds env s E -> In e E ->
  e_unit e = Some u -> e_time e = Some (mkTP 1 tps) -> e_data e = PArr (map Some xs) ->
  exists s1 vi s2,
    step env (OTimeseries (HSeq (e_name e)) u (mkTP 1 tps) (HSeq (e_region e)) (AEnum (e_type e)) (AEnum ILINEAR) (AEnum XNONE)) s
      = (s1, Ok (VView vi)) /\
    step env (OGetValues vi) s1 = (s2, Ok (VArr (map Some xs))) /\
    st_params s2 = st_params s /\ st_regions s2 = st_regions s /\ wf env s2.
Proof.
  intros G U T I B L3 H IE EU ET ED.
  destruct (h_in _ _ _ H e IE) as (p & q & PA & Q & TY & QU & QT & QD & RD & WR & CH).
  rewrite EU in QU. rewrite ET in QT. rewrite ED in QD.
  pose proof (locate_found s (HSeq (e_name e)) (HSeq (e_region e)) p PA) as L.
  destruct (own_unit env u G U) as (uc & UC & UF & UT).
  destruct (same_grid (e_type e) XNONE tps xs T I B L3) as (tc & TC & TF & TT).
  destruct (ts_of _ T) as [FT PE].
  set (v1 := mkView true KTimeseries p u uc tc None false None false None).
  set (vi := length (st_views s)).
  set (s1 := mkState (st_regions s) (st_params s) (st_views s ++ [v1])).
  assert (S1 : step env (OTimeseries (HSeq (e_name e)) u (mkTP 1 tps) (HSeq (e_region e)) (AEnum (e_type e)) (AEnum ILINEAR) (AEnum XNONE)) s = (s1, Ok (VView vi))).
  { cbn [step]. unfold ps_timeseries. rewrite FT. cbn [from_interpolation_type from_extrapolation_type].
    rewrite L. unfold on_param. rewrite Q. unfold attempt_read. rewrite TY, PE.
    rewrite (read_again q RD), (set_same s p q Q).
    unfold build_view. rewrite Q. unfold ts_leaf_view. rewrite Q, QU, UC, QT. cbn [tp_ticks]. rewrite TC.
    unfold has_children. rewrite CH. reflexivity. }
  assert (V1 : nth_error (st_views s1) vi = Some v1) by apply nth_app_new.
  set (s2 := set_view s1 vi (v_set_version (v_set_data v1 (mkArr false (map Some xs))) (p_version q))).
  assert (S2 : step env (OGetValues vi) s1 = (s2, Ok (VArr (map Some xs)))).
  { cbn [step]. unfold with_view. rewrite V1. cbn [v_public v_kind v1]. unfold ts_get, read_with. rewrite V1.
    cbn [v_param v1]. change (st_params s1) with (st_params s). rewrite Q. cbn [v_data v1].
    unfold get_values. cbn [v_param v1]. change (st_params s1) with (st_params s). rewrite Q.
    unfold has_children. rewrite CH. unfold ts_own. rewrite WR, QD. unfold from_param. cbn [v_tconv v_uconv v1].
    rewrite (map_own _ _ UF). unfold nconvert. rewrite all_some_of, TF. reflexivity. }
  exists s1, vi, s2. split; [exact S1|]. split; [exact S2|]. split; [reflexivity|]. split; [reflexivity|].
  exact (wf_step env _ _ _ _ (wf_step env _ _ _ _ (h_wf _ _ _ H) S1) S2).
Qed.

Lemma read_generic env s E e g : holds env s E -> In e E -> e_type e = GENERIC -> e_data e = PGen g ->
  exists s1 vi s2, step env (OGeneric (HSeq (e_name e)) (HSeq (e_region e))) s = (s1, Ok (VView vi)) /\
    step env (OGetGeneric vi) s1 = (s2, Ok (VGen g)) /\
    st_params s2 = st_params s /\ st_regions s2 = st_regions s /\ wf env s2.
Proof.
  intros H IE ET ED.
  destruct (h_in _ _ _ H e IE) as (p & q & PA & Q & TY & QU & QT & QD & RD & WR & CH).
  rewrite ED in QD. rewrite ET in TY.
  pose proof (locate_found s (HSeq (e_name e)) (HSeq (e_region e)) p PA) as L.
  set (v1 := mkView true KGeneric p "" dummy_uconv dummy_tconv None false None false None).
  set (vi := length (st_views s)).
  set (s1 := mkState (st_regions s) (st_params s) (st_views s ++ [v1])).
  assert (S1 : step env (OGeneric (HSeq (e_name e)) (HSeq (e_region e))) s = (s1, Ok (VView vi))).
  { cbn [step]. unfold ps_generic. rewrite L. unfold on_param. rewrite Q. unfold attempt_read. rewrite TY. cbn [ptype_eqb].
    rewrite (read_again q RD), (set_same s p q Q). reflexivity. }
  assert (V1 : nth_error (st_views s1) vi = Some v1) by apply nth_app_new.
  assert (S2 : step env (OGetGeneric vi) s1 = (s1, Ok (VGen g))).
  { cbn [step]. unfold with_view. rewrite V1. cbn [v_public v_kind v1]. unfold generic_get.
    cbn [v_param v1]. change (st_params s1) with (st_params s). rewrite Q, WR, QD. reflexivity. }
  exists s1, vi, s1. split; [exact S1|]. split; [exact S2|]. split; [reflexivity|]. split; [reflexivity|].
  exact (wf_step env _ _ _ _ (h_wf _ _ _ H) S1).
Qed.

Lemma read_scalar env s E e u x : good_env env -> env u <> None -> holds env s E -> In e E -> e_type e = SCALAR ->
  e_unit e = Some u -> e_data e = PScalar x ->
  exists s1 vi s2, step env (OScalar (HSeq (e_name e)) u (HSeq (e_region e))) s = (s1, Ok (VView vi)) /\
    step env (OGetValue vi) s1 = (s2, Ok (VNum x)) /\
    st_params s2 = st_params s /\ st_regions s2 = st_regions s /\ wf env s2.
Proof.
  intros G U H IE ET EU ED.
  destruct (h_in _ _ _ H e IE) as (p & q & PA & Q & TY & QU & QT & QD & RD & WR & CH).
  rewrite ED in QD. rewrite ET in TY. rewrite EU in QU.
  destruct (own_unit env u G U) as (uc & UC & UF & UT).
  pose proof (locate_found s (HSeq (e_name e)) (HSeq (e_region e)) p PA) as L.
  set (v1 := mkView true KScalar p u uc dummy_tconv None false None false None).
  set (vi := length (st_views s)).
  set (s1 := mkState (st_regions s) (st_params s) (st_views s ++ [v1])).
  assert (S1 : step env (OScalar (HSeq (e_name e)) u (HSeq (e_region e))) s = (s1, Ok (VView vi))).
  { cbn [step]. unfold ps_scalar. rewrite L. unfold on_param. rewrite Q. unfold attempt_read. rewrite TY. cbn [ptype_eqb].
    rewrite (read_again q RD), (set_same s p q Q). unfold build_view. rewrite Q. unfold scalar_leaf_view. rewrite Q, QU, UC.
    unfold has_children. rewrite CH. reflexivity. }
  assert (V1 : nth_error (st_views s1) vi = Some v1) by apply nth_app_new.
  assert (S2 : step env (OGetValue vi) s1 = (s1, Ok (VNum x))).
  { cbn [step]. unfold with_view. rewrite V1. cbn [v_public v_kind v1]. unfold scalar_get.
    cbn [v_param v1]. change (st_params s1) with (st_params s). rewrite Q. unfold has_children. rewrite CH.
    unfold scalar_own. rewrite WR, QD. cbn [v_uconv v1].
    assert (X : option_map (uconvert_from uc) x = x) by (destruct x; cbn; now rewrite ?UF). rewrite X. reflexivity. }
  exists s1, vi, s1. split; [exact S1|]. split; [exact S2|]. split; [reflexivity|]. split; [reflexivity|].
  exact (wf_step env _ _ _ _ (h_wf _ _ _ H) S1).
Qed.
