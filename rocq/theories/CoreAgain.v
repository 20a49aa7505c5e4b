(** A request made again finds its parameter as it is; a fresh view reads the same wherever its
    cell is. *)
From Coq Require Import String List Arith Lia Bool ZArith Reals.
From Verif Require Import Base ListFacts Units TimeModel Core CoreEvo CoreTree CoreNames CoreInv CoreStep
  Spec_Core CoreReq CoreView.
Import ListNotations.

Section A.
Variable env : uenv.

Lemma set_read_same q : p_read q = true -> p_set_read q = q.
Proof. destruct q; simpl. intros ->. reflexivity. Qed.
Lemma on_read_again s p q t u tp : nth_error (st_params s) p = Some q -> p_type q = Some t -> p_read q = true ->
  on_param s p (fun q => attempt_read q t u tp) = (s, Ok tt).
Proof.
  intros Q T Rd. unfold on_param, attempt_read. rewrite Q, T.
  assert (E : ptype_eqb t t = true) by (destruct t; reflexivity). rewrite E, (set_read_same _ Rd).
  unfold set_param. rewrite (upd_same _ _ _ Q). destruct s; reflexivity.
Qed.

(** What a request for a timeseries makes. *)
Definition appended (s : state) (l : list view) : state := mkState (st_regions s) (st_params s) (st_views s ++ l).
Inductive ts_made (s : state) (v : view) (q : param) (mk : nat -> res view) (p : nat) : list view -> nat -> Prop :=
| made_leaf : p_children q = [] -> ts_made s v q mk p [v_set_public v] (length (st_views s))
| made_aggregate ls cvs : p_children q <> [] -> param_leaves s p = Some ls -> rmap mk ls = Ok cvs ->
    ts_made s v q mk p (cvs ++ [v_set_public (v_set_children v (seq (length (st_views s)) (length cvs)))])
      (length (st_views s) + length cvs).

Lemma children_dec q : {p_children q = []} + {p_children q <> []}.
Proof. destruct (p_children q); [left|right]; congruence. Qed.
Lemma has_children_true q : p_children q <> [] -> has_children q = true.
Proof. unfold has_children. destruct (p_children q); [congruence|auto]. Qed.
Lemma has_children_false q : p_children q = [] -> has_children q = false.
Proof. unfold has_children. intros ->. auto. Qed.

Lemma ts_request_make n u tp r ty ip ex s t i x p q v l vi :
  from_timeseries_type ty = Ok t -> from_interpolation_type ip = Ok i -> from_extrapolation_type ex = Ok x ->
  param_at s (hcomponents r) (hcomponents n) = Some p -> nth_error (st_params s) p = Some q ->
  p_type q = Some t -> p_read q = true ->
  ts_leaf_view env s u (tp_ticks tp) t x p = Ok v -> ts_made s v q (ts_leaf_view env s u (tp_ticks tp) t x) p l vi ->
  step env (OTimeseries n u tp r ty ip ex) s = (appended s l, Ok (VView vi)).
Proof.
  intros Et Ei Ex At Q T Rd Lv Md. cbn [step]. unfold ps_timeseries. rewrite Et, Ei, Ex, (locate_found _ _ _ _ At).
  rewrite (on_read_again _ _ _ _ _ _ Q T Rd). unfold build_view. rewrite Q, Lv.
  destruct Md as [C|ls cvs C Ls Cv].
  - rewrite (has_children_false _ C). reflexivity.
  - rewrite (has_children_true _ C), Ls, Cv. reflexivity.
Qed.
Lemma ts_request_inv n u tp r ty ip ex s s1 y : wf env s ->
  step env (OTimeseries n u tp r ty ip ex) s = (s1, Ok y) ->
  exists t i x p q v l vi,
    from_timeseries_type ty = Ok t /\ from_interpolation_type ip = Ok i /\ from_extrapolation_type ex = Ok x /\
    param_at s1 (hcomponents r) (hcomponents n) = Some p /\ nth_error (st_params s1) p = Some q /\
    p_type q = Some t /\ p_read q = true /\
    ts_leaf_view env s1 u (tp_ticks tp) t x p = Ok v /\
    ts_made (mkState (st_regions s1) (st_params s1) (st_views s)) v q (ts_leaf_view env s1 u (tp_ticks tp) t x) p l vi /\
    st_views s1 = st_views s ++ l /\ y = VView vi.
Proof.
  intros W H. cbn [step] in H. unfold ps_timeseries in H.
  destruct (from_timeseries_type ty) as [t|] eqn:Et; [|discriminate].
  destruct (from_interpolation_type ip) as [i|] eqn:Ei; [|discriminate].
  destruct (from_extrapolation_type ex) as [x|] eqn:Ex; [|discriminate].
  destruct (locate s n r) as [sa [p|e]] eqn:L; [|discriminate].
  destruct (on_param sa p _) as [sb [[]|e]] eqn:O; [|discriminate].
  assert (Wa : wf env sa) by (eapply wf_locate; eauto).
  pose proof (locate_created _ _ _ _ _ L) as At.
  pose proof (param_at_evo _ _ _ _ _ (evo_on_read _ _ _ _ _ _ _ O) At) as Atb.
  destruct (wf_on_read env _ _ _ _ _ _ _ Wa O) as (_ & Vb & Bq). destruct (Bq _ eq_refl) as (q & Q & T & Rd).
  destruct (pcells_locate _ _ _ _ _ L) as [Va _].
  assert (Vs : st_views sb = st_views s) by congruence.
  unfold build_view in H. rewrite Q in H. unfold lift in H.
  destruct (ts_leaf_view env sb u (tp_ticks tp) t x p) as [v|e] eqn:Lv; [|discriminate].
  exists t, i, x, p, q, v. destruct (children_dec q) as [C|C].
  - rewrite (has_children_false _ C) in H. inversion H; subst s1 y; clear H. simpl.
    exists [v_set_public v], (length (st_views s)). rewrite Vs.
    repeat (split; [first [reflexivity|assumption]|]).
    split; [rewrite <- Vs; eapply param_at_evo; [apply evo_app_views|exact Atb]|]. repeat (split; [first [reflexivity|assumption]|]).
    split. { now apply (made_leaf (mkState (st_regions sb) (st_params sb) (st_views s))). } auto.
  - rewrite (has_children_true _ C) in H. destruct (param_leaves sb p) as [ls|] eqn:Ls; [|discriminate].
    destruct (rmap (ts_leaf_view env sb u (tp_ticks tp) t x) ls) as [cvs|] eqn:Cv; [|discriminate].
    inversion H; subst s1 y; clear H. simpl. rewrite Vs.
    eexists _, _. repeat (split; [first [reflexivity|assumption]|]).
    split; [rewrite <- Vs; eapply param_at_evo; [apply evo_app_views|exact Atb]|]. repeat (split; [first [reflexivity|assumption]|]).
    split. { eapply (made_aggregate (mkState (st_regions sb) (st_params sb) (st_views s))); eauto. } auto.
Qed.

(** A leaf: later, whatever has happened in between, the request makes the same view again. *)
Lemma leaf_view_evo s s2 u tg t x p q q2 : nth_error (st_params s) p = Some q -> nth_error (st_params s2) p = Some q2 ->
  p_unit q2 = p_unit q -> p_time q2 = p_time q -> ts_leaf_view env s2 u tg t x p = ts_leaf_view env s u tg t x p.
Proof. intros Q Q2 U T. unfold ts_leaf_view. now rewrite Q, Q2, U, T. Qed.
Lemma ts_leaf_again n u tp r ty ip ex s s1 vi p q1 q : wf env s ->
  step env (OTimeseries n u tp r ty ip ex) s = (s1, Ok (VView vi)) ->
  param_at s1 (hcomponents r) (hcomponents n) = Some p -> nth_error (st_params s1) p = Some q1 ->
  forall s2, param_at s2 (hcomponents r) (hcomponents n) = Some p -> nth_error (st_params s2) p = Some q ->
  p_type q = p_type q1 -> p_unit q = p_unit q1 -> p_time q = p_time q1 -> p_read q = p_read q1 ->
  p_children q1 = [] -> p_children q = [] ->
  exists v, nth_error (st_views s1) vi = Some v /\ v_param v = p /\ v_kind v = KTimeseries /\
    step env (OTimeseries n u tp r ty ip ex) s2 = (appended s2 [v], Ok (VView (length (st_views s2)))).
Proof.
  intros W St At Q1' s2 At2 Q2 T2 U2 Ti2 Rd2 C1 C2. destruct (ts_request_inv _ _ _ _ _ _ _ _ _ _ W St) as
    (t & i & x & p' & q1' & v & l & vi' & Et & Ei & Ex & At1 & Q1 & T1 & Rd1 & Lv & Md & Vs & Ey).
  assert (p' = p) by congruence. subst p'. inversion Ey; subst vi'; clear Ey.
  assert (q1' = q1) by congruence. subst q1'.
  destruct Md as [_|ls cvs C _ _]; [|contradiction]. simpl in Vs.
  exists (v_set_public v). split. { rewrite Vs. apply nth_app_new. }
  assert (Pk : v_param v = p /\ v_kind v = KTimeseries).
  { unfold ts_leaf_view in Lv. rewrite Q1 in Lv.
    destruct (unit_converter _ _ _); [|discriminate]. destruct (p_time q1); [|discriminate].
    destruct (timeseries_converter _ _ _ _); inversion Lv. auto. }
  split; [apply Pk|]. split; [apply Pk|].
  apply (ts_request_make _ _ _ _ _ _ _ _ t i x p q v); auto; try congruence.
  - rewrite (leaf_view_evo s1 s2 _ _ _ _ _ q1 q); auto.
  - now apply made_leaf.
Qed.
Lemma generic_again n r s p q : param_at s (hcomponents r) (hcomponents n) = Some p ->
  nth_error (st_params s) p = Some q -> p_type q = Some GENERIC -> p_read q = true ->
  step env (OGeneric n r) s =
    (appended s [mkView true KGeneric p "" dummy_uconv dummy_tconv None false None false None], Ok (VView (length (st_views s)))).
Proof.
  intros At Q T Rd. cbn [step]. unfold ps_generic. rewrite (locate_found _ _ _ _ At), (on_read_again _ _ _ _ _ _ Q T Rd).
  reflexivity.
Qed.

(** ** Reading fresh views *)
Lemma nth_app_at {A} (l m k : list A) i : (i < length m)%nat -> nth_error (l ++ m ++ k) (length l + i) = nth_error m i.
Proof.
  intros L. rewrite nth_error_app2 by lia. replace (length l + i - length l) with i by lia. now apply nth_error_app1.
Qed.

(** The sum over leaf views that are fresh depends on the parameters only. *)
Definition leaf_read (ps : list param) (v : view) : res (list num) :=
  match nth_error ps (v_param v) with
  | None => Err EInvalid
  | Some q => if has_children q then Err EAttributeError else ts_own v q
  end.
Fixpoint leaf_sum (ps : list param) (cvs : list view) (acc : option (list num)) : res (list num) :=
  match cvs with
  | [] => match acc with Some a => Ok a | None => Err EMistyped end
  | v :: cvs' =>
    match leaf_read ps v with
    | Err e => Err e
    | Ok xs =>
      match acc with
      | None => leaf_sum ps cvs' (Some (map (nadd (Some 0%R)) xs))
      | Some a => match arr_add a xs with Err e => Err e | Ok a' => leaf_sum ps cvs' (Some a') end
      end
    end
  end.
Lemma read_leaf_fresh s c v : nth_error (st_views s) c = Some v -> v_data v = None ->
  exists s', read_with leaf_values s c = (s', leaf_read (st_params s) v) /\ st_params s' = st_params s /\
    forall i, i <> c -> nth_error (st_views s') i = nth_error (st_views s) i.
Proof.
  intros V D. unfold read_with, leaf_values, leaf_read. rewrite V, D.
  destruct (nth_error (st_params s) (v_param v)) as [q|]; [|exists s; auto].
  destruct (if has_children q then Err EAttributeError else ts_own v q) as [xs|e]; [|exists s; auto].
  eexists. split; [reflexivity|]. split; [reflexivity|]. intros i N. simpl. apply nth_upd_neq. auto.
Qed.
Lemma sum_fresh cvs : forall s a acc, (forall i v, nth_error cvs i = Some v -> nth_error (st_views s) (a + i) = Some v /\ v_data v = None) ->
  snd (sum_children s (seq a (length cvs)) acc) = leaf_sum (st_params s) cvs acc.
Proof.
  induction cvs as [|v cvs IH]; intros s a acc Hv; simpl; auto.
  destruct (Hv 0%nat v eq_refl) as [V D]. rewrite Nat.add_0_r in V.
  destruct (read_leaf_fresh _ _ _ V D) as (s' & -> & P' & V').
  destruct (leaf_read (st_params s) v) as [xs|e]; [|reflexivity].
  assert (X : forall acc, snd (sum_children s' (seq (S a) (length cvs)) acc) = leaf_sum (st_params s) cvs acc).
  { intros acc'. rewrite <- P'. apply IH. intros i w Hi. destruct (Hv (S i) w Hi) as [Vi Di]. split; auto.
    rewrite V' by lia. rewrite <- Vi. f_equal. lia. }
  destruct acc as [b|]; [|apply X]. destruct (arr_add b xs) as [c|e]; [apply X|reflexivity].
Qed.

(** What a fresh public view reads. *)
Definition fresh_read (ps : list param) (v : view) (cvs : list view) : res (list num) :=
  match nth_error ps (v_param v) with
  | None => Err EInvalid
  | Some q => if has_children q then leaf_sum ps cvs None else ts_own v q
  end.
Lemma ts_get_fresh s vi v a cvs : nth_error (st_views s) vi = Some v -> v_data v = None ->
  v_children v = None \/ v_children v = Some (seq a (length cvs)) ->
  (forall q, nth_error (st_params s) (v_param v) = Some q -> p_children q <> [] -> v_children v <> None) ->
  (forall i w, nth_error cvs i = Some w -> nth_error (st_views s) (a + i) = Some w /\ v_data w = None) ->
  snd (ts_get s vi) = fresh_read (st_params s) v cvs.
Proof.
  intros V D C Cq Hv. unfold ts_get, read_with, fresh_read. rewrite V, D.
  destruct (nth_error (st_params s) (v_param v)) as [q|] eqn:Q; [|reflexivity].
  unfold get_values. rewrite Q. destruct (children_dec q) as [Cn|Cn].
  - rewrite (has_children_false _ Cn). destruct (ts_own v q); reflexivity.
  - rewrite (has_children_true _ Cn). destruct C as [C|C]; [exfalso; eapply Cq; eauto|]. rewrite C.
    pose proof (sum_fresh cvs s a None Hv) as E. destruct (sum_children s _ None) as [s' [xs|e]]; simpl in *; auto.
Qed.

(** Where parameters are depends on regions and children only. *)
Lemma param_at_shape s s2 : st_regions s2 = st_regions s ->
  (forall i, option_map p_children (nth_error (st_params s2) i) = option_map p_children (nth_error (st_params s) i)) ->
  forall rs ps, param_at s2 rs ps = param_at s rs ps.
Proof.
  intros Er Ep rs ps. unfold param_at, region_at, param_in. rewrite !Er.
  assert (R : forall l r, get_subregion s2 r l = get_subregion s r l).
  { induction l as [|a l IH]; simpl; auto. intros r. rewrite Er. destruct (nth_error (st_regions s) r); auto.
    destruct (alookup a (r_children r0)); auto. }
  assert (P : forall l p, get_subparameter s2 p l = get_subparameter s p l).
  { induction l as [|a l IH]; simpl; auto. intros p. specialize (Ep p).
    destruct (nth_error (st_params s2) p) as [q2|], (nth_error (st_params s) p) as [q|]; simpl in Ep; try discriminate; auto.
    inversion Ep as [E]. rewrite E. destruct (alookup a (p_children q)); auto. }
  destruct rs as [|a rs]; auto. destruct (nth_error (st_regions s) 0) as [rt|]; auto.
  destruct (String.eqb a (r_name rt)); auto. rewrite R. destruct (get_subregion s 0 rs) as [r|]; auto.
  destruct ps as [|b ps]; auto. destruct (nth_error (st_regions s) r); auto. destruct (alookup b (r_params r0)); auto.
Qed.
Lemma param_at_same s s2 : st_regions s2 = st_regions s -> st_params s2 = st_params s ->
  forall rs ps, param_at s2 rs ps = param_at s rs ps.
Proof. intros Er Ep. apply param_at_shape; auto. intros i. now rewrite Ep. Qed.

(** The request made again while the parameters are as after the first time: the new view reads
    what the first one read when it was new. *)
Lemma rmap_in {A B} (f : A -> res B) : forall l m, rmap f l = Ok m -> forall b, In b m -> exists a, f a = Ok b.
Proof.
  induction l as [|a l IH]; simpl; intros m Em b Hb; [inversion Em; subst; contradiction|].
  destruct (f a) as [y|] eqn:F; [|discriminate]. destruct (rmap f l) as [ys|] eqn:G; [|discriminate].
  inversion Em; subst. destruct Hb as [<-|Hb]; eauto.
Qed.
Lemma get_values_public s vi v : nth_error (st_views s) vi = Some v -> v_public v = true -> v_kind v = KTimeseries ->
  answer env (OGetValues vi) s = match snd (ts_get s vi) with Ok xs => Ok (VArr xs) | Err e => Err e end.
Proof.
  intros V Pb K. unfold answer. cbn [step]. unfold with_view. rewrite V, Pb, K. unfold lift.
  destruct (ts_get s vi) as [s' [xs|e]]; reflexivity.
Qed.
Lemma made_reads s v q mk p l vi s' m : ts_made s v q mk p l vi -> v_data v = None -> v_kind v = KTimeseries ->
  v_children v = None -> v_param v = p -> nth_error (st_params s) p = Some q ->
  (forall i w, mk i = Ok w -> v_data w = None) ->
  st_params s' = st_params s -> st_views s' = st_views s ++ l ++ m ->
  answer env (OGetValues vi) s' = match fresh_read (st_params s) v (removelast l) with Ok xs => Ok (VArr xs) | Err e => Err e end.
Proof.
  intros Md D K Cn Pv Q Fm Ep Ev. destruct Md as [C|ls cvs C Ls Cv].
  - assert (V : nth_error (st_views s') (length (st_views s)) = Some (v_set_public v)).
    { rewrite Ev. simpl. rewrite nth_error_app2 by lia. now rewrite Nat.sub_diag. }
    rewrite (get_values_public _ _ _ V eq_refl K).
    rewrite (ts_get_fresh s' _ _ 0 [] V D (or_introl Cn)), Ep; [reflexivity| |intros [|i]; discriminate].
    simpl. intros q' Q' Nc. rewrite Ep, Pv in Q'. congruence.
  - set (v1 := v_set_public (v_set_children v (seq (length (st_views s)) (length cvs)))) in *.
    assert (V : nth_error (st_views s') (length (st_views s) + length cvs) = Some v1).
    { rewrite Ev. rewrite nth_error_app2 by lia. replace (length (st_views s) + length cvs - length (st_views s)) with (length cvs) by lia.
      rewrite <- app_assoc. rewrite nth_error_app2 by lia. now rewrite Nat.sub_diag. }
    rewrite (get_values_public _ _ _ V eq_refl K).
    rewrite (ts_get_fresh s' _ v1 (length (st_views s)) cvs V D (or_intror eq_refl)), Ep.
    + rewrite removelast_last. reflexivity.
    + simpl. discriminate.
    + intros i w Hi. split.
      * rewrite Ev, <- app_assoc. rewrite nth_app_at; auto. apply nth_error_Some. congruence.
      * destruct (rmap_in _ _ _ Cv w (nth_error_In _ _ Hi)) as (a & Ea). eapply Fm; eauto.
Qed.
Lemma ts_request_again n u tp r ty ip ex s s1 vi : wf env s ->
  step env (OTimeseries n u tp r ty ip ex) s = (s1, Ok (VView vi)) ->
  forall s2, st_regions s2 = st_regions s1 -> st_params s2 = st_params s1 ->
  exists l vi2, step env (OTimeseries n u tp r ty ip ex) s2 = (appended s2 l, Ok (VView vi2)) /\
    forall m m2, answer env (OGetValues vi2) (appended (appended s2 l) m2) = answer env (OGetValues vi) (appended s1 m).
Proof.
  intros W St s2 Er Ep. destruct (ts_request_inv _ _ _ _ _ _ _ _ _ _ W St) as
    (t & i & x & p & q & v & l & vi' & Et & Ei & Ex & At1 & Q1 & T1 & Rd1 & Lv & Md & Vs & Ey).
  inversion Ey; subst vi'; clear Ey.
  assert (Mk : forall i, ts_leaf_view env s2 u (tp_ticks tp) t x i = ts_leaf_view env s1 u (tp_ticks tp) t x i)
    by (intros j; unfold ts_leaf_view; now rewrite Ep).
  assert (Md2 : exists l2 vi2, ts_made s2 v q (ts_leaf_view env s2 u (tp_ticks tp) t x) p l2 vi2 /\ removelast l2 = removelast l).
  { destruct Md as [C|ls cvs C Ls Cv].
    - eexists _, _. split; [now apply made_leaf|reflexivity].
    - eexists _, _. split. 
      + eapply made_aggregate; [exact C| |].
        * unfold param_leaves in *. rewrite Ep. exact Ls.
        * rewrite <- Cv. clear - Mk. induction ls as [|a ls IH]; simpl; auto. rewrite Mk. destruct (ts_leaf_view env s1 u (tp_ticks tp) t x a); auto.
          rewrite IH. reflexivity.
      + rewrite !removelast_last. reflexivity. }
  destruct Md2 as (l2 & vi2 & Md2 & El). exists l2, vi2.
  assert (At2 : param_at s2 (hcomponents r) (hcomponents n) = Some p).
  { rewrite (param_at_same s1 s2); auto. }
  split. { apply (ts_request_make _ _ _ _ _ _ _ _ t i x p q v); auto; congruence. }
  intros m m2. pose proof (ts_leaf_fresh env _ _ _ _ _ _ _ Lv) as (D & _).
  assert (Pk : v_param v = p /\ v_kind v = KTimeseries /\ v_children v = None).
  { unfold ts_leaf_view in Lv. rewrite Q1 in Lv.
    destruct (unit_converter _ _ _); [|discriminate]. destruct (p_time q); [|discriminate].
    destruct (timeseries_converter _ _ _ _); inversion Lv. auto. }
  destruct Pk as (Pv & K & Cn).
  rewrite (made_reads _ _ _ _ _ _ _ (appended s1 m) m Md D K Cn Pv); auto.
  - rewrite (made_reads _ _ _ _ _ _ _ (appended (appended s2 l2) m2) m2 Md2 D K Cn Pv); auto.
    + rewrite El. simpl st_params. now rewrite Ep.
    + congruence.
    + intros j w Ew. apply ts_leaf_fresh in Ew. apply Ew.
    + simpl. now rewrite app_assoc.
  - intros j w Ew. apply ts_leaf_fresh in Ew. apply Ew.
  - simpl. rewrite Vs. now rewrite app_assoc.
Qed.
End A.
