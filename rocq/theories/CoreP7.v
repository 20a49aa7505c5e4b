(** Proofs of C19 and C20. *)
From Coq Require Import String List Arith Lia Bool ZArith Reals Lra.
From Verif Require Import Base ListFacts Units TimeModel Core CoreEvo CoreTree CoreNames CoreInv
  CoreStep Spec_Core CoreReq CoreP1 CoreP2 CoreLeaves CoreP3 CoreP4 CoreView CoreErase Spec_View CoreP5 CoreP6.
From Verif Require Import TimeFacts TimeLin TimeConv TimeConv2 TimeConv3 Spec_Time TimeProps.
Import ListNotations.

(** ** Whether a conversion succeeds depends on the number of values only *)
Lemma combine_lo (xs ys : list R) ex f : length xs = length ys -> ip_lo (mkInterp (combine xs ys) ex f) = hd 0%R xs.
Proof. destruct xs, ys; simpl; intros; try discriminate; auto. Qed.
Lemma combine_hi (xs : list R) : forall ys ex f, length xs = length ys -> ip_hi (mkInterp (combine xs ys) ex f) = last xs 0%R.
Proof.
  unfold ip_hi. simpl. induction xs as [|x xs IH]; intros [|y ys] ex f L; try discriminate; auto.
  destruct xs as [|x' xs], ys as [|y' ys]; try discriminate; auto.
  change (combine (x :: x' :: xs) (y :: y' :: ys)) with ((x, y) :: (x', y') :: combine xs ys).
  change (last ((x, y) :: (x', y') :: combine xs ys) (0%R, 0%R)) with (last (combine (x' :: xs) (y' :: ys)) (0%R, 0%R)).
  rewrite (IH (y' :: ys) ex f) by (simpl in *; lia). auto.
Qed.
Lemma ip_ok_shape f f' l u : ip_extra f = ip_extra f' -> ip_lo f = ip_lo f' -> ip_hi f = ip_hi f' -> ip_ok f l u = ip_ok f' l u.
Proof. unfold ip_ok. now intros -> -> ->. Qed.
Lemma averages_shape f f' t : (forall l u, ip_ok f l u = ip_ok f' l u) -> forall ys, interval_averages f t = Ok ys ->
  exists ys', interval_averages f' t = Ok ys'.
Proof.
  intros H. induction t as [|l [|u t] IH]; intros ys E; try (eexists; reflexivity).
  change (interval_averages f (l :: u :: t)) with (if ip_ok f l u then match interval_averages f (u :: t) with
    Ok r => Ok (@Coquelicot.RInt.RInt Coquelicot.Hierarchy.R_CompleteNormedModule (ip_val f) l u / (u - l) :: r)%R | Err e => Err e end else Err EValueError) in E.
  change (interval_averages f' (l :: u :: t)) with (if ip_ok f' l u then match interval_averages f' (u :: t) with
    Ok r => Ok (@Coquelicot.RInt.RInt Coquelicot.Hierarchy.R_CompleteNormedModule (ip_val f') l u / (u - l) :: r)%R | Err e => Err e end else Err EValueError).
  rewrite <- H. destruct (ip_ok f l u); [|discriminate].
  destruct (interval_averages f (u :: t)); [|discriminate]. destruct (IH _ eq_refl) as [r ->]. eauto.
Qed.
Lemma points_shape f f' t : (forall l u, ip_ok f l u = ip_ok f' l u) -> forall ys, rmap (ip_eval f) t = Ok ys ->
  exists ys', rmap (ip_eval f') t = Ok ys'.
Proof.
  intros H. induction t as [|x t IH]; cbn [rmap]; intros ys E; [eauto|].
  unfold ip_eval at 1 in E. unfold ip_eval at 1. rewrite <- H. destruct (ip_ok f x x); [|discriminate].
  destruct (rmap (ip_eval f) t); [|discriminate]. destruct (IH _ eq_refl) as [r ->]. eauto.
Qed.
Lemma convert_shape ty ex v v' a b ys : length v = length v' -> convert_R ty ex v a b = Ok ys ->
  exists ys', convert_R ty ex v' a b = Ok ys'.
Proof.
  unfold convert_R. intros L H. rewrite <- L. destruct (Nat.ltb_spec (length v) 3); [discriminate|].
  unfold convert_unsafe, continuous_representation in *. destruct ty; try discriminate.
  - rewrite (linearization_len v') by lia. rewrite (linearization_len v) in H by lia. rewrite <- L.
    destruct (Nat.eqb_spec (length (linearization_points a)) (Datatypes.S (2 * length v))) as [E|E]; cbn [rbind] in *; [|discriminate].
    match type of H with context [interval_averages ?f b] => set (g := f) in * end.
    match goal with |- context [interval_averages ?f b] => set (g' := f) end.
    destruct (interval_averages g b) as [r|] eqn:I; [|destruct e; discriminate].
    destruct (averages_shape g g' b) with (ys := r) as [r' ->]; eauto.
    intros l u. apply ip_ok_shape; auto; unfold g, g'; [rewrite !combine_lo|rewrite !combine_hi]; auto; rewrite E, linearization_len; lia.
  - rewrite <- L. destruct (Nat.eqb_spec (length a) (length v)) as [E|E]; cbn [rbind] in *; [|discriminate].
    match type of H with context [rmap (ip_eval ?f) b] => set (g := f) in * end.
    match goal with |- context [rmap (ip_eval ?f) b] => set (g' := f) end.
    destruct (rmap (ip_eval g) b) as [r|] eqn:I; [|destruct e; discriminate].
    destruct (points_shape g g' b) with (ys := r) as [r' ->]; eauto.
    intros l u. apply ip_ok_shape; auto; unfold g, g'; [rewrite !combine_lo|rewrite !combine_hi]; auto; lia.
Qed.
Lemma all_some_length l xs : all_some l = Some xs -> length xs = length l.
Proof.
  revert xs; induction l as [|[x|] l IH]; simpl; intros xs H; try discriminate; [inversion H; auto|].
  destruct (all_some l); [|discriminate]. inversion H; subst. simpl. f_equal. auto.
Qed.
Lemma to_param_shape v l l' ys : length l = length l' -> to_param v l = Ok ys -> exists ys', to_param v l' = Ok ys'.
Proof.
  intros L. unfold to_param, nconvert, tconvert_to.
  set (u := uconvert_to (v_uconv v)).
  assert (X : forall ll zs, convert_R (tc_type (v_tconv v)) (tc_extra (v_tconv v)) ll (map IZR (tc_target (v_tconv v))) (map IZR (tc_source (v_tconv v))) = Ok zs ->
    length ll = length l -> exists ys',
    match all_some (map (option_map u) l') with
    | Some xs => match convert_R (tc_type (v_tconv v)) (tc_extra (v_tconv v)) xs (map IZR (tc_target (v_tconv v))) (map IZR (tc_source (v_tconv v))) with Ok ys => Ok (map Some ys) | Err e => Err e end
    | None => match convert_R (tc_type (v_tconv v)) (tc_extra (v_tconv v)) (map (fun x : num => match x with Some r => r | None => 0%R end) (map (option_map u) l')) (map IZR (tc_target (v_tconv v))) (map IZR (tc_source (v_tconv v))) with Ok ys => Ok (map (fun _ => None) ys) | Err e => Err e end
    end = Ok ys').
  { intros ll zs H Ll. destruct (all_some (map (option_map u) l')) as [xs|] eqn:A.
    - apply all_some_length in A. rewrite map_length in A. destruct (convert_shape _ _ ll xs _ _ _ (eq_trans Ll (eq_trans L (eq_sym A))) H) as [r ->]. eauto.
    - destruct (convert_shape _ _ ll (map (fun x : num => match x with Some r => r | None => 0%R end) (map (option_map u) l')) _ _ _ ltac:(rewrite !map_length; exact (eq_trans Ll L)) H) as [r ->]. eauto. }
  destruct (all_some (map (option_map u) l)) as [xs|] eqn:A.
  - apply all_some_length in A. rewrite map_length in A. match goal with |- context [convert_R ?a ?b xs ?c ?d] => destruct (convert_R a b xs c d) eqn:H end; [|discriminate]. intros _. eapply X; [exact H|auto].
  - match goal with |- context [convert_R ?a ?b (map ?f (map ?g l)) ?c ?d] => destruct (convert_R a b (map f (map g l)) c d) eqn:H end; [|discriminate]. intros _. eapply X; [exact H|]. now rewrite !map_length.
Qed.

Section P.
Variable env : uenv.
Notation wf := (wf env).

(** ** C19: using a current view, locked or not *)
Section Use.
Variables (s : state) (vi : nat) (v : view) (q : param).
Hypothesis V0 : nth_error (st_views s) vi = Some v.
Hypothesis Pb : v_public v = true.
Hypothesis K : v_kind v = KTimeseries.
Hypothesis Q0 : nth_error (st_params s) (v_param v) = Some q.

(** The view with cache [d], flags and version; the state in which it is so. *)
Definition mk (d : arr) (w lk : bool) (k : nat) : view :=
  mkView (v_public v) (v_kind v) (v_param v) (v_unit v) (v_uconv v) (v_tconv v) (v_children v) w (Some d) lk (Some k).
Definition st (Q : param) (d : arr) (w lk : bool) : state := put s (v_param v) Q vi (mk d w lk (p_version Q)).

(** What an operation does to the cache: new cache, writable flag, written?, answer. *)
Definition act (o : op) (d : arr) (w : bool) : arr * bool * bool * res val :=
  let item i x :=
    match pyindex (length (a_val d)) i with
    | None => (d, w, false, Err EIndexError)
    | Some j => match cast_item (a_int d) x with
                | Err e => (d, w, false, Err e)
                | Ok y => (mkArr (a_int d) (upd (a_val d) j y), w, true, Ok VUnit)
                end
    end in
  match o with
  | OSetValues _ a =>
    if (Z.of_nat (length (a_val a)) =? target_length (v_tconv v))%Z then
      if a_int d && negb (a_int a) then (d, true, false, Err ETypeError)
      else (mkArr (a_int d) (a_val a), true, true, Ok VUnit)
    else (d, true, false, Err ETimeseriesMismatch)
  | OSetItem _ i x | OHandleSet _ i x => item i x
  | OHandleGet _ i =>
    (d, w, false, match pyindex (length (a_val d)) i with
                  | None => Err EIndexError
                  | Some j => match nth_error (a_val d) j with Some x => Ok (VNum x) | None => Err EIndexError end
                  end)
  | OHandleIAdd _ x =>
    if a_int d then (d, w, false, Err ETypeError)
    else (mkArr false (map (fun y => nadd y (Some x)) (a_val d)), w, true, Ok VUnit)
  | _ => (d, w, false, Ok (VArr (a_val d)))
  end.

Lemma st_view Q d w lk : nth_error (st_views (st Q d w lk)) vi = Some (mk d w lk (p_version Q)).
Proof. eapply put_view; eauto. Qed.
Lemma st_param Q d w lk : nth_error (st_params (st Q d w lk)) (v_param v) = Some Q.
Proof. eapply put_param; eauto. Qed.
Lemma st_get Q d w lk : ts_get (st Q d w lk) vi = (st Q d w lk, Ok (a_val d)).
Proof.
  unfold ts_get, read_with. rewrite st_view. change (v_param (mk d w lk (p_version Q))) with (v_param v).
  rewrite st_param. cbn -[Nat.eqb]. rewrite Nat.eqb_refl. auto.
Qed.

(** Writing the cache [d'] of that view. *)
Lemma st_write Q d w lk d' :
  ts_write (set_view (st Q d w lk) vi (v_set_data (mk d w lk (p_version Q)) d')) vi =
  if lk then (st Q d' w true, Ok tt)
  else match to_param v (a_val d') with
       | Ok l => (st (p_store Q (PArr l)) d' w false, Ok tt)
       | Err e => (st Q d' w false, Err e)
       end.
Proof.
  assert (E : set_view (st Q d w lk) vi (v_set_data (mk d w lk (p_version Q)) d') = st Q d' w lk).
  { unfold set_view, st, put. simpl. now rewrite upd_upd. }
  rewrite E. unfold ts_write. rewrite st_view. simpl v_locked. destruct lk; auto. simpl v_data. simpl v_param.
  rewrite st_param. change (to_param (mk d' w false (p_version Q)) (a_val d')) with (to_param v (a_val d')).
  destruct (to_param v (a_val d')); auto. f_equal. unfold set_view, set_param, st, put. simpl. now rewrite !upd_upd.
Qed.

Lemma use_step o Q d w lk : wf (st Q d w lk) -> p_written Q = true -> p_children Q = [] ->
  uses o vi ->
  step env o (st Q d w lk) =
  match act o d w with
  | (d', w', b, x) =>
    if b && negb lk then
      match to_param v (a_val d') with
      | Ok l => (st (p_store Q (PArr l)) d' w' false, x)
      | Err e => (st Q d' w' false, Err e)
      end
    else (st Q d' w' lk, x)
  end.
Proof.
  intros W Wr C U.
  assert (Lock : forall d' w' (x : res val), (if true && negb lk then match to_param v (a_val d') with
      | Ok l => (st (p_store Q (PArr l)) d' w' false, x)
      | Err e => (st Q d' w' false, Err e) end else (st Q d' w' lk, x)) =
     (if lk then (st Q d' w' true, x) else match to_param v (a_val d') with
      | Ok l => (st (p_store Q (PArr l)) d' w' false, x)
      | Err e => (st Q d' w' false, Err e) end)) by (intros; destruct lk; reflexivity).
  assert (Hs : forall i x, lift (fun _ : unit => VUnit) (handle_set (st Q d w lk) vi i x) =
     match act (OHandleSet vi i x) d w with
     | (d', w', b, x) =>
       if b && negb lk then
         match to_param v (a_val d') with
         | Ok l => (st (p_store Q (PArr l)) d' w' false, x)
         | Err e => (st Q d' w' false, Err e)
         end
       else (st Q d' w' lk, x)
     end).
  { intros i x. unfold handle_set. rewrite st_view. simpl v_data. cbn [act].
    destruct (pyindex _ _) as [j|]; auto. destruct (cast_item _ _) as [y|e]; auto.
    change (a_int (mkArr (a_int d) (upd (a_val d) j y))) with (a_int d). rewrite st_write, Lock.
    destruct lk; auto. destruct (to_param v _); auto. }
  destruct o; simpl in U; try tauto; subst; cbn [step]; unfold with_view; rewrite st_view; simpl v_public; simpl v_kind; rewrite Pb, K.
  - rewrite st_get. auto.
  - (* whole assignment *)
    unfold ts_set.
    assert (Ty : tc_type (v_tconv (mk d w lk (p_version Q))) = vtype (mk d w lk (p_version Q))).
    { unfold vtype. simpl. now rewrite K. }
    rewrite Ty. destruct (check_write _ vi _ _ _ _) as [s1 [z|e]] eqn:Cw;
      eapply check_write_eff in Cw; eauto using st_view, st_param; [|tauto].
    destruct Cw as [_ ->]. rewrite (p_set_written_id _ Wr).
    assert (E : put (st Q d w lk) (v_param (mk d w lk (p_version Q))) Q vi (v_set_writable (mk d w lk (p_version Q))) = st Q d true lk).
    { unfold st. simpl v_param. rewrite put_put. auto. }
    rewrite E. cbn [act]. change (v_tconv (mk d w lk (p_version Q))) with (v_tconv v).
    destruct (_ =? _)%Z; auto. rewrite st_view. cbn [v_data mk]. destruct (a_int d && negb (a_int a)); auto.
    rewrite st_write. destruct lk; auto. simpl. destruct (to_param v (a_val a)); auto.
  - unfold ts_setitem. rewrite st_get. apply Hs.
  - simpl v_data. rewrite st_get. auto.
  - simpl v_data. auto.
  - apply Hs.
  - unfold handle_iadd. rewrite st_view. simpl v_data. rewrite st_get, st_view. simpl v_data. cbn [act].
    destruct (a_int d); auto. rewrite st_write. destruct lk; auto. simpl. destruct (to_param v (map _ _)); auto.
Qed.

Lemma act_length o d w d' w' b x : uses o vi -> act o d w = (d', w', b, x) ->
  Z.of_nat (length (a_val d)) = target_length (v_tconv v) -> Z.of_nat (length (a_val d')) = target_length (v_tconv v).
Proof.
  intros U H L. destruct o; simpl in U; try tauto; cbn [act] in H; try (inversion H; subst; auto; fail).
  - destruct (Z.eqb_spec (Z.of_nat (length (a_val a))) (target_length (v_tconv v))); [|inversion H; subst; auto].
    destruct (a_int d && negb (a_int a)); inversion H; subst; auto.
  - destruct (pyindex _ _); [|inversion H; subst; auto]. destruct (cast_item _ _); inversion H; subst; auto.
    simpl. now rewrite upd_length.
  - destruct (pyindex _ _); [|inversion H; subst; auto]. destruct (cast_item _ _); inversion H; subst; auto.
    simpl. now rewrite upd_length.
  - destruct (a_int d); inversion H; subst; auto. simpl. now rewrite map_length.
Qed.
Lemma act_same o d w d' w' x : act o d w = (d', w', false, x) -> d' = d.
Proof.
  destruct o; cbn [act]; try (intros H; inversion H; auto; fail).
  - destruct (_ =? _)%Z; [destruct (a_int d && negb (a_int a))|]; intros H; inversion H; auto.
  - destruct (pyindex _ _); [destruct (cast_item _ _)|]; intros H; inversion H; auto.
  - destruct (pyindex _ _); [destruct (cast_item _ _)|]; intros H; inversion H; auto.
  - destruct (a_int d); intros H; inversion H; auto.
Qed.

(** Locked and unlocked runs side by side. *)
Definition later (Q : param) (d : arr) : Prop :=
  Q = q \/ exists l k, Q = mkParam (p_name q) (p_parent q) (p_region q) (p_children q) (p_read q)
    (p_written q) (p_type q) (p_unit q) (p_time q) (Some (PArr l)) (p_version q + Datatypes.S k) /\ to_param v (a_val d) = Ok l.

Lemma use_run h : Forall (fun o => uses o vi) h -> p_written q = true -> p_children q = [] ->
  forall d w Q, wf (st q d w true) -> wf (st Q d w false) -> later Q d ->
  Z.of_nat (length (a_val d)) = target_length (v_tconv v) ->
  (forall l, Z.of_nat (length l) = target_length (v_tconv v) -> exists ys, to_param v l = Ok ys) ->
  answers env (st q d w true) h = answers env (st Q d w false) h /\
  exists d' w' Q', run env (st q d w true) h = st q d' w' true /\ run env (st Q d w false) h = st Q' d' w' false /\
    later Q' d' /\ Z.of_nat (length (a_val d')) = target_length (v_tconv v).
Proof.
  intros F Wr C. induction F as [|o h U F IH]; intros d w Q Wa Wb L Len Hto.
  { split; auto. exists d, w, Q. auto. }
  assert (WrQ : p_written Q = true) by (destruct L as [->|(l & k & -> & _)]; auto).
  assert (CQ : p_children Q = []) by (destruct L as [->|(l & k & -> & _)]; auto).
  pose proof (use_step o q d w true Wa Wr C U) as Sa. pose proof (use_step o Q d w false Wb WrQ CQ U) as Sb.
  pose proof (wf_after env o _ Wa) as Wa'. pose proof (wf_after env o _ Wb) as Wb'.
  simpl answers. unfold run in *. simpl fold_left. fold (run env). unfold answer, after in *. 
  destruct (act o d w) as [[[d' w'] b] x] eqn:A.
  pose proof (act_length _ _ _ _ _ _ _ U A Len) as Len'.
  rewrite andb_false_r in Sa. rewrite andb_true_r in Sb.
  destruct b.
  - destruct (Hto _ Len') as [l Tl]. rewrite Tl in Sb. rewrite Sa, Sb in *. simpl in *.
    destruct (IH d' w' (p_store Q (PArr l))) as [I1 I2]; auto.
    + right. destruct L as [->|(l0 & k & -> & _)].
      * exists l, 0. split; auto. unfold p_store. f_equal. lia.
      * exists l, (Datatypes.S k). split; auto. unfold p_store; simpl. f_equal. lia.
    + rewrite I1. split; auto.
  - rewrite Sa, Sb in *. simpl in *. pose proof (act_same _ _ _ _ _ _ A); subst d'.
    destruct (IH d w' Q) as [I1 I2]; auto. rewrite I1. split; auto.
Qed.
End Use.

Lemma C19_proof s0 vi p q h xs : reachable env s0 -> ts_view s0 vi p -> nth_error (st_params s0) p = Some q -> p_children q = [] ->
  answer env (OGetValues vi) s0 = Ok (VArr xs) ->
  let s := after env (OGetValues vi) s0 in
  (exists v, nth_error (st_views s) vi = Some v /\ v_locked v = false) ->
  Forall (fun o => uses o vi) h ->
  let su := run env s h in
  let sk := run env (after env (OLock vi) s) h in
  let sl := after env (OUnlock vi) sk in
  succeeds env (OUnlock vi) sk ->
  answers env (after env (OLock vi) s) h = answers env s h /\
  (exists qu ql, nth_error (st_params su) p = Some qu /\ nth_error (st_params sl) p = Some ql /\
     p_version ql = Datatypes.S (p_version q) /\
     (p_version qu <> p_version q -> p_data ql = p_data qu) /\ (p_version qu = p_version q -> p_data qu = p_data q) /\
     p_written ql = p_written qu /\ p_read ql = p_read qu /\ p_type ql = p_type qu /\ p_unit ql = p_unit qu /\
     p_time ql = p_time qu /\ p_children ql = p_children qu) /\
  answer env (OGetValues vi) sl = answer env (OGetValues vi) su /\
  answer env (OHandleArray vi) sl = answer env (OHandleArray vi) su /\
  (exists vu vl, nth_error (st_views su) vi = Some vu /\ nth_error (st_views sl) vi = Some vl /\
     v_locked vu = false /\ v_locked vl = false /\ v_data vu = v_data vl) /\
  (forall i, i <> p -> nth_error (st_params sl) i = nth_error (st_params su) i) /\
  (forall i, i <> vi -> nth_error (st_views sl) i = nth_error (st_views su) i) /\
  st_regions sl = st_regions su.
Proof.
  intros R (v0 & V0 & Pb & Vp & K) Q C A s (v & V & Lk) F su sk sl Us.
  pose proof (reachable_wf _ _ R) as W0. assert (W : wf s) by (apply wf_after; auto).
  assert (St : step env (OGetValues vi) s0 = lift VArr (ts_get s0 vi)).
  { cbn [step]. unfold with_view. now rewrite V0, Pb, K. }
  assert (E1 : s = fst (ts_get s0 vi)).
  { unfold s, after. rewrite St. destruct (ts_get s0 vi) as [? []]; auto. }
  unfold answer in A. rewrite St in A. clear St.
  destruct (ts_get s0 vi) as [s' [ys|e]] eqn:G; [|discriminate]. simpl in A. inversion A; subst ys. simpl in E1.
  pose proof Q as Qv. rewrite <- Vp in Qv.
  destruct (ts_get_cached _ _ _ _ _ _ V0 Qv G) as (v1 & V1 & Vr & Ve & d & D & Dx & Hd).
  pose proof (rd_params _ _ (rd_ts_get _ _ _ _ G)) as Ps.
  destruct (wf_ts_get env _ _ _ _ _ W0 V0 K G) as [_ Len]. specialize (Len _ eq_refl).
  clearbody s. subst s'. assert (v1 = v) by congruence; subst v1.
  assert (Pb' : v_public v = true) by (rewrite (vr_public _ _ Vr); auto).
  assert (K' : v_kind v = KTimeseries) by (rewrite (vr_kind _ _ Vr); auto).
  assert (Vp' : v_param v = p) by (rewrite (vr_param _ _ Vr); auto).
  assert (Q' : nth_error (st_params s) (v_param v) = Some q) by (rewrite Ps, Vp'; auto).
  destruct (view_cell _ _ _ _ W V) as (q0 & Qq & I). assert (q0 = q) by congruence; subst q0.
  assert (Wr : p_written q = true).
  { destruct (vi_data _ _ _ _ _ I) as [_ [X|X]]; auto; congruence. }
  rewrite <- (vr_tconv _ _ Vr) in Len.
  assert (Es : s = st s vi v q d (v_writable v) false).
  { unfold st. assert (E : mk v d (v_writable v) false (p_version q) = v).
    { unfold mk. rewrite <- D, <- Lk, <- Ve. destruct v; auto. }
    rewrite E. symmetry. apply put_same; auto. }
  assert (El : after env (OLock vi) s = st s vi v q d (v_writable v) true).
  { unfold after. cbn [step]. unfold with_view. rewrite V, Pb', K'. simpl. unfold st, put, set_view. rewrite (upd_same _ _ _ Q').
    f_equal. f_equal. unfold mk, v_set_locked. rewrite D, Ve. auto. }
  assert (Ut : forall w d, answer env (OUnlock vi) (st s vi v q d w true) = match to_param v (a_val d) with Ok l => Ok VUnit | Err e => Err e end /\
     after env (OUnlock vi) (st s vi v q d w true) = match to_param v (a_val d) with Ok l => st s vi v (p_store q (PArr l)) d w false | Err e => st s vi v q d w false end).
  { intros w d'. unfold answer, after. cbn [step]. unfold with_view. rewrite (st_view s vi v V). simpl v_public. simpl v_kind. rewrite Pb', K'.
    unfold ts_unlock.
    assert (E : set_view (st s vi v q d' w true) vi (v_set_locked (mk v d' w true (p_version q)) false) =
       set_view (st s vi v q d' w false) vi (v_set_data (mk v d' w false (p_version q)) d')).
    { unfold set_view, st, put. simpl. now rewrite !upd_upd. }
    rewrite E, (st_write s vi v q V Q'). destruct (to_param v (a_val d')); auto. }
  assert (Hto : forall l, Z.of_nat (length l) = target_length (v_tconv v) -> exists ys, to_param v l = Ok ys).
  { (* from the final cache of the locked run *)
    assert (X : forall h, Forall (fun o => uses o vi) h -> forall d w, wf (st s vi v q d w true) -> Z.of_nat (length (a_val d)) = target_length (v_tconv v) ->
      exists d' w', run env (st s vi v q d w true) h = st s vi v q d' w' true /\ Z.of_nat (length (a_val d')) = target_length (v_tconv v)).
    { clear - V Pb' K' Q' Wr C. induction 1 as [|o h U F IH]; intros d w Ws L; [exists d, w; auto|].
      pose proof (use_step s vi v q V Pb' K' Q' o q d w true Ws Wr C U) as S.
      pose proof (wf_after env o _ Ws) as Ws'.
      change (run env (st s vi v q d w true) (o :: h)) with (run env (after env o (st s vi v q d w true)) h). unfold after in *. rewrite S in *.
      destruct (act v o d w) as [[[d' w'] b] x] eqn:A. rewrite andb_false_r in *. simpl in *.
      apply IH; auto. eapply act_length; eauto. }
    destruct (X h F d (v_writable v)) as (d' & w' & E & L').
    - rewrite <- El. apply wf_after; auto.
    - congruence.
    - intros l Ll. destruct Us as [z Hz]. unfold sk in Hz. rewrite El, E in Hz.
      destruct (Ut w' d') as [U1 _]. rewrite U1 in Hz. destruct (to_param v (a_val d')) as [ys|] eqn:T; [|discriminate].
      eapply to_param_shape; [|exact T]. lia. }
  destruct (use_run s vi v q V Pb' K' Q' h F Wr C d (v_writable v) q) as [B1 (d' & w' & Q2 & Ra & Rb & L2 & Len2)]; auto.
  { rewrite <- El. apply wf_after; auto. } { rewrite <- Es; auto. } { left; auto. } { congruence. }
  rewrite El. rewrite <- Es in B1, Rb. rewrite <- El in Ra. fold su in Rb. fold sk in Ra.
  destruct (Hto _ Len2) as [l Tl]. destruct (Ut w' d') as [_ U2]. rewrite Tl in U2.
  assert (Esl : sl = st s vi v (p_store q (PArr l)) d' w' false) by (unfold sl; rewrite Ra; auto).
  split; auto. rewrite Esl, Rb.
  assert (Gv : forall X, answer env (OGetValues vi) (st s vi v X d' w' false) = Ok (VArr (a_val d'))).
  { intros X. unfold answer. cbn [step]. unfold with_view. rewrite (st_view s vi v V). simpl v_public. simpl v_kind. rewrite Pb', K'.
    rewrite (st_get s vi v q V Q'). auto. }
  assert (Ga : forall X, answer env (OHandleArray vi) (st s vi v X d' w' false) = Ok (VArr (a_val d'))).
  { intros X. unfold answer. cbn [step]. unfold with_view. rewrite (st_view s vi v V). simpl v_public. simpl v_kind. rewrite Pb', K'. auto. }
  split. 2: split; [rewrite !Gv; auto|]. 2: split; [rewrite !Ga; auto|]. 2: split; [|split; [|split; auto]].
  - exists Q2, (p_store q (PArr l)). rewrite <- Vp'. split; [eapply st_param; eauto|]. split; [eapply st_param; eauto|].
    simpl. split; auto. destruct L2 as [->|(l2 & k & -> & T2)]; simpl.
    + split; [congruence|]. split; auto 10.
    + split; [intros _; congruence|]. split; [lia|]. auto 10.
  - eexists. eexists. split; [eapply st_view; eauto|]. split; [eapply st_view; eauto|]. simpl. auto.
  - intros i Hi. unfold st. rewrite !put_param_other; auto; congruence.
  - intros i Hi. unfold st. rewrite !put_view_other; auto.
Qed.

(** ** C20 *)
(** While a view is locked, nothing done with it except [unlock] changes data. *)
Lemma C20_quiet s vi p v q o : reachable env s -> nth_error (st_views s) vi = Some v -> v_public v = true ->
  v_kind v = KTimeseries -> v_param v = p -> v_locked v = true -> nth_error (st_params s) p = Some q ->
  works_on o = Some vi -> o <> OUnlock vi ->
  exists q', nth_error (st_params (after env o s)) p = Some q' /\ p_data q' = p_data q /\ p_version q' = p_version q.
Proof.
  intros R V Pb K Vp Lk Q Wo No. pose proof (reachable_wf _ _ R) as W.
  destruct (view_cell _ _ _ _ W V) as (q0 & Q0 & I). rewrite Vp in Q0. assert (q0 = q) by congruence; subst q0.
  destruct (data_kept env o s p q W Q) as (q' & Q' & _ & D). { apply (vi_public _ _ _ _ _ I Pb). }
  exists q'. split; auto. pose proof (vw_step env o s p q' W Q') as X. rewrite Q in X. destruct X as [X _].
  assert (St : stores env s o p = false).
  { unfold stores. destruct (write_target o) as [w|] eqn:T; auto.
    assert (w = vi) by (destruct o; simpl in *; congruence). subst w. rewrite V, Lk.
    destruct (v_public v && _); auto. destruct (answer env o s) eqn:A; auto.
    destruct o; simpl in *; try discriminate; auto; try congruence;
      unfold answer in A; cbn [step] in A; unfold with_view in A; inversion Wo; subst; rewrite V, Pb, K in A; discriminate. }
  rewrite St in X. simpl in X. auto.
Qed.

(** On the parameter's own time points, reading and writing back is the identity. *)
Lemma map_some_all (xs : list R) : all_some (map Some xs) = Some xs.
Proof. induction xs; simpl; auto. now rewrite IHxs. Qed.
Lemma all_some_map l xs : all_some l = Some xs -> l = map Some xs.
Proof.
  revert xs; induction l as [|[x|] l IH]; simpl; intros xs H; try discriminate; [inversion H; auto|].
  destruct (all_some l); [|discriminate]. inversion H; subst. simpl. f_equal. auto.
Qed.
Lemma roundtrip v l xs : is_ts (tc_type (v_tconv v)) -> tc_source (v_tconv v) = tc_target (v_tconv v) ->
  increasing (tc_target (v_tconv v)) -> uc_scaling (v_uconv v) <> 0%R ->
  (forall x, In x l -> x <> None) ->
  from_param v l = Ok xs -> to_param v xs = Ok l.
Proof.
  intros T E I U N F.
  assert (exists rs, l = map Some rs) as [rs ->].
  { clear F. induction l as [|[x|] l IH]; [exists []; auto| |].
    - destruct IH as [rs ->]; [intros; apply N; right; auto|]. exists (x :: rs). auto.
    - exfalso. apply (N None); auto. left; auto. }
  unfold from_param, to_param, nconvert in *. rewrite map_map in F. simpl in F.
  assert (M : forall rs, map (fun x => Some (uconvert_from (v_uconv v) x)) rs = map Some (map (uconvert_from (v_uconv v)) rs)) by (intros; now rewrite map_map).
  rewrite M, map_some_all in F. clear M.
  destruct (tconvert_from (v_tconv v) (map (uconvert_from (v_uconv v)) rs)) as [ys|] eqn:Tf; [|discriminate].
  inversion F; subst xs. clear F.
  unfold tconvert_from in Tf. pose proof (convert_result _ _ _ _ _ _ Tf) as (Tt & Fi & L3 & _).
  set (zs := map (uconvert_from (v_uconv v)) rs) in *.
  assert (B : belongs (tc_type (v_tconv v)) (tc_target (v_tconv v)) zs).
  { rewrite E in Fi. split.
    - destruct T as [Ty|Ty]; rewrite Ty in *; simpl in *; rewrite map_length in Fi; auto; lia.
    - intros X. rewrite X in Fi. destruct T as [Ty|Ty]; rewrite Ty in *; simpl in Fi; lia. }
  destruct (same_grid (tc_type (v_tconv v)) (tc_extra (v_tconv v)) (tc_target (v_tconv v)) zs T I B L3) as (c & Tc & C1 & C2).
  apply converter_eq in Tc. destruct Tc as [-> _].
  assert (ys = zs).
  { unfold tconvert_from in C1. cbn [tc_type tc_extra tc_source tc_target] in C1. rewrite E in Tf. congruence. }
  subst ys. rewrite map_map. simpl.
  assert (M : map (fun x => Some (uconvert_to (v_uconv v) x)) zs = map Some rs).
  { unfold zs. rewrite map_map. apply map_ext. intros a. f_equal. unfold uconvert_to, uconvert_from. field; auto. }
  rewrite M, map_some_all.
  assert (B' : belongs (tc_type (v_tconv v)) (tc_target (v_tconv v)) rs).
  { destruct B as [B1 B2]. split; auto. unfold zs in B1. rewrite map_length in B1. auto. }
  destruct (same_grid (tc_type (v_tconv v)) (tc_extra (v_tconv v)) (tc_target (v_tconv v)) rs T I B') as (c & Tc & D1 & D2).
  { unfold zs in L3. rewrite map_length in L3. auto. }
  apply converter_eq in Tc. destruct Tc as [-> _].
  unfold tconvert_to in *. cbn [tc_type tc_extra tc_source tc_target] in D2. rewrite E, D2. auto.
Qed.

Lemma uc_scaling_nonzero a b c : good_env env -> unit_converter env a b = Ok c -> uc_scaling c <> 0%R.
Proof.
  intros G H. destruct (unit_converter_inv env _ _ _ H) as (u & w & ua & ub & E1 & E2 & A & B & _ & S & O).
  assert (u_scale ua <> 0 /\ u_scale ub <> 0)%R as [Na Nb] by (split; eapply G; eauto).
  assert (Sc : uc_scaling c = (u_scale ua * / u_scale ub)%R).
  { rewrite S. unfold pint_to. field. auto. }
  rewrite Sc. apply Rmult_integral_contrapositive_currified; auto. now apply Rinv_neq_0_compat.
Qed.

Lemma pair_step s w v q d l : nth_error (st_views s) w = Some v -> v_public v = true -> v_kind v = KTimeseries ->
  nth_error (st_params s) (v_param v) = Some q -> v_data v = Some d -> to_param v (a_val d) = Ok l ->
  let s' := after env (OUnlock w) (after env (OLock w) s) in
  answer env (OUnlock w) (after env (OLock w) s) = Ok VUnit /\
  exists q', nth_error (st_params s') (v_param v) = Some q' /\ p_data q' = Some (PArr l).
Proof.
  intros V Pb K Q D T.
  assert (Lw : w < length (st_views s)) by (apply nth_error_Some; congruence).
  assert (Lp : v_param v < length (st_params s)) by (apply nth_error_Some; congruence).
  assert (Lo : after env (OLock w) s = set_view s w (v_set_locked v true)).
  { unfold after. cbn [step]. unfold with_view. rewrite V, Pb, K. auto. }
  set (s2 := set_view (set_view s w (v_set_locked v true)) w (v_set_locked (v_set_locked v true) false)).
  assert (U : step env (OUnlock w) (after env (OLock w) s) =
    (set_view (set_param s2 (v_param v) (p_store q (PArr l))) w (v_set_version (v_set_locked (v_set_locked v true) false) (S (p_version q))), Ok VUnit)).
  { rewrite Lo. cbn [step]. unfold with_view.
    assert (V1 : nth_error (st_views (set_view s w (v_set_locked v true))) w = Some (v_set_locked v true)) by (apply nth_upd_eq; auto).
    rewrite V1. change (v_public (v_set_locked v true)) with (v_public v). change (v_kind (v_set_locked v true)) with (v_kind v).
    rewrite Pb, K. unfold ts_unlock. fold s2. unfold ts_write.
    assert (V2 : nth_error (st_views s2) w = Some (v_set_locked (v_set_locked v true) false)).
    { apply nth_upd_eq. unfold set_view. cbn [st_views]. rewrite upd_length; auto. }
    rewrite V2. cbn [v_locked v_set_locked v_data v_param]. rewrite D.
    change (st_params s2) with (st_params s). rewrite Q.
    change (to_param _ (a_val d)) with (to_param v (a_val d)). rewrite T. auto. }
  unfold after at 1. unfold answer. rewrite U. cbn [fst snd]. split; auto. exists (p_store q (PArr l)). split; auto.
  apply nth_upd_eq; auto.
Qed.

Lemma C20_pair root h1 o h2 p v0 w wv q ys :
  let s1 := run env (init_state root) h1 in let s2 := after env o s1 in let s3 := run env s2 h2 in
  tidy_run env (init_state root) (h1 ++ o :: h2) p ->
  ts_view s1 v0 p -> write_target o = Some v0 -> stores env s1 o p = true -> no_writes env s2 h2 p ->
  (exists q, nth_error (st_params s1) p = Some q /\ p_children q = []) ->
  nth_error (st_views s3) w = Some wv -> ts_view s3 w p -> nth_error (st_params s3) p = Some q ->
  w = v0 \/
  (good_env env /\ (exists tp, p_time q = Some tp /\ tp_ticks tp = tc_target (v_tconv wv)) /\
   increasing (tc_target (v_tconv wv)) /\
   forall l, p_data q = Some (PArr l) -> forall x, In x l -> x <> None) ->
  answer env (OGetValues w) s3 = Ok (VArr ys) ->
  let s4 := run env s3 [OGetValues w; OLock w] in
  answer env (OUnlock w) s4 = Ok VUnit /\
  exists q', nth_error (st_params (after env (OUnlock w) s4)) p = Some q' /\ p_data q' = p_data q.
Proof.
  intros s1 s2 s3 T (v & V & Pb & Vp & K) Wt St N (q1 & Q & C) Vw (wv' & Vw' & Pbw & Vpw & Kw) Qn H A.
  assert (wv' = wv) by congruence; subst wv'.
  assert (X : forall h a s, tidy_run env s (h ++ a) p -> tidy_run env s h p /\ tidy_run env (run env s h) a p).
  { induction h as [|x h IH]; simpl; intros a s Y; auto. destruct Y as [H1 H2]. apply IH in H2. tauto. }
  apply X in T. destruct T as [T1 T2]. fold s1 in T2. destruct T2 as [T2 T3]. fold s2 in T3.
  assert (W1 : wf s1) by apply wf_reachable.
  assert (S1 : all_sound s1 p). { apply (sound_run env); auto; [apply wf_init|apply sound_init]. }
  assert (L : leaf_view s1 p v0 v q1) by (repeat (split; auto)).
  destruct (settled_store env o s1 p v0 v q1 W1 L S1 T2 Wt St) as (xs & l & q' & Se & TP & Ha). fold s2 in Se.
  assert (W2 : wf s2) by (apply wf_after; auto).
  assert (S2 : all_sound s2 p) by (apply (sound_step env); auto).
  pose proof (settled_run env h2 s2 p v0 q' xs l W2 Se S2 T3 N) as Sf. fold s3 in Sf.
  assert (W3 : wf s3) by (apply wf_run'; auto).
  assert (S3 : all_sound s3 p) by (apply (sound_run env); auto).
  pose proof Sf as (Q3 & C3 & Rd3 & Wr3 & Da3 & (vv & Lv) & Cs).
  assert (q' = q) by congruence; subst q'.
  assert (Lw : leaf_view s3 p w wv q) by (repeat (split; auto)).
  pose proof (settled_read env _ _ _ _ _ _ _ _ Sf S3 Lw) as Rw. rewrite A in Rw.
  assert (TPw : to_param wv ys = Ok l).
  { destruct (Nat.eq_dec w v0) as [->|Nw].
    - inversion Rw; subst ys. assert (Ev : evo s1 s3).
      { eapply evo_trans; [apply (evo_step env _ _ _ _ (after_eq env o s1))|apply evo_run]. }
      destruct (ev_views _ _ Ev _ _ V) as (v' & V' & E). assert (v' = wv) by congruence; subst v'.
      rewrite <- TP. unfold to_param. now rewrite (ve_uconv _ _ E), (ve_tconv _ _ E).
    - destruct (from_param wv l) as [zs|] eqn:F; [|discriminate]. inversion Rw; subst zs.
      destruct H as [|(G & (tp & Tp & Tg) & In & Nn)]; [congruence|].
      destruct (view_cell _ _ _ _ W3 Vw) as (q0 & Q0 & I). assert (q0 = q) by congruence; subst q0.
      destruct (vi_tconv _ _ _ _ _ I Kw) as (tp' & Tp' & Tc). assert (tp' = tp) by congruence; subst tp'.
      apply converter_eq in Tc. destruct Tc as [Tc _].
      apply (roundtrip wv l ys); auto.
      + apply (vi_ktype _ _ _ _ _ I Kw).
      + rewrite Tc. cbn [tc_source tc_target]. auto.
      + assert (Kg : v_kind wv <> KGeneric) by congruence. exact (uc_scaling_nonzero _ _ _ G (vi_uconv _ _ _ _ _ I Kg)).
      + intros x Hx. exact (Nn _ Da3 x Hx). }
  destruct (Cs _ _ Lw) as [C1 C2]. pose proof (S3 _ _ _ Lw) as So.
  assert (exists v' d, nth_error (st_views (after env (OGetValues w) s3)) w = Some v' /\ v_public v' = true /\
    v_kind v' = KTimeseries /\ v_param v' = p /\ v_data v' = Some d /\ a_val d = ys /\ to_param v' ys = Ok l /\
    nth_error (st_params (after env (OGetValues w) s3)) p = Some q) as (v' & d & V4 & Pb4 & K4 & Vp4 & D4 & Ad & T4 & Q4).
  { unfold after, answer in *. cbn [step] in *. unfold with_view in *. rewrite Vw, Pbw, Kw in *.
    assert (Q3' : nth_error (st_params s3) (v_param wv) = Some q) by congruence.
    assert (Lt : w < length (st_views s3)) by (apply nth_error_Some; congruence).
    rewrite (ts_get_leaf _ _ _ _ Vw Q3' C3) in *.
    destruct (v_data wv) as [d|] eqn:D.
    - destruct (v_version wv) as [k|]; [|discriminate].
      destruct (k =? p_version q).
      + simpl in *. exists wv, d. inversion A; subst. auto 10.
      + destruct (ts_own wv q) as [zs|]; [|discriminate]. destruct (a_int d); [discriminate|].
        simpl in *. inversion A; subst. rewrite nth_upd_eq by auto. eexists _, _. split; [reflexivity|]. simpl. auto 10.
    - destruct (ts_own wv q) as [zs|]; [|discriminate].
      simpl in *. inversion A; subst. rewrite nth_upd_eq by auto. eexists _, _. split; [reflexivity|]. simpl. auto 10. }
  cbn [run]. rewrite Da3.
  set (s := after env (OGetValues w) s3) in *.
  destruct (pair_step s w v' q d l V4 Pb4 K4) as (B1 & q4 & B2 & B3); try congruence.
  split; auto. exists q4. split; [|auto]. rewrite Vp4 in B2. auto.
Qed.

(** ** C14: same time points *)
Lemma nconvert_some f rs r : nconvert f (map Some rs) = r -> r = match f rs with Ok ys => Ok (map Some ys) | Err e => Err e end.
Proof. unfold nconvert. rewrite map_some_all. intros <-. auto. Qed.

Lemma grid_convert ty ex t xs e ys : is_ts ty -> increasing t -> timeseries_converter t t ty ex = Ok e ->
  tconvert_to e xs = Ok ys -> ys = xs /\ tconvert_from e xs = Ok xs.
Proof.
  intros T I E C. apply converter_eq in E. destruct E as (-> & L2 & Ne).
  pose proof C as C'. unfold tconvert_to in C'. cbn [tc_type tc_extra tc_source tc_target] in C'.
  pose proof (convert_result _ _ _ _ _ _ C') as (Tt & Fi & L3 & _).
  assert (B : belongs ty t xs).
  { split; auto. destruct T as [Ty|Ty]; rewrite Ty in *; simpl in *; rewrite map_length in Fi; auto; lia. }
  destruct (same_grid ty ex t xs T I B L3) as (c & Tc & C1 & C2).
  apply converter_eq in Tc. destruct Tc as [-> _]. split; [congruence|auto].
Qed.

Lemma same_points q vv wv xs l r tp : good_env env -> kept_as env q vv (map Some xs) (Ok l) -> shown_as env q wv l r ->
  p_time q = Some tp -> tc_target (v_tconv vv) = tp_ticks tp -> tc_target (v_tconv wv) = tp_ticks tp ->
  is_ts (tc_type (v_tconv vv)) -> is_ts (tc_type (v_tconv wv)) -> tc_type (v_tconv vv) = tc_type (v_tconv wv) ->
  increasing (tp_ticks tp) ->
  exists ys, r = Ok (map Some ys) /\ Forall2 (fun x y => same_quantity env (v_unit vv) x (v_unit wv) y) xs ys.
Proof.
  intros G (uc & tp1 & tc & U & T1 & Tc & R) (uw & tp2 & tw & Uw & T2 & Tw & Rw) Tp Ev Ew Iv Iw Et I.
  assert (tp1 = tp) by congruence. assert (tp2 = tp) by congruence. subst tp1 tp2.
  rewrite Ev in Tc. rewrite Ew in Tw. rewrite map_map in R. simpl in R.
  rewrite <- (map_map (uconvert_to uc) Some) in R.
  symmetry in R. apply nconvert_some in R.
  destruct (tconvert_to tc (map (uconvert_to uc) xs)) as [zs|] eqn:C; [|discriminate]. inversion R; subst l. clear R.
  destruct (grid_convert _ _ _ _ _ _ Iv I Tc C) as [-> _].
  destruct (p_unit q) as [pu|] eqn:Pu; [|discriminate].
  assert (C2 : tconvert_from tw (map (uconvert_from uw) (map (uconvert_to uc) xs)) = Ok (map (uconvert_from uw) (map (uconvert_to uc) xs))).
  { pose proof C as C'. apply converter_eq in Tc. destruct Tc as (-> & L2 & Ne). unfold tconvert_to in C'. cbn [tc_type tc_extra tc_source tc_target] in C'.
    pose proof (convert_result _ _ _ _ _ _ C') as (Tt & Fi & L3 & _).
    assert (B : belongs (tc_type (v_tconv wv)) (tp_ticks tp) (map (uconvert_from uw) (map (uconvert_to uc) xs))).
    { split; auto. rewrite !map_length. rewrite <- Et. destruct Iv as [X|X]; rewrite X in *; simpl in *; rewrite !map_length in Fi; auto; lia. }
    destruct (same_grid _ (tc_extra (v_tconv wv)) _ _ Iw I B) as (c & Tc & C1 & _); [rewrite map_length; auto|].
    rewrite Tw in Tc. inversion Tc; subst; auto. }
  rewrite map_map in Rw. simpl in Rw. rewrite <- (map_map (uconvert_from uw) Some) in Rw.
  symmetry in Rw. apply nconvert_some in Rw. rewrite C2 in Rw.
  exists (map (uconvert_from uw) (map (uconvert_to uc) xs)). split; auto.
  rewrite map_map. clear - G U Uw. induction xs as [|x xs IH]; simpl; constructor; auto.
  destruct (uconv_phys env _ _ _ G U x) as [_ A].
  destruct (uconv_phys env _ _ _ G Uw (uconvert_to uc x)) as [B _].
  eapply same_quantity_trans; eauto.
Qed.

Lemma C14_same_points_proof root h1 a h2 p v0 w uv uw tp xs ys :
  let s1 := run env (init_state root) h1 in let s2 := after env (OSetValues v0 a) s1 in let s3 := run env s2 h2 in
  good_env env -> tidy_run env (init_state root) (h1 ++ OSetValues v0 a :: h2) p ->
  ts_view s1 v0 p -> stores env s1 (OSetValues v0 a) p = true -> no_writes env s2 h2 p ->
  (exists q, nth_error (st_params s1) p = Some q /\ p_children q = []) ->
  increasing tp ->
  (exists v q t, nth_error (st_views s3) v0 = Some v /\ v_unit v = uv /\ tc_target (v_tconv v) = tp /\
     nth_error (st_params s3) p = Some q /\ p_time q = Some t /\ tp_ticks t = tp) ->
  ts_view s3 w p -> w <> v0 -> (exists v, nth_error (st_views s3) w = Some v /\ v_unit v = uw /\ tc_target (v_tconv v) = tp) ->
  a_val a = map Some xs -> answer env (OGetValues w) s3 = ys ->
  exists zs, ys = Ok (VArr (map Some zs)) /\ Forall2 (fun x z => same_quantity env uv x uw z) xs zs.
Proof.
  intros s1 s2 s3 G T V St N L I (v & q & t & V3 & Uv & Tv & Q3 & Pt & Tt) Vw Nw (wv & Wv & Uw & Tw) Ax Ay.
  assert (Wt : write_target (OSetValues v0 a) = Some v0) by auto.
  destruct (C14_proof env root h1 (OSetValues v0 a) h2 p v0 T V Wt St N L) as (xs' & l & q' & vv & V' & Q' & Ha & Kp & An & Ot).
  fold s1 s2 s3 in V', Q', An, Ot. assert (vv = v) by congruence. assert (q' = q) by congruence. subst vv q'.
  rewrite (Ha a eq_refl), Ax in Kp.
  destruct (Ot w wv Wv Vw Nw) as (r & Sh & Ar). rewrite Ar in Ay.
  assert (W3 : wf s3). { unfold s3, s2. apply wf_run', wf_after, wf_reachable. }
  destruct Vw as (wv' & Wv' & Pbw & Vpw & Kw). assert (wv' = wv) by congruence; subst wv'.
  destruct V as (v1 & V1 & Pb1 & Vp1 & K1).
  assert (Ev : evo s1 s3). { eapply evo_trans; [apply (evo_step env _ _ _ _ (after_eq env (OSetValues v0 a) s1))|apply evo_run]. }
  destruct (ev_views _ _ Ev _ _ V1) as (v' & V'' & E). assert (v' = v) by congruence; subst v'.
  assert (Pv : v_public v = true) by (rewrite (ve_public _ _ E); auto).
  assert (Kv : v_kind v = KTimeseries) by (rewrite (ve_kind _ _ E); auto).
  assert (Pp : v_param v = p) by (rewrite (ve_param _ _ E); auto).
  destruct (view_cell _ _ _ _ W3 V3) as (q1 & Q1 & I1). assert (q1 = q) by congruence; subst q1.
  destruct (view_cell _ _ _ _ W3 Wv) as (q1 & Q2 & I2). assert (q1 = q) by congruence; subst q1.
  assert (Ety : tc_type (v_tconv v) = tc_type (v_tconv wv)).
  { destruct (vi_public _ _ _ _ _ I1 Pv) as (_ & T1 & _). destruct (vi_public _ _ _ _ _ I2 Pbw) as (_ & T2 & _).
    unfold vtype in *. rewrite Kv in T1. rewrite Kw in T2. congruence. }
  destruct (same_points q v wv xs l r t G Kp Sh Pt ltac:(congruence) ltac:(congruence) (vi_ktype _ _ _ _ _ I1 Kv)
    (vi_ktype _ _ _ _ _ I2 Kw) Ety ltac:(congruence)) as (zs & -> & F).
  exists zs. rewrite Uv, Uw in F. auto.
Qed.

(** ** C29 *)
Lemma C29_read_proof s vi v xs : reachable env s -> nth_error (st_views s) vi = Some v -> v_kind v = KTimeseries ->
  answer env (OGetValues vi) s = Ok (VArr xs) -> Z.of_nat (length xs) = view_length v.
Proof.
  intros R V K A. pose proof (reachable_wf _ _ R) as W. unfold answer in A. cbn [step] in A. unfold with_view in A.
  rewrite V, K in A. destruct (v_public v); [|discriminate].
  destruct (ts_get s vi) as [s' [l|e]] eqn:G; simpl in A; [|discriminate]. inversion A; subst l.
  destruct (wf_ts_get _ _ _ _ _ _ W V K G) as [_ X]. rewrite (X _ eq_refl).
  destruct (view_cell _ _ _ _ W V) as (q & Q & I). unfold target_length, view_length, series_length.
  destruct (vi_ktype _ _ _ _ _ I K) as [Y|Y]; rewrite Y; auto.
Qed.
End P.
