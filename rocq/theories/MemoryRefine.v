(** The arrays in memory behave as values: simulation of [Core.v] by [Memory.v]. *)
From Coq Require Import String List ZArith Reals Bool Arith Lia.
From Verif Require Import Base ListFacts Units TimeModel Core CoreEvo CoreTree CoreInv Memory.
Import ListNotations.
Local Open Scope list_scope.

(** What an array is for: kept by a parameter or converter (and never changed), the data of a view, or
    of the caller. *)
Inductive tag := TKept | TView (i : nat) | TCaller.

Definition keeps (P : tag -> Prop) (g : list tag) (h : list cell) (g' : list tag) (h' : list cell) : Prop :=
  (forall r t, nth_error g r = Some t -> nth_error g' r = Some t) /\
  (forall r t c, nth_error g r = Some t -> P t -> nth_error h r = Some c -> nth_error h' r = Some c).
Definition kept (t : tag) : Prop := t = TKept.

Definition keeps_ref g h (o : option nat) (t : tag) (c : cell) : Prop :=
  exists r, o = Some r /\ nth_error g r = Some t /\ nth_error h r = Some c.

Record pm g h (q : param) (mq : mparam) : Prop := {
  pm_type : mp_type mq = p_type q;
  pm_read : mp_read mq = p_read q;
  pm_written : mp_written mq = p_written q;
  pm_version : mp_version mq = p_version q;
  pm_ts : forall t, p_type q = Some t -> is_ts t;
  pm_timed : p_time q <> None -> p_type q <> None;
  pm_time : match p_time q with
            | None => mp_time mq = None
            | Some tp => keeps_ref g h (mp_time mq) TKept (Times (tp_ticks tp))
            end;
  pm_data : match p_data q with
            | None => mp_data mq = None
            | Some (PArr d) => keeps_ref g h (mp_data mq) TKept (Nums (mkArr false d))
            | _ => False
            end }.

Record same_names (q nq : param) : Prop := {
  sn_name : p_name nq = p_name q;
  sn_parent : p_parent nq = p_parent q;
  sn_region : p_region nq = p_region q;
  sn_children : p_children nq = p_children q;
  sn_unit : p_unit nq = p_unit q }.

Record vs g h (v : view) (w : mview) : Prop := {
  vs_public : mv_public w = v_public v;
  vs_kind : v_kind v = KTimeseries;
  vs_gen : mv_generic w = false;
  vs_param : mv_param w = v_param v;
  vs_uconv : mv_uconv w = v_uconv v;
  vs_type : mv_type w = tc_type (v_tconv v);
  vs_extra : mv_extra w = tc_extra (v_tconv v);
  vs_ts : is_ts (tc_type (v_tconv v));
  vs_source : keeps_ref g h (mv_source w) TKept (Times (tc_source (v_tconv v)));
  vs_target : keeps_ref g h (mv_target w) TKept (Times (tc_target (v_tconv v)));
  vs_children : mv_children w = v_children v }.

Record vm g h (i : nat) (v : view) (w : mview) : Prop := {
  vm_static : vs g h v w;
  vm_writable : mv_writable w = v_writable v;
  vm_locked : mv_locked w = v_locked v;
  vm_version : mv_version w = v_version v;
  vm_data : match v_data v with
            | None => mv_data w = None
            | Some d => keeps_ref g h (mv_data w) (TView i) (Nums d)
            end }.

Record rep (g : list tag) (n s : state) (m : mem) : Prop := {
  r_len : length g = length (m_heap m);
  r_regions : st_regions n = st_regions s;
  r_pl : length (m_params m) = length (st_params s);
  r_nl : length (st_params n) = length (st_params s);
  r_p : forall p q, nth_error (st_params s) p = Some q ->
    exists mq, nth_error (m_params m) p = Some mq /\ pm g (m_heap m) q mq;
  r_n : forall p q, nth_error (st_params s) p = Some q ->
    exists nq, nth_error (st_params n) p = Some nq /\ same_names q nq;
  r_vl : length (m_views m) = length (st_views s);
  r_v : forall i v, nth_error (st_views s) i = Some v ->
    exists w, nth_error (m_views m) i = Some w /\ vm g (m_heap m) i v w;
  r_vp : forall i v, nth_error (st_views s) i = Some v ->
    exists q, nth_error (st_params s) (v_param v) = Some q /\ p_type q <> None;
  r_c : forall r, In r (m_caller m) -> nth_error g r = Some TCaller;
  r_nodup : NoDup (m_caller m) }.

Record ext (g : list tag) (m : mem) (g' : list tag) (m' : mem) : Prop := {
  e_keeps : keeps (fun t => forall i, t <> TView i) g (m_heap m) g' (m_heap m');
  e_caller : m_caller m' = m_caller m }.

(** ** Growing *)
Lemma keeps_refl P g h : keeps P g h g h.
Proof. split; auto. Qed.
Lemma keeps_trans P g h g1 h1 g2 h2 : keeps P g h g1 h1 -> keeps P g1 h1 g2 h2 -> keeps P g h g2 h2.
Proof. intros [A B] [C D]. split; eauto. Qed.
Lemma keeps_weaken (P Q : tag -> Prop) g h g' h' : (forall t, Q t -> P t) -> keeps P g h g' h' -> keeps Q g h g' h'.
Proof. intros I [A B]. split; eauto. Qed.
Lemma ext_refl g m : ext g m g m.
Proof. split; [apply keeps_refl|auto]. Qed.
Lemma ext_trans g m g1 m1 g2 m2 : ext g m g1 m1 -> ext g1 m1 g2 m2 -> ext g m g2 m2.
Proof. intros [A B] [C D]. split; [eapply keeps_trans; eauto|congruence]. Qed.
Lemma ext_kept g m g' m' : ext g m g' m' -> keeps kept g (m_heap m) g' (m_heap m').
Proof. intros [A _]. eapply keeps_weaken; [|exact A]. intros t -> i; discriminate. Qed.

Lemma ref_mono (P : tag -> Prop) g h g' h' o t c : P t -> keeps P g h g' h' -> keeps_ref g h o t c -> keeps_ref g' h' o t c.
Proof. intros Pt [A B] (r & O & T & C). exists r. split; [auto|split; eauto]. Qed.
Lemma pm_mono g h g' h' q mq : keeps kept g h g' h' -> pm g h q mq -> pm g' h' q mq.
Proof.
  intros Kp []. constructor; auto.
  - destruct (p_time q); auto. eapply ref_mono; eauto. reflexivity.
  - destruct (p_data q) as [[]|]; auto. eapply ref_mono; eauto. reflexivity.
Qed.
Lemma vs_mono g h g' h' v w : keeps kept g h g' h' -> vs g h v w -> vs g' h' v w.
Proof.
  intros Kp []. constructor; auto; eapply ref_mono; eauto; reflexivity.
Qed.
Lemma vm_mono g h g' h' i v w : keeps (fun t => t = TKept \/ t = TView i) g h g' h' -> vm g h i v w -> vm g' h' i v w.
Proof.
  intros Kp []. constructor; auto.
  - eapply vs_mono; [|eauto]. eapply keeps_weaken; [|exact Kp]. intros t ->; auto.
  - destruct (v_data v); auto. eapply ref_mono; [|exact Kp|eauto]. simpl; auto.
Qed.

Lemma upd_same {A} (l : list A) i x : nth_error l i = Some x -> upd l i x = l.
Proof. revert i; induction l; intros [|i]; simpl; try discriminate; [congruence|]. intros H. now rewrite IHl. Qed.
Lemma nth_ex {A B} (l : list A) (l' : list B) i x : length l' = length l -> nth_error l i = Some x -> exists y, nth_error l' i = Some y.
Proof.
  intros L H. destruct (nth_error l' i) eqn:Q; eauto. apply nth_error_None in Q. apply nth_lt in H. lia.
Qed.
Lemma nth_no {A B} (l : list A) (l' : list B) i : length l' = length l -> nth_error l i = None -> nth_error l' i = None.
Proof. intros L H. apply nth_error_None. apply nth_error_None in H. lia. Qed.

Section N.
Variable n : state.

Lemma rep_new g s m t c : rep g n s m ->
  rep (g ++ [t]) n s (mkMem (m_heap m ++ [c]) (m_params m) (m_views m) (m_caller m)).
Proof.
  intros []. assert (Kp : forall P, keeps P g (m_heap m) (g ++ [t]) (m_heap m ++ [c])).
  { split; intros; apply nth_app_old; auto. }
  constructor; simpl; auto.
  - rewrite !app_length; simpl; lia.
  - intros p q Q. destruct (r_p0 _ _ Q) as (mq & A & B). exists mq. split; [auto|eapply pm_mono; eauto].
  - intros i v V. destruct (r_v0 _ _ V) as (w & A & B). exists w. split; [auto|eapply vm_mono; eauto].
  - intros r I. apply nth_app_old; auto.
Qed.
Lemma ext_new g m t c : length g = length (m_heap m) ->
  ext g m (g ++ [t]) (mkMem (m_heap m ++ [c]) (m_params m) (m_views m) (m_caller m)).
Proof. intros L. split; auto. split; simpl; intros; apply nth_app_old; auto. Qed.

Lemma rep_param g s m p q q' mq' : rep g n s m -> nth_error (st_params s) p = Some q ->
  pm g (m_heap m) q' mq' ->
  p_name q' = p_name q -> p_parent q' = p_parent q -> p_region q' = p_region q ->
  p_children q' = p_children q -> p_unit q' = p_unit q ->
  (p_type q <> None -> p_type q' <> None) ->
  rep g n (set_param s p q') (mkMem (m_heap m) (upd (m_params m) p mq') (m_views m) (m_caller m)).
Proof.
  intros [] Q PM N1 N2 N3 N4 N5 N6. constructor; simpl; rewrite ?upd_length; auto.
  - intros p' x. rewrite !nth_upd. destruct (Nat.eqb_spec p p').
    + subst. destruct (nth_error (st_params s) p') eqn:E; [|discriminate]. intros [= <-].
      destruct (r_p0 _ _ E) as (mq & -> & _). eauto.
    + eauto.
  - intros p' x. rewrite !nth_upd. destruct (Nat.eqb_spec p p').
    + subst. rewrite Q. intros [= <-]. destruct (r_n0 _ _ Q) as (nq & A & []). exists nq. split; auto.
      constructor; congruence.
    + eauto.
  - intros i v V. destruct (r_vp0 _ _ V) as (x & X & T). rewrite nth_upd. destruct (Nat.eqb_spec p (v_param v)).
    + subst. rewrite Q. exists q'. split; auto. apply N6. congruence.
    + eauto.
Qed.
Lemma ext_param g m ps : ext g m g (mkMem (m_heap m) ps (m_views m) (m_caller m)).
Proof. split; [apply keeps_refl|auto]. Qed.

Lemma rep_view g s m i v v' w' : rep g n s m -> nth_error (st_views s) i = Some v ->
  vm g (m_heap m) i v' w' -> v_param v' = v_param v ->
  rep g n (set_view s i v') (mkMem (m_heap m) (m_params m) (upd (m_views m) i w') (m_caller m)).
Proof.
  intros [] V VM P. constructor; simpl; rewrite ?upd_length; auto.
  - intros j x. rewrite !nth_upd. destruct (Nat.eqb_spec i j).
    + subst. rewrite V. intros [= <-]. destruct (r_v0 _ _ V) as (w & -> & _). eauto.
    + eauto.
  - intros j x. rewrite !nth_upd. destruct (Nat.eqb_spec i j).
    + subst. rewrite V. intros [= <-]. rewrite P. eauto.
    + eauto.
Qed.
Lemma ext_view g m ws : ext g m g (mkMem (m_heap m) (m_params m) ws (m_caller m)).
Proof. split; [apply keeps_refl|auto]. Qed.

Lemma keeps_over P g h r t c : nth_error g r = Some t -> ~ P t -> keeps P g h g (upd h r c).
Proof.
  intros T N. split; auto. intros r' t' c' T' P' C. rewrite nth_upd. destruct (Nat.eqb_spec r r'); auto.
  subst. congruence.
Qed.
Lemma rep_over g s m i r c v v' w' : rep g n s m -> nth_error (st_views s) i = Some v ->
  nth_error g r = Some (TView i) ->
  vm g (upd (m_heap m) r c) i v' w' -> v_param v' = v_param v ->
  rep g n (set_view s i v') (mkMem (upd (m_heap m) r c) (m_params m) (upd (m_views m) i w') (m_caller m)).
Proof.
  intros [] V T VM P. constructor; simpl; rewrite ?upd_length; auto.
  - intros p q Q. destruct (r_p0 _ _ Q) as (mq & A & B). exists mq. split; auto.
    eapply pm_mono; [|exact B]. eapply keeps_over; eauto. unfold kept. discriminate.
  - intros j x. rewrite !nth_upd. destruct (Nat.eqb_spec i j).
    + subst. rewrite V. intros [= <-]. destruct (r_v0 _ _ V) as (w & -> & _). eauto.
    + intros X. destruct (r_v0 _ _ X) as (w & A & B). exists w. split; auto.
      eapply vm_mono; [|exact B]. eapply keeps_over; eauto. intros [|]; congruence.
  - intros j x. rewrite !nth_upd. destruct (Nat.eqb_spec i j).
    + subst. rewrite V. intros [= <-]. rewrite P. eauto.
    + eauto.
Qed.
Lemma ext_over g m i r c ps ws : nth_error g r = Some (TView i) ->
  ext g m g (mkMem (upd (m_heap m) r c) ps ws (m_caller m)).
Proof. intros T. split; auto. simpl. eapply keeps_over; [exact T|]. intros H. eapply H; eauto. Qed.

(** ** Functions of views *)
Variable leaves : nat -> list nat.
Variable units : nat -> string -> res uconv.
Hypothesis K : forall p nq, nth_error (st_params n) p = Some nq -> kids leaves p = has_children nq.

Definition sim {A} (g : list tag) (s : state) (m : mem) (x : MM A) (y : state * res A) : Prop :=
  exists g' m', x m = (m', snd y) /\ rep g' n (fst y) m' /\ ext g m g' m'.

Lemma rep_kids g s m p q : rep g n s m -> nth_error (st_params s) p = Some q -> kids leaves p = has_children q.
Proof.
  intros R Q. destruct (r_n _ _ _ _ R _ _ Q) as (nq & A & B). rewrite (K _ _ A). unfold has_children.
  now rewrite (sn_children _ _ B).
Qed.
Lemma content_is m r c : nth_error (m_heap m) r = Some c -> content r m = (m, Ok c).
Proof. intros H. unfold content. now rewrite H. Qed.
Lemma times_is m r l : nth_error (m_heap m) r = Some (Times l) -> times r m = (m, Ok l).
Proof. intros H. unfold times, mbind. now rewrite (content_is _ _ _ H). Qed.
Lemma numbers_is m r a : nth_error (m_heap m) r = Some (Nums a) -> numbers r m = (m, Ok a).
Proof. intros H. unfold numbers, mbind. now rewrite (content_is _ _ _ H). Qed.
Lemma param_is g s m p q : rep g n s m -> nth_error (st_params s) p = Some q ->
  exists mq, get_param p m = (m, Ok mq) /\ nth_error (m_params m) p = Some mq /\ pm g (m_heap m) q mq.
Proof.
  intros R Q. destruct (r_p _ _ _ _ R _ _ Q) as (mq & A & B). exists mq. unfold get_param. rewrite A. auto.
Qed.
Lemma view_is g s m i v : rep g n s m -> nth_error (st_views s) i = Some v ->
  exists w, get_view i m = (m, Ok w) /\ nth_error (m_views m) i = Some w /\ vm g (m_heap m) i v w.
Proof.
  intros R V. destruct (r_v _ _ _ _ R _ _ V) as (w & A & B). exists w. unfold get_view. rewrite A. auto.
Qed.
Lemma view_not g s m i : rep g n s m -> nth_error (st_views s) i = None -> get_view i m = (m, Err EInvalid).
Proof. intros R V. unfold get_view. now rewrite (nth_no _ _ _ (r_vl _ _ _ _ R) V). Qed.

Lemma converter_is g m v w : vs g (m_heap m) v w -> converter w m = (m, Ok (v_tconv v)).
Proof.
  intros []. destruct vs_source0 as (r & A & _ & B), vs_target0 as (r' & A' & _ & B').
  unfold converter, mbind. rewrite A. simpl. rewrite (times_is _ _ _ B), A'. simpl.
  rewrite (times_is _ _ _ B'). unfold mret. rewrite vs_type0, vs_extra0. now destruct (v_tconv v).
Qed.

Lemma own_is g s m v w q : rep g n s m -> vs g (m_heap m) v w -> nth_error (st_params s) (v_param v) = Some q ->
  own_values w m = (m, ts_own v q).
Proof.
  intros R V Q. unfold own_values, mbind. rewrite (vs_param _ _ _ _ V).
  destruct (param_is _ _ _ _ _ R Q) as (mq & -> & _ & []). unfold ts_own. rewrite pm_written0.
  destruct (p_written q); auto. destruct (p_data q) as [[]|]; try contradiction.
  - destruct pm_data0 as (r & -> & _ & B). rewrite (numbers_is _ _ _ B), (converter_is _ _ _ _ V).
    unfold mlift, from_param. simpl. now rewrite (vs_uconv _ _ _ _ V).
  - rewrite pm_data0. reflexivity.
Qed.

Lemma vs_any g h v w wr d l k wr' d' l' k' : vs g h v w ->
  vs g h (mkView (v_public v) (v_kind v) (v_param v) (v_unit v) (v_uconv v) (v_tconv v) (v_children v) wr d l k)
    (mkMV (mv_public w) (mv_generic w) (mv_param w) (mv_uconv w) (mv_type w) (mv_extra w) (mv_source w)
       (mv_target w) (mv_children w) wr' d' l' k').
Proof. intros []. constructor; auto. Qed.
Lemma nth_here {A} (l : list A) i x c : nth_error l i = Some x -> nth_error (upd l i c) i = Some c.
Proof. intros H. apply nth_upd_eq. eapply nth_lt; eauto. Qed.
Lemma heap_has g s m r t : rep g n s m -> nth_error g r = Some t -> exists c, nth_error (m_heap m) r = Some c.
Proof. intros R T. eapply nth_ex; [|exact T]. symmetry. apply (r_len _ _ _ _ R). Qed.

Ltac same g m := exists g, m; split; [auto|split; [auto|try apply ext_refl; auto]].

Lemma sim_read get F :
  (forall g s m v w, rep g n s m -> vs g (m_heap m) v w ->
     (exists q, nth_error (st_params s) (v_param v) = Some q) -> sim g s m (get w) (F s v)) ->
  (forall s v i x, nth_error (st_views s) i = Some x ->
     exists x', nth_error (st_views (fst (F s v))) i = Some x' /\ v_param x' = v_param x) ->
  forall g s m vi, rep g n s m -> sim g s m (read_view get vi) (read_with F s vi).
Proof.
  intros G FV g s m vi R. unfold sim, read_with, read_view, mbind.
  destruct (nth_error (st_views s) vi) as [v|] eqn:V.
  2: { rewrite (view_not _ _ _ _ R V). same g m. }
  destruct (view_is _ _ _ _ _ R V) as (w & -> & Wn & VM).
  destruct (r_vp _ _ _ _ R _ _ V) as (q & Q & _). rewrite Q.
  rewrite (vs_param _ _ _ _ (vm_static _ _ _ _ _ VM)).
  destruct (param_is _ _ _ _ _ R Q) as (mq & -> & _ & PM). rewrite (pm_version _ _ _ _ PM).
  pose proof (G g s m v w R (vm_static _ _ _ _ _ VM) (ex_intro _ q Q)) as (g1 & m1 & X & R1 & E1).
  specialize (FV s v _ _ V). destruct FV as (v1 & V1 & P1).
  destruct (v_data v) as [d|] eqn:D; pose proof (vm_data _ _ _ _ _ VM) as VD; rewrite D in VD.
  - destruct VD as (r & Dr & Tr & Cr). rewrite Dr. rewrite (numbers_is _ _ _ Cr).
    rewrite (vm_version _ _ _ _ _ VM). destruct (v_version v) as [k|]; [|same g m].
    destruct (k =? p_version q); [same g m|].
    destruct (F s v) as [s1 [xs|e]]; simpl in *; rewrite X; [|same g1 m1].
    destruct (a_int d); [same g1 m1|].
    pose proof (proj1 (e_keeps _ _ _ _ E1) _ _ Tr) as Tr1.
    unfold overwrite, put_view, mret. simpl.
    eexists g1, _. split; [reflexivity|]. split.
    + eapply rep_over; eauto.
      destruct (heap_has _ _ _ _ _ R1 Tr1) as (c & C).
      constructor; simpl; try (apply VM); auto.
      * apply (vs_any _ _ v w). eapply vs_mono; [|apply VM]. eapply keeps_trans; [eapply ext_kept; eauto|].
        eapply keeps_over; eauto. unfold kept. discriminate.
      * exists r. split; [auto|split; [auto|]]. eapply nth_here; eauto.
    + eapply ext_trans; [exact E1|]. eapply ext_over; eauto.
  - rewrite VD. destruct (F s v) as [s1 [xs|e]]; simpl in *; rewrite X; [|same g1 m1].
    unfold new_array, put_view, mret. simpl.
    eexists (g1 ++ [TView vi]), _. split; [reflexivity|].
    pose proof (rep_new _ _ _ (TView vi) (Nums (mkArr false xs)) R1) as R2.
    pose proof (ext_new g1 m1 (TView vi) (Nums (mkArr false xs)) (r_len _ _ _ _ R1)) as E2.
    split.
    + eapply (rep_view _ _ _ _ _ _ _ R2); eauto.
      constructor; simpl; try (apply VM); auto.
      * apply (vs_any _ _ v w). eapply vs_mono; [|apply VM].
        exact (ext_kept _ _ _ _ (ext_trans _ _ _ _ _ _ E1 E2)).
      * exists (length (m_heap m1)). split; auto. rewrite <- (r_len _ _ _ _ R1) at 1. rewrite !nth_app_new. auto.
    + eapply ext_trans; [exact E1|]. destruct E2. split; auto.
Qed.

Lemma sim_leaf g s m v w : rep g n s m -> vs g (m_heap m) v w ->
  (exists q, nth_error (st_params s) (v_param v) = Some q) ->
  sim g s m (if kids leaves (mv_param w) then mraise EAttributeError else own_values w) (leaf_values s v).
Proof.
  intros R V [q Q]. unfold leaf_values, sim. rewrite Q, (vs_param _ _ _ _ V), (rep_kids _ _ _ _ _ R Q).
  exists g, m. split; [|split; [auto|apply ext_refl]].
  destruct (has_children q); auto. simpl. erewrite own_is; eauto.
Qed.
Lemma leaf_views s v : st_views (fst (leaf_values s v)) = st_views s.
Proof. unfold leaf_values. destruct (nth_error _ _); auto. Qed.
Lemma sim_leaf_read g s m c : rep g n s m -> sim g s m (leaf_read leaves c) (read_with leaf_values s c).
Proof.
  intros R. apply (sim_read (fun w => if kids leaves (mv_param w) then mraise EAttributeError else own_values w)); auto.
  - intros. apply sim_leaf; auto.
  - intros. rewrite leaf_views. eauto.
Qed.
Lemma read_views F s c i x :
  (forall s v i x, nth_error (st_views s) i = Some x ->
     exists x', nth_error (st_views (fst (F s v))) i = Some x' /\ v_param x' = v_param x) ->
  nth_error (st_views s) i = Some x ->
  exists x', nth_error (st_views (fst (read_with F s c))) i = Some x' /\ v_param x' = v_param x.
Proof.
  intros FV H. unfold read_with. destruct (nth_error (st_views s) c) as [v|] eqn:V; [|simpl; eauto].
  destruct (nth_error (st_params s) (v_param v)) as [q|]; [|simpl; eauto].
  assert (S : forall s1 v1, fst (F s v) = s1 -> v_param v1 = v_param v ->
    exists x', nth_error (st_views (set_view s1 c v1)) i = Some x' /\ v_param x' = v_param x).
  { intros s1 v1 <- P. simpl. rewrite nth_upd. destruct (Nat.eqb_spec c i); [|auto].
    subst. assert (x = v) by congruence; subst. destruct (FV s v _ _ V) as (x' & -> & _). eauto. }
  specialize (FV s v _ _ H). destruct (F s v) as [s1 [xs|e]]; simpl in *;
    destruct (v_data v) as [d|]; simpl; auto; try (destruct (v_version v) as [k|]; simpl; eauto; destruct (k =? p_version q); simpl; eauto);
    try (destruct (a_int d); simpl; eauto); apply S; auto.
Qed.
Lemma leaf_read_views s c i x : nth_error (st_views s) i = Some x ->
  exists x', nth_error (st_views (fst (read_with leaf_values s c))) i = Some x' /\ v_param x' = v_param x.
Proof. intros H. apply read_views; auto. intros. rewrite leaf_views. eauto. Qed.
Lemma sum_views cs : forall s acc i x, nth_error (st_views s) i = Some x ->
  exists x', nth_error (st_views (fst (sum_children s cs acc))) i = Some x' /\ v_param x' = v_param x.
Proof.
  induction cs; intros s acc i x H; simpl; [eauto|].
  destruct (leaf_read_views s a _ _ H) as (x1 & X1 & P1).
  destruct (read_with leaf_values s a) as [s1 [xs|e]]; simpl in *; [|eauto].
  destruct acc as [b|].
  - destruct (arr_add b xs) as [l|e]; simpl; [|eauto]. destruct (IHcs s1 (Some l) _ _ X1) as (x2 & X2 & P2).
    exists x2. split; congruence.
  - destruct (IHcs s1 (Some (map (nadd (Some 0%R)) xs)) _ _ X1) as (x2 & X2 & P2).
    exists x2. split; congruence.
Qed.
Lemma get_views s v i x : nth_error (st_views s) i = Some x ->
  exists x', nth_error (st_views (fst (get_values s v))) i = Some x' /\ v_param x' = v_param x.
Proof.
  intros H. unfold get_values. destruct (nth_error (st_params s) (v_param v)) as [q|]; [|simpl; eauto].
  destruct (has_children q); [|simpl; eauto]. destruct (v_children v); [|simpl; eauto]. apply sum_views; auto.
Qed.

Lemma sim_sum cs : forall g s m acc, rep g n s m -> sim g s m (sum_reads leaves cs acc) (sum_children s cs acc).
Proof.
  induction cs; intros g s m acc R; simpl.
  - destruct acc; same g m.
  - destruct (sim_leaf_read g s m a R) as (g1 & m1 & X & R1 & E1). unfold sim, mbind. rewrite X.
    destruct (read_with leaf_values s a) as [s1 [xs|e]]; simpl in *; [|same g1 m1].
    destruct acc as [b|].
    + unfold mlift. destruct (arr_add b xs) as [a'|e]; [|same g1 m1].
      destruct (IHcs g1 s1 m1 (Some a') R1) as (g2 & m2 & X2 & R2 & E2).
      exists g2, m2. split; [auto|split; [auto|eapply ext_trans; eauto]].
    + destruct (IHcs g1 s1 m1 (Some (map (nadd (Some 0%R)) xs)) R1) as (g2 & m2 & X2 & R2 & E2).
      exists g2, m2. split; [auto|split; [auto|eapply ext_trans; eauto]].
Qed.
Lemma sim_values g s m v w : rep g n s m -> vs g (m_heap m) v w ->
  (exists q, nth_error (st_params s) (v_param v) = Some q) ->
  sim g s m (m_get_values leaves w) (get_values s v).
Proof.
  intros R V [q Q]. unfold m_get_values, get_values. rewrite Q, (vs_param _ _ _ _ V), (rep_kids _ _ _ _ _ R Q).
  destruct (has_children q).
  - rewrite (vs_children _ _ _ _ V). destruct (v_children v); [apply sim_sum; auto|same g m].
  - exists g, m. split; [|split; [auto|apply ext_refl]]. now rewrite (own_is _ _ _ _ _ _ R V Q).
Qed.
Lemma sim_get g s m vi : rep g n s m -> sim g s m (m_get leaves vi) (ts_get s vi).
Proof. intros R. apply sim_read; auto. apply sim_values. apply get_views. Qed.

Lemma sim_write g s m vi : rep g n s m -> sim g s m (m_write vi) (ts_write s vi).
Proof.
  intros R. unfold sim, m_write, ts_write, mbind.
  destruct (nth_error (st_views s) vi) as [v|] eqn:V.
  2: { rewrite (view_not _ _ _ _ R V). same g m. }
  destruct (view_is _ _ _ _ _ R V) as (w & -> & Wn & VM). pose proof (vm_static _ _ _ _ _ VM) as VS.
  rewrite (vm_locked _ _ _ _ _ VM). destruct (v_locked v); [same g m|].
  pose proof (vm_data _ _ _ _ _ VM) as VD. destruct (v_data v) as [d|] eqn:D.
  2: { rewrite VD. same g m. }
  destruct VD as (r & Dr & Tr & Cr). rewrite Dr, (numbers_is _ _ _ Cr).
  destruct (r_vp _ _ _ _ R _ _ V) as (q & Q & Ty). rewrite Q.
  rewrite (vs_param _ _ _ _ VS). destruct (param_is _ _ _ _ _ R Q) as (mq & -> & _ & PM).
  rewrite (converter_is _ _ _ _ VS). unfold mlift, to_param. rewrite (vs_uconv _ _ _ _ VS).
  destruct (nconvert _ _) as [xs|e]; [|same g m].
  unfold new_array, put_param, put_view. simpl. rewrite (pm_version _ _ _ _ PM).
  pose proof (rep_new _ _ _ TKept (Nums (mkArr false xs)) R) as R2.
  pose proof (ext_new g m TKept (Nums (mkArr false xs)) (r_len _ _ _ _ R)) as E2.
  eexists (g ++ [TKept]), _. split; [reflexivity|]. split.
  - eapply (rep_view _ (set_param s (v_param v) (p_store q (PArr xs)))
      (mkMem (m_heap m ++ [Nums (mkArr false xs)]) _ _ _)); simpl; eauto.
    + eapply (rep_param _ _ _ _ _ _ _ R2); eauto. simpl.
      pose proof (pm_mono _ _ _ _ _ _ (ext_kept _ _ _ _ E2) PM) as []. constructor; simpl in *; auto.
      * auto.
      * exists (length (m_heap m)). split; auto. rewrite <- (r_len _ _ _ _ R) at 1. rewrite !nth_app_new. auto.
    + constructor; simpl; try (apply VM).
      * apply (vs_any _ _ v w). eapply vs_mono; [|exact VS]. apply (ext_kept _ _ _ _ E2).
      * reflexivity.
      * rewrite D. exists r. split; [auto|split; apply nth_app_old; auto].
  - destruct E2. split; auto.
Qed.

Lemma sim_check g s m vi v : rep g n s m -> nth_error (st_views s) vi = Some v ->
  sim g s m (m_check_write leaves vi)
    (check_write s vi v (tc_type (v_tconv v)) (Some (v_unit v)) (Some (mkTP 1 (tc_target (v_tconv v))))).
Proof.
  intros R V. unfold sim, m_check_write, check_write, mbind.
  destruct (view_is _ _ _ _ _ R V) as (w & -> & Wn & VM). pose proof (vm_static _ _ _ _ _ VM) as VS.
  rewrite (vm_writable _ _ _ _ _ VM). destruct (v_writable v); [same g m|].
  destruct (r_vp _ _ _ _ R _ _ V) as (q & Q & Ty). unfold on_param. rewrite Q.
  rewrite (vs_param _ _ _ _ VS), (vs_type _ _ _ _ VS).
  unfold m_attempt_write, attempt_write, mbind. rewrite (rep_kids _ _ _ _ _ R Q).
  destruct (has_children q).
  { unfold mraise. exists g, m. split; [auto|split; [|apply ext_refl]]. simpl.
    unfold set_param. rewrite (upd_same _ _ _ Q). now destruct s. }
  destruct (param_is _ _ _ _ _ R Q) as (mq & G0 & Mq & PM).
  unfold m_attempt_read, attempt_read, mbind. rewrite G0, (pm_type _ _ _ _ PM).
  destruct (p_type q) as [t|] eqn:Tq; [|congruence].
  destruct (ptype_eqb t (tc_type (v_tconv v))).
  2: { unfold mraise. exists g, m. split; [auto|split; [|apply ext_refl]]. simpl.
    unfold set_param. rewrite (upd_same _ _ _ Q). now destruct s. }
  unfold put_param, put_view. simpl.
  unfold get_param. simpl. rewrite (nth_here _ _ _ _ Mq). simpl.
  eexists g, _. split; [reflexivity|]. split; [|split; [apply keeps_refl|auto]].
  eapply (rep_view _ (set_param s (v_param v) (p_set_written (p_set_read q)))
     (mkMem (m_heap m) _ (m_views m) (m_caller m))); simpl; eauto.
  - assert (U : forall A (l : list A) i x y, upd (upd l i x) i y = upd l i y).
    { induction l; intros [|i] x y; simpl; auto. now rewrite IHl. }
    rewrite U. eapply (rep_param _ _ _ _ _ _ _ R); eauto; simpl; auto.
    destruct PM. constructor; simpl; auto; congruence.
  - constructor; simpl; try (apply VM); auto. apply (vs_any _ _ v w). auto.
Qed.

Lemma check_view s vi v t u tp : nth_error (st_views s) vi = Some v ->
  exists v1, nth_error (st_views (fst (check_write s vi v t u tp))) vi = Some v1 /\
    v_tconv v1 = v_tconv v /\ v_data v1 = v_data v.
Proof.
  intros V. unfold check_write. destruct (v_writable v); [simpl; eauto|].
  unfold on_param. destruct (nth_error (st_params s) (v_param v)); [|simpl; eauto].
  destruct (attempt_write p t u tp) as [q' [x|e]]; simpl; [|eauto].
  rewrite (nth_here _ _ _ _ V). eexists. split; [reflexivity|]. auto.
Qed.

(** Setting the array of a view that has one, in place. *)
Lemma rep_data g s m vi v w r d : rep g n s m -> nth_error (st_views s) vi = Some v ->
  nth_error (m_views m) vi = Some w -> vm g (m_heap m) vi v w -> mv_data w = Some r -> nth_error g r = Some (TView vi) ->
  rep g n (set_view s vi (v_set_data v d)) (mkMem (upd (m_heap m) r (Nums d)) (m_params m) (m_views m) (m_caller m)).
Proof.
  intros R V W VM D T. rewrite <- (upd_same _ _ _ W). eapply rep_over; eauto.
  destruct (heap_has _ _ _ _ _ R T) as (c & C).
  constructor; simpl; try (apply VM).
  - eapply vs_mono with (g := g) (h := m_heap m); [eapply keeps_over; eauto; unfold kept; discriminate|].
    destruct w. apply (vs_any _ _ v _ _ _ _ _ _ _ _ _ (vm_static _ _ _ _ _ VM)).
  - exists r. split; [auto|split; [auto|]]. eapply nth_here; eauto.
Qed.

Lemma sim_set g s m vi v r a : rep g n s m -> nth_error (st_views s) vi = Some v ->
  nth_error (m_heap m) r = Some (Nums a) ->
  sim g s m (m_set leaves vi r) (ts_set s vi v a).
Proof.
  intros R V C. unfold sim, m_set, ts_set. unfold mbind at 1. rewrite (numbers_is _ _ _ C).
  destruct (sim_check _ _ _ _ _ R V) as (g1 & m1 & X & R1 & E1).
  unfold mbind at 1. rewrite X.
  destruct (check_view s vi v (tc_type (v_tconv v)) (Some (v_unit v)) (Some (mkTP 1 (tc_target (v_tconv v)))) V)
    as (v1 & V1 & T1 & D1).
  destruct (check_write _ _ _ _ _ _) as [s1 [x|e]]; simpl in *; [|same g1 m1].
  destruct (view_is _ _ _ _ _ R1 V1) as (w & Gw & Wn & VM). unfold mbind at 1. rewrite Gw.
  unfold mbind at 1. rewrite (converter_is _ _ _ _ (vm_static _ _ _ _ _ VM)), T1, V1.
  destruct (Z.of_nat (length (a_val a)) =? target_length (v_tconv v))%Z; [|same g1 m1].
  pose proof (vm_data _ _ _ _ _ VM) as VD. destruct (v_data v1) as [d|] eqn:D.
  - destruct VD as (r1 & Dr & Tr & Cr). rewrite Dr. unfold mbind at 1. rewrite (numbers_is _ _ _ Cr).
    destruct (a_int d && negb (a_int a)); [same g1 m1|].
    unfold overwrite, mbind.
    pose proof (rep_data _ _ _ _ _ _ _ (mkArr (a_int d) (a_val a)) R1 V1 Wn VM Dr Tr) as R2.
    destruct (sim_write _ _ _ vi R2) as (g3 & m3 & X3 & R3 & E3).
    exists g3, m3. split; [exact X3|split; [auto|]]. eapply ext_trans; [eauto|]. eapply ext_trans; [|exact E3].
    eapply ext_over; eauto.
  - rewrite VD. unfold new_array, mbind, put_view. simpl.
    pose proof (rep_new _ _ _ (TView vi) (Nums a) R1) as R2.
    pose proof (ext_new g1 m1 (TView vi) (Nums a) (r_len _ _ _ _ R1)) as E2.
    assert (R2' : rep (g1 ++ [TView vi]) n (set_view s1 vi (v_set_data v1 a))
      (mkMem (m_heap m1 ++ [Nums a]) (m_params m1) (upd (m_views m1) vi (set_data w (length (m_heap m1)))) (m_caller m1))).
    { eapply (rep_view _ _ _ _ _ _ _ R2); eauto. constructor; simpl; try (apply VM).
      - apply (vs_any _ _ v1 w). eapply vs_mono; [|apply VM]. apply (ext_kept _ _ _ _ E2).
      - exists (length (m_heap m1)). split; auto. rewrite <- (r_len _ _ _ _ R1) at 1. rewrite !nth_app_new. auto. }
    destruct (sim_write _ _ _ vi R2') as (g3 & m3 & X3 & R3 & E3).
    exists g3, m3. split; [exact X3|split; [auto|]]. eapply ext_trans; [eauto|]. eapply ext_trans; [|exact E3].
    destruct E2. split; auto.
Qed.

Lemma read_params F s c : (forall s v, st_params (fst (F s v)) = st_params s) ->
  st_params (fst (read_with F s c)) = st_params s.
Proof.
  intros FP. unfold read_with. destruct (nth_error (st_views s) c) as [v|]; auto.
  destruct (nth_error (st_params s) (v_param v)) as [q|]; auto. specialize (FP s v).
  destruct (F s v) as [s1 [xs|e]]; simpl in *; destruct (v_data v) as [d|]; auto;
    destruct (v_version v) as [k|]; auto; destruct (k =? p_version q); auto; destruct (a_int d); auto.
Qed.
Lemma leaf_params s v : st_params (fst (leaf_values s v)) = st_params s.
Proof. unfold leaf_values. destruct (nth_error _ _); auto. Qed.
Lemma sum_params cs : forall s acc, st_params (fst (sum_children s cs acc)) = st_params s.
Proof.
  induction cs; intros s acc; simpl; auto.
  pose proof (read_params leaf_values s a leaf_params) as P.
  destruct (read_with leaf_values s a) as [s1 [xs|e]]; simpl in *; auto.
  destruct acc as [b|]; [destruct (arr_add b xs); simpl; auto|]; rewrite IHcs; auto.
Qed.
Lemma get_params s v : st_params (fst (get_values s v)) = st_params s.
Proof.
  unfold get_values. destruct (nth_error (st_params s) (v_param v)) as [q|]; auto.
  destruct (has_children q); auto. destruct (v_children v); auto. apply sum_params.
Qed.

Lemma ts_get_again s vi s1 xs : ts_get s vi = (s1, Ok xs) ->
  ts_get s1 vi = (s1, Ok xs) /\ exists v d, nth_error (st_views s1) vi = Some v /\ v_data v = Some d.
Proof.
  unfold ts_get. intros H. unfold read_with in H.
  destruct (nth_error (st_views s) vi) as [v|] eqn:V; [|discriminate].
  destruct (nth_error (st_params s) (v_param v)) as [q|] eqn:Q; [|discriminate].
  pose proof (get_params s v) as GP. pose proof (get_views s v _ _ V) as (v1 & V1 & P1).
  assert (S : forall s0, fst (get_values s v) = s0 ->
    let s1 := set_view s0 vi (v_set_version (v_set_data v (mkArr false xs)) (p_version q)) in
    read_with get_values s1 vi = (s1, Ok xs) /\
    exists v d, nth_error (st_views s1) vi = Some v /\ v_data v = Some d).
  { intros s0 <- s2. unfold s2, read_with. simpl. rewrite (nth_here _ _ _ _ V1). simpl.
    rewrite GP, Q, Nat.eqb_refl. split; auto. eexists _, _. split; reflexivity. }
  destruct (v_data v) as [d|] eqn:D.
  - destruct (v_version v) as [k|] eqn:Vk; [|discriminate].
    destruct (k =? p_version q) eqn:Ek.
    + injection H as <- <-. split; [|eauto]. unfold read_with. rewrite V, Q, D, Vk, Ek. auto.
    + destruct (get_values s v) as [s0 [ys|e]]; [|discriminate]. destruct (a_int d); [discriminate|].
      injection H as <- <-. apply S; auto.
  - destruct (get_values s v) as [s0 [ys|e]]; [|discriminate]. injection H as <- <-. apply S; auto.
Qed.

Lemma sim_setitem g s m vi i x : rep g n s m -> sim g s m (m_set_item leaves vi i x) (ts_setitem s vi i x).
Proof.
  intros R. unfold sim, m_set_item, ts_setitem. destruct (sim_get _ _ _ vi R) as (g1 & m1 & X & R1 & E1).
  unfold mbind at 1. rewrite X. destruct (ts_get s vi) as [s1 [xs|e]]; simpl in *; [|same g1 m1].
  unfold handle_set. destruct (nth_error (st_views s1) vi) as [v|] eqn:V.
  2: { unfold mbind at 1. rewrite (view_not _ _ _ _ R1 V). same g1 m1. }
  destruct (view_is _ _ _ _ _ R1 V) as (w & Gw & Wn & VM). unfold mbind at 1. rewrite Gw.
  pose proof (vm_data _ _ _ _ _ VM) as VD. destruct (v_data v) as [d|] eqn:D.
  2: { rewrite VD. same g1 m1. }
  destruct VD as (r & Dr & Tr & Cr). rewrite Dr. unfold mbind at 1. rewrite (numbers_is _ _ _ Cr).
  destruct (pyindex _ _) as [j|]; [|same g1 m1]. unfold mbind at 1, mlift.
  destruct (cast_item (a_int d) x) as [y|e]; [|same g1 m1]. unfold overwrite, mbind.
  pose proof (rep_data _ _ _ _ _ _ _ (mkArr (a_int d) (upd (a_val d) j y)) R1 V Wn VM Dr Tr) as R2.
  destruct (sim_write _ _ _ vi R2) as (g3 & m3 & X3 & R3 & E3).
  exists g3, m3. split; [exact X3|split; [auto|]]. eapply ext_trans; [eauto|]. eapply ext_trans; [|exact E3].
  eapply ext_over; eauto.
Qed.

(** [view.values += x] on values. *)
Definition ts_iadd (s : state) (vi : nat) (x : R) : state * res unit :=
  match ts_get s vi with
  | (s1, Err e) => (s1, Err e)
  | (s1, Ok _) =>
    match handle_iadd s1 vi x with
    | (s2, Err e) => (s2, Err e)
    | (s2, Ok _) =>
      match nth_error (st_views s2) vi with
      | None => (s2, Err EInvalid)
      | Some v =>
        match v_data v with
        | None => (s2, Err EInvalid)
        | Some d => ts_set s2 vi v (mkArr false (a_val d))
        end
      end
    end
  end.

Lemma write_heap vi m m' o : m_write vi m = (m', o) -> forall r c, nth_error (m_heap m) r = Some c -> nth_error (m_heap m') r = Some c.
Proof.
  intros H r c C. unfold m_write, mbind, get_view, get_param, numbers, mlift in H.
  destruct (nth_error (m_views m) vi) as [w|]; [|injection H as <- <-; auto].
  destruct (mv_locked w); [injection H as <- <-; auto|].
  destruct (mv_data w); [|injection H as <- <-; auto].
  unfold mbind, content in H. destruct (nth_error (m_heap m) n0) as [[a|l]|]; simpl in H; try (injection H as <- <-; auto; fail).
  destruct (nth_error (m_params m) (mv_param w)) as [q|]; [|injection H as <- <-; auto].
  assert (Cm : fst (converter w m) = m).
  { unfold converter, mbind, times, attribute. destruct (mv_source w); simpl; auto. unfold mbind, content.
    destruct (nth_error (m_heap m) n1) as [[]|]; simpl; auto. destruct (mv_target w); simpl; auto. unfold mbind, content.
    destruct (nth_error (m_heap m) n2) as [[]|]; simpl; auto. }
  destruct (converter w m) as [m0 [c0|e]]; simpl in Cm; subst; [|injection H as <- <-; auto].
  destruct (nconvert _ _); [|injection H as <- <-; auto].
  injection H as <- <-. simpl. apply nth_app_old; auto.
Qed.
Lemma write_view s vi v : nth_error (st_views s) vi = Some v ->
  exists v', nth_error (st_views (fst (ts_write s vi))) vi = Some v' /\ v_data v' = v_data v /\ v_public v' = v_public v /\ v_kind v' = v_kind v.
Proof.
  intros V. unfold ts_write. rewrite V. destruct (v_locked v); [simpl; eauto|]. destruct (v_data v) eqn:D; [|simpl; eauto].
  destruct (nth_error (st_params s) (v_param v)); [|simpl; eauto]. destruct (to_param v (a_val a)); [|simpl; eauto].
  simpl. rewrite (nth_here _ _ _ _ V). eauto.
Qed.

Lemma sim_iadd g s m vi x : rep g n s m -> sim g s m (m_iadd leaves vi x) (ts_iadd s vi x).
Proof.
  intros R. unfold sim, m_iadd, ts_iadd. destruct (sim_get _ _ _ vi R) as (g1 & m1 & X & R1 & E1).
  unfold mbind at 1. rewrite X. destruct (ts_get s vi) as [s1 [xs|e]] eqn:G; simpl in X, R1; [|same g1 m1].
  destruct (ts_get_again _ _ _ _ G) as (G1 & v & d & V & D).
  destruct (view_is _ _ _ _ _ R1 V) as (w & Gw & Wn & VM). unfold mbind at 1. rewrite Gw.
  pose proof (vm_data _ _ _ _ _ VM) as VD. rewrite D in VD.
  destruct VD as (r & Dr & Tr & Cr). rewrite Dr. unfold attribute, mbind at 1, mret.
  unfold mbind at 1. rewrite (numbers_is _ _ _ Cr).
  unfold handle_iadd. rewrite V, D, G1, V, D.
  destruct (a_int d) eqn:Ai; [same g1 m1|].
  unfold mbind at 1, overwrite.
  set (l := map (fun y => nadd y (Some x)) (a_val d)).
  pose proof (rep_data _ _ _ _ _ _ _ (mkArr false l) R1 V Wn VM Dr Tr) as R2.
  destruct (sim_write _ _ _ vi R2) as (g3 & m3 & X3 & R3 & E3).
  assert (V2 : nth_error (st_views (set_view s1 vi (v_set_data v (mkArr false l)))) vi = Some (v_set_data v (mkArr false l))).
  { simpl. eapply nth_here; eauto. }
  destruct (write_view _ _ _ V2) as (v3 & V3 & D3 & _).
  assert (Ec : ext g m g3 m3).
  { eapply ext_trans; [eauto|]. eapply ext_trans; [|exact E3]. eapply ext_over; eauto. }
  assert (Hr : nth_error (m_heap m3) r = Some (Nums (mkArr false l))).
  { eapply write_heap; [exact X3|]. simpl. eapply nth_here; eauto. }
  unfold mbind. rewrite X3.
  destruct (ts_write (set_view s1 vi (v_set_data v (mkArr false l))) vi) as [s3 [z|e]]; simpl in *; [|same g3 m3].
  rewrite V3, D3. simpl. destruct (sim_set _ _ _ _ _ _ _ R3 V3 Hr) as (g4 & m4 & X4 & R4 & E4).
  exists g4, m4. split; [auto|split; [auto|eapply ext_trans; eauto]].
Qed.

Lemma rep_lock g s m vi v w b : rep g n s m -> nth_error (st_views s) vi = Some v -> vm g (m_heap m) vi v w ->
  rep g n (set_view s vi (v_set_locked v b)) (mkMem (m_heap m) (m_params m) (upd (m_views m) vi (set_locked w b)) (m_caller m)).
Proof.
  intros R V VM. eapply rep_view; eauto. constructor; simpl; try (apply VM); auto. apply (vs_any _ _ v w), VM.
Qed.
Lemma sim_lock g s m vi v : rep g n s m -> nth_error (st_views s) vi = Some v -> sim g s m (m_lock vi) (ts_lock s vi v).
Proof.
  intros R V. unfold sim, m_lock, ts_lock, mbind. destruct (view_is _ _ _ _ _ R V) as (w & -> & Wn & VM).
  eexists g, _. split; [reflexivity|]. split; [apply rep_lock; auto|apply ext_view].
Qed.
Lemma sim_unlock g s m vi v : rep g n s m -> nth_error (st_views s) vi = Some v -> sim g s m (m_unlock vi) (ts_unlock s vi v).
Proof.
  intros R V. unfold sim, m_unlock, ts_unlock. unfold mbind. destruct (view_is _ _ _ _ _ R V) as (w & -> & Wn & VM).
  unfold put_view. destruct (sim_write _ _ _ vi (rep_lock _ _ _ _ _ _ false R V VM)) as (g3 & m3 & X3 & R3 & E3).
  exists g3, m3. split; [exact X3|split; [auto|]]. eapply ext_trans; [apply ext_view|exact E3].
Qed.

(** ** Requests *)
Variable env : uenv.
Hypothesis Un : forall p nq u, nth_error (st_params n) p = Some nq -> units p u = unit_converter env (p_unit nq) (Some u).

Record nv g h (v : view) (w : mview) : Prop := {
  nv_static : vs g h v w;
  nv_writable : mv_writable w = false /\ v_writable v = false;
  nv_locked : mv_locked w = false /\ v_locked v = false;
  nv_version : mv_version w = None /\ v_version v = None;
  nv_data : mv_data w = None /\ v_data v = None }.
Lemma nv_mono g h g' h' v w : keeps kept g h g' h' -> nv g h v w -> nv g' h' v w.
Proof. intros Kp []. constructor; auto. eapply vs_mono; eauto. Qed.
Lemma nv_vm g h i v w : nv g h v w -> vm g h i v w.
Proof.
  intros [S [A A'] [B B'] [C C'] [D D']]. constructor; auto; try congruence. now rewrite D'.
Qed.

Definition matches {A B} (Q : A -> B -> Prop) (r : res A) (o : res B) : Prop :=
  match r, o with Ok a, Ok b => Q a b | Err e, Err e' => e = e' | _, _ => False end.

Lemma sim_leaf_view g s m u target to t ex p : rep g n s m -> is_ts t ->
  nth_error (m_heap m) target = Some (Times to) -> p < length (st_params s) ->
  exists g' m' o, m_leaf_view units u target t ex p m = (m', o) /\ rep g' n s m' /\ ext g m g' m' /\
    m_views m' = m_views m /\
    matches (fun v w => nv g' (m_heap m') v w /\ v_param v = p /\ v_public v = false /\
      mv_uconv w = v_uconv v /\
      (exists q, nth_error (st_params s) p = Some q /\ p_type q <> None)) (ts_leaf_view env s u to t ex p) o /\
    forall v, ts_leaf_view env s u to t ex p = Ok v -> tc_target (v_tconv v) = to.
Proof.
  intros R Ts Tg L. unfold m_leaf_view, ts_leaf_view, mbind, mlift.
  destruct (nth_error (st_params s) p) as [q|] eqn:Q; [|apply nth_error_None in Q; lia].
  destruct (param_is _ _ _ _ _ R Q) as (mq & -> & _ & PM). destruct (r_n _ _ _ _ R _ _ Q) as (nq & Nq & SN).
  rewrite (Un _ _ u Nq), (sn_unit _ _ SN). destruct (unit_converter env (p_unit q) (Some u)) as [uc|e].
  2: { eexists g, m, _. split; [reflexivity|]. simpl. split; [auto|split; [apply ext_refl|split; [auto|split; [auto|discriminate]]]]. }
  pose proof (pm_time _ _ _ _ PM) as PT. destruct (p_time q) as [tp|] eqn:T.
  2: { rewrite PT. eexists g, m, _. split; [reflexivity|]. simpl. split; [auto|split; [apply ext_refl|split; [auto|split; [auto|discriminate]]]]. }
  destruct PT as (r & -> & Tr & Cr). rewrite (times_is _ _ _ Cr), (times_is _ _ _ Tg).
  destruct (timeseries_converter (tp_ticks tp) to t ex) as [tc|e] eqn:TC.
  2: { eexists g, m, _. split; [reflexivity|]. simpl. split; [auto|split; [apply ext_refl|split; [auto|split; [auto|discriminate]]]]. }
  assert (Etc : tc = mkTconv (tp_ticks tp) to t ex).
  { unfold timeseries_converter in TC. destruct (tp_ticks tp); [discriminate|]. destruct to as [|? [|]]; try discriminate.
    destruct (z >? z1)%Z; congruence. }
  subst tc. unfold new_array, mret. simpl.
  pose proof (rep_new _ _ _ TKept (Times (tp_ticks tp)) R) as R1.
  pose proof (ext_new g m TKept (Times (tp_ticks tp)) (r_len _ _ _ _ R)) as E1.
  pose proof (rep_new _ _ _ TKept (Times to) R1) as R2.
  pose proof (ext_new (g ++ [TKept]) _ TKept (Times to) (r_len _ _ _ _ R1)) as E2.
  simpl in R2, E2. eexists _, _, _. split; [reflexivity|].
  split; [exact R2|]. split; [eapply ext_trans; eauto|]. split; [auto|]. split.
  - split; [|split; [auto|split; [auto|split; [auto|]]]].
    + constructor; simpl; auto. constructor; simpl; auto.
      * exists (length (m_heap m)). split; [auto|]. rewrite <- (r_len _ _ _ _ R) at 1.
        split; apply nth_app_old; apply nth_app_new.
      * exists (length (m_heap m ++ [Times (tp_ticks tp)])). split; [auto|]. rewrite <- (r_len _ _ _ _ R1) at 1.
        simpl. split; apply nth_app_new.
    + exists q. split; auto. apply (pm_timed _ _ _ _ PM). congruence.
  - intros v [= <-]. reflexivity.
Qed.

Definition made s g h (v : view) (w : mview) : Prop :=
  nv g h v w /\ exists q, nth_error (st_params s) (v_param v) = Some q /\ p_type q <> None.

Lemma sim_leaf_views g s m u target to t ex ps : rep g n s m -> is_ts t ->
  nth_error g target = Some TKept -> nth_error (m_heap m) target = Some (Times to) ->
  (forall p, In p ps -> p < length (st_params s)) ->
  exists g' m' o, m_leaf_views units u target t ex ps m = (m', o) /\ rep g' n s m' /\ ext g m g' m' /\
    m_views m' = m_views m /\
    matches (Forall2 (made s g' (m_heap m'))) (rmap (ts_leaf_view env s u to t ex) ps) o.
Proof.
  revert g m. induction ps as [|p ps]; intros g m R Ts Tt Tg L; cbn [m_leaf_views rmap].
  - exists g, m, (Ok []). split; [auto|split; [auto|split; [apply ext_refl|split; [auto|constructor]]]].
  - destruct (sim_leaf_view g s m u target to t ex p R Ts Tg) as (g1 & m1 & o & X & R1 & E1 & V1 & M & _).
    { apply L. left; auto. }
    unfold mbind. rewrite X. destruct (ts_leaf_view env s u to t ex p) as [v|e], o as [w|e']; simpl in M; try contradiction.
    + destruct (IHps g1 m1) as (g2 & m2 & o2 & X2 & R2 & E2 & V2 & M2); auto.
      { apply (proj1 (e_keeps _ _ _ _ E1)); auto. }
      { eapply (proj2 (e_keeps _ _ _ _ E1)); eauto. discriminate. }
      { intros; apply L; right; auto. }
      rewrite X2. destruct (rmap _ ps) as [vs'|e], o2 as [ws|e']; simpl in M2; try contradiction.
      * eexists g2, m2, _. split; [reflexivity|]. split; [auto|split; [eapply ext_trans; eauto|split; [congruence|]]].
        simpl. constructor; auto. destruct M as (Nv & Pv & _ & _ & Ty). split; [|rewrite Pv; exact Ty].
        eapply nv_mono; [|exact Nv]. eapply ext_kept; eauto.
      * eexists g2, m2, _. split; [reflexivity|]. split; [auto|split; [eapply ext_trans; eauto|split; [congruence|auto]]].
    + eexists g1, m1, _. split; [reflexivity|]. split; [auto|split; [auto|split; [auto|auto]]].
Qed.

Lemma rep_add g s m v w : rep g n s m -> made s g (m_heap m) v w ->
  rep g n (mkState (st_regions s) (st_params s) (st_views s ++ [v]))
    (mkMem (m_heap m) (m_params m) (m_views m ++ [w]) (m_caller m)).
Proof.
  intros [] [Nv Ty]. constructor; simpl; auto.
  - rewrite !app_length; simpl; lia.
  - intros i x X. apply nth_app_inv in X as [X|[-> ->]].
    + destruct (r_v0 _ _ X) as (w' & A & B). exists w'. split; auto. apply nth_app_old; auto.
    + exists w. rewrite <- r_vl0. split; [apply nth_app_new|]. rewrite r_vl0. apply nv_vm; auto.
  - intros i x X. apply nth_app_inv in X as [X|[-> ->]]; eauto.
Qed.
Lemma add_views_is vs' ws : forall s m g, rep g n s m -> Forall2 (made s g (m_heap m)) vs' ws ->
  add_views ws m = (mkMem (m_heap m) (m_params m) (m_views m ++ ws) (m_caller m), Ok (seq (length (st_views s)) (length vs'))) /\
  rep g n (mkState (st_regions s) (st_params s) (st_views s ++ vs'))
    (mkMem (m_heap m) (m_params m) (m_views m ++ ws) (m_caller m)).
Proof.
  revert ws. induction vs' as [|v vs']; intros ws s m g R F; inversion F; subst; simpl.
  - rewrite !app_nil_r. destruct s, m. auto.
  - destruct (IHvs' l' _ _ _ (rep_add _ _ _ _ _ R H1)) as [A B].
    { simpl. clear - H3. induction H3; constructor; auto. }
    unfold mbind, add_view. rewrite (r_vl _ _ _ _ R). rewrite A. simpl.
    simpl in A, B. rewrite <- !app_assoc in *. simpl in *. rewrite app_length. simpl. rewrite Nat.add_1_r. auto.
Qed.

Hypothesis Lv : forall s p q, map p_children (st_params n) = map p_children (st_params s) ->
  nth_error (st_params s) p = Some q -> has_children q = true -> param_leaves s p = Some (leaves p) /\
    forall i, In i (leaves p) -> i < length (st_params s).

Lemma rep_children g s m : rep g n s m -> map p_children (st_params n) = map p_children (st_params s).
Proof.
  intros R. apply nth_ext with (d := []) (d' := []).
  - rewrite !map_length. apply (r_nl _ _ _ _ R).
  - intros i Hi. rewrite map_length in Hi. destruct (nth_error (st_params s) i) as [q|] eqn:Q.
    + destruct (r_n _ _ _ _ R _ _ Q) as (nq & Nq & SN).
      erewrite !nth_error_nth; [|erewrite map_nth_error; eauto|erewrite map_nth_error; eauto]. apply (sn_children _ _ SN).
    + apply nth_error_None in Q. rewrite (r_nl _ _ _ _ R) in Hi. lia.
Qed.

(** The part of a request after [attempt_read]. *)
Definition m_build (p : nat) (u : string) (time_points : nat) (t : ptype) (ex : extrapolation) : MM nat :=
  mbind (m_leaf_view units u time_points t ex p) (fun w =>
  (if kids leaves p then
     mbind (attribute (mv_target w)) (fun target =>
     mbind (m_leaf_views units u target t ex (leaves p)) (fun ws =>
     mbind (add_views ws) (fun vs =>
     add_view (mkMV true false p (mv_uconv w) t ex (mv_source w) (mv_target w) (Some vs) false None false None))))
   else add_view (mkMV true false p (mv_uconv w) t ex (mv_source w) (mv_target w) None false None false None))).

Lemma sim_build g s m p u r l t ex : rep g n s m -> is_ts t -> nth_error (m_heap m) r = Some (Times l) ->
  p < length (st_params s) ->
  sim g s m (m_build p u r t ex) (build_view s (ts_leaf_view env s u l t ex) p).
Proof.
  intros R Ts C L. unfold sim, m_build, build_view.
  destruct (nth_error (st_params s) p) as [q|] eqn:Q; [|apply nth_error_None in Q; lia].
  destruct (sim_leaf_view g s m u r l t ex p R Ts C L) as (g1 & m1 & o & X & R1 & E1 & V1 & M & Tt).
  unfold mbind at 1. rewrite X. rewrite (rep_kids _ _ _ _ _ R Q).
  destruct (ts_leaf_view env s u l t ex p) as [v|e] eqn:Lf, o as [w|e']; simpl in M; try contradiction.
  2: { subst. same g1 m1. }
  destruct M as (Nv & Pv & Pu & Uc & Ty). pose proof (nv_static _ _ _ _ Nv) as VS.
  assert (St : v_writable v = false /\ v_locked v = false /\ v_version v = None /\ v_data v = None) by (destruct Nv; tauto).
  assert (Tv : tc_type (v_tconv v) = t /\ tc_extra (v_tconv v) = ex /\ v_children v = None).
  { unfold ts_leaf_view in Lf. rewrite Q in Lf. destruct (unit_converter _ _ _); [|discriminate].
    destruct (p_time q); [|discriminate]. unfold timeseries_converter in Lf. destruct (tp_ticks _); [discriminate|].
    destruct l as [|? [|]]; try discriminate. destruct (_ >? _)%Z; [discriminate|]. injection Lf as <-. auto. }
  destruct Tv as (Tt1 & Tt2 & Cv). destruct St as (S1 & S2 & S3 & S4).
  assert (MV : forall g' h', keeps kept g1 (m_heap m1) g' h' -> forall cs,
     nv g' h' (mkView true (v_kind v) (v_param v) (v_unit v) (v_uconv v) (v_tconv v) cs (v_writable v) (v_data v) (v_locked v) (v_version v))
       (mkMV true false p (mv_uconv w) t ex (mv_source w) (mv_target w) cs false None false None)).
  { intros g' h' Kp cs. pose proof (vs_mono _ _ _ _ _ _ Kp VS) as []. constructor; simpl; auto.
    constructor; simpl; auto. }
  destruct (has_children q) eqn:Hc.
  - destruct (Lv s p q (rep_children _ _ _ R) Q Hc) as [-> In_l].
    destruct (vs_target _ _ _ _ VS) as (tr & Tr1 & Tr2 & Tr3). rewrite (Tt _ eq_refl) in Tr3.
    rewrite Tr1. unfold attribute, mbind at 1, mret.
    destruct (sim_leaf_views g1 s m1 u tr l t ex (leaves p) R1 Ts Tr2 Tr3 In_l) as (g2 & m2 & o2 & X2 & R2 & E2 & V2 & M2).
    unfold mbind at 1. rewrite X2. destruct (rmap _ (leaves p)) as [cvs|e], o2 as [ws|e']; simpl in M2; try contradiction.
    2: { subst. exists g2, m2. split; [auto|split; [auto|eapply ext_trans; eauto]]. }
    destruct (add_views_is _ _ _ _ _ R2 M2) as [A B]. unfold mbind. rewrite A. unfold add_view. simpl.
    assert (Ln : length (m_views m2 ++ ws) = length (st_views s) + length cvs).
    { rewrite app_length, (r_vl _ _ _ _ R2). f_equal. symmetry. clear - M2. induction M2; simpl; auto. }
    rewrite Ln.
    eexists g2, _. split; [reflexivity|split; [|split]].
    + rewrite app_assoc. rewrite <- Tr1. apply (rep_add _ _ _ _ _ B). split; [|simpl; rewrite Pv; auto].
      unfold v_set_public, v_set_children. simpl. apply MV. eapply ext_kept; eauto.
    + simpl. apply (e_keeps _ _ _ _ (ext_trans _ _ _ _ _ _ E1 E2)).
    + simpl. rewrite (e_caller _ _ _ _ E2). apply (e_caller _ _ _ _ E1).
  - unfold add_view. simpl. rewrite (r_vl _ _ _ _ R1).
    eexists g1, _. split; [reflexivity|split; [|split; [apply E1|apply E1]]].
    + apply (rep_add _ _ _ _ _ R1). split; [|simpl; rewrite Pv; auto].
      unfold v_set_public. rewrite Cv. apply MV. apply keeps_refl.
Qed.
End N.
