(** Users of unrelated parameters do not notice each other (C81). *)
From Coq Require Import String List Arith Lia Bool ZArith Reals Classical.
From Verif Require Import Base ListFacts Units TimeModel Core Spec_Core CoreEvo CoreTree CoreNames CoreInv CoreStep CoreReq CoreP1 CoreP2 CoreLeaves CoreP4 Spec_Apart.
Import ListNotations.
Local Open Scope nat_scope.

(** ** Operations work on a part of the state *)
Section Local.
Variable P : nat -> Prop.

Record agree (s s' : state) : Prop := {
  ag_len : length (st_views s) = length (st_views s');
  ag_v : forall i v, nth_error (st_views s) i = Some v -> P (v_param v) -> nth_error (st_views s') i = Some v;
  ag_v' : forall i v, nth_error (st_views s') i = Some v -> P (v_param v) -> nth_error (st_views s) i = Some v;
  ag_p : forall p, P p -> nth_error (st_params s') p = nth_error (st_params s) p }.
Record frame (s t : state) : Prop := {
  fr_regions : st_regions t = st_regions s;
  fr_plen : length (st_params t) = length (st_params s);
  fr_vlen : length (st_views t) = length (st_views s);
  fr_p : forall p, ~ P p -> nth_error (st_params t) p = nth_error (st_params s) p;
  fr_v : forall i v, nth_error (st_views s) i = Some v -> exists w, nth_error (st_views t) i = Some w /\
    v_param w = v_param v /\ v_children w = v_children v /\ (~ P (v_param v) -> w = v) }.
Definition closed (s : state) : Prop := forall i v cs c, nth_error (st_views s) i = Some v -> P (v_param v) ->
  v_children v = Some cs -> In c cs -> exists w, nth_error (st_views s) c = Some w /\ P (v_param w).
Definition ok {A} (s s' : state) (x x' : state * res A) : Prop :=
  snd x = snd x' /\ agree (fst x) (fst x') /\ frame s (fst x) /\ frame s' (fst x').

Lemma frame_refl s : frame s s.
Proof. constructor; auto. intros i v V. exists v. auto. Qed.
Lemma frame_trans s t u : frame s t -> frame t u -> frame s u.
Proof.
  intros F G. constructor.
  - rewrite (fr_regions _ _ G). apply F.
  - rewrite (fr_plen _ _ G). apply F.
  - rewrite (fr_vlen _ _ G). apply F.
  - intros p N. rewrite (fr_p _ _ G), (fr_p _ _ F); auto.
  - intros i v V. destruct (fr_v _ _ F _ _ V) as (w & W & Pw & Cw & Nw).
    destruct (fr_v _ _ G _ _ W) as (x & X & Px & Cx & Nx). exists x. split; auto. split; [congruence|]. split; [congruence|].
    intros N. rewrite Nx by (rewrite Pw; auto). auto.
Qed.
Lemma frame_back s t i w : frame s t -> nth_error (st_views t) i = Some w -> exists v, nth_error (st_views s) i = Some v /\
  v_param w = v_param v /\ v_children w = v_children v /\ (~ P (v_param v) -> w = v).
Proof.
  intros F W. destruct (nth_error (st_views s) i) as [v|] eqn:V.
  - exists v. split; auto. destruct (fr_v _ _ F _ _ V) as (w' & W' & H). assert (w' = w) by congruence. now subst.
  - apply nth_error_None in V. rewrite <- (fr_vlen _ _ F) in V. apply nth_error_None in V. congruence.
Qed.
Lemma closed_frame s t : closed s -> frame s t -> closed t.
Proof.
  intros C F i v cs c V Pv Cs I. destruct (frame_back _ _ _ _ F V) as (v0 & V0 & E1 & E2 & _).
  destruct (C i v0 cs c V0) as (w & W & Pw); [congruence|congruence|auto|].
  destruct (fr_v _ _ F _ _ W) as (w' & W' & E3 & _). exists w'. split; auto. congruence.
Qed.
Lemma agree_sym s s' : agree s s' -> agree s' s.
Proof. intros [A B C D]. constructor; auto. intros p Q. symmetry. auto. Qed.

Lemma ok_ret {A} s s' (r : res A) : agree s s' -> ok s s' (s, r) (s', r).
Proof. intros H. split; auto. split; auto. split; apply frame_refl. Qed.
Lemma ok_trans {A B} s s' t t' (r r' : res A) (x x' : state * res B) :
  ok s s' (t, r) (t', r') -> ok t t' x x' -> ok s s' x x'.
Proof.
  intros (_ & _ & F & F') (E & G & H & H'). split; auto. split; auto. split; eapply frame_trans; eauto.
Qed.
Lemma ok_val {A B} s s' t t' (r r' : res A) (y : res B) : ok s s' (t, r) (t', r') -> ok s s' (t, y) (t', y).
Proof. intros (_ & G & F & F'). split; auto. Qed.
Lemma ok_eq {A} s s' t t' (r r' : res A) : ok s s' (t, r) (t', r') -> r = r' /\ agree t t' /\ frame s t /\ frame s' t'.
Proof. auto. Qed.

Lemma set_view_frame s i v w : nth_error (st_views s) i = Some v -> P (v_param v) -> v_param w = v_param v ->
  v_children w = v_children v -> frame s (set_view s i w).
Proof.
  intros V Pv E1 E2. assert (L : i < length (st_views s)) by (apply nth_error_Some; congruence).
  constructor; cbn; auto; [apply upd_length|].
  intros j x X. destruct (Nat.eq_dec j i) as [->|N].
  - exists w. rewrite nth_upd_eq by auto. assert (x = v) by congruence. subst. repeat split; auto. intros; contradiction.
  - exists x. rewrite nth_upd_neq by auto. auto.
Qed.
Lemma ok_view {A} s s' i v w (r : res A) : agree s s' -> nth_error (st_views s) i = Some v -> P (v_param v) ->
  v_param w = v_param v -> v_children w = v_children v -> ok s s' (set_view s i w, r) (set_view s' i w, r).
Proof.
  intros H V Pv E1 E2. pose proof (ag_v _ _ H _ _ V Pv) as V'. split; auto. split; [|split; eapply set_view_frame; eauto].
  assert (L : i < length (st_views s)) by (apply nth_error_Some; congruence).
  assert (L' : i < length (st_views s')) by (apply nth_error_Some; congruence).
  constructor; cbn.
  - rewrite !upd_length. apply H.
  - intros j x X Px. destruct (Nat.eq_dec j i) as [->|N].
    + rewrite nth_upd_eq in X by auto. rewrite nth_upd_eq by auto. auto.
    + rewrite nth_upd_neq in X by auto. rewrite nth_upd_neq by auto. now apply (ag_v _ _ H).
  - intros j x X Px. destruct (Nat.eq_dec j i) as [->|N].
    + rewrite nth_upd_eq in X by auto. rewrite nth_upd_eq by auto. auto.
    + rewrite nth_upd_neq in X by auto. rewrite nth_upd_neq by auto. now apply (ag_v' _ _ H).
  - apply H.
Qed.
Lemma ok_param {A} s s' p q (r : res A) : agree s s' -> P p -> ok s s' (set_param s p q, r) (set_param s' p q, r).
Proof.
  intros H Pp. split; auto. split; [|split].
  - constructor; cbn; try apply H. intros j Pj. destruct (Nat.eq_dec j p) as [->|N].
    + rewrite !nth_upd, Nat.eqb_refl, (ag_p _ _ H p Pp). reflexivity.
    + rewrite !nth_upd_neq by auto. now apply H.
  - constructor; cbn; auto; [apply upd_length| |intros i v V; exists v; auto].
    intros j N. apply nth_upd_neq. intros ->. contradiction.
  - constructor; cbn; auto; [apply upd_length| |intros i v V; exists v; auto].
    intros j N. apply nth_upd_neq. intros ->. contradiction.
Qed.

(** *** The functions of the views *)
Lemma scalar_leaf_same s s' c w : agree s s' -> nth_error (st_views s) c = Some w -> P (v_param w) ->
  scalar_leaf_get s' c = scalar_leaf_get s c.
Proof. intros H W Pw. unfold scalar_leaf_get. now rewrite (ag_v _ _ H _ _ W Pw), W, (ag_p _ _ H _ Pw). Qed.
Lemma scalar_get_local s s' vi v : agree s s' -> closed s -> nth_error (st_views s) vi = Some v -> P (v_param v) ->
  scalar_get s' v = scalar_get s v.
Proof.
  intros H C V Pv. unfold scalar_get. rewrite (ag_p _ _ H _ Pv). destruct (nth_error (st_params s) (v_param v)) as [q|]; auto.
  destruct (has_children q); auto. destruct (v_children v) as [cs|] eqn:Cs; auto.
  assert (E : rmap (scalar_leaf_get s') cs = rmap (scalar_leaf_get s) cs); [|now rewrite E].
  apply rmap_ext. intros c I. destruct (C vi v cs c V Pv Cs I) as (w & W & Pw). eapply scalar_leaf_same; eauto.
Qed.
Lemma generic_get_local s s' v : agree s s' -> P (v_param v) -> generic_get s' v = generic_get s v.
Proof. intros H Pv. unfold generic_get. now rewrite (ag_p _ _ H _ Pv). Qed.

Lemma on_param_local s s' p f : agree s s' -> P p -> ok s s' (on_param s p f) (on_param s' p f).
Proof.
  intros H Pp. unfold on_param. rewrite (ag_p _ _ H _ Pp). destruct (nth_error _ _) as [q|]; [|now apply ok_ret].
  destruct (f q) as [q' r]. now apply ok_param.
Qed.
Lemma store_local s s' p d : agree s s' -> P p -> ok s s' (store s p d, Ok tt) (store s' p d, Ok tt).
Proof.
  intros H Pp. unfold store. rewrite (ag_p _ _ H _ Pp). destruct (nth_error _ _) as [q|]; [|now apply ok_ret]. now apply ok_param.
Qed.
Lemma on_param_views s p f : st_views (fst (on_param s p f)) = st_views s.
Proof. unfold on_param. destruct (nth_error _ _); auto. destruct (f p0). reflexivity. Qed.
Lemma check_write_local s s' vi v t u tp : agree s s' -> nth_error (st_views s) vi = Some v -> P (v_param v) ->
  ok s s' (check_write s vi v t u tp) (check_write s' vi v t u tp).
Proof.
  intros H V Pv. unfold check_write. destruct (v_writable v); [now apply ok_ret|].
  pose proof (on_param_local s s' (v_param v) (fun q => attempt_write q t u tp) H Pv) as O.
  pose proof (on_param_views s (v_param v) (fun q => attempt_write q t u tp)) as Vs.
  destruct (on_param s _ _) as [s1 r1], (on_param s' _ _) as [s1' r1']. cbn in Vs.
  destruct (ok_eq _ _ _ _ _ _ O) as (<- & A & F & F'). destruct r1; [|exact O].
  eapply ok_trans; [exact O|]. apply ok_view with (v := v); auto. rewrite Vs. exact V.
Qed.
Lemma check_write_keeps s vi v t u tp : P (v_param v) -> nth_error (st_views s) vi = Some v ->
  exists w, nth_error (st_views (fst (check_write s vi v t u tp))) vi = Some w /\ v_param w = v_param v /\ v_children w = v_children v.
Proof.
  intros Pv V. unfold check_write. destruct (v_writable v); [exists v; auto|].
  pose proof (on_param_views s (v_param v) (fun q => attempt_write q t u tp)) as Vs.
  destruct (on_param s _ _) as [s1 [x|e]]; cbn in *; rewrite Vs; [|exists v; auto].
  exists (v_set_writable v). rewrite nth_upd_eq; auto. apply nth_error_Some. congruence.
Qed.

Lemma scalar_set_local s s' vi v x : agree s s' -> nth_error (st_views s) vi = Some v -> P (v_param v) ->
  ok s s' (scalar_set s vi v x) (scalar_set s' vi v x).
Proof.
  intros H V Pv. unfold scalar_set. pose proof (check_write_local s s' vi v SCALAR (Some (v_unit v)) None H V Pv) as O.
  destruct (check_write s _ _ _ _ _) as [s1 r1], (check_write s' _ _ _ _ _) as [s1' r1'].
  destruct (ok_eq _ _ _ _ _ _ O) as (<- & A & F & F'). destruct r1; [|exact O].
  eapply ok_trans; [exact O|]. now apply store_local.
Qed.
Lemma generic_set_local s s' vi v x : agree s s' -> nth_error (st_views s) vi = Some v -> P (v_param v) ->
  ok s s' (generic_set s vi v x) (generic_set s' vi v x).
Proof.
  intros H V Pv. unfold generic_set. pose proof (check_write_local s s' vi v GENERIC None None H V Pv) as O.
  destruct (check_write s _ _ _ _ _) as [s1 r1], (check_write s' _ _ _ _ _) as [s1' r1'].
  destruct (ok_eq _ _ _ _ _ _ O) as (<- & A & F & F'). destruct r1; [|exact O].
  eapply ok_trans; [exact O|]. now apply store_local.
Qed.

(** *** Timeseries *)
(** [vi] is a view in the part that the operation works on. *)
Definition inside (s : state) (vi : nat) : Prop := exists v, nth_error (st_views s) vi = Some v /\ P (v_param v).
Lemma inside_frame s t vi : inside s vi -> frame s t -> inside t vi.
Proof. intros (v & V & Pv) F. destruct (fr_v _ _ F _ _ V) as (w & W & E & _). exists w. split; auto. congruence. Qed.

Definition local {A} (f : state -> state * res A) : Prop := forall s s', agree s s' -> closed s -> ok s s' (f s) (f s').

Lemma set_view_ok {A} s s' t t' (r0 : res A) vi v w (r : res A) : ok s s' (t, r0) (t', r0) ->
  nth_error (st_views s) vi = Some v -> P (v_param v) -> v_param w = v_param v -> v_children w = v_children v ->
  ok s s' (set_view t vi w, r) (set_view t' vi w, r).
Proof.
  intros O V Pv E1 E2. eapply ok_trans; [exact O|]. destruct (ok_eq _ _ _ _ _ _ O) as (_ & A0 & F & _).
  destruct (fr_v _ _ F _ _ V) as (x & X & Px & Cx & _).
  apply ok_view with (v := x); auto; congruence.
Qed.
Lemma read_with_local get s s' vi : agree s s' -> closed s -> inside s vi ->
  (forall v, nth_error (st_views s) vi = Some v -> ok s s' (get s v) (get s' v)) ->
  ok s s' (read_with get s vi) (read_with get s' vi).
Proof.
  intros H C (v & V & Pv) G. specialize (G v V). unfold read_with. rewrite (ag_v _ _ H _ _ V Pv), V, (ag_p _ _ H _ Pv).
  destruct (nth_error (st_params s) (v_param v)) as [q|]; [|now apply ok_ret].
  destruct (get s v) as [s1 r1], (get s' v) as [s1' r1']. destruct (ok_eq _ _ _ _ _ _ G) as (<- & A & F & F').
  destruct (v_data v) as [d|].
  - destruct (v_version v); [|now apply ok_ret]. destruct (_ =? _)%nat; [now apply ok_ret|].
    destruct r1; [|exact G]. destruct (a_int d); [eapply ok_val; exact G|]. eapply set_view_ok; eauto.
  - destruct r1; [|exact G]. eapply set_view_ok; eauto.
Qed.
Lemma leaf_values_local s s' v : agree s s' -> P (v_param v) -> ok s s' (leaf_values s v) (leaf_values s' v).
Proof. intros H Pv. unfold leaf_values. rewrite (ag_p _ _ H _ Pv). destruct (nth_error _ _); now apply ok_ret. Qed.
Lemma sum_children_local cs : forall s s' acc, agree s s' -> closed s -> (forall c, In c cs -> inside s c) ->
  ok s s' (sum_children s cs acc) (sum_children s' cs acc).
Proof.
  induction cs as [|c cs IH]; intros s s' acc H C I; cbn [sum_children]; [now apply ok_ret|].
  assert (G : ok s s' (read_with leaf_values s c) (read_with leaf_values s' c)).
  { apply read_with_local; auto; [apply I; now left|]. intros v V. apply leaf_values_local; auto.
    destruct (I c (or_introl eq_refl)) as (v' & V' & Pv). congruence. }
  destruct (read_with leaf_values s c) as [s1 r1], (read_with leaf_values s' c) as [s1' r1'].
  destruct (ok_eq _ _ _ _ _ _ G) as (<- & A & F & F'). destruct r1; [|exact G].
  assert (I1 : forall c, In c cs -> inside s1 c) by (intros; eapply inside_frame; [apply I; now right|exact F]).
  pose proof (closed_frame _ _ C F) as C1.
  destruct acc as [a0|].
  - destruct (arr_add a0 a); [|eapply ok_val; exact G]. eapply ok_trans; [exact G|]. now apply IH.
  - eapply ok_trans; [exact G|]. now apply IH.
Qed.
Lemma get_values_local s s' vi v : agree s s' -> closed s -> nth_error (st_views s) vi = Some v -> P (v_param v) ->
  ok s s' (get_values s v) (get_values s' v).
Proof.
  intros H C V Pv. unfold get_values. rewrite (ag_p _ _ H _ Pv). destruct (nth_error (st_params s) (v_param v)) as [q|]; [|now apply ok_ret].
  destruct (has_children q); [|now apply ok_ret]. destruct (v_children v) as [cs|] eqn:Cs; [|now apply ok_ret].
  apply sum_children_local; auto. intros c I. exact (C vi v cs c V Pv Cs I).
Qed.
Lemma ts_get_local s s' vi : agree s s' -> closed s -> inside s vi -> ok s s' (ts_get s vi) (ts_get s' vi).
Proof.
  intros H C I. apply read_with_local; auto. intros v V. eapply get_values_local; eauto.
  destruct I as (v' & V' & Pv). congruence.
Qed.
Lemma ts_write_local s s' vi : agree s s' -> inside s vi -> ok s s' (ts_write s vi) (ts_write s' vi).
Proof.
  intros H (v & V & Pv). unfold ts_write. rewrite (ag_v _ _ H _ _ V Pv), V, (ag_p _ _ H _ Pv).
  destruct (v_locked v); [now apply ok_ret|]. destruct (v_data v); [|now apply ok_ret].
  destruct (nth_error (st_params s) (v_param v)) as [q|]; [|now apply ok_ret]. destruct (to_param _ _); [|now apply ok_ret].
  eapply set_view_ok; [apply (ok_param s s' (v_param v) _ (Ok tt) H Pv)|exact V|exact Pv|reflexivity|reflexivity].
Qed.
Lemma then_write s s' t t' (r : res unit) vi v w : ok s s' (t, r) (t', r) ->
  nth_error (st_views s) vi = Some v -> P (v_param v) -> v_param w = v_param v -> v_children w = v_children v ->
  ok s s' (ts_write (set_view t vi w) vi) (ts_write (set_view t' vi w) vi).
Proof.
  intros O V Pv E1 E2. pose proof (set_view_ok s s' t t' r vi v w (Ok tt) O V Pv E1 E2) as G.
  eapply ok_trans; [exact G|]. destruct (ok_eq _ _ _ _ _ _ G) as (_ & A & F & _).
  apply ts_write_local; auto. eapply inside_frame; [|exact F]. exists v. auto.
Qed.
Lemma ts_set_local s s' vi v a : agree s s' -> nth_error (st_views s) vi = Some v -> P (v_param v) ->
  ok s s' (ts_set s vi v a) (ts_set s' vi v a).
Proof.
  intros H V Pv. unfold ts_set.
  pose proof (check_write_local s s' vi v (tc_type (v_tconv v)) (Some (v_unit v)) (Some (mkTP 1 (tc_target (v_tconv v)))) H V Pv) as O.
  destruct (check_write s _ _ _ _ _) as [s1 r1], (check_write s' _ _ _ _ _) as [s1' r1'].
  destruct (ok_eq _ _ _ _ _ _ O) as (<- & A & F & F'). destruct r1; [|exact O].
  destruct (_ =? _)%Z; [|eapply ok_val; exact O].
  destruct (fr_v _ _ F _ _ V) as (v1 & V1 & Pv1 & Cv1 & _). assert (Pv1' : P (v_param v1)) by congruence.
  rewrite V1, (ag_v _ _ A _ _ V1 Pv1').
  assert (O1 : ok s1 s1' (s1, Ok tt) (s1', Ok tt)) by now apply ok_ret.
  destruct (v_data v1) as [d|].
  - destruct (_ && _)%bool; [eapply ok_val; exact O|].
    eapply ok_trans; [exact O|]. eapply then_write; eauto.
  - eapply ok_trans; [exact O|]. eapply then_write; eauto.
Qed.
Lemma handle_set_local s s' vi i x : agree s s' -> inside s vi -> ok s s' (handle_set s vi i x) (handle_set s' vi i x).
Proof.
  intros H (v & V & Pv). unfold handle_set. rewrite (ag_v _ _ H _ _ V Pv), V.
  destruct (v_data v) as [d|]; [|now apply ok_ret]. destruct (pyindex _ _); [|now apply ok_ret].
  destruct (cast_item _ _); [|now apply ok_ret]. eapply then_write; eauto. now apply (ok_ret s s' (Ok tt)).
Qed.
Lemma ts_setitem_local s s' vi i x : agree s s' -> closed s -> inside s vi ->
  ok s s' (ts_setitem s vi i x) (ts_setitem s' vi i x).
Proof.
  intros H C I. unfold ts_setitem. pose proof (ts_get_local s s' vi H C I) as G.
  destruct (ts_get s vi) as [s1 r1], (ts_get s' vi) as [s1' r1']. destruct (ok_eq _ _ _ _ _ _ G) as (<- & A & F & F').
  destruct r1; [|eapply ok_val; exact G]. eapply ok_trans; [exact G|]. apply handle_set_local; auto.
  eapply inside_frame; eauto.
Qed.
Lemma handle_iadd_local s s' vi x : agree s s' -> closed s -> inside s vi ->
  ok s s' (handle_iadd s vi x) (handle_iadd s' vi x).
Proof.
  intros H C I. pose proof I as (v & V & Pv). unfold handle_iadd. rewrite (ag_v _ _ H _ _ V Pv), V.
  destruct (v_data v); [|now apply ok_ret]. pose proof (ts_get_local s s' vi H C I) as G.
  destruct (ts_get s vi) as [s1 r1], (ts_get s' vi) as [s1' r1']. destruct (ok_eq _ _ _ _ _ _ G) as (<- & A & F & F').
  destruct r1; [|eapply ok_val; exact G].
  destruct (inside_frame _ _ _ I F) as (v1 & V1 & Pv1). rewrite V1, (ag_v _ _ A _ _ V1 Pv1).
  destruct (v_data v1) as [d|]; [|eapply ok_val; exact G]. destruct (a_int d); [eapply ok_val; exact G|].
  eapply ok_trans; [exact G|]. eapply then_write; eauto. now apply (ok_ret s1 s1' (Ok tt)).
Qed.

(** *** One call *)
Lemma ok_lift {A} (g : A -> val) s s' x x' : ok s s' x x' -> ok s s' (lift g x) (lift g x').
Proof.
  destruct x as [t r], x' as [t' r']. intros O. destruct (ok_eq _ _ _ _ _ _ O) as (<- & A0 & F & F').
  destruct r; cbn; eapply ok_val; exact O.
Qed.
Section Step.
Variable env : uenv.
Lemma step_local o vi s s' : agree s s' -> closed s -> works_on o = Some vi -> inside s vi ->
  ok s s' (step env o s) (step env o s').
Proof.
  intros H C W I. pose proof I as (v & V & Pv). pose proof (ag_v _ _ H _ _ V Pv) as V'.
  destruct o; try discriminate; inversion W; subst; cbn [step]; unfold with_view; rewrite V, V';
    (destruct (v_public v); [|now apply ok_ret]); destruct (v_kind v); try (now apply ok_ret);
    try apply ok_lift.
  - rewrite (scalar_get_local s s' vi v); auto. now apply ok_ret.
  - now apply scalar_set_local.
  - rewrite (generic_get_local s s' v); auto. now apply ok_ret.
  - now apply generic_set_local.
  - now apply ts_get_local.
  - now apply ts_set_local.
  - now apply ts_setitem_local.
  - destruct (v_data v); [|now apply ok_ret]. pose proof (ts_get_local s s' vi H C I) as G.
    destruct (ts_get s vi) as [s1 r1], (ts_get s' vi) as [s1' r1']. destruct (ok_eq _ _ _ _ _ _ G) as (<- & A & F & F').
    destruct r1; eapply ok_val; exact G.
  - now apply handle_set_local.
  - now apply handle_iadd_local.
  - eapply ok_view; eauto.
  - eapply then_write; eauto. now apply (ok_ret s s' (Ok tt)).
Qed.
End Step.
End Local.

(** ** Schedules *)
Section Users.
Variable env : uenv.
Variable s0 : state.
Variable h : schedule.
Hypothesis Rs : reachable env s0.
Hypothesis Ap : apart s0 h.

(** The parameters at or below those of the views of user [u]. *)
Definition part (u i : nat) : Prop := exists o v w, In (u, o) h /\ works_on o = Some v /\
  nth_error (st_views s0) v = Some w /\ below s0 (v_param w) i.
Definition any (i : nat) : Prop := exists u, part u i.

Lemma app_prefix {A} (a b c d : list A) : a ++ b = c ++ d -> exists r, c = a ++ r \/ a = c ++ r.
Proof.
  revert c. induction a as [|x a IH]; intros [|y c] E; cbn in *; [exists []; auto|exists (y :: c); auto|exists (x :: a); auto|].
  inversion E; subst. destruct (IH c H1) as (r & [-> | ->]); exists r; auto.
Qed.
Lemma parts_disjoint u u' i : u <> u' -> part u i -> ~ part u' i.
Proof.
  intros N (o & v & w & I & W & V & B) (o' & v' & w' & I' & W' & V' & B').
  apply (ap_unrelated _ _ Ap u u' o o' v v' I I' N W W'). pose proof (reachable_wf _ _ Rs) as Wf.
  destruct (view_cell _ _ _ _ Wf V) as (q & Q & _). destruct (view_cell _ _ _ _ Wf V') as (q' & Q' & _).
  destruct (names_total s0 (wf_tree _ _ Wf) _ (nth_lt _ _ _ Q)) as (r & n & Rr & Nn).
  destruct (names_total s0 (wf_tree _ _ Wf) _ (nth_lt _ _ _ Q')) as (r' & n' & Rr' & Nn').
  destruct (below_names _ _ _ _ _ Wf Nn B) as ((rest & E) & Er).
  destruct (below_names _ _ _ _ _ Wf Nn' B') as ((rest' & E') & Er').
  split; [unfold view_region; rewrite V, V'; congruence|].
  assert (X : n ++ rest = n' ++ rest') by congruence.
  destruct (app_prefix _ _ _ _ X) as (z & [-> | ->]).
  - exists n, z. left. unfold view_name. rewrite V, V'. auto.
  - exists n', z. right. unfold view_name. rewrite V, V'. auto.
Qed.
Lemma part_closed u : closed (part u) s0.
Proof.
  intros i v cs c V (o & v1 & w1 & I & W & V1 & B) Cs Ic.
  destruct (family_reachable _ _ Rs _ _ _ V Cs) as (_ & _ & F). destruct (F c Ic) as (cv & Cv & _ & Bc).
  exists cv. split; auto. exists o, v1, w1. repeat (split; auto). eapply below_trans; eauto.
Qed.

(** What stays true during a schedule. *)
Record during (t : state) : Prop := {
  du_closed : forall u, closed (part u) t;
  du_inside : forall u o v, In (u, o) h -> works_on o = Some v -> inside (part u) t v }.
Lemma during_start : during s0.
Proof.
  constructor; [exact part_closed|]. intros u o v I W. destruct (ap_views _ _ Ap u o I) as (v' & W' & L).
  assert (v' = v) by congruence. subst. destruct (nth_error (st_views s0) v) as [w|] eqn:V; [|apply nth_error_None in V; lia].
  exists w. split; auto. exists o, v, w. repeat (split; auto). constructor.
Qed.
Lemma during_frame Q s t : during s -> frame Q s t -> during t.
Proof.
  intros D F. constructor.
  - intros u i v cs c V Pv Cs I. destruct (frame_back Q _ _ _ _ F V) as (v0 & V0 & E1 & E2 & _).
    destruct (du_closed _ D u i v0 cs c V0) as (w & W & Pw); [congruence|congruence|auto|].
    destruct (fr_v _ _ _ F _ _ W) as (w' & W' & E3 & _). exists w'. split; auto. congruence.
  - intros u o v I W. destruct (du_inside _ D u o v I W) as (w & V & Pw).
    destruct (fr_v _ _ _ F _ _ V) as (w' & W' & E3 & _). exists w'. split; auto. congruence.
Qed.
Lemma agree_refl Q s : agree Q s s.
Proof. constructor; auto. Qed.
Lemma call_frame u o t : In (u, o) h -> during t -> frame (part u) t (after env o t).
Proof.
  intros I D. destruct (ap_views _ _ Ap u o I) as (v & W & _).
  destruct (step_local (part u) env o v t t (agree_refl _ _) (du_closed _ D u) W (du_inside _ D u o v I W)) as (_ & _ & F & _).
  exact F.
Qed.
Lemma agree_other u u' t t' s : u <> u' -> frame (part u') t t' -> agree (part u) t s -> agree (part u) t' s.
Proof.
  intros N F A. assert (O : forall i, part u i -> ~ part u' i) by (intros; now apply (parts_disjoint u)).
  constructor.
  - rewrite (fr_vlen _ _ _ F). apply A.
  - intros i v V Pv. destruct (frame_back _ _ _ _ _ F V) as (v0 & V0 & E1 & _ & E3).
    assert (X : v = v0) by (apply E3, O; congruence). subst v0. exact (ag_v _ _ _ A _ _ V0 Pv).
  - intros i v V Pv. pose proof (ag_v' _ _ _ A _ _ V Pv) as V0. destruct (fr_v _ _ _ F _ _ V0) as (w & W & _ & _ & E).
    rewrite E in W by now apply O. exact W.
  - intros p Pp. rewrite (ag_p _ _ _ A p Pp). symmetry. apply (fr_p _ _ _ F). now apply O.
Qed.
Lemma schedule_local u k : forall t tu, (forall x, In x k -> In x h) -> during t -> agree (part u) t tu ->
  closed (part u) tu ->
  answers_to env u k t = answers env (calls u k) tu /\
  agree (part u) (after_all env (map snd k) t) (after_all env (calls u k) tu) /\
  frame any t (after_all env (map snd k) t).
Proof.
  induction k as [|[w o] k IH]; intros t tu S D A Cu.
  { split; auto. split; auto. apply frame_refl. }
  assert (I : In (w, o) h) by (apply S; now left). assert (S' : forall x, In x k -> In x h) by (intros; apply S; now right).
  pose proof (call_frame w o t I D) as F. pose proof (during_frame _ _ _ D F) as D'.
  assert (Fa : frame any t (after env o t)).
  { constructor; try apply F.
    - intros p N. apply (fr_p _ _ _ F). intros X. apply N. now exists w.
    - intros i v V. destruct (fr_v _ _ _ F _ _ V) as (x & X & E1 & E2 & E3). exists x. repeat (split; auto).
      intros N. apply E3. intros Y. apply N. now exists w. }
  unfold calls. cbn [map filter fst snd answers_to after_all fold_left]. destruct (w =? u) eqn:E.
  - apply Nat.eqb_eq in E. subst w. destruct (ap_views _ _ Ap u o I) as (v & W & _).
    destruct (step_local (part u) env o v t tu A (du_closed _ D u) W (du_inside _ D u o v I W)) as (E1 & A1 & _ & F1).
    cbn [map answers fold_left snd].
    destruct (IH (after env o t) (after env o tu) S' D' A1 (closed_frame _ _ _ Cu F1)) as (H1 & H2 & H3).
    split; [|split; [exact H2|eapply frame_trans; eauto]]. cbn [app]. f_equal; [exact E1|exact H1].
  - apply Nat.eqb_neq in E. cbn [app].
    destruct (IH (after env o t) tu S' D' (agree_other u w _ _ _ (fun X => E (eq_sym X)) F A) Cu) as (H1 & H2 & H3).
    split; [exact H1|]. split; [exact H2|]. eapply frame_trans; eauto.
Qed.
End Users.

Section Final.
Variable env : uenv.
Lemma C81_answers_proof s h u : reachable env s -> apart s h -> answers_to env u h s = answers env (calls u h) s.
Proof.
  intros R A. apply (schedule_local env s h R A u h s s); auto.
  - exact (during_start env s h R A).
  - apply agree_refl.
  - exact (part_closed env s h R u).
Qed.
Lemma in_calls u o (h : schedule) : In (u, o) h <-> In o (calls u h).
Proof.
  unfold calls. rewrite in_map_iff. split.
  - intros I. exists (u, o). split; auto. apply filter_In. split; auto. cbn. apply Nat.eqb_refl.
  - intros ([w o'] & E & I). apply filter_In in I. destruct I as [I B]. cbn in *. apply Nat.eqb_eq in B. now subst.
Qed.
Lemma nth_ext_eq {A} (a : list A) : forall b, (forall i, nth_error a i = nth_error b i) -> a = b.
Proof.
  induction a as [|x a IH]; intros [|y b] H; auto; try (specialize (H 0); discriminate).
  pose proof (H 0) as H0. cbn in H0. inversion H0; subst. f_equal. apply IH. intros i. exact (H (S i)).
Qed.
Lemma C81_state_proof s h h' : reachable env s -> apart s h -> (forall u, calls u h' = calls u h) ->
  after_all env (map snd h') s = after_all env (map snd h) s.
Proof.
  intros R A E.
  assert (S : forall x, In x h' -> In x h) by (intros [u o]; rewrite !in_calls, E; auto).
  assert (X : forall k, (forall x, In x k -> In x h) -> (forall u, calls u k = calls u h) ->
    frame (any s h) s (after_all env (map snd k) s) /\
    forall u, agree (part s h u) (after_all env (map snd k) s) (after_all env (calls u h) s)).
  { intros k Sk Ek. split.
    - apply (schedule_local env s h R A 0 k s s); auto; [exact (during_start env s h R A)|apply agree_refl|exact (part_closed env s h R 0)].
    - intros u. rewrite <- (Ek u). apply (schedule_local env s h R A u k s s); auto; [exact (during_start env s h R A)|apply agree_refl|exact (part_closed env s h R u)]. }
  destruct (X h' S E) as (F' & G'). destruct (X h (fun x I => I) (fun u => eq_refl)) as (F & G). clear X.
  set (a := after_all env (map snd h') s) in *. set (b := after_all env (map snd h) s) in *.
  assert (Er : st_regions a = st_regions b) by (rewrite (fr_regions _ _ _ F), (fr_regions _ _ _ F'); auto).
  assert (Ep : st_params a = st_params b).
  { apply nth_ext_eq. intros i. destruct (classic (any s h i)) as [[u U]|N].
    - rewrite <- (ag_p _ _ _ (G' u) i U). now apply (ag_p _ _ _ (G u)).
    - rewrite (fr_p _ _ _ F' i N), (fr_p _ _ _ F i N). auto. }
  assert (Ev : st_views a = st_views b).
  { apply nth_ext_eq. intros i. destruct (nth_error (st_views s) i) as [v|] eqn:V.
    - destruct (fr_v _ _ _ F' _ _ V) as (x & Hx & E1 & _ & N1). destruct (fr_v _ _ _ F _ _ V) as (y & Hy & E2 & _ & N2).
      rewrite Hx, Hy. destruct (classic (any s h (v_param v))) as [[u U]|N]; [|rewrite N1, N2; auto].
      rewrite <- (ag_v _ _ _ (G' u) _ _ Hx), <- (ag_v _ _ _ (G u) _ _ Hy); congruence.
    - apply nth_error_None in V. rewrite (proj2 (nth_error_None _ _)), (proj2 (nth_error_None _ _)); auto;
        [rewrite (fr_vlen _ _ _ F)|rewrite (fr_vlen _ _ _ F')]; auto. }
  destruct a, b. cbn in *. congruence.
Qed.
End Final.
