(** The DICE adapter computes on six arrays: [calc_step] on the parameter sets is simulated by
    a computation without parameter sets, views, caches and locks. *)
From Coq Require Import String List ZArith Reals Bool Arith Lia.
From Verif Require Import Base ListFacts Units TimeModel Calendar Core CoreEvo CoreTree CoreNames
  CoreInv CoreStep Spec_Core CoreReq CoreP1 CoreP2 Adapters Dice ConvShape.
Import ListNotations.
Local Open Scope string_scope.
Local Open Scope list_scope.

(** ** The machine without parameter sets *)

Inductive series := Mat | Ml | Mu | Tatm | Tocean | Forc.
Definition nm (x : series) : string :=
  match x with Mat => "mat" | Ml => "ml" | Mu => "mu" | Tatm => "tatm" | Tocean => "tocean" | Forc => "forc" end.
Definition series_eq_dec (x y : series) : {x = y} + {x <> y}.
Proof. decide equality. Defined.

Record dstate := mkD {
  d_t : Z;
  d_time : Z;
  d_coef : list (string * num);
  d_junk : nat -> num;
  d_get : series -> list num }.
Record inputs := mkI {
  i_scalar : string -> res num;
  i_generic : string -> res gval;
  i_E : res (list num);
  i_count : res Z;
  i_start : series -> list num -> res unit }.

Definition P (A : Type) := dstate -> dstate * res A.
Definition pret {A} (a : A) : P A := fun d => (d, Ok a).
Definition plift {A} (r : res A) : P A := fun d => (d, r).
Definition pbind {A B} (m : P A) (f : A -> P B) : P B := fun d =>
  match m d with
  | (d', Ok a) => f a d'
  | (d', Err e) => (d', Err e)
  end.
Notation "x <~ m ;; f" := (pbind m (fun x => f)) (at level 61, m at next level, right associativity).
Notation "m ;;~ f" := (pbind m (fun _ => f)) (at level 61, right associativity).

Definition at_index (l : list num) (i : Z) : res num :=
  match pyindex (length l) i with
  | Some j => match nth_error l j with Some x => Ok x | None => Err EIndexError end
  | None => Err EIndexError
  end.
Definition d_set (d : dstate) (x : series) (l : list num) : dstate :=
  mkD (d_t d) (d_time d) (d_coef d) (d_junk d) (fun y => if series_eq_dec y x then l else d_get d y).
Definition p_item (x : series) (i : Z) : P num := fun d => (d, at_index (d_get d x) i).
Definition p_set_item (x : series) (i : Z) (y : num) : P unit := fun d =>
  match pyindex (length (d_get d x)) i with
  | None => (d, Err EIndexError)
  | Some j => (d_set d x (upd (d_get d x) j y), Ok tt)
  end.
Definition p_timestep : P Z := fun d => (d, Ok (d_t d)).
Definition p_set_timestep (t : Z) : P unit := fun d => (mkD t (d_time d) (d_coef d) (d_junk d) (d_get d), Ok tt).
Definition p_now : P Z := fun d => (d, Ok (d_time d)).
Definition p_set_time (t : Z) : P unit := fun d => (mkD (d_t d) t (d_coef d) (d_junk d) (d_get d), Ok tt).

Definition p_coef (n : string) : P num := fun d =>
  (d, match alookup n (d_coef d) with Some x => Ok x | None => Err ETypeError end).
Definition p_set_coef (n : string) (x : num) : P unit := fun d =>
  (mkD (d_t d) (d_time d) ((n, x) :: d_coef d) (d_junk d) (d_get d), Ok tt).
Definition p_empty (n : Z) : P arr := fun d =>
  if (n <? 0)%Z then (d, Err EValueError)
  else let k := Z.to_nat n in
       (mkD (d_t d) (d_time d) (d_coef d) (fun i => d_junk d (k + i)%nat) (d_get d),
        Ok (mkArr false (map (d_junk d) (seq 0 k)))).

Section Pure.
Variable I : inputs.
Definition p_scalar (n : string) : P num := plift (i_scalar I n).
Definition p_generic (n : string) : P gval := plift (i_generic I n).
Definition p_set_values (x : series) (l : list num) : P unit := fun d =>
  match i_start I x l with
  | Ok _ => (d_set d x l, Ok tt)
  | Err e => (d, Err e)
  end.
Definition p_time_of (n : string) : P dt64 :=
  g <~ p_generic n ;; match g with GTime t => pret t | _ => plift (Err ETypeError) end.
Definition p_delta_of (n : string) : P dt64 :=
  g <~ p_generic n ;; match g with GDelta t => pret t | _ => plift (Err ETypeError) end.
Definition p_E (i : Z) : P num := l <~ plift (i_E I) ;; plift (at_index l i).

Definition p_calc_step : P unit :=
  t0 <~ p_timestep ;;
  let t := (t0 + 1)%Z in
  p_set_timestep t ;;~
  now <~ p_now ;; period <~ p_delta_of "period_length" ;;
  p_set_time (now + dt_ns period) ;;~
  lower <~ p_scalar "mat_lower" ;;
  mat <~ p_item Mat (t - 1) ;; b11 <~ p_coef "b11" ;;
  mu <~ p_item Mu (t - 1) ;; b21 <~ p_coef "b21" ;;
  e <~ p_E (t - 1) ;; period <~ p_delta_of "period_length" ;;
  rounding <~ p_generic "original_rounding" ;;
  p_set_item Mat t (py_max lower
    (plus_ (plus_ (times_ mat b11) (times_ mu b21))
       (nop Rdiv (times_ e (in_years period))
          (Some (if truthy rounding then 3666 / 1000 else 1)%R)))) ;;~
  lower <~ p_scalar "ml_lower" ;;
  ml <~ p_item Ml (t - 1) ;; b33 <~ p_coef "b33" ;;
  mu <~ p_item Mu (t - 1) ;; b23 <~ p_scalar "b23" ;;
  p_set_item Ml t (py_max lower (plus_ (times_ ml b33) (times_ mu b23))) ;;~
  lower <~ p_scalar "mu_lower" ;;
  mat <~ p_item Mat (t - 1) ;; b12 <~ p_scalar "b12" ;;
  mu <~ p_item Mu (t - 1) ;; b22 <~ p_coef "b22" ;;
  ml <~ p_item Ml (t - 1) ;; b32 <~ p_coef "b32" ;;
  p_set_item Mu t (py_max lower (plus_ (plus_ (times_ mat b12) (times_ mu b22)) (times_ ml b32))) ;;~
  lower <~ p_scalar "tocean_lower" ;; upper <~ p_scalar "tocean_upper" ;;
  tocean <~ p_item Tocean (t - 1) ;; c4 <~ p_scalar "c4" ;;
  tatm <~ p_item Tatm (t - 1) ;; tocean' <~ p_item Tocean (t - 1) ;;
  p_set_item Tocean t (py_max lower (py_min upper
    (plus_ tocean (times_ c4 (minus_ tatm tocean'))))) ;;~
  start <~ p_time_of "start_time" ;; period <~ p_delta_of "period_length" ;;
  saturation <~ p_time_of "forcoth_saturation_time" ;;
  fex0 <~ p_scalar "fex0" ;; fex1 <~ p_scalar "fex1" ;;
  forcoth <~ plift (exogenous_forcing start period saturation t fex0 fex1) ;;
  fco22x <~ p_scalar "fco22x" ;; mat <~ p_item Mat t ;; mateq <~ p_scalar "mateq" ;;
  r <~ plift (np_div mat mateq) ;; l <~ plift (log2 r) ;;
  p_set_item Forc t (plus_ (times_ fco22x l) forcoth) ;;~
  upper <~ p_scalar "tatm_upper" ;;
  tatm <~ p_item Tatm (t - 1) ;; c1 <~ p_scalar "c1" ;;
  forc <~ p_item Forc t ;; fco22x <~ p_scalar "fco22x" ;; t2xco2 <~ p_scalar "t2xco2" ;;
  lambda <~ plift (div_ fco22x t2xco2) ;;
  c3 <~ p_scalar "c3" ;; tocean <~ p_item Tocean (t - 1) ;;
  p_set_item Tatm t (py_min upper
    (plus_ tatm (times_ c1
       (minus_ (minus_ forc (times_ lambda tatm)) (times_ c3 (minus_ tatm tocean)))))).

Definition p_start (x : series) (initial : P num) : P unit :=
  n <~ plift (i_count I) ;; a <~ p_empty n ;; p_set_values x (a_val a) ;;~
  y <~ initial ;; p_set_item x 0 y.
Definition p_forcing : P num :=
  f <~ p_scalar "fco22x" ;; m <~ p_scalar "mat0" ;; q <~ p_scalar "mateq" ;;
  r <~ plift (div_ m q) ;; l <~ plift (log2 r) ;; e <~ p_scalar "fex0" ;;
  pret (plus_ (times_ f l) e).
Definition p_coefs : P unit :=
  p_set_timestep 0 ;;~
  b12 <~ p_scalar "b12" ;;
  p_set_coef "b11" (minus_ (Some 1%R) b12) ;;~
  b12 <~ p_scalar "b12" ;; mateq <~ p_scalar "mateq" ;; mueq <~ p_scalar "mueq" ;;
  b21 <~ plift (div_ (times_ b12 mateq) mueq) ;;
  p_set_coef "b21" b21 ;;~
  b23 <~ p_scalar "b23" ;;
  p_set_coef "b22" (minus_ (minus_ (Some 1%R) b21) b23) ;;~
  b23 <~ p_scalar "b23" ;; mueq <~ p_scalar "mueq" ;; mleq <~ p_scalar "mleq" ;;
  b32 <~ plift (div_ (times_ b23 mueq) mleq) ;;
  p_set_coef "b32" b32 ;;~
  p_set_coef "b33" (minus_ (Some 1%R) b32).
Definition p_starts : P unit :=
  p_start Mat (p_scalar "mat0") ;;~
  p_start Ml (p_scalar "ml0") ;;~
  p_start Mu (p_scalar "mu0") ;;~
  p_start Tatm (p_scalar "tatm0") ;;~
  p_start Tocean (p_scalar "tocean0") ;;~
  p_start Forc p_forcing.
Definition p_reset : P unit := p_coefs ;;~ p_starts.

Fixpoint p_repeat (n : nat) : P unit :=
  match n with
  | O => pret tt
  | S n' => p_calc_step ;;~ p_repeat n'
  end.
End Pure.

(** ** Relating worlds to machine states *)

Record vsame (v0 v : view) : Prop := {
  vs_public : v_public v = v_public v0;
  vs_kind : v_kind v = v_kind v0;
  vs_param : v_param v = v_param v0;
  vs_unit : v_unit v = v_unit v0;
  vs_uconv : v_uconv v = v_uconv v0;
  vs_tconv : v_tconv v = v_tconv v0;
  vs_children : v_children v = v_children v0 }.
Record psame (q0 q : param) : Prop := {
  ps_name : p_name q = p_name q0;
  ps_parent : p_parent q = p_parent q0;
  ps_region : p_region q = p_region q0;
  ps_children : p_children q = p_children q0;
  ps_read : p_read q = p_read q0;
  ps_type : p_type q = p_type q0;
  ps_unit : p_unit q = p_unit q0;
  ps_tp : p_time q = p_time q0 }.

Lemma vsame_refl v : vsame v v. Proof. constructor; auto. Qed.
Lemma psame_refl v : psame v v. Proof. constructor; auto. Qed.
Lemma vsame_trans a b c : vsame a b -> vsame b c -> vsame a c.
Proof. intros [] []. constructor; congruence. Qed.
Lemma psame_trans a b c : psame a b -> psame b c -> psame a c.
Proof. intros [] []. constructor; congruence. Qed.

(** View [v] of parameter [q] has the array [d] in its cache, the cache is current, and, unless
    it is locked, [q] keeps what [d] is at the time points of [q]. *)
Record live (locked : bool) (v : view) (q : param) (d : list num) : Prop := {
  lv_public : v_public v = true;
  lv_kind : v_kind v = KTimeseries;
  lv_writable : v_writable v = true;
  lv_written : p_written q = true;
  lv_data : v_data v = Some (mkArr false d);
  lv_version : v_version v = Some (p_version q);
  lv_locked : v_locked v = locked;
  lv_conv : exists xs, to_param v d = Ok xs;
  lv_kept : locked = false -> exists xs, to_param v d = Ok xs /\ p_data q = Some (PArr xs) }.

Lemma vsame_conv v v' d : vsame v v' -> to_param v' d = to_param v d.
Proof. intros E. unfold to_param. now rewrite (vs_tconv _ _ E), (vs_uconv _ _ E). Qed.

(** *** One live series *)
Section One.
Variable env : uenv.
Variables (s : state) (vi : nat) (v : view) (q : param) (d : list num) (lk : bool).
Hypothesis V : nth_error (st_views s) vi = Some v.
Hypothesis Q : nth_error (st_params s) (v_param v) = Some q.

Lemma live_get : live lk v q d -> ts_get s vi = (s, Ok d).
Proof.
  intros L. unfold ts_get, read_with. rewrite V, Q, (lv_data _ _ _ _ L), (lv_version _ _ _ _ L), Nat.eqb_refl.
  reflexivity.
Qed.
Lemma live_set_item i y : live lk v q d ->
  match pyindex (length d) i with
  | None => step env (OSetItem vi i y) s = (s, Err EIndexError)
  | Some j => exists v' q', step env (OSetItem vi i y) s = (put s (v_param v) q' vi v', Ok VUnit) /\
      vsame v v' /\ psame q q' /\ live lk v' q' (upd d j y)
  end.
Proof.
  intros L. cbn [step]. unfold with_view. rewrite V, (lv_public _ _ _ _ L), (lv_kind _ _ _ _ L).
  unfold ts_setitem. rewrite (live_get L). unfold handle_set. rewrite V, (lv_data _ _ _ _ L). cbn [a_val a_int].
  destruct (pyindex (length d) i) as [j|]; [|reflexivity].
  unfold cast_item. set (l := upd d j y). set (v1 := v_set_data v (mkArr false l)).
  unfold ts_write. unfold set_view at 1. simpl st_views. rewrite nth_upd_eq by (eapply nth_lt; eauto).
  assert (Len : length l = length d) by apply upd_length.
  destruct (lv_conv _ _ _ _ L) as (xs & Cx).
  pose proof (to_param_both v l d Len) as Bo. rewrite Cx in Bo.
  destruct (to_param v l) as [ys|] eqn:Cy; [|contradiction].
  change (v_locked v1) with (v_locked v). rewrite (lv_locked _ _ _ _ L).
  destruct lk eqn:Lk.
  - exists v1, q. simpl. rewrite (set_view_put _ _ _ _ _ Q). split; [reflexivity|].
    split; [constructor; auto|]. split; [apply psame_refl|].
    destruct L. constructor; unfold v1; simpl; auto.
    + exists ys. exact Cy.
    + intros. congruence.
  - exists (v_set_version v1 (S (p_version q))), (p_store q (PArr ys)). simpl. rewrite Q.
    change (to_param v1 l) with (to_param v l). rewrite Cy. simpl.
    split. { unfold put, set_view, set_param. simpl. now rewrite upd_upd. }
    split; [constructor; auto|]. split; [constructor; auto|].
    destruct L. constructor; unfold v1; simpl; auto.
    + exists ys. exact Cy.
    + intros. exists ys. auto.
Qed.
Lemma live_lock : live lk v q d -> exists v',
  step env (OLock vi) s = (put s (v_param v) q vi v', Ok VUnit) /\ vsame v v' /\ live true v' q d.
Proof.
  intros L. cbn [step]. unfold with_view. rewrite V, (lv_public _ _ _ _ L), (lv_kind _ _ _ _ L).
  unfold ts_lock. simpl. rewrite (set_view_put _ _ _ _ _ Q). eexists. split; [reflexivity|].
  split; [constructor; auto|]. destruct L. constructor; auto. discriminate.
Qed.
Lemma live_unlock : live lk v q d -> exists v' q',
  step env (OUnlock vi) s = (put s (v_param v) q' vi v', Ok VUnit) /\ vsame v v' /\ psame q q' /\
  live false v' q' d.
Proof.
  intros L. cbn [step]. unfold with_view. rewrite V, (lv_public _ _ _ _ L), (lv_kind _ _ _ _ L).
  unfold ts_unlock, ts_write. unfold set_view at 1. simpl st_views. rewrite nth_upd_eq by (eapply nth_lt; eauto).
  simpl. rewrite (lv_data _ _ _ _ L), Q. simpl.
  destruct (lv_conv _ _ _ _ L) as (xs & Cx).
  change (to_param (v_set_locked v false) d) with (to_param v d). rewrite Cx. simpl.
  eexists _, _. split. { unfold put, set_view, set_param. simpl. rewrite upd_upd. reflexivity. }
  split; [constructor; auto|]. split; [constructor; auto|].
  destruct L. constructor; simpl; auto. intros. exists xs. auto.
Qed.
End One.

(** A whole write only looks at the two cells. *)
Lemma check_write_local s vi v q t u tp : nth_error (st_views s) vi = Some v ->
  nth_error (st_params s) (v_param v) = Some q -> exists q' v' r,
  v_param v' = v_param v /\
  forall s, nth_error (st_views s) vi = Some v -> nth_error (st_params s) (v_param v) = Some q ->
  check_write s vi v t u tp = (put s (v_param v) q' vi v', r).
Proof.
  intros V Q. unfold check_write. destruct (v_writable v).
  - exists q, v, (Ok tt). split; auto. intros s2 V2 Q2. now rewrite put_same.
  - unfold on_param. destruct (attempt_write q t u tp) as [q1 [[]|e]] eqn:A.
    + exists q1, (v_set_writable v), (Ok tt). split; auto. intros s2 V2 Q2. rewrite Q2, A. reflexivity.
    + exists q1, v, (Err e). split; auto. intros s2 V2 Q2. rewrite Q2, A.
      unfold put, set_param. now rewrite (upd_same (st_views s2)).
Qed.
Lemma ts_set_local s vi v q a : nth_error (st_views s) vi = Some v ->
  nth_error (st_params s) (v_param v) = Some q -> exists q' v' r,
  forall s, nth_error (st_views s) vi = Some v -> nth_error (st_params s) (v_param v) = Some q ->
  ts_set s vi v a = (put s (v_param v) q' vi v', r).
Proof.
  intros V Q. unfold ts_set.
  edestruct (check_write_local s vi v q) as (q1 & v1 & r1 & Pv & C); eauto.
  destruct r1 as [u|e].
  2: { exists q1, v1, (Err e). intros s2 V2 Q2. now rewrite (C s2 V2 Q2). }
  destruct (Z.eqb_spec (Z.of_nat (length (a_val a))) (target_length (v_tconv v))) as [E|E].
  2: { exists q1, v1, (Err ETimeseriesMismatch). intros s2 V2 Q2. rewrite (C s2 V2 Q2). auto. }
  assert (X : forall b, exists q' v' r, forall s2, nth_error (st_views s2) vi = Some v ->
    nth_error (st_params s2) (v_param v) = Some q ->
    ts_write (set_view (put s2 (v_param v) q1 vi v1) vi (v_set_data v1 b)) vi = (put s2 (v_param v) q' vi v', r)).
  { intros b. destruct (v_locked v1) eqn:Lk.
    - exists q1, (v_set_data v1 b), (Ok tt). intros s2 V2 Q2.
      rewrite (set_view_put _ _ _ _ _ (put_param _ _ _ _ _ _ Q2)), put_put. unfold ts_write.
      rewrite (put_view _ _ _ _ _ _ V2). simpl. now rewrite Lk.
    - destruct (to_param (v_set_data v1 b) (a_val b)) as [xs|e] eqn:T.
      + exists (p_store q1 (PArr xs)), (v_set_version (v_set_data v1 b) (S (p_version q1))), (Ok tt). intros s2 V2 Q2.
        rewrite (set_view_put _ _ _ _ _ (put_param _ _ _ _ _ _ Q2)), put_put. unfold ts_write.
        rewrite (put_view _ _ _ _ _ _ V2). simpl v_locked. rewrite Lk. simpl v_data. simpl v_param. rewrite Pv.
        rewrite (put_param _ _ _ _ _ _ Q2), T. unfold put, set_view, set_param. simpl. now rewrite !upd_upd.
      + exists q1, (v_set_data v1 b), (Err e). intros s2 V2 Q2.
        rewrite (set_view_put _ _ _ _ _ (put_param _ _ _ _ _ _ Q2)), put_put. unfold ts_write.
        rewrite (put_view _ _ _ _ _ _ V2). simpl v_locked. rewrite Lk. simpl v_data. simpl v_param. rewrite Pv.
        rewrite (put_param _ _ _ _ _ _ Q2), T. reflexivity. }
  destruct (v_data v1) as [d|] eqn:D.
  - destruct (a_int d && negb (a_int a)) eqn:Bi.
    + exists q1, v1, (Err ETypeError). intros s2 V2 Q2.
      rewrite (C s2 V2 Q2), (put_view _ _ _ _ _ _ V2), D, Bi. reflexivity.
    + destruct (X (mkArr (a_int d) (a_val a))) as (q' & v' & r & X').
      exists q', v', r. intros s2 V2 Q2. rewrite (C s2 V2 Q2), (put_view _ _ _ _ _ _ V2), D, Bi. auto.
  - destruct (X a) as (q' & v' & r & X').
    exists q', v', r. intros s2 V2 Q2. rewrite (C s2 V2 Q2), (put_view _ _ _ _ _ _ V2), D. auto.
Qed.

Section Sim.
Variable env : uenv.
(** The world after the views have been requested; where its series are: view cell, parameter cell. *)
Variable w0 : world.
Variable vi pi : series -> nat.

Record base : Prop := {
  ba_attr : forall x, alookup (nm x) (w_views w0) = Some (vi x);
  ba_inj : forall x y, pi x = pi y -> x = y;
  ba_wf : wf env (w_out w0);
  ba_cells : forall x, exists v q, nth_error (st_views (w_out w0)) (vi x) = Some v /\ v_param v = pi x /\
    nth_error (st_params (w_out w0)) (pi x) = Some q /\
    v_public v = true /\ v_kind v = KTimeseries /\ v_data v = None /\ v_locked v = false }.
Hypothesis B : base.

Lemma ba_inj_vi x y : vi x = vi y -> x = y.
Proof.
  intros E. destruct (ba_cells B x) as (v & _ & V & Pv & _), (ba_cells B y) as (v' & _ & V' & Pv' & _).
  apply (ba_inj B). rewrite E in V. congruence.
Qed.

(** Reading the emissions. *)
Definition read_E (w : world) : res (list num) :=
  match alookup "E" (w_views w) with
  | None => Err EAttributeError
  | Some v => match answer env (OGetValues v) (w_in w) with
              | Ok (VArr l) => Ok l
              | Ok _ => Err EInvalid
              | Err e => Err e
              end
  end.
(** Writing a whole series. *)
Definition start_of (x : series) (l : list num) : res unit :=
  match answer env (OSetValues (vi x) (mkArr false l)) (w_out w0) with
  | Ok _ => Ok tt
  | Err e => Err e
  end.

Definition I : inputs :=
  mkI (fun n => snd (scalar env n w0)) (fun n => snd (generic env n w0)) (read_E w0) (snd (count w0)) start_of.

(** [lk x]: [None] if the series [x] has not been touched yet, else whether it is locked. *)
Record J (lk : series -> option bool) (w : world) (d : dstate) : Prop := {
  j_views : w_views w = w_views w0;
  j_count : w_count w = w_count w0;
  j_in : rd (w_in w0) (w_in w);
  j_E : read_E w = read_E w0;
  j_coef : w_coef w = d_coef d;
  j_junk : w_junk w = d_junk d;
  j_t : w_timestep w = Some (d_t d);
  j_time : w_time w = d_time d;
  j_regions : st_regions (w_out w) = st_regions (w_out w0);
  j_plen : length (st_params (w_out w)) = length (st_params (w_out w0));
  j_vlen : length (st_views (w_out w)) = length (st_views (w_out w0));
  j_params : forall p, (forall x, p <> pi x) ->
    nth_error (st_params (w_out w)) p = nth_error (st_params (w_out w0)) p;
  j_others : forall i, (forall x, i <> vi x) ->
    nth_error (st_views (w_out w)) i = nth_error (st_views (w_out w0)) i;
  j_series : forall x, exists v0 q0 v q,
    nth_error (st_views (w_out w0)) (vi x) = Some v0 /\ nth_error (st_params (w_out w0)) (pi x) = Some q0 /\
    nth_error (st_views (w_out w)) (vi x) = Some v /\ nth_error (st_params (w_out w)) (pi x) = Some q /\
    vsame v0 v /\ psame q0 q /\
    match lk x with None => v = v0 /\ q = q0 | Some b => live b v q (d_get d x) end }.

Lemma J_start d : w_coef w0 = d_coef d -> w_junk w0 = d_junk d -> w_timestep w0 = Some (d_t d) ->
  w_time w0 = d_time d -> J (fun _ => None) w0 d.
Proof.
  intros. constructor; auto using rd_refl. intros x.
  destruct (ba_cells B x) as (v & q & V & Pv & Q & _). exists v, q, v, q.
  repeat (split; auto using vsame_refl, psame_refl).
Qed.
Lemma J_ext lk lk' w d : (forall x, lk x = lk' x) -> J lk w d -> J lk' w d.
Proof. intros E []. constructor; auto. intros x. rewrite <- E. auto. Qed.

Definition refines {A} lk lk' (m : M A) (p : P A) : Prop := forall w d, J lk w d ->
  match p d with
  | (d', Ok a) => exists w', m w = (w', Ok a) /\ J lk' w' d'
  | (d', Err e) => exists w', m w = (w', Err e)
  end.

Lemma ref_bind {A C} lk lk1 lk2 (m : M A) p (f : A -> M C) g :
  refines lk lk1 m p -> (forall a, refines lk1 lk2 (f a) (g a)) -> refines lk lk2 (bind m f) (pbind p g).
Proof.
  intros H K w d Jw. specialize (H w d Jw). unfold pbind, bind. destruct (p d) as [d' [a|e]].
  - destruct H as (w' & -> & J'). apply K; auto.
  - destruct H as (w' & ->). eauto.
Qed.
Lemma ref_bind_if {A C} (Pa : A -> Prop) lk lk1 lk2 (m : M A) p (f : A -> M C) g :
  refines lk lk1 m p -> (forall d d' a, p d = (d', Ok a) -> Pa a) ->
  (forall a, Pa a -> refines lk1 lk2 (f a) (g a)) -> refines lk lk2 (bind m f) (pbind p g).
Proof.
  intros H Hp K w d Jw. specialize (H w d Jw). unfold pbind, bind. destruct (p d) as [d' [a|e]] eqn:E.
  - destruct H as (w' & -> & J'). apply K; eauto.
  - destruct H as (w' & ->). eauto.
Qed.
Lemma ref_ret {A} lk (a : A) : refines lk lk (ret a) (pret a).
Proof. intros w d Jw. exists w. auto. Qed.
Lemma ref_lift {A} lk (r : res A) : refines lk lk (lift_res r) (plift r).
Proof. intros w d Jw. unfold plift, lift_res. destruct r; exists w; auto. Qed.
Lemma ref_raise {A} lk e : refines lk lk (@raise A e) (plift (Err e)).
Proof. intros w d Jw. exists w. auto. Qed.

(** Reads of scalars and generics do not change anything, and are not affected by reads. *)
Lemma world_eta w : mkWorld (w_in w) (w_out w) (w_views w) (w_coef w) (w_time w) (w_timestep w) (w_count w) (w_junk w) = w.
Proof. now destruct w. Qed.
Lemma scalar_pure n w : scalar env n w = (w, snd (scalar env n w)).
Proof.
  unfold scalar, bind, view_of. destruct (alookup n (w_views w)) as [v|]; [|reflexivity].
  unfold op_on. cbn [step]. unfold with_view. destruct (nth_error (st_views (w_in w)) v) as [c|]; [|rewrite world_eta; reflexivity].
  destruct (v_public c); [|rewrite world_eta; reflexivity].
  destruct (v_kind c); try (rewrite world_eta; reflexivity).
  destruct (scalar_get (w_in w) c); simpl; rewrite world_eta; reflexivity.
Qed.
Lemma generic_pure n w : generic env n w = (w, snd (generic env n w)).
Proof.
  unfold generic, bind, view_of. destruct (alookup n (w_views w)) as [v|]; [|reflexivity].
  unfold op_on. cbn [step]. unfold with_view. destruct (nth_error (st_views (w_in w)) v) as [c|]; [|rewrite world_eta; reflexivity].
  destruct (v_public c); [|rewrite world_eta; reflexivity].
  destruct (v_kind c); try (rewrite world_eta; reflexivity).
  destruct (generic_get (w_in w) c); simpl; rewrite world_eta; reflexivity.
Qed.
Lemma rd_nth s s' i v : rd s s' -> nth_error (st_views s) i = Some v ->
  exists v', nth_error (st_views s') i = Some v' /\ vread v v'.
Proof. intros H. apply (rd_views _ _ H). Qed.
Lemma rd_none s s' i : rd s s' -> nth_error (st_views s) i = None -> nth_error (st_views s') i = None.
Proof. intros H N. apply nth_error_None. rewrite (rd_len _ _ H). now apply nth_error_None. Qed.
Lemma leaf_get_rd s s' c : rd s s' -> scalar_leaf_get s' c = scalar_leaf_get s c.
Proof.
  intros H. unfold scalar_leaf_get. destruct (nth_error (st_views s) c) as [v|] eqn:V.
  - destruct (rd_nth _ _ _ _ H V) as (v' & -> & Vr). rewrite (vr_param _ _ Vr), (rd_params _ _ H).
    destruct (nth_error (st_params s) (v_param v)); auto. destruct (has_children p); auto.
    unfold scalar_own. now rewrite (vr_uconv _ _ Vr).
  - now rewrite (rd_none _ _ _ H V).
Qed.
Lemma get_rd s s' i v v' : rd s s' -> nth_error (st_views s) i = Some v -> nth_error (st_views s') i = Some v' ->
  vread v v' -> scalar_get s' v' = scalar_get s v /\ generic_get s' v' = generic_get s v.
Proof.
  intros H V V' Vr. unfold scalar_get, generic_get. rewrite (vr_param _ _ Vr), (rd_params _ _ H). split; auto.
  destruct (nth_error (st_params s) (v_param v)); auto.
  rewrite (vr_children _ _ Vr). destruct (has_children p).
  - destruct (v_children v); auto. rewrite (rmap_ext (scalar_leaf_get s') (scalar_leaf_get s)); auto.
    intros c _. now apply leaf_get_rd.
  - unfold scalar_own. now rewrite (vr_uconv _ _ Vr).
Qed.
Lemma scalar_rd n w w' : rd (w_in w) (w_in w') -> w_views w' = w_views w ->
  snd (scalar env n w') = snd (scalar env n w) /\ snd (generic env n w') = snd (generic env n w).
Proof.
  intros H E. unfold scalar, generic, bind, view_of. rewrite E. destruct (alookup n (w_views w)) as [v|]; [|auto].
  unfold op_on. cbn [step]. unfold with_view.
  destruct (nth_error (st_views (w_in w)) v) as [c|] eqn:V; [|rewrite (rd_none _ _ _ H V); auto].
  destruct (rd_nth _ _ _ _ H V) as (c' & V' & Vr). rewrite V', (vr_public _ _ Vr), (vr_kind _ _ Vr).
  destruct (get_rd _ _ _ _ _ H V V' Vr) as [G1 G2]. rewrite G1, G2.
  destruct (v_public c); [|auto].
  destruct (v_kind c); split; auto;
  repeat match goal with |- context [scalar_get ?a ?b] => destruct (scalar_get a b); simpl; auto
         | |- context [generic_get ?a ?b] => destruct (generic_get a b); simpl; auto end.
Qed.
Lemma J_scalar lk w d n : J lk w d ->
  snd (scalar env n w) = i_scalar I n /\ snd (generic env n w) = i_generic I n.
Proof. intros Jw. apply scalar_rd; apply Jw. Qed.
Lemma ref_scalar lk n : refines lk lk (scalar env n) (p_scalar I n).
Proof.
  intros w d Jw. rewrite scalar_pure, (proj1 (J_scalar _ _ _ n Jw)). unfold p_scalar, plift.
  destruct (i_scalar I n); exists w; auto.
Qed.
Lemma ref_generic lk n : refines lk lk (generic env n) (p_generic I n).
Proof.
  intros w d Jw. rewrite generic_pure, (proj2 (J_scalar _ _ _ n Jw)). unfold p_generic, plift.
  destruct (i_generic I n); exists w; auto.
Qed.
Lemma ref_time_of lk n : refines lk lk (time_of env n) (p_time_of I n).
Proof.
  eapply ref_bind; [apply ref_generic|]. intros [| | | | | |]; simpl; try apply ref_raise. apply ref_ret.
Qed.
Lemma ref_delta_of lk n : refines lk lk (delta_of env n) (p_delta_of I n).
Proof.
  eapply ref_bind; [apply ref_generic|]. intros [| | | | | |]; simpl; try apply ref_raise. apply ref_ret.
Qed.

(** Bookkeeping. *)
Lemma ref_timestep lk : refines lk lk timestep p_timestep.
Proof.
  intros w d Jw. unfold timestep, p_timestep. rewrite (j_t _ _ _ Jw). exists w. auto.
Qed.
Lemma ref_count lk : refines lk lk count (plift (i_count I)).
Proof.
  intros w d Jw. unfold count, plift. simpl. unfold count. rewrite (j_count _ _ _ Jw).
  destruct (w_count w0); exists w; auto.
Qed.
Lemma ref_coef lk n : refines lk lk (coef n) (p_coef n).
Proof.
  intros w d Jw. unfold coef, p_coef. rewrite (j_coef _ _ _ Jw). destruct (alookup n (d_coef d)); exists w; auto.
Qed.
Lemma J_keep lk w d w' d' : J lk w d -> w_in w' = w_in w -> w_views w' = w_views w -> w_coef w' = d_coef d' ->
  w_count w' = w_count w -> w_junk w' = d_junk d' -> w_out w' = w_out w ->
  w_timestep w' = Some (d_t d') -> w_time w' = d_time d' -> d_get d' = d_get d -> J lk w' d'.
Proof.
  intros Jw A1 A2 A3 A4 A5 A6 A7 A8 A9.
  destruct Jw. constructor; rewrite ?A6; auto; try congruence.
  - unfold read_E at 1. rewrite A1, A2. exact j_E0.
  - rewrite A9. auto.
Qed.
Lemma ref_set_timestep lk t : refines lk lk (set_timestep t) (p_set_timestep t).
Proof.
  intros w d Jw. eexists. split; [reflexivity|]. eapply J_keep; eauto; simpl; auto; apply Jw.
Qed.
Lemma ref_time lk : refines lk lk current_time p_now.
Proof. intros w d Jw. exists w. unfold current_time, p_now. rewrite (j_time _ _ _ Jw). auto. Qed.
Lemma ref_set_time lk t : refines lk lk (set_time t) (p_set_time t).
Proof.
  intros w d Jw. eexists. split; [reflexivity|]. eapply J_keep; eauto; simpl; auto; apply Jw.
Qed.
Lemma ref_set_coef lk n x : refines lk lk (set_coef n x) (p_set_coef n x).
Proof.
  intros w d Jw. eexists. split; [reflexivity|]. eapply J_keep; eauto; simpl; auto; try apply Jw.
  f_equal. apply Jw.
Qed.
Lemma ref_empty lk n : refines lk lk (np_empty n) (p_empty n).
Proof.
  intros w d Jw. unfold np_empty, p_empty. destruct (n <? 0)%Z; [eauto|].
  eexists. rewrite (j_junk _ _ _ Jw). split; [reflexivity|]. eapply J_keep; eauto; simpl; auto; apply Jw.
Qed.

(** The emissions: only the first read touches the input set, and only caches. *)
Lemma ref_E lk i : refines lk lk (item env In_ "E" i) (p_E I i).
Proof.
  intros w d Jw. pose proof (j_E _ _ _ Jw) as E. unfold read_E at 1 in E.
  unfold item, p_E, bind, pbind, view_of, plift. simpl i_E.
  destruct (alookup "E" (w_views w)) as [v|] eqn:Ve.
  2: { rewrite <- E. eauto. }
  unfold op_on. unfold answer in E. destruct (step env (OGetValues v) (w_in w)) as [s r] eqn:St. simpl in E.
  destruct r as [r|e]; [|rewrite <- E; eauto].
  assert (X : exists l, r = VArr l).
  { revert St. cbn [step]. unfold with_view. destruct (nth_error _ v) as [c|]; [|congruence].
    destruct (v_public c); [|congruence]. destruct (v_kind c); try congruence.
    destruct (ts_get (w_in w) v) as [s1 [l|e]]; simpl; intros H; inversion H; eauto. }
  destruct X as (l & ->). rewrite <- E.
  set (w1 := mkWorld s (w_out w) (w_views w) (w_coef w) (w_time w) (w_timestep w) (w_count w) (w_junk w)).
  assert (J1 : J lk w1 d).
  { revert St. cbn [step]. unfold with_view. destruct (nth_error (st_views (w_in w)) v) as [c|] eqn:C; [|congruence].
    destruct (v_public c) eqn:Pb; [|congruence]. destruct (v_kind c) eqn:K; try congruence.
    destruct (ts_get (w_in w) v) as [s1 [l'|e]] eqn:G; simpl; intros H; inversion H; subst s1 l'. clear H.
    pose proof (rd_ts_get _ _ _ _ G) as Rd.
    assert (Cell : exists q, nth_error (st_params (w_in w)) (v_param c) = Some q).
    { unfold ts_get, read_with in G. rewrite C in G. destruct (nth_error (st_params (w_in w)) (v_param c)); [eauto|discriminate]. }
    destruct Cell as (q & Q).
    destruct (ts_get_cached _ _ _ _ _ _ C Q G) as (c' & C' & Vr & Vv & dd & Dd & Da & _).
    destruct Jw. constructor; auto.
    - eapply rd_trans; eauto.
    - rewrite <- E. unfold read_E. simpl. rewrite Ve. unfold answer. cbn [step]. unfold with_view.
      rewrite C', (vr_public _ _ Vr), (vr_kind _ _ Vr), Pb, K. unfold ts_get, read_with. rewrite C'.
      rewrite (vr_param _ _ Vr), (rd_params _ _ Rd), Q, Dd, Vv, Nat.eqb_refl. simpl. congruence. }
  unfold at_index. destruct (pyindex (length l) i) as [j|]; [|exists w1; auto].
  destruct (nth_error l j); exists w1; auto.
Qed.

(** The series. *)
Lemma view_of_series lk w d x : J lk w d -> view_of (nm x) w = (w, Ok (vi x)).
Proof. intros Jw. unfold view_of. rewrite (j_views _ _ _ Jw), (ba_attr B). auto. Qed.

Lemma series_cells lk w d x b : J lk w d -> lk x = Some b -> exists v q, nth_error (st_views (w_out w)) (vi x) = Some v /\
  nth_error (st_params (w_out w)) (v_param v) = Some q /\ v_param v = pi x /\ live b v q (d_get d x).
Proof.
  intros Jw Lk. destruct (j_series _ _ _ Jw x) as (v0 & q0 & v & q & V0 & Q0 & V & Q & Vs & Ps & L).
  rewrite Lk in L. destruct (ba_cells B x) as (v1 & q1 & V1 & Pv1 & _).
  assert (Pv : v_param v = pi x) by (rewrite (vs_param _ _ Vs); congruence).
  exists v, q. rewrite Pv. auto.
Qed.

Lemma ref_item lk x i b : lk x = Some b -> refines lk lk (item env Out_ (nm x) i) (p_item x i).
Proof.
  intros Lk w d Jw. unfold item, bind. rewrite (view_of_series _ _ _ _ Jw).
  destruct (series_cells _ _ _ _ _ Jw Lk) as (v & q & V & Q & Pv & L).
  unfold op_on. cbn [step]. unfold with_view. rewrite V, (lv_public _ _ _ _ L), (lv_kind _ _ _ _ L).
  rewrite (live_get _ _ _ _ _ _ V Q L). simpl. rewrite world_eta.
  unfold p_item, at_index. destruct (pyindex (length (d_get d x)) i) as [j|]; [|exists w; auto].
  destruct (nth_error (d_get d x) j); exists w; auto.
Qed.

(** Replacing the cells of one series. *)
Definition with_out (w : world) (s : state) : world :=
  mkWorld (w_in w) s (w_views w) (w_coef w) (w_time w) (w_timestep w) (w_count w) (w_junk w).

Lemma J_put lk lk' w d d' x b v q v' q' : J lk w d ->
  nth_error (st_views (w_out w)) (vi x) = Some v -> nth_error (st_params (w_out w)) (v_param v) = Some q ->
  vsame v v' -> psame q q' -> lk' x = Some b -> live b v' q' (d_get d' x) ->
  (forall y, y <> x -> lk' y = lk y /\ d_get d' y = d_get d y) -> d_t d' = d_t d -> d_time d' = d_time d ->
  d_coef d' = d_coef d -> d_junk d' = d_junk d ->
  J lk' (with_out w (put (w_out w) (v_param v) q' (vi x) v')) d'.
Proof.
  intros Jw V Q Vs Ps Lk L Oth Et Em Ec Ej.
  assert (Pv : v_param v = pi x).
  { destruct (j_series _ _ _ Jw x) as (v0 & q0 & v1 & q1 & V0 & Q0 & V1 & Q1 & Vs1 & _).
    destruct (ba_cells B x) as (v2 & q2 & V2 & Pv2 & _).
    assert (v1 = v) by congruence. subst v1. rewrite (vs_param _ _ Vs1). congruence. }
  rewrite Pv in *.
  destruct Jw. constructor; simpl; auto; try congruence.
  - now rewrite upd_length.
  - now rewrite upd_length.
  - intros p N. rewrite nth_upd_neq by (apply not_eq_sym, N). auto.
  - intros i N. rewrite nth_upd_neq by (apply not_eq_sym, N). auto.
  - intros y. destruct (j_series0 y) as (v0 & q0 & v1 & q1 & V0 & Q0 & V1 & Q1 & Vs1 & Ps1 & L1).
    destruct (series_eq_dec y x) as [->|Nx].
    + assert (v1 = v) by congruence. assert (q1 = q) by congruence. subst v1 q1.
      exists v0, q0, v', q'. split; auto. split; auto.
      split; [apply nth_upd_eq; eapply nth_lt; eauto|]. split; [apply nth_upd_eq; eapply nth_lt; eauto|].
      split; [eapply vsame_trans; eauto|]. split; [eapply psame_trans; eauto|]. now rewrite Lk.
    + exists v0, q0, v1, q1. split; auto. split; auto. destruct (Oth y Nx) as [-> ->].
      split; [rewrite nth_upd_neq; auto; intros E'; apply Nx; symmetry; now apply ba_inj_vi|].
      split; [rewrite nth_upd_neq; auto; intros E'; apply Nx; symmetry; now apply (ba_inj B)|]. auto.
Qed.

Lemma d_set_get d x l : d_get (d_set d x l) x = l.
Proof. simpl. destruct (series_eq_dec x x); congruence. Qed.
Lemma d_set_other d x l y : y <> x -> d_get (d_set d x l) y = d_get d y.
Proof. intros. simpl. destruct (series_eq_dec y x); congruence. Qed.

Lemma ref_set_item lk x i y b : lk x = Some b -> refines lk lk (set_item env (nm x) i y) (p_set_item x i y).
Proof.
  intros Lk w d Jw. unfold set_item, bind. rewrite (view_of_series _ _ _ _ Jw).
  destruct (series_cells _ _ _ _ _ Jw Lk) as (v & q & V & Q & Pv & L).
  pose proof (live_set_item env (w_out w) (vi x) v q _ _ V Q i y L) as X. unfold p_set_item, op_on.
  destruct (pyindex (length (d_get d x)) i) as [j|].
  - destruct X as (v' & q' & -> & Vs & Ps & L'). eexists. split; [reflexivity|].
    eapply (J_put lk lk w d _ x); eauto; [now rewrite d_set_get|].
    intros z Nz. split; auto. now apply d_set_other.
  - rewrite X. eauto.
Qed.

Definition set_lk (lk : series -> option bool) x b : series -> option bool :=
  fun y => if series_eq_dec y x then Some b else lk y.
Lemma set_lk_eq lk x b : set_lk lk x b x = Some b.
Proof. unfold set_lk. destruct (series_eq_dec x x); congruence. Qed.
Lemma set_lk_neq lk x b y : y <> x -> set_lk lk x b y = lk y.
Proof. unfold set_lk. destruct (series_eq_dec y x); congruence. Qed.

Lemma ref_set_values lk x l : lk x = None ->
  refines lk (set_lk lk x false) (set_values env (nm x) (mkArr false l)) (p_set_values I x l).
Proof.
  intros Lk w d Jw. unfold set_values, bind. rewrite (view_of_series _ _ _ _ Jw).
  destruct (j_series _ _ _ Jw x) as (v0 & q0 & v & q & V0 & Q0 & V & Q & Vs & Ps & L).
  rewrite Lk in L. destruct L as [-> ->].
  destruct (ba_cells B x) as (v1 & q1 & V1 & Pv & Q1 & Pb & K & Dv & Lo).
  assert (v1 = v0) by congruence. assert (q1 = q0) by congruence. subst v1 q1. rewrite <- Pv in Q, Q0. clear V1 Q1.
  unfold p_set_values, op_on. simpl i_start. unfold start_of, answer. cbn [step]. unfold with_view.
  rewrite V, V0, Pb, K.
  destruct (ts_set_local _ _ _ _ (mkArr false l) V0 Q0) as (q' & v' & r & Lc).
  pose proof (Lc _ V0 Q0) as S0. pose proof (Lc _ V Q) as S1. rewrite S0, S1.
  destruct r as [[]|e]; simpl; [|eauto].
  eexists. split; [reflexivity|].
  destruct (ts_set_eff env _ _ _ _ _ _ _ (ba_wf B) V0 Pb K Q0 S0) as (Ch & Len & [[Lt _]|[_ (xs & To & Eq)]]); [congruence|].
  assert (Eq' : q' = p_store (p_set_written q0) (PArr xs) /\
     v' = v_set_version (v_set_data (v_set_writable v0) (newdata v0 (mkArr false l))) (S (p_version q0))).
  { split.
    - pose proof (put_param _ _ _ q' (vi x) v' Q0) as X. rewrite Eq in X. rewrite (put_param _ _ _ _ _ _ Q0) in X. congruence.
    - pose proof (put_view _ (v_param v0) q' _ _ v' V0) as X. rewrite Eq in X. rewrite (put_view _ _ _ _ _ _ V0) in X. congruence. }
  destruct Eq' as [-> ->].
  eapply (J_put lk (set_lk lk x false) w d _ x); eauto using set_lk_eq.
  - constructor; auto.
  - constructor; auto.
  - rewrite d_set_get. unfold newdata. rewrite Dv. constructor; simpl; auto.
    + exists xs. exact To.
    + intros _. exists xs. split; [exact To|reflexivity].
  - intros z Nz. split; [now apply set_lk_neq|now apply d_set_other].
Qed.

Lemma ref_lock lk x b : lk x = Some b -> refines lk (set_lk lk x true) (lock env (nm x)) (pret tt).
Proof.
  intros Lk w d Jw. unfold lock, bind. rewrite (view_of_series _ _ _ _ Jw).
  destruct (series_cells _ _ _ _ _ Jw Lk) as (v & q & V & Q & Pv & L).
  destruct (live_lock env (w_out w) (vi x) v q _ _ V Q L) as (v' & E & Vs & L'). unfold op_on. rewrite E.
  simpl. eexists. split; [reflexivity|].
  eapply (J_put lk _ w d d x); eauto using set_lk_eq, psame_refl. intros z Nz. split; auto. now apply set_lk_neq.
Qed.
Lemma ref_unlock lk x b : lk x = Some b -> refines lk (set_lk lk x false) (unlock env (nm x)) (pret tt).
Proof.
  intros Lk w d Jw. unfold unlock, bind. rewrite (view_of_series _ _ _ _ Jw).
  destruct (series_cells _ _ _ _ _ Jw Lk) as (v & q & V & Q & Pv & L).
  destruct (live_unlock env (w_out w) (vi x) v q _ _ V Q L) as (v' & q' & E & Vs & Ps & L'). unfold op_on. rewrite E.
  simpl. eexists. split; [reflexivity|].
  eapply (J_put lk _ w d d x); eauto using set_lk_eq. intros z Nz. split; auto. now apply set_lk_neq.
Qed.

(** *** The methods *)
Ltac prim lk := first
  [ apply ref_timestep | apply ref_set_timestep | apply ref_time | apply ref_set_time
  | apply ref_delta_of | apply ref_time_of | apply ref_scalar | apply ref_generic | apply ref_coef
  | apply ref_set_coef | apply ref_E | apply ref_lift | apply ref_count | apply ref_empty | apply ref_ret
  | eapply (ref_item lk Mat) | eapply (ref_item lk Ml) | eapply (ref_item lk Mu)
  | eapply (ref_item lk Tatm) | eapply (ref_item lk Tocean) | eapply (ref_item lk Forc)
  | eapply (ref_set_item lk Mat) | eapply (ref_set_item lk Ml) | eapply (ref_set_item lk Mu)
  | eapply (ref_set_item lk Tatm) | eapply (ref_set_item lk Tocean) | eapply (ref_set_item lk Forc) ].

Lemma ref_calc_step b : refines (fun _ => Some b) (fun _ => Some b) (calc_step env) (p_calc_step I).
Proof.
  unfold calc_step, p_calc_step.
  repeat (eapply ref_bind; [solve [prim (fun _ : series => Some b); reflexivity] | intros; cbv zeta]).
  eapply (ref_set_item _ Tatm). reflexivity.
Qed.
Lemma ref_repeat b n : refines (fun _ => Some b) (fun _ => Some b) (repeat_m n (calc_step env)) (p_repeat I n).
Proof.
  induction n; simpl; [apply ref_ret|]. eapply ref_bind; [apply ref_calc_step|auto].
Qed.
Lemma ref_start lk x m p : lk x = None -> (forall lk, refines lk lk m p) ->
  refines lk (set_lk lk x false) (start_series env (nm x) m) (p_start I x p).
Proof.
  intros Lk Rm. unfold start_series, p_start.
  eapply ref_bind; [apply ref_count|]. intros n.
  eapply (ref_bind_if (fun a => a_int a = false)); [apply ref_empty| |].
  { intros d d' a. unfold p_empty. destruct (n <? 0)%Z; [discriminate|]. intros E. inversion E. reflexivity. }
  intros [i l] E. simpl in E. subst i. cbn [a_val].
  eapply ref_bind; [apply ref_set_values; exact Lk|].
  intros []. eapply ref_bind; [apply Rm|]. intros y. eapply (ref_set_item _ x). apply set_lk_eq.
Qed.
Lemma ref_forcing lk : refines lk lk (initial_forcing env) (p_forcing I).
Proof.
  unfold initial_forcing, p_forcing.
  repeat (eapply ref_bind; [solve [prim lk; reflexivity] | intros; cbv zeta]). apply ref_ret.
Qed.
Lemma ref_ext {A} lk lk1 lk2 (m : M A) p : (forall x, lk1 x = lk2 x) -> refines lk lk1 m p -> refines lk lk2 m p.
Proof.
  intros E R w d Jw. specialize (R w d Jw). destruct (p d) as [d' [a|e]]; auto.
  destruct R as (w' & Em & Jw'). exists w'. split; auto. eapply J_ext; eauto.
Qed.

(** [bind] is associative. *)
Lemma pbind_assoc {A C D} (m : P A) (f : A -> P C) (g : C -> P D) d :
  pbind (pbind m f) g d = pbind m (fun a => pbind (f a) g) d.
Proof. unfold pbind. destruct (m d) as [d' [a|e]]; auto. Qed.

Lemma ref_reset : refines (fun _ => None) (fun _ => Some false) (reset_model env) (p_reset I).
Proof.
  intros w d Jw. unfold p_reset, p_coefs.
  cut (match (
    p_set_timestep 0 ;;~
    b12 <~ p_scalar I "b12" ;;
    p_set_coef "b11" (minus_ (Some 1%R) b12) ;;~
    b12 <~ p_scalar I "b12" ;; mateq <~ p_scalar I "mateq" ;; mueq <~ p_scalar I "mueq" ;;
    b21 <~ plift (div_ (times_ b12 mateq) mueq) ;;
    p_set_coef "b21" b21 ;;~
    b23 <~ p_scalar I "b23" ;;
    p_set_coef "b22" (minus_ (minus_ (Some 1%R) b21) b23) ;;~
    b23 <~ p_scalar I "b23" ;; mueq <~ p_scalar I "mueq" ;; mleq <~ p_scalar I "mleq" ;;
    b32 <~ plift (div_ (times_ b23 mueq) mleq) ;;
    p_set_coef "b32" b32 ;;~
    p_set_coef "b33" (minus_ (Some 1%R) b32) ;;~ p_starts I) d with
  | (d', Ok a) => exists w', reset_model env w = (w', Ok a) /\ J (fun _ => Some false) w' d'
  | (d', Err e) => exists w', reset_model env w = (w', Err e)
  end).
  { intros H. match type of H with match ?a with _ => _ end => match goal with |- match ?b with _ => _ end =>
      assert (E : b = a) end end; [|rewrite E; exact H].
    unfold pbind. repeat match goal with
      |- match match ?a with _ => _ end with _ => _ end = _ => destruct a as [? [?|?]] end; reflexivity. }
  revert w d Jw. change (refines (fun _ => None) (fun _ => Some false) (reset_model env) (
    p_set_timestep 0 ;;~
    b12 <~ p_scalar I "b12" ;;
    p_set_coef "b11" (minus_ (Some 1%R) b12) ;;~
    b12 <~ p_scalar I "b12" ;; mateq <~ p_scalar I "mateq" ;; mueq <~ p_scalar I "mueq" ;;
    b21 <~ plift (div_ (times_ b12 mateq) mueq) ;;
    p_set_coef "b21" b21 ;;~
    b23 <~ p_scalar I "b23" ;;
    p_set_coef "b22" (minus_ (minus_ (Some 1%R) b21) b23) ;;~
    b23 <~ p_scalar I "b23" ;; mueq <~ p_scalar I "mueq" ;; mleq <~ p_scalar I "mleq" ;;
    b32 <~ plift (div_ (times_ b23 mueq) mleq) ;;
    p_set_coef "b32" b32 ;;~
    p_set_coef "b33" (minus_ (Some 1%R) b32) ;;~ p_starts I)).
  unfold reset_model.
  repeat (eapply ref_bind; [solve [prim (fun _ : series => @None bool); reflexivity] | intros; cbv zeta]).
  unfold p_starts.
  eapply ref_bind; [apply (ref_start _ Mat); [reflexivity|intros; apply ref_scalar]|intros _].
  eapply ref_bind; [apply (ref_start _ Ml); [reflexivity|intros; apply ref_scalar]|intros _].
  eapply ref_bind; [apply (ref_start _ Mu); [reflexivity|intros; apply ref_scalar]|intros _].
  eapply ref_bind; [apply (ref_start _ Tatm); [reflexivity|intros; apply ref_scalar]|intros _].
  eapply ref_bind; [apply (ref_start _ Tocean); [reflexivity|intros; apply ref_scalar]|intros _].
  eapply ref_ext; [|apply (ref_start _ Forc); [reflexivity|intros; apply ref_forcing]].
  intros []; reflexivity.
Qed.

(** [_run]: the loop of [_step]s, in effect. *)
Definition p_run : P unit := n <~ plift (i_count I) ;; p_repeat I (Z.to_nat (n - 1)).

Lemma ref_run : refines (fun _ => Some false) (fun _ => Some false) (run_model env) p_run.
Proof.
  assert (R : refines (fun _ => Some false) (fun _ => Some false) (run_model env)
    (pret tt ;;~ pret tt ;;~ pret tt ;;~ pret tt ;;~ pret tt ;;~ pret tt ;;~
     n <~ plift (i_count I) ;; p_repeat I (Z.to_nat (n - 1)) ;;~
     pret tt ;;~ pret tt ;;~ pret tt ;;~ pret tt ;;~ pret tt ;;~ pret tt ;;~ pret tt)).
  { unfold run_model.
    eapply ref_bind; [eapply (ref_lock _ Mat); reflexivity|intros _].
    eapply ref_bind; [eapply (ref_lock _ Ml); reflexivity|intros _].
    eapply ref_bind; [eapply (ref_lock _ Mu); reflexivity|intros _].
    eapply ref_bind; [eapply (ref_lock _ Tatm); reflexivity|intros _].
    eapply ref_bind; [eapply (ref_lock _ Tocean); reflexivity|intros _].
    eapply ref_bind; [eapply ref_ext with (lk2 := fun _ => Some true); [|eapply (ref_lock _ Forc); reflexivity]; intros []; reflexivity|intros _].
    eapply ref_bind; [apply ref_count|intros n].
    eapply ref_bind; [apply ref_repeat|intros _].
    eapply ref_bind; [eapply (ref_unlock _ Forc); reflexivity|intros _].
    eapply ref_bind; [eapply (ref_unlock _ Mat); reflexivity|intros _].
    eapply ref_bind; [eapply (ref_unlock _ Ml); reflexivity|intros _].
    eapply ref_bind; [eapply (ref_unlock _ Mu); reflexivity|intros _].
    eapply ref_bind; [eapply (ref_unlock _ Tatm); reflexivity|intros _].
    eapply ref_bind; [eapply (ref_unlock _ Tocean); reflexivity|intros _].
    eapply ref_ext; [|eapply (ref_unlock _ Forc); reflexivity]. intros []; reflexivity. }
  intros w d Jw. specialize (R w d Jw). unfold p_run. revert R. unfold pbind, pret, plift.
  destruct (i_count I) as [n|e]; auto. destruct (p_repeat I (Z.to_nat (n - 1)) d) as [d' [[]|e]]; auto.
Qed.

End Sim.
