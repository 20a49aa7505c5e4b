(** When a step of DICE returns, and how it fails at the end of the run. *)
From Coq Require Import String List ZArith Reals Bool Arith Lia Lra.
From Verif Require Import Base ListFacts Units TimeModel Calendar Core Adapters Dice DiceSim DiceBase DiceMachine.
Import ListNotations.
Local Open Scope string_scope.
Local Open Scope list_scope.

Definition okp {A} (m : P A) (d : dstate) (Q : A -> dstate -> Prop) : Prop :=
  exists a d', m d = (d', Ok a) /\ Q a d'.
Lemma ok_bind {A C} (m : P A) (f : A -> P C) d Q Q' : okp m d Q -> (forall a d', Q a d' -> okp (f a) d' Q') ->
  okp (pbind m f) d Q'.
Proof. intros (a & d' & E & X) Hf. destruct (Hf _ _ X) as (c & d2 & E2 & X2). exists c, d2. split; auto. unfold pbind. now rewrite E. Qed.

Section G.
Variables (I : inputs) (co : list (string * num)) (n : nat) (c : constants) (l : list num).
Hypothesis R : reads I co c.
Hypothesis El : i_E I = Ok l.

Definition shape (d : dstate) : Prop := d_coef d = co /\ forall x, length (d_get d x) = n.

Lemma ok_scalar s a d : i_scalar I s = Ok a -> okp (p_scalar I s) d (fun b d' => b = a /\ d' = d).
Proof. intros E. exists a, d. unfold p_scalar, plift. rewrite E. auto. Qed.
Lemma ok_generic s a d : i_generic I s = Ok a -> okp (p_generic I s) d (fun b d' => b = a /\ d' = d).
Proof. intros E. exists a, d. unfold p_generic, plift. rewrite E. auto. Qed.
Lemma ok_time s a d : i_generic I s = Ok (GTime a) -> okp (p_time_of I s) d (fun b d' => b = a /\ d' = d).
Proof. intros E. exists a, d. unfold p_time_of, p_generic, pbind, plift. rewrite E. auto. Qed.
Lemma ok_delta s a d : i_generic I s = Ok (GDelta a) -> okp (p_delta_of I s) d (fun b d' => b = a /\ d' = d).
Proof. intros E. exists a, d. unfold p_delta_of, p_generic, pbind, plift. rewrite E. auto. Qed.
Lemma ok_coef s a d : d_coef d = co -> alookup s co = Some a -> okp (p_coef s) d (fun b d' => b = a /\ d' = d).
Proof. intros C E. exists a, d. unfold p_coef. rewrite C, E. auto. Qed.
Lemma ok_lift {A} (r : res A) a d : r = Ok a -> okp (plift r) d (fun b d' => b = a /\ d' = d).
Proof. intros ->. exists a, d. auto. Qed.
Lemma ok_at ll k : (k < length ll)%nat -> at_index ll (Z.of_nat k) = Ok (nth k ll None).
Proof. apply at_index_ok. Qed.
Lemma ok_item x k i d : shape d -> i = Z.of_nat k -> (k < n)%nat -> okp (p_item x i) d (fun b d' => b = cell d x k /\ d' = d).
Proof. intros [_ L] -> Hk. exists (cell d x k), d. unfold p_item. rewrite at_index_ok by (rewrite L; auto). auto. Qed.
Lemma ok_E k i d : i = Z.of_nat k -> (k < length l)%nat -> okp (p_E I i) d (fun b d' => b = nth k l None /\ d' = d).
Proof. intros -> Hk. exists (nth k l None), d. unfold p_E, pbind, plift. rewrite El, at_index_ok; auto. Qed.
Lemma ok_set_item x k i y d : shape d -> i = Z.of_nat k -> (k < n)%nat ->
  okp (p_set_item x i y) d (fun _ d' => shape d' /\ d_t d' = d_t d /\ cell d' x k = y /\
    forall z j, z <> x \/ j <> k -> cell d' z j = cell d z j).
Proof.
  intros [Ec L] -> Hk. exists tt, (d_set d x (upd (d_get d x) k y)). unfold p_set_item, pyindex. rewrite (L x).
  destruct (Z.ltb_spec (Z.of_nat k) 0); [lia|]. destruct (Z.leb_spec 0 (Z.of_nat k)); [|lia].
  destruct (Z.ltb_spec (Z.of_nat k) (Z.of_nat n)); [|lia]. rewrite Nat2Z.id. simpl. split; auto.
  split; [|split; [reflexivity|split]].
  - split; auto. intros z. unfold d_set. simpl. destruct (series_eq_dec z x); [|apply L]. subst. rewrite upd_length. apply L.
  - unfold cell. rewrite d_set_get. apply upd_nth_same. now rewrite L.
  - intros z j N. unfold cell. destruct (series_eq_dec z x) as [->|Nz].
    + rewrite d_set_get. apply upd_nth_other. destruct N; congruence.
    + now rewrite d_set_other.
Qed.
Lemma ok_timestep d : okp p_timestep d (fun b d' => b = d_t d /\ d' = d).
Proof. exists (d_t d), d. auto. Qed.
Lemma ok_now d : okp p_now d (fun b d' => b = d_time d /\ d' = d).
Proof. exists (d_time d), d. auto. Qed.
Lemma ok_set_timestep t d : okp (p_set_timestep t) d (fun _ d' => (shape d -> shape d') /\ d_t d' = t /\ forall x k, cell d' x k = cell d x k).
Proof. eexists tt, _. split; [reflexivity|]. simpl. auto. Qed.
Lemma ok_set_time t d : okp (p_set_time t) d (fun _ d' => (shape d -> shape d') /\ d_t d' = d_t d /\ forall x k, cell d' x k = cell d x k).
Proof. eexists tt, _. split; [reflexivity|]. simpl. auto. Qed.

Ltac rd L := eapply ok_bind; [eapply L; first [eassumption | apply R | lia | idtac]|cbv beta; intros ? ? [? ?]; subst].
Ltac it k := eapply ok_bind; [apply (ok_item _ k); [assumption|lia|lia]|cbv beta; intros ? ? [? ?]; subst].

(** A step returns if the equations have a solution. *)
Lemma step_go d k new : shape d -> d_t d = Z.of_nat k -> (S k < n)%nat -> (k < length l)%nat ->
  equations c (Z.of_nat k + 1) (nth k l None) (fun x => cell d x k) new ->
  okp (p_calc_step I) d (fun _ _ => True).
Proof.
  intros Sh T Hk Hl Q. unfold p_calc_step.
  eapply ok_bind; [apply ok_timestep|cbv beta; intros ? ? [? ?]; subst]. cbv zeta.
  eapply ok_bind; [apply ok_set_timestep|cbv beta; intros _ d1 (S1 & T1 & K1)]. specialize (S1 Sh).
  eapply ok_bind; [apply ok_now|cbv beta; intros ? ? [? ?]; subst].
  rd ok_delta. eapply ok_bind; [apply ok_set_time|cbv beta; intros _ d2 (S2 & T2 & K2)]. specialize (S2 S1).
  rewrite T in *. rd ok_scalar. it k. rd ok_coef; [apply S2|]. it k. rd ok_coef; [apply S2|].
  eapply ok_bind; [apply (ok_E k); lia|cbv beta; intros e0 ? [-> ->]]. rd ok_delta. rd ok_generic.
  eapply ok_bind; [apply (ok_set_item _ (S k)); [assumption|lia|lia]|cbv beta; intros _ d3 (S3 & _ & M3 & _)].
  rd ok_scalar. it k. rd ok_coef; [apply S3|]. it k. rd ok_scalar.
  eapply ok_bind; [apply (ok_set_item _ (S k)); [assumption|lia|lia]|cbv beta; intros _ d4 (S4 & _ & _ & K4)].
  rd ok_scalar. it k. rd ok_scalar. it k. rd ok_coef; [apply S4|]. it k. rd ok_coef; [apply S4|].
  eapply ok_bind; [apply (ok_set_item _ (S k)); [assumption|lia|lia]|cbv beta; intros _ d5 (S5 & _ & _ & K5)].
  rd ok_scalar. rd ok_scalar. it k. rd ok_scalar. it k. it k.
  eapply ok_bind; [apply (ok_set_item _ (S k)); [assumption|lia|lia]|cbv beta; intros _ d6 (S6 & _ & _ & K6)].
  rd ok_time. rd ok_delta. rd ok_time. rd ok_scalar. rd ok_scalar.
  destruct (q_forc _ _ _ _ _ Q) as (x & r & lg & Ex & Dv & Lg & _).
  eapply ok_bind; [apply ok_lift, Ex|cbv beta; intros ? ? [? ?]; subst].
  rd ok_scalar. it (S k). rd ok_scalar.
  assert (Cm : cell d6 Mat (S k) = new Mat).
  { rewrite K6, K5, K4 by (left; discriminate). rewrite M3, (q_mat _ _ _ _ _ Q).
    rewrite !K2, !K1. reflexivity. }
  rewrite Cm.
  eapply ok_bind; [apply ok_lift, Dv|cbv beta; intros ? ? [? ?]; subst].
  eapply ok_bind; [apply ok_lift, Lg|cbv beta; intros ? ? [? ?]; subst].
  eapply ok_bind; [apply (ok_set_item _ (S k)); [assumption|lia|lia]|cbv beta; intros _ d7 (S7 & _ & _ & K7)].
  rd ok_scalar. it k. rd ok_scalar. it (S k). rd ok_scalar. rd ok_scalar.
  destruct (q_tatm _ _ _ _ _ Q) as (lambda & Dl & _).
  eapply ok_bind; [apply ok_lift, Dl|cbv beta; intros ? ? [? ?]; subst].
  rd ok_scalar. it k.
  destruct (ok_set_item Tatm (S k) (Z.of_nat k + 1) (py_min (c_tatm_upper c)
    (plus_ (cell d7 Tatm k) (times_ (c_c1 c)
       (minus_ (minus_ (cell d7 Forc (S k)) (times_ lambda (cell d7 Tatm k))) (times_ (c_c3 c) (minus_ (cell d7 Tatm k) (cell d7 Tocean k))))))) d7 S7) as (u & d8 & E8 & _); [lia|lia|].
  exists u, d8. auto.
Qed.

(** The numbers a step needs. *)
Record fine : Prop := {
  f_lower : exists b, c_mat_lower c = Some b /\ (0 < b)%R;
  f_mateq : exists b, c_mateq c = Some b /\ (0 < b)%R;
  f_t2xco2 : exists b, c_t2xco2 c = Some b /\ (b <> 0)%R;
  f_times : dt_ns (dt_sub (c_saturation c) (c_start c)) <> 0%Z }.
Hypothesis F : fine.

Lemma solution t e old : exists new, equations c t e old new.
Proof.
  assert (Ex : exists x, exogenous_forcing (c_start c) (c_period c) (c_saturation c) t (c_fex0 c) (c_fex1 c) = Ok x).
  { unfold exogenous_forcing. destruct (_ >=? _)%Z; [eauto|]. destruct (dt_ns (dt_sub (c_saturation c) (c_start c)) =? 0)%Z eqn:Z0; [|eauto].
    apply Z.eqb_eq in Z0. exfalso. now apply (f_times F). }
  destruct Ex as (x & Ex). destruct (f_lower F) as (b & Eb & Hb). destruct (f_mateq F) as (q & Eq & Hq).
  assert (Mx : forall y, exists z, py_max (c_mat_lower c) y = Some z /\ (0 < z)%R).
  { intros y. rewrite Eb. unfold py_max. destruct y as [y|]; [|exists b; auto]. destruct (Rlt_dec b y); eexists; (split; [reflexivity|]); lra. }
  destruct (Mx (plus_ (plus_ (times_ (old Mat) (c_b11 c)) (times_ (old Mu) (c_b21 c))) (emitted c e))) as (z & Ez & Hz).
  assert (Dv : np_div (Some z) (c_mateq c) = Ok (Some (z / q)%R)).
  { rewrite Eq. unfold np_div. destruct (Req_EM_T q 0); [lra|reflexivity]. }
  assert (Lg : log2 (Some (z / q)%R) = Ok (Some (ln (z / q) / ln 2)%R)).
  { unfold log2. destruct (Rlt_dec 0 (z / q)) as [|N]; auto. exfalso. apply N. now apply Rdiv_lt_0_compat. }
  destruct (f_t2xco2 F) as (t2 & Et & Ht).
  assert (Dl : div_ (c_fco22x c) (c_t2xco2 c) = Ok (nop Rdiv (c_fco22x c) (Some t2))).
  { rewrite Et. unfold div_. destruct (Req_EM_T t2 0); [lra|reflexivity]. }
  eexists (fun s => match s with Mat => Some z | Ml => _ | Mu => _ | Tatm => _ | Tocean => _ | Forc => _ end).
  constructor; cbv beta iota; try reflexivity; [now symmetry| |].
  - exists x, (Some (z / q)%R), (Some (ln (z / q) / ln 2)%R). eauto.
  - eexists. split; [exact Dl|reflexivity].
Qed.
Lemma step_progress d k : shape d -> d_t d = Z.of_nat k -> (S k < n)%nat -> (k < length l)%nat ->
  okp (p_calc_step I) d (fun _ _ => True).
Proof.
  intros Sh T Hk Hl. destruct (solution (Z.of_nat k + 1) (nth k l None) (fun x => cell d x k)) as (new & Q).
  exact (step_go d k new Sh T Hk Hl Q).
Qed.
End G.

(** At the last time point a step raises IndexError. *)
Lemma at_index_err l i e : at_index l i = Err e -> e = EIndexError.
Proof. unfold at_index. destruct (pyindex _ _) as [j|]; [destruct (nth_error l j)|]; congruence. Qed.
Lemma err_bind {A C} (m : P A) (f : A -> P C) d e Q : okp m d Q -> (forall a d', Q a d' -> snd (f a d') = Err e) ->
  snd (pbind m f d) = Err e.
Proof. intros (a & d' & E & X) Hf. unfold pbind. rewrite E. auto. Qed.

Lemma step_past_end I co n c l d k : reads I co c -> i_E I = Ok l -> shape co n d -> d_t d = Z.of_nat k -> S k = n ->
  snd (p_calc_step I d) = Err EIndexError.
Proof.
  intros R El Sh T Hk. unfold p_calc_step.
  eapply err_bind; [apply ok_timestep|cbv beta; intros ? ? [? ?]; subst]. cbv zeta.
  eapply err_bind; [apply (ok_set_timestep co (S k))|cbv beta; intros _ d1 (S1 & T1 & _)]. specialize (S1 Sh).
  eapply err_bind; [apply ok_now|cbv beta; intros ? ? [? ?]; subst].
  eapply err_bind; [eapply ok_delta, (r_period _ _ _ R)|cbv beta; intros ? ? [? ?]; subst].
  eapply err_bind; [apply (ok_set_time co (S k))|cbv beta; intros _ d2 (S2 & T2 & _)]. specialize (S2 S1).
  rewrite T in *.
  eapply err_bind; [eapply ok_scalar, (r_mat_lower _ _ _ R)|cbv beta; intros ? ? [? ?]; subst].
  eapply err_bind; [apply (ok_item co (S k) Mat k); [assumption|lia|lia]|cbv beta; intros ? ? [? ?]; subst].
  eapply err_bind; [eapply (ok_coef co); [apply S2|apply (r_b11 _ _ _ R)]|cbv beta; intros ? ? [? ?]; subst].
  eapply err_bind; [apply (ok_item co (S k) Mu k); [assumption|lia|lia]|cbv beta; intros ? ? [? ?]; subst].
  eapply err_bind; [eapply (ok_coef co); [apply S2|apply (r_b21 _ _ _ R)]|cbv beta; intros ? ? [? ?]; subst].
  unfold pbind at 1. unfold p_E, pbind at 1, plift at 1. rewrite El. unfold plift at 1.
  destruct (at_index l (Z.of_nat k + 1 - 1)) as [e|e] eqn:Ei; [|apply at_index_err in Ei; now subst].
  eapply err_bind; [eapply ok_delta, (r_period _ _ _ R)|cbv beta; intros ? ? [? ?]; subst].
  eapply err_bind; [eapply ok_generic, (r_rounding _ _ _ R)|cbv beta; intros ? ? [? ?]; subst].
  unfold pbind at 1. unfold p_set_item at 1, pyindex. destruct S2 as [_ L2]. rewrite (L2 Mat).
  destruct (Z.ltb_spec (Z.of_nat k + 1) 0); [lia|]. destruct (Z.ltb_spec (Z.of_nat k + 1) (Z.of_nat (S k))); [lia|].
  rewrite andb_false_r. reflexivity.
Qed.

(** ** A reset returns *)
Lemma start_go I x n r y d : i_count I = Ok n -> (1 <= n)%Z ->
  (forall g, length g = Z.to_nat n -> i_start I x g = Ok tt) ->
  (forall d, r d = (d, Ok y)) -> okp (p_start I x r) d (fun _ d' => True).
Proof.
  intros N Pn St Er. unfold p_start.
  eapply ok_bind; [apply ok_lift, N|cbv beta; intros ? ? [-> ->]].
  eapply (ok_bind _ _ _ (fun a _ => length (a_val a) = Z.to_nat n)).
  { unfold p_empty. eexists _, _. destruct (Z.ltb_spec n 0); [lia|]. split; [reflexivity|]. simpl. now rewrite map_length, seq_length. }
  intros a d1 La. eapply (ok_bind _ _ _ (fun _ d' => length (d_get d' x) = Z.to_nat n)).
  { eexists tt, _. unfold p_set_values. rewrite (St _ La). split; [reflexivity|]. now rewrite d_set_get. }
  intros _ d2 L2. eapply (ok_bind _ _ _ (fun z d' => d' = d2)); [exists y, d2; rewrite Er; auto|].
  intros z ? ->. unfold okp, p_set_item. rewrite py_nonneg by lia. rewrite L2.
  destruct (Nat.ltb_spec (Z.to_nat 0) (Z.to_nat n)); [|lia]. eexists tt, _. split; [reflexivity|exact Logic.I].
Qed.

Lemma reset_go I d n init co : i_count I = Ok n -> (1 <= n)%Z -> coefficients I co -> initials I init ->
  (forall x g, length g = Z.to_nat n -> i_start I x g = Ok tt) -> okp (p_reset I) d (fun _ _ => True).
Proof.
  intros N Pn [K] [Is If] St. destruct K as (b12 & b23 & mateq & mueq & mleq & b21 & b32 & E1 & E2 & E3 & E4 & E5 & E6 & E7 & _).
  unfold p_reset. eapply (ok_bind _ _ _ (fun _ _ => True)).
  { unfold p_coefs. unfold pbind, p_set_timestep, p_set_coef, p_scalar, plift. rewrite E1, E2, E3, E4, E5, E6, E7.
    eexists tt, _. split; [reflexivity|exact Logic.I]. }
  intros _ d1 _. unfold p_starts.
  assert (Sc : forall x, x <> Forc -> forall d, p_scalar I (initial_name x) d = (d, Ok (init x))).
  { intros x Nx d2. unfold p_scalar, plift. now rewrite Is. }
  eapply ok_bind; [apply (start_go I Mat n _ (init Mat)); auto; apply (Sc Mat); discriminate|intros _ d2 _].
  eapply ok_bind; [apply (start_go I Ml n _ (init Ml)); auto; apply (Sc Ml); discriminate|intros _ d3 _].
  eapply ok_bind; [apply (start_go I Mu n _ (init Mu)); auto; apply (Sc Mu); discriminate|intros _ d4 _].
  eapply ok_bind; [apply (start_go I Tatm n _ (init Tatm)); auto; apply (Sc Tatm); discriminate|intros _ d5 _].
  eapply ok_bind; [apply (start_go I Tocean n _ (init Tocean)); auto; apply (Sc Tocean); discriminate|intros _ d6 _].
  apply (start_go I Forc n _ (init Forc)); auto.
  intros d7. destruct If as (f & m & q & r & lg & e & F1 & F2 & F3 & F4 & F5 & F6 & F7).
  unfold p_forcing, pbind, p_scalar, plift. rewrite F1, F2, F3, F4, F5, F6. unfold pret. now rewrite F7.
Qed.
