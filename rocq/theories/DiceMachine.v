(** The machine without parameter sets: what a successful step and a successful reset compute. *)
From Coq Require Import String List ZArith Reals Bool Arith Lia Lra.
From Verif Require Import Base ListFacts Units TimeModel Calendar Core CoreEvo CoreStep Dice ConvShape DiceSim.
Import ListNotations.
Local Open Scope string_scope.
Local Open Scope list_scope.

Lemma pbind_ok {A C} (m : P A) (f : A -> P C) d d' c : pbind m f d = (d', Ok c) ->
  exists a d1, m d = (d1, Ok a) /\ f a d1 = (d', Ok c).
Proof. unfold pbind. destruct (m d) as [w1 [a|e]]; intros H; [eauto|discriminate]. Qed.

Section Inv.
Variable I : inputs.
Lemma inv_scalar n d d1 a : p_scalar I n d = (d1, Ok a) -> d1 = d /\ i_scalar I n = Ok a.
Proof. unfold p_scalar, plift. intros H; inversion H; auto. Qed.
Lemma inv_generic n d d1 a : p_generic I n d = (d1, Ok a) -> d1 = d /\ i_generic I n = Ok a.
Proof. unfold p_generic, plift. intros H; inversion H; auto. Qed.
Lemma inv_delta n d d1 a : p_delta_of I n d = (d1, Ok a) -> d1 = d /\ i_generic I n = Ok (GDelta a).
Proof.
  unfold p_delta_of, pbind, p_generic, plift. destruct (i_generic I n) as [[]|]; unfold pret; intros H; inversion H; auto.
Qed.
Lemma inv_time n d d1 a : p_time_of I n d = (d1, Ok a) -> d1 = d /\ i_generic I n = Ok (GTime a).
Proof.
  unfold p_time_of, pbind, p_generic, plift. destruct (i_generic I n) as [[]|]; unfold pret; intros H; inversion H; auto.
Qed.
Lemma inv_coef n d d1 a : p_coef n d = (d1, Ok a) -> d1 = d /\ alookup n (d_coef d) = Some a.
Proof. unfold p_coef. destruct (alookup n (d_coef d)); intros H; inversion H; auto. Qed.
Lemma inv_E i d d1 a : p_E I i d = (d1, Ok a) -> d1 = d /\ exists l, i_E I = Ok l /\ at_index l i = Ok a.
Proof.
  unfold p_E, pbind, plift. destruct (i_E I) as [l|]; intros H; inversion H; eauto.
Qed.
Lemma inv_item x i d d1 a : p_item x i d = (d1, Ok a) -> d1 = d /\ at_index (d_get d x) i = Ok a.
Proof. unfold p_item. intros H; inversion H; auto. Qed.
Lemma inv_lift {A} (r : res A) d d1 a : plift r d = (d1, Ok a) -> d1 = d /\ r = Ok a.
Proof. unfold plift. intros H; inversion H; auto. Qed.
Lemma inv_set_item x i y d d1 u : p_set_item x i y d = (d1, Ok u) ->
  exists j, pyindex (length (d_get d x)) i = Some j /\ d1 = d_set d x (upd (d_get d x) j y).
Proof.
  unfold p_set_item. destruct (pyindex (length (d_get d x)) i) as [j|]; intros H; inversion H; eauto.
Qed.
Lemma inv_empty n d d1 a : p_empty n d = (d1, Ok a) -> (0 <= n)%Z /\ 
  a = mkArr false (map (d_junk d) (seq 0 (Z.to_nat n))) /\
  d1 = mkD (d_t d) (d_time d) (d_coef d) (fun i => d_junk d (Z.to_nat n + i)%nat) (d_get d).
Proof. unfold p_empty. destruct (Z.ltb_spec n 0); intros H0; inversion H0; auto. Qed.
Lemma inv_set_values x l d d1 u : p_set_values I x l d = (d1, Ok u) ->
  i_start I x l = Ok tt /\ d1 = d_set d x l.
Proof. unfold p_set_values. destruct (i_start I x l) as [[]|]; intros H; inversion H; auto. Qed.
End Inv.

Lemma py_nonneg n i : (0 <= i)%Z ->
  pyindex n i = if (Z.to_nat i <? n)%nat then Some (Z.to_nat i) else None.
Proof.
  intros H. unfold pyindex. destruct (Z.ltb_spec i 0); [lia|]. cbv zeta.
  destruct (Z.leb_spec 0 i); [|lia]. simpl.
  destruct (Z.ltb_spec i (Z.of_nat n)); destruct (Nat.ltb_spec (Z.to_nat i) n); auto; lia.
Qed.

(** The constants of a run, and the equations of one step (without parameter sets). *)
Record constants := mkC {
  c_period : dt64; c_rounding : gval; c_start : dt64; c_saturation : dt64;
  c_mat_lower : num; c_ml_lower : num; c_mu_lower : num;
  c_tocean_lower : num; c_tocean_upper : num; c_tatm_upper : num;
  c_b12 : num; c_b23 : num; c_b11 : num; c_b21 : num; c_b22 : num; c_b32 : num; c_b33 : num;
  c_c1 : num; c_c3 : num; c_c4 : num; c_fex0 : num; c_fex1 : num;
  c_fco22x : num; c_t2xco2 : num; c_mateq : num }.

Record reads (I : inputs) (co : list (string * num)) (c : constants) : Prop := {
  r_period : i_generic I "period_length" = Ok (GDelta (c_period c));
  r_rounding : i_generic I "original_rounding" = Ok (c_rounding c);
  r_start : i_generic I "start_time" = Ok (GTime (c_start c));
  r_saturation : i_generic I "forcoth_saturation_time" = Ok (GTime (c_saturation c));
  r_mat_lower : i_scalar I "mat_lower" = Ok (c_mat_lower c);
  r_ml_lower : i_scalar I "ml_lower" = Ok (c_ml_lower c);
  r_mu_lower : i_scalar I "mu_lower" = Ok (c_mu_lower c);
  r_tocean_lower : i_scalar I "tocean_lower" = Ok (c_tocean_lower c);
  r_tocean_upper : i_scalar I "tocean_upper" = Ok (c_tocean_upper c);
  r_tatm_upper : i_scalar I "tatm_upper" = Ok (c_tatm_upper c);
  r_b12 : i_scalar I "b12" = Ok (c_b12 c);
  r_b23 : i_scalar I "b23" = Ok (c_b23 c);
  r_b11 : alookup "b11" co = Some (c_b11 c);
  r_b21 : alookup "b21" co = Some (c_b21 c);
  r_b22 : alookup "b22" co = Some (c_b22 c);
  r_b32 : alookup "b32" co = Some (c_b32 c);
  r_b33 : alookup "b33" co = Some (c_b33 c);
  r_c1 : i_scalar I "c1" = Ok (c_c1 c);
  r_c3 : i_scalar I "c3" = Ok (c_c3 c);
  r_c4 : i_scalar I "c4" = Ok (c_c4 c);
  r_fex0 : i_scalar I "fex0" = Ok (c_fex0 c);
  r_fex1 : i_scalar I "fex1" = Ok (c_fex1 c);
  r_fco22x : i_scalar I "fco22x" = Ok (c_fco22x c);
  r_t2xco2 : i_scalar I "t2xco2" = Ok (c_t2xco2 c);
  r_mateq : i_scalar I "mateq" = Ok (c_mateq c) }.

Definition emitted (c : constants) (e : num) : num :=
  nop Rdiv (times_ e (in_years (c_period c))) (Some (if truthy (c_rounding c) then 3666 / 1000 else 1)%R).

Record equations (c : constants) (t : Z) (e : num) (old new : series -> num) : Prop := {
  q_mat : new Mat = py_max (c_mat_lower c)
    (plus_ (plus_ (times_ (old Mat) (c_b11 c)) (times_ (old Mu) (c_b21 c))) (emitted c e));
  q_ml : new Ml = py_max (c_ml_lower c) (plus_ (times_ (old Ml) (c_b33 c)) (times_ (old Mu) (c_b23 c)));
  q_mu : new Mu = py_max (c_mu_lower c)
    (plus_ (plus_ (times_ (old Mat) (c_b12 c)) (times_ (old Mu) (c_b22 c))) (times_ (old Ml) (c_b32 c)));
  q_tocean : new Tocean = py_max (c_tocean_lower c) (py_min (c_tocean_upper c)
    (plus_ (old Tocean) (times_ (c_c4 c) (minus_ (old Tatm) (old Tocean)))));
  q_forc : exists ex r l, exogenous_forcing (c_start c) (c_period c) (c_saturation c) t (c_fex0 c) (c_fex1 c) = Ok ex /\
    np_div (new Mat) (c_mateq c) = Ok r /\ log2 r = Ok l /\ new Forc = plus_ (times_ (c_fco22x c) l) ex;
  q_tatm : exists lambda, div_ (c_fco22x c) (c_t2xco2 c) = Ok lambda /\
    new Tatm = py_min (c_tatm_upper c) (plus_ (old Tatm) (times_ (c_c1 c)
      (minus_ (minus_ (new Forc) (times_ lambda (old Tatm))) (times_ (c_c3 c) (minus_ (old Tatm) (old Tocean)))))) }.

Definition cell (d : dstate) (x : series) (k : nat) : num := nth k (d_get d x) None.

Lemma at_index_nth l i a : (0 <= i)%Z -> at_index l i = Ok a ->
  a = nth (Z.to_nat i) l None /\ (Z.to_nat i < length l)%nat.
Proof.
  intros H. unfold at_index. rewrite py_nonneg by auto. destruct (Nat.ltb_spec (Z.to_nat i) (length l)); [|discriminate].
  destruct (nth_error l (Z.to_nat i)) eqn:E; [|discriminate]. intros X. inversion X; subst.
  split; auto. symmetry. now apply nth_error_nth.
Qed.
Lemma at_index_ok l k : (k < length l)%nat -> at_index l (Z.of_nat k) = Ok (nth k l None).
Proof.
  intros H. unfold at_index. rewrite py_nonneg by lia. rewrite Nat2Z.id.
  destruct (Nat.ltb_spec k (length l)); [|lia]. rewrite (nth_error_nth' l None H). reflexivity.
Qed.

Record stepped (I : inputs) (d d' : dstate) (c : constants) (e : num) (new : series -> num) : Prop := {
  s_reads : reads I (d_coef d) c;
  s_t : d_t d' = (d_t d + 1)%Z;
  s_time : d_time d' = (d_time d + dt_ns (c_period c))%Z;
  s_coef : d_coef d' = d_coef d;
  s_junk : d_junk d' = d_junk d;
  s_E : exists l, i_E I = Ok l /\ at_index l (d_t d) = Ok e;
  s_equations : equations c (d_t d + 1) e (fun x => cell d x (Z.to_nat (d_t d))) new;
  s_room : forall x, (S (Z.to_nat (d_t d)) < length (d_get d x))%nat;
  s_get : forall x, d_get d' x = upd (d_get d x) (S (Z.to_nat (d_t d))) (new x) }.

Ltac pop H a E := apply pbind_ok in H; let d1 := fresh "d" in destruct H as (a & d1 & E & H).
Ltac pinv H a E := pop H a E; (first
  [ apply inv_scalar in E | apply inv_delta in E | apply inv_time in E | apply inv_generic in E
  | apply inv_coef in E | apply inv_E in E | apply inv_item in E | apply inv_lift in E ]);
  let X := fresh in let Y := fresh in destruct E as [X Y]; rename Y into E; subst.

Lemma upd_nth_other {A} (l : list A) i j x d0 : i <> j -> nth j (upd l i x) d0 = nth j l d0.
Proof. revert i j; induction l; intros [|i] [|j]; simpl; auto; intros; try lia. Qed.
Lemma upd_nth_same {A} (l : list A) i x d0 : (i < length l)%nat -> nth i (upd l i x) d0 = x.
Proof. revert i; induction l; intros [|i]; simpl; intros; try lia; auto. apply IHl. lia. Qed.

Lemma p_calc_step_ok I d d' : (0 <= d_t d)%Z -> p_calc_step I d = (d', Ok tt) ->
  exists c e new, stepped I d d' c e new.
Proof.
  intros T0 H. unfold p_calc_step in H.
  pop H t0 E. unfold p_timestep in E. inversion E; subst t0 d0; clear E. cbv zeta in H.
  pop H u E. unfold p_set_timestep in E. inversion E; subst d0; clear E.
  pop H now E. unfold p_now in E. inversion E; subst d0 now; clear E. cbn [d_time] in H.
  pinv H period Ep.
  pop H uu E. unfold p_set_time in E. inversion E; subst d0; clear E. cbn [d_t d_coef d_junk d_get] in H.
  set (t := (d_t d + 1)%Z) in *. assert (Et : (t - 1 = d_t d)%Z) by (unfold t; lia). rewrite Et in H.
  assert (Ht : Z.to_nat t = S (Z.to_nat (d_t d))) by (unfold t; lia).
  assert (T1 : (0 <= t)%Z) by (unfold t; lia).
  set (k := Z.to_nat (d_t d)) in *.
  pinv H mat_lower Z1. pinv H mat Z2. pinv H b11 Z3. pinv H mu Z4. pinv H b21 Z5. pinv H e Z6.
  pinv H period' Z7. pinv H rounding Z8.
  assert (period' = period) by congruence; subst period'.
  cbn [d_get d_coef d_t d_time d_junk] in *.
  apply at_index_nth in Z2; auto. apply at_index_nth in Z4; auto. destruct Z2 as [Z2 Z2'], Z4 as [Z4 Z4'].
  pop H uv E. apply inv_set_item in E. destruct E as (j & Ej & ->). cbn [d_get] in Ej, H.
  rewrite py_nonneg in Ej by auto. rewrite Ht in Ej. destruct (Nat.ltb_spec (S k) (length (d_get d Mat))) as [L1|]; [|discriminate].
  inversion Ej; subst j; clear Ej.
  match type of H with context [upd (d_get d Mat) (S k) ?y] => set (mat1 := y) in * end.
  pinv H ml_lower F1. pinv H ml F2. pinv H b33 F3. pinv H mu' F4. pinv H b23 F5.
  simpl d_get in F2, F4. simpl d_coef in F3.
  apply at_index_nth in F2; auto. apply at_index_nth in F4; auto. destruct F2 as [F2 F2'], F4 as [F4 F4'].
  pop H u' E. apply inv_set_item in E. destruct E as (j & Ej & ->). simpl d_get in Ej.
  rewrite py_nonneg in Ej by auto. rewrite Ht in Ej. destruct (Nat.ltb_spec (S k) (length (d_get d Ml))) as [L2|]; [|discriminate].
  inversion Ej; subst j; clear Ej.
  match type of H with context [upd _ (S k) (py_max ml_lower ?y)] => set (ml1 := py_max ml_lower y) in * end.
  pinv H mu_lower G1. pinv H mat' G2. pinv H b12 G3. pinv H mu'' G4. pinv H b22 G5. pinv H ml' G6. pinv H b32 G7.
  simpl d_get in G2, G4, G6. simpl d_coef in G5, G7.
  apply at_index_nth in G2; auto. apply at_index_nth in G4; auto. apply at_index_nth in G6; auto.
  destruct G2 as [G2 G2'], G4 as [G4 G4'], G6 as [G6 G6'].
  rewrite (upd_nth_other _ (S k) k) in G2 by lia. rewrite (upd_nth_other _ (S k) k) in G6 by lia.
  pop H u'' E. apply inv_set_item in E. destruct E as (j & Ej & ->). simpl d_get in Ej.
  rewrite py_nonneg in Ej by auto. rewrite Ht in Ej. destruct (Nat.ltb_spec (S k) (length (d_get d Mu))) as [L3|]; [|discriminate].
  inversion Ej; subst j; clear Ej.
  match type of H with context [upd _ (S k) (py_max mu_lower ?y)] => set (mu1 := py_max mu_lower y) in * end.
  pinv H tlo K1. pinv H tup K2. pinv H toc K3. pinv H cc4 K4. pinv H tat K5. pinv H toc' K6.
  simpl d_get in K3, K5, K6.
  apply at_index_nth in K3; auto. apply at_index_nth in K5; auto. apply at_index_nth in K6; auto.
  destruct K3 as [K3 K3'], K5 as [K5 K5'], K6 as [K6 K6'].
  pop H u3 E. apply inv_set_item in E. destruct E as (j & Ej & ->). simpl d_get in Ej.
  rewrite py_nonneg in Ej by auto. rewrite Ht in Ej. destruct (Nat.ltb_spec (S k) (length (d_get d Tocean))) as [L4|]; [|discriminate].
  inversion Ej; subst j; clear Ej.
  match type of H with context [upd _ (S k) (py_max tlo ?y)] => set (toc1 := py_max tlo y) in * end.
  pinv H start M1. pinv H period'' M2. pinv H saturation M3. pinv H fex0 M4. pinv H fex1 M5. pinv H exo M6.
  assert (period'' = period) by congruence; subst period''.
  pinv H fco22x M7. pinv H mat'' M8. pinv H mateq M9. pinv H r M10. pinv H l M11.
  simpl d_get in M8. apply at_index_nth in M8; auto. rewrite Ht in M8. destruct M8 as [M8 M8'].
  rewrite upd_nth_same in M8 by auto.
  pop H u4 E. apply inv_set_item in E. destruct E as (j & Ej & ->). simpl d_get in Ej.
  rewrite py_nonneg in Ej by auto. rewrite Ht in Ej. destruct (Nat.ltb_spec (S k) (length (d_get d Forc))) as [L5|]; [|discriminate].
  inversion Ej; subst j; clear Ej.
  match type of H with context [upd _ (S k) (plus_ (times_ fco22x l) ?y)] => set (forc1 := plus_ (times_ fco22x l) y) in * end.
  pinv H aup N1. pinv H tat' N2. pinv H cc1 N3. pinv H forc N4. pinv H fco22x' N5. pinv H t2xco2 N6. pinv H lambda N7.
  pinv H cc3 N8. pinv H toc'' N9.
  simpl d_get in N2, N4, N9. apply at_index_nth in N2; auto. apply at_index_nth in N4; auto. apply at_index_nth in N9; auto.
  destruct N2 as [N2 N2'], N4 as [N4 N4'], N9 as [N9 N9'].
  rewrite Ht in N4. rewrite upd_nth_same in N4 by auto. fold k in N9, N2. rewrite (upd_nth_other _ (S k) k) in N9 by lia.
  assert (fco22x' = fco22x) by congruence; subst fco22x'.
  apply inv_set_item in H. destruct H as (j & Ej & ->). simpl d_get in Ej.
  rewrite py_nonneg in Ej by auto. rewrite Ht in Ej. destruct (Nat.ltb_spec (S k) (length (d_get d Tatm))) as [L6|]; [|discriminate].
  inversion Ej; subst j; clear Ej. subst.
  match goal with |- context [upd _ (S k) (py_min aup ?y)] => set (tat1 := py_min aup y) in * end.
  exists (mkC period rounding start saturation mat_lower ml_lower mu_lower tlo tup aup b12 b23 b11 b21 b22 b32 b33
            cc1 cc3 cc4 fex0 fex1 fco22x t2xco2 mateq), e,
         (fun x => match x with Mat => mat1 | Ml => ml1 | Mu => mu1 | Tatm => tat1 | Tocean => toc1 | Forc => forc1 end).
  constructor; simpl; auto.
  - constructor; simpl; auto.
  - constructor; simpl; auto.
    + exists exo, r, l. auto.
    + exists lambda. auto.
  - intros []; auto.
  - intros []; reflexivity.
Qed.

(** The coefficients computed by the reset. *)
Record coefficients (I : inputs) (co : list (string * num)) : Prop := {
  k_all : exists b12 b23 mateq mueq mleq b21 b32,
    i_scalar I "b12" = Ok b12 /\ i_scalar I "b23" = Ok b23 /\ i_scalar I "mateq" = Ok mateq /\
    i_scalar I "mueq" = Ok mueq /\ i_scalar I "mleq" = Ok mleq /\
    div_ (times_ b12 mateq) mueq = Ok b21 /\ div_ (times_ b23 mueq) mleq = Ok b32 /\
    alookup "b11" co = Some (minus_ (Some 1%R) b12) /\
    alookup "b21" co = Some b21 /\
    alookup "b22" co = Some (minus_ (minus_ (Some 1%R) b21) b23) /\
    alookup "b32" co = Some b32 /\
    alookup "b33" co = Some (minus_ (Some 1%R) b32) }.

Definition initial_name (x : series) : string :=
  match x with Mat => "mat0" | Ml => "ml0" | Mu => "mu0" | Tatm => "tatm0" | Tocean => "tocean0" | Forc => "" end.

Record initials (I : inputs) (init : series -> num) : Prop := {
  in_scalar : forall x, x <> Forc -> i_scalar I (initial_name x) = Ok (init x);
  in_forc : exists f m q r l e, i_scalar I "fco22x" = Ok f /\ i_scalar I "mat0" = Ok m /\ i_scalar I "mateq" = Ok q /\
    div_ m q = Ok r /\ log2 r = Ok l /\ i_scalar I "fex0" = Ok e /\ init Forc = plus_ (times_ f l) e }.

Record started (I : inputs) (d d' : dstate) (n : Z) (init : series -> num) : Prop := {
  b_count : i_count I = Ok n;
  b_pos : (1 <= n)%Z;
  b_t : d_t d' = 0%Z;
  b_time : d_time d' = d_time d;
  b_coef : coefficients I (d_coef d');
  b_init : initials I init;
  b_get : forall x, exists g, length g = Z.to_nat n /\ i_start I x g = Ok tt /\ d_get d' x = upd g 0 (init x) }.

Lemma p_coefs_ok I d d' : p_coefs I d = (d', Ok tt) ->
  coefficients I (d_coef d') /\ d_t d' = 0%Z /\ d_time d' = d_time d.
Proof.
  intros H. unfold p_coefs in H.
  pop H u E. unfold p_set_timestep in E. inversion E; subst d0; clear E.
  pinv H b12 Y1.
  pop H v1 E. unfold p_set_coef in E. inversion E; subst d0; clear E.
  pinv H b12' Y2. pinv H mateq Y3. pinv H mueq Y4. pinv H b21 Y5.
  pop H v2 E. unfold p_set_coef in E. inversion E; subst d0; clear E.
  pinv H b23 Y6.
  pop H v3 E. unfold p_set_coef in E. inversion E; subst d0; clear E.
  pinv H b23' Y7. pinv H mueq' Y8. pinv H mleq Y9. pinv H b32 Y10.
  pop H v4 E. unfold p_set_coef in E. inversion E; subst d0; clear E.
  unfold p_set_coef in H. inversion H; subst d'; clear H. simpl.
  assert (b12' = b12) by congruence. assert (b23' = b23) by congruence. assert (mueq' = mueq) by congruence. subst.
  split; [|auto]. constructor. exists b12, b23, mateq, mueq, mleq, b21, b32. auto 20.
Qed.

Lemma p_start_ok I x p d d' init : (forall d0 d1 a, p d0 = (d1, Ok a) -> d1 = d0 /\ init a) ->
  p_start I x p d = (d', Ok tt) ->
  exists n g a, i_count I = Ok n /\ (1 <= n)%Z /\ length g = Z.to_nat n /\ i_start I x g = Ok tt /\ init a /\
    d_t d' = d_t d /\ d_time d' = d_time d /\ d_coef d' = d_coef d /\
    d_get d' x = upd g 0 a /\ forall y, y <> x -> d_get d' y = d_get d y.
Proof.
  intros Hp H. unfold p_start in H. pinv H n Y1.
  pop H a E. apply inv_empty in E. destruct E as (Hn & -> & ->). cbn [a_val] in H.
  pop H u E. apply inv_set_values in E. destruct E as (Es & ->).
  pop H y E. apply Hp in E. destruct E as [-> Ey].
  apply inv_set_item in H. destruct H as (j & Ej & ->). rewrite d_set_get in Ej. rewrite d_set_get.
  set (g := map (d_junk d) (seq 0 (Z.to_nat n))) in *.
  assert (Lg : length g = Z.to_nat n) by (unfold g; now rewrite map_length, seq_length).
  rewrite py_nonneg in Ej by lia. change (Z.to_nat 0) with O in Ej.
  destruct (Nat.ltb_spec 0 (length g)); [|discriminate]. inversion Ej; subst j.
  exists n, g, y. split; auto. split; [lia|]. repeat (split; auto).
  - rewrite d_set_get. auto.
  - intros z Nz. rewrite !d_set_other by auto. reflexivity.
Qed.

Lemma p_reset_ok I d d' : p_reset I d = (d', Ok tt) -> exists n init, started I d d' n init.
Proof.
  intros H. unfold p_reset in H. pop H u E. destruct u. apply p_coefs_ok in E. destruct E as (Co & Et & Em).
  unfold p_starts in H.
  assert (Sc : forall s d0 d1 a, p_scalar I s d0 = (d1, Ok a) -> d1 = d0 /\ i_scalar I s = Ok a)
    by (intros; eapply inv_scalar; eauto).
  pop H u E. destruct u. apply (p_start_ok _ _ _ _ _ (fun a => i_scalar I "mat0" = Ok a)) in E; auto.
  destruct E as (n & g1 & a1 & N & Np & L1 & S1 & I1 & T1 & M1 & C1 & G1 & O1).
  pop H u E. destruct u. apply (p_start_ok _ _ _ _ _ (fun a => i_scalar I "ml0" = Ok a)) in E; auto.
  destruct E as (n' & g2 & a2 & N' & _ & L2 & S2 & I2 & T2 & M2 & C2 & G2 & O2).
  assert (n' = n) by congruence; subst n'.
  pop H u E. destruct u. apply (p_start_ok _ _ _ _ _ (fun a => i_scalar I "mu0" = Ok a)) in E; auto.
  destruct E as (n' & g3 & a3 & N3 & _ & L3 & S3 & I3 & T3 & M3 & C3 & G3 & O3).
  assert (n' = n) by congruence; subst n'.
  pop H u E. destruct u. apply (p_start_ok _ _ _ _ _ (fun a => i_scalar I "tatm0" = Ok a)) in E; auto.
  destruct E as (n' & g4 & a4 & N4 & _ & L4 & S4 & I4 & T4 & M4 & C4 & G4 & O4).
  assert (n' = n) by congruence; subst n'.
  pop H u E. destruct u. apply (p_start_ok _ _ _ _ _ (fun a => i_scalar I "tocean0" = Ok a)) in E; auto.
  destruct E as (n' & g5 & a5 & N5 & _ & L5 & S5 & I5 & T5 & M5 & C5 & G5 & O5).
  assert (n' = n) by congruence; subst n'.
  apply (p_start_ok _ _ _ _ _ (fun a => exists f m q r l e, i_scalar I "fco22x" = Ok f /\ i_scalar I "mat0" = Ok m /\ i_scalar I "mateq" = Ok q /\
    div_ m q = Ok r /\ log2 r = Ok l /\ i_scalar I "fex0" = Ok e /\ a = plus_ (times_ f l) e)) in H.
  2: { intros d7 d8 a F. unfold p_forcing in F. pinv F f0 X1. pinv F m0 X2. pinv F q0 X3. pinv F r0 X4. pinv F l0 X5. pinv F e0 X6.
       unfold pret in F. inversion F; subst. split; auto. exists f0, m0, q0, r0, l0, e0. auto 10. }
  destruct H as (n' & g6 & a6 & N6 & _ & L6 & S6 & I6 & T6 & M6 & C6 & G6 & O6).
  assert (n' = n) by congruence; subst n'.
  exists n, (fun x => match x with Mat => a1 | Ml => a2 | Mu => a3 | Tatm => a4 | Tocean => a5 | Forc => a6 end).
  constructor; auto; try congruence.
  - constructor; auto. intros []; simpl; congruence.
  - intros [].
    + exists g1. split; auto. split; auto. rewrite O6, O5, O4, O3, O2 by discriminate. auto.
    + exists g2. split; auto. split; auto. rewrite O6, O5, O4, O3 by discriminate. auto.
    + exists g3. split; auto. split; auto. rewrite O6, O5, O4 by discriminate. auto.
    + exists g4. split; auto. split; auto. rewrite O6, O5 by discriminate. auto.
    + exists g5. split; auto. split; auto. rewrite O6 by discriminate. auto.
    + exists g6. auto.
Qed.

(** [k] successful steps. *)
Lemma repeat_ok I k : forall d d', (0 <= d_t d)%Z -> p_repeat I k d = (d', Ok tt) ->
  d_t d' = (d_t d + Z.of_nat k)%Z /\ d_coef d' = d_coef d /\
  (forall x, length (d_get d' x) = length (d_get d x)) /\
  (forall x i, (i <= Z.to_nat (d_t d))%nat -> cell d' x i = cell d x i).
Proof.
  induction k as [|k IH]; simpl; intros d d' T H.
  - inversion H; subst. repeat split; auto. lia.
  - pop H u E. destruct u. apply p_calc_step_ok in E; auto. destruct E as (c & e & new & S).
    apply IH in H; [|rewrite (s_t _ _ _ _ _ _ S); lia]. destruct H as (H1 & H2 & H3 & H4).
    rewrite (s_t _ _ _ _ _ _ S) in *. split; [lia|]. split; [rewrite H2; apply S|].
    split; [intros x; rewrite H3, (s_get _ _ _ _ _ _ S); apply upd_length|].
    intros x i Hi. rewrite H4 by lia. unfold cell. rewrite (s_get _ _ _ _ _ _ S).
    apply upd_nth_other. lia.
Qed.
(** The step number [i+1] of them. *)
Lemma repeat_step I k : forall d d' i, (0 <= d_t d)%Z -> p_repeat I k d = (d', Ok tt) -> (i < k)%nat ->
  let t := (d_t d + Z.of_nat i)%Z in
  exists c e, reads I (d_coef d) c /\ (exists l, i_E I = Ok l /\ at_index l t = Ok e) /\
    equations c (t + 1) e (fun x => cell d' x (Z.to_nat t)) (fun x => cell d' x (S (Z.to_nat t))).
Proof.
  induction k as [|k IH]; simpl; intros d d' i T H L; [lia|].
  pop H u E. destruct u. apply p_calc_step_ok in E; auto. destruct E as (c & e & new & S).
  destruct i as [|i].
  - rewrite Z.add_0_r. exists c, e. split; [apply S|]. split; [apply S|].
    apply repeat_ok in H; [|rewrite (s_t _ _ _ _ _ _ S); lia]. destruct H as (_ & _ & _ & H4).
    rewrite (s_t _ _ _ _ _ _ S) in H4.
    assert (Old : forall x, cell d' x (Z.to_nat (d_t d)) = cell d x (Z.to_nat (d_t d))).
    { intros x. rewrite H4 by lia. unfold cell. rewrite (s_get _ _ _ _ _ _ S). apply upd_nth_other. lia. }
    assert (New : forall x, cell d' x (Datatypes.S (Z.to_nat (d_t d))) = new x).
    { intros x. rewrite H4 by lia. unfold cell. rewrite (s_get _ _ _ _ _ _ S). apply upd_nth_same, S. }
    pose proof (s_equations _ _ _ _ _ _ S) as Q. destruct Q. constructor; rewrite ?Old, ?New; auto.
  - assert (L' : (i < k)%nat) by lia.
    assert (T' : (0 <= d_t d0)%Z) by (rewrite (s_t _ _ _ _ _ _ S); lia).
    specialize (IH d0 d' i T' H L'). cbv zeta in IH.
    rewrite (s_coef _ _ _ _ _ _ S), (s_t _ _ _ _ _ _ S) in IH.
    replace (d_t d + 1 + Z.of_nat i)%Z with (d_t d + Z.of_nat (Datatypes.S i))%Z in IH by lia. exact IH.
Qed.
