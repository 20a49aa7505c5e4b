(** Proofs of C42-C45, C47. *)
From Coq Require Import String List ZArith Reals Bool Arith Lia Lra.
From Verif Require Import Base ListFacts Units TimeModel Calendar Core CoreEvo CoreTree CoreNames
  CoreInv CoreStep Spec_Core CoreReq CoreView CoreP1 CoreP2 Adapters Dice DiceInit DiceSim DiceBase DiceMachine Spec_Dice DiceUsed DiceProgress DiceTime.
Import ListNotations.
Local Open Scope string_scope.
Local Open Scope list_scope.

Section P.
Variable env : uenv.
Notation H := (dice_hooks env).
Notation In w0 := (I env w0 (vi_of w0)).

(** [k] steps have been made since the reset. *)
Record after_k (a : adapter world) (k : nat) (ak : adapter world) (w0 : world) (d0 d : dstate) : Prop := {
  ak_prepared : prepared_world env a w0;
  ak_running : running env w0 ak d;
  ak_reset : p_reset (In w0) (d_start w0) = (d0, Ok tt);
  ak_steps : p_repeat (In w0) k d0 = (d, Ok tt) }.

Lemma repeat_snoc I k : forall d, p_repeat I (S k) d = pbind (p_repeat I k) (fun _ => p_calc_step I) d.
Proof.
  induction k as [|k IH]; intros d.
  - unfold pbind. simpl. unfold pbind, pret. destruct (p_calc_step I d) as [d' [[]|e]]; reflexivity.
  - change (p_repeat I (S (S k)) d) with (pbind (p_calc_step I) (fun _ => p_repeat I (S k)) d).
    unfold pbind at 1. unfold pbind at 1.
    change (p_repeat I (S k) d) with (pbind (p_calc_step I) (fun _ => p_repeat I k) d).
    unfold pbind at 1.
    destruct (p_calc_step I d) as [d' [u|e]]; [|reflexivity]. rewrite IH. reflexivity.
Qed.

Lemma resets_after a a1 : resets env a a1 -> exists w0 d, after_k a 0 a1 w0 d d.
Proof.
  intros [U C]. apply reset_running in C; [|now apply used_wf].
  destruct C as (w0 & d & Pw & Ru & Pr). exists w0, d. constructor; auto.
Qed.
Lemma after_step a k ak w0 d0 d b : after_k a k ak w0 d0 d ->
  do_call world H SStep ak = (b, Ok tt) -> exists d', after_k a (S k) b w0 d0 d'.
Proof.
  intros [Pw Ru Pr Ps] C. pose proof (step_running env _ _ _ Ru) as S.
  change (do_call world H SStep ak) with (adapter_step world H ak) in C.
  destruct (p_calc_step (In w0) d) as [d' [[]|e]] eqn:E.
  - destruct S as (a' & E' & Ru'). rewrite C in E'. inversion E'; subst a'.
    exists d'. constructor; auto. rewrite repeat_snoc. unfold pbind. now rewrite Ps.
  - destruct S as (a' & E'). congruence.
Qed.
Lemma after_steps j : forall a k ak w0 d0 d b, after_k a k ak w0 d0 d -> steps env j ak b ->
  exists d', after_k a (k + j) b w0 d0 d'.
Proof.
  induction j as [|j IH]; simpl; intros a k ak w0 d0 d b A S.
  - subst. rewrite Nat.add_0_r. eauto.
  - destruct S as (c & C & S). destruct (after_step _ _ _ _ _ _ _ A C) as (d' & A').
    destruct (IH _ _ _ _ _ _ _ A' S) as (d'' & A''). exists d''. now rewrite <- Nat.add_succ_comm.
Qed.
Lemma steps_after a a1 k ak : resets env a a1 -> steps env k a1 ak -> exists w0 d0 d, after_k a k ak w0 d0 d.
Proof.
  intros R S. destruct (resets_after _ _ R) as (w0 & d & A).
  destruct (after_steps _ _ _ _ _ _ _ _ A S) as (d' & A'). eauto.
Qed.
Lemma run_ok a a' : runs env a a' -> exists w0 d0 d n, i_count (In w0) = Ok n /\
  after_k a (Z.to_nat (n - 1)) a' w0 d0 d.
Proof.
  intros [U C]. change (do_call world H SRun a) with (scm_run world H a) in C. unfold scm_run in C.
  destruct (scm_reset_stepping world H a) as [a1 [[]|e]] eqn:Rs; simpl in C; [|discriminate].
  apply reset_running in Rs; [|now apply used_wf]. destruct Rs as (w0 & d & Pw & Ru & Pr).
  pose proof (run_running env _ _ _ Ru) as S. unfold p_run in S. unfold pbind, plift in S.
  destruct (i_count (In w0)) as [n|e] eqn:N.
  - destruct (p_repeat (In w0) (Z.to_nat (n - 1)) d) as [d' [[]|e]] eqn:Pp.
    + destruct S as (b & E & Ru'). rewrite C in E. inversion E; subst b. exists w0, d, d', n. split; auto. constructor; auto.
    + destruct S as (b & E). congruence.
  - destruct S as (b & E). congruence.
Qed.

(** Facts about such an adapter. *)
Section A.
Variables (a ak : adapter world) (k : nat) (w0 : world) (d0 d : dstate).
Hypothesis A : after_k a k ak w0 d0 d.

Lemma ak_started : exists n init, started (In w0) (d_start w0) d0 n init.
Proof. apply p_reset_ok. apply A. Qed.
Lemma ak_t0 : d_t d0 = 0%Z.
Proof. destruct ak_started as (n & init & S). apply S. Qed.
Lemma ak_t0' : (0 <= d_t d0)%Z. Proof. rewrite ak_t0. lia. Qed.
Lemma ak_len n x : i_count (In w0) = Ok n -> length (d_get d x) = Z.to_nat n.
Proof.
  intros N. destruct (repeat_ok _ _ _ _ ak_t0' (ak_steps _ _ _ _ _ _ A)) as (_ & _ & L & _).
  destruct ak_started as (n' & init & S). rewrite L. destruct (b_get _ _ _ _ _ S x) as (g & Lg & _ & ->).
  rewrite upd_length, Lg. f_equal. pose proof (b_count _ _ _ _ _ S). congruence.
Qed.
Lemma ak_room n : i_count (In w0) = Ok n -> (1 <= n)%Z /\ (Z.of_nat k < n)%Z.
Proof.
  intros N. destruct ak_started as (n' & init & S). pose proof (b_count _ _ _ _ _ S) as N'.
  assert (n' = n) by congruence. subst n'. pose proof (b_pos _ _ _ _ _ S). split; auto.
  pose proof (ak_steps _ _ _ _ _ _ A) as Ps. destruct (Nat.eq_dec k 0) as [Z|Z]; [lia|].
  assert (Ej : exists j, k = Datatypes.S j) by (exists (pred k); lia). destruct Ej as (j & Ej). rewrite Ej in Ps |- *.
  pose proof ak_t0 as T0. pose proof ak_t0' as T0'.
  rewrite repeat_snoc in Ps. apply pbind_ok in Ps. destruct Ps as (u & d1 & E1 & E2). destruct u.
  destruct (repeat_ok _ _ _ _ ak_t0' E1) as (T1 & _ & L & _).
  apply p_calc_step_ok in E2; [|rewrite T1, ak_t0; lia]. destruct E2 as (c & e & new & St).
  pose proof (s_room _ _ _ _ _ _ St Mat) as Ro. rewrite L in Ro.
  destruct (b_get _ _ _ _ _ S Mat) as (g & Lg & _ & Eg). rewrite Eg, upd_length, Lg, T1, ak_t0 in Ro. lia.
Qed.
Lemma ak_count : exists n, i_count (In w0) = Ok n /\ points ak = Some n.
Proof.
  destruct ak_started as (n & init & S). exists n. split; [apply S|]. pose proof (b_count _ _ _ _ _ S) as N.
  unfold points. rewrite (j_count _ _ _ _ _ _ _ (ru_sim _ _ _ _ (ak_running _ _ _ _ _ _ A))).
  simpl in N. destruct (w_count w0); congruence.
Qed.
Lemma ak_out x i : (i <= k)%nat -> out env ak (nm x) i = Ok (cell d x i).
Proof.
  intros L. unfold out. rewrite (running_item env _ _ _ x _ (ak_running _ _ _ _ _ _ A)).
  apply at_index_ok. destruct ak_count as (n & N & _). rewrite (ak_len _ _ N). pose proof (ak_room _ N). lia.
Qed.
Lemma ak_out_inv x i m : out env ak (nm x) i = Ok m -> m = cell d x i /\
  exists n, i_count (In w0) = Ok n /\ (Z.of_nat i < n)%Z.
Proof.
  unfold out. rewrite (running_item env _ _ _ x _ (ak_running _ _ _ _ _ _ A)). intros E.
  apply at_index_nth in E; [|lia]. rewrite Nat2Z.id in E. destruct E as [-> L]. split; auto.
  destruct ak_count as (n & N & _). exists n. split; auto. rewrite (ak_len _ _ N) in L. lia.
Qed.
Lemma ak_value n : value env ak n = i_scalar (In w0) n.
Proof. apply (running_scalar env _ _ _ n (ak_running _ _ _ _ _ _ A)). Qed.
Lemma ak_setting n : setting env ak n = i_generic (In w0) n.
Proof. apply (running_generic env _ _ _ n (ak_running _ _ _ _ _ _ A)). Qed.
Lemma ak_emission i e l : i_E (In w0) = Ok l -> at_index l (Z.of_nat i) = Ok e -> emission env ak i = Ok e.
Proof.
  intros E1 E2. unfold emission. rewrite (running_E env _ _ _ _ (ak_running _ _ _ _ _ _ A)), E1. auto.
Qed.
Lemma ak_equations i : (i < k)%nat -> exists c e, reads (In w0) (d_coef d0) c /\ emission env ak i = Ok e /\
  equations c (Z.of_nat i + 1) e (fun x => cell d x i) (fun x => cell d x (S i)).
Proof.
  intros L. destruct (repeat_step _ _ _ _ i ak_t0' (ak_steps _ _ _ _ _ _ A) L) as (c & e & R & (l & El & Ei) & Q).
  rewrite ak_t0 in *. rewrite Z.add_0_l in *. rewrite Nat2Z.id in *.
  exists c, e. split; auto. split; auto. eapply ak_emission; eauto.
Qed.
Lemma ak_initials init n : started (In w0) (d_start w0) d0 n init -> forall x, cell d x 0 = init x.
Proof.
  intros S x. destruct (repeat_ok _ _ _ _ ak_t0' (ak_steps _ _ _ _ _ _ A)) as (_ & _ & _ & Ce).
  rewrite Ce by lia. destruct (b_get _ _ _ _ _ S x) as (g & Lg & _ & Eg). unfold cell. rewrite Eg.
  apply upd_nth_same. pose proof (b_pos _ _ _ _ _ S). lia.
Qed.
End A.

(** ** C42 *)
Lemma py_max_ge b y : exists x, py_max (Some b) y = Some x /\ (b <= x)%R.
Proof.
  unfold py_max. destruct y as [y|]; [|exists b; split; auto; lra].
  destruct (Rlt_dec b y); eexists; (split; [reflexivity|]); lra.
Qed.
Lemma py_min_le b y : exists x, py_min (Some b) y = Some x /\ (x <= b)%R.
Proof.
  unfold py_min. destruct y as [y|]; [|exists b; split; auto; lra].
  destruct (Rlt_dec y b); eexists; (split; [reflexivity|]); lra.
Qed.
Lemma py_max_le b c x : (b <= c)%R -> (x <= c)%R -> exists y, py_max (Some b) (Some x) = Some y /\ (y <= c)%R.
Proof. intros. unfold py_max. destruct (Rlt_dec b x); eexists; (split; [reflexivity|]); lra. Qed.

Lemma bounds_at a k ak w0 d0 d i : after_k a k ak w0 d0 d -> (1 <= i <= k)%nat ->
  at_least env ak "mat" i "mat_lower" /\ at_least env ak "ml" i "ml_lower" /\ at_least env ak "mu" i "mu_lower" /\
  at_least env ak "tocean" i "tocean_lower" /\ at_most env ak "tatm" i "tatm_upper" /\
  ((forall lo up, value env ak "tocean_lower" = Ok (Some lo) -> value env ak "tocean_upper" = Ok (Some up) -> (lo <= up)%R) ->
   value env ak "tocean_lower" <> Ok None ->
   at_most env ak "tocean" i "tocean_upper").
Proof.
  intros A Hi. destruct i as [|i]; [lia|]. assert (Li : (i < k)%nat) by lia.
  destruct (ak_equations _ _ _ _ _ _ A _ Li) as (c & e & R & _ & Q). destruct Q.
  pose proof (ak_out _ _ _ _ _ _ A) as O. assert (L' : (S i <= k)%nat) by lia.
  split; [intros b; rewrite (ak_value _ _ _ _ _ _ A), (r_mat_lower _ _ _ R); intros E; inversion E as [Eb];
    rewrite (O Mat _ L' : out env ak "mat" (S i) = _), q_mat, Eb; destruct (py_max_ge b (plus_ (plus_ (times_ (cell d Mat i) (c_b11 c)) (times_ (cell d Mu i) (c_b21 c))) (emitted c e))) as (x & -> & ?); eauto|].
  split; [intros b; rewrite (ak_value _ _ _ _ _ _ A), (r_ml_lower _ _ _ R); intros E; inversion E as [Eb];
    rewrite (O Ml _ L' : out env ak "ml" (S i) = _), q_ml, Eb; edestruct (py_max_ge b) as (x & -> & ?); eauto|].
  split; [intros b; rewrite (ak_value _ _ _ _ _ _ A), (r_mu_lower _ _ _ R); intros E; inversion E as [Eb];
    rewrite (O Mu _ L' : out env ak "mu" (S i) = _), q_mu, Eb; edestruct (py_max_ge b) as (x & -> & ?); eauto|].
  split; [intros b; rewrite (ak_value _ _ _ _ _ _ A), (r_tocean_lower _ _ _ R); intros E; inversion E as [Eb];
    rewrite (O Tocean _ L' : out env ak "tocean" (S i) = _), q_tocean, Eb; edestruct (py_max_ge b) as (x & -> & ?); eauto|].
  split.
  - intros b. rewrite (ak_value _ _ _ _ _ _ A), (r_tatm_upper _ _ _ R). intros E. inversion E as [Eb].
    rewrite (O Tatm _ L' : out env ak "tatm" (S i) = _). destruct q_tatm as (la & _ & ->). rewrite Eb.
    edestruct (py_min_le b) as (x & -> & ?); eauto.
  - rewrite !(ak_value _ _ _ _ _ _ A), (r_tocean_lower _ _ _ R), (r_tocean_upper _ _ _ R). intros Ord Nn.
    intros b. rewrite (ak_value _ _ _ _ _ _ A), (r_tocean_upper _ _ _ R). intros E. inversion E as [Eb].
    rewrite (O Tocean _ L' : out env ak "tocean" (S i) = _), q_tocean, Eb.
    destruct (c_tocean_lower c) as [lo|]; [|exfalso; apply Nn; reflexivity].
    edestruct (py_min_le b) as (x & -> & Hx). rewrite Eb in Ord. specialize (Ord _ _ eq_refl eq_refl).
    destruct (py_max_le lo b x Ord Hx) as (y & -> & Hy). eauto.
Qed.

(** ** C43 *)
Lemma py_max_above b x y : py_max (Some b) y = Some x -> (b < x)%R -> y = Some x.
Proof.
  unfold py_max. destruct y as [y|]; [|intros E; inversion E; lra].
  destruct (Rlt_dec b y); intros E; inversion E; subst; auto; lra.
Qed.
Lemma div_some a b r : div_ a (Some b) = Ok r -> b <> 0%R /\ r = nop Rdiv a (Some b).
Proof. unfold div_. destruct (Req_EM_T b 0); intros E; inversion E; auto. Qed.

Lemma carbon_is e period rounding : carbon_emitted e period rounding = (e * dt_quot period YEAR / (if truthy rounding then 3666 / 1000 else 1))%R.
Proof. reflexivity. Qed.
Lemma carbon_step c co I t e old new lo1 lo2 lo3 mat0 mu0 ml0 mat1 mu1 ml1 er :
  coefficients I co -> reads I co c ->
  equations c t e old new -> e = Some er ->
  c_mat_lower c = Some lo1 -> c_mu_lower c = Some lo2 -> c_ml_lower c = Some lo3 ->
  old Mat = Some mat0 -> old Mu = Some mu0 -> old Ml = Some ml0 ->
  new Mat = Some mat1 -> new Mu = Some mu1 -> new Ml = Some ml1 ->
  (lo1 < mat1)%R -> (lo2 < mu1)%R -> (lo3 < ml1)%R ->
  (mat1 + mu1 + ml1 = mat0 + mu0 + ml0 + carbon_emitted er (c_period c) (c_rounding c))%R.
Proof.
  intros [K] R Q -> L1 L2 L3 O1 O2 O3 N1 N2 N3 B1 B2 B3. destruct Q.
  rewrite L1, N1, O1, O2 in q_mat. symmetry in q_mat. apply py_max_above in q_mat; auto.
  rewrite L2, N2, O1, O2, O3 in q_mu. symmetry in q_mu. apply py_max_above in q_mu; auto.
  rewrite L3, N3, O2, O3 in q_ml. symmetry in q_ml. apply py_max_above in q_ml; auto.
  destruct K as (b12 & b23 & mateq & mueq & mleq & b21 & b32 & E1 & E2 & E3 & E4 & E5 & E6 & E7 & E8 & E9 & E10 & E11 & E12).
  rewrite (r_b11 _ _ _ R) in E8. rewrite (r_b21 _ _ _ R) in E9. rewrite (r_b22 _ _ _ R) in E10.
  rewrite (r_b32 _ _ _ R) in E11. rewrite (r_b33 _ _ _ R) in E12. rewrite (r_b12 _ _ _ R) in E1. rewrite (r_b23 _ _ _ R) in E2.
  inversion E1 as [X1]. inversion E2 as [X2]. inversion E8 as [X8]. inversion E9 as [X9]. inversion E10 as [X10]. inversion E11 as [X11]. inversion E12 as [X12].
  rewrite X1, X2, X8, X9, X10, X11, X12 in *. clear E1 E2 E8 E9 E10 E11 E12 X1 X2 X8 X9 X10 X11 X12.
  unfold emitted, in_years, times_, plus_, minus_, nop in *.
  destruct b12 as [b12|]; [|discriminate]. destruct b21 as [b21|]; [|discriminate].
  destruct b23 as [b23|]; [|discriminate]. destruct b32 as [b32|]; [|discriminate].
  inversion q_mat as [Y1]. inversion q_mu as [Y2]. inversion q_ml as [Y3]. rewrite carbon_is. ring.
Qed.

Lemma C43_proof a k ak w0 d0 d mat mu ml es lo1 lo2 lo3 period rounding : after_k a k ak w0 d0 d ->
  (forall i, (i <= k)%nat -> out env ak "mat" i = Ok (Some (mat i)) /\ out env ak "mu" i = Ok (Some (mu i)) /\
     out env ak "ml" i = Ok (Some (ml i))) ->
  (forall i, (i < k)%nat -> emission env ak i = Ok (Some (es i))) ->
  value env ak "mat_lower" = Ok (Some lo1) -> value env ak "mu_lower" = Ok (Some lo2) ->
  value env ak "ml_lower" = Ok (Some lo3) ->
  (forall i, (1 <= i <= k)%nat -> (lo1 < mat i /\ lo2 < mu i /\ lo3 < ml i)%R) ->
  setting env ak "period_length" = Ok (GDelta period) -> setting env ak "original_rounding" = Ok rounding ->
  forall i, (i <= k)%nat ->
  (mat i + mu i + ml i = mat 0%nat + mu 0%nat + ml 0%nat + sum_to (fun j => carbon_emitted (es j) period rounding) i)%R.
Proof.
  intros A O E V1 V2 V3 B S1 S2.
  rewrite (ak_value _ _ _ _ _ _ A) in V1, V2, V3. rewrite (ak_setting _ _ _ _ _ _ A) in S1, S2.
  destruct (ak_started _ _ _ _ _ _ A) as (n & init & St).
  assert (Ce : forall i, (i <= k)%nat -> cell d Mat i = Some (mat i) /\ cell d Mu i = Some (mu i) /\ cell d Ml i = Some (ml i)).
  { intros i Hi. destruct (O i Hi) as (X1 & X2 & X3).
    rewrite (ak_out _ _ _ _ _ _ A Mat i Hi : out env ak "mat" i = _) in X1.
    rewrite (ak_out _ _ _ _ _ _ A Mu i Hi : out env ak "mu" i = _) in X2.
    rewrite (ak_out _ _ _ _ _ _ A Ml i Hi : out env ak "ml" i = _) in X3. repeat split; congruence. }
  induction i as [|i IH]; intros Hi; simpl; [lra|].
  assert (Li : (i < k)%nat) by lia. specialize (IH (Nat.lt_le_incl _ _ Li)).
  destruct (ak_equations _ _ _ _ _ _ A _ Li) as (c & e & R & Em & Q).
  rewrite (E i Li) in Em. inversion Em; subst e.
  destruct (Ce i (Nat.lt_le_incl _ _ Li)) as (O1 & O2 & O3). destruct (Ce (S i) Hi) as (N1 & N2 & N3).
  destruct (B (S i)) as (B1 & B2 & B3); [lia|].
  assert (K1 : c_mat_lower c = Some lo1) by (pose proof (r_mat_lower _ _ _ R); congruence).
  assert (K2 : c_mu_lower c = Some lo2) by (pose proof (r_mu_lower _ _ _ R); congruence).
  assert (K3 : c_ml_lower c = Some lo3) by (pose proof (r_ml_lower _ _ _ R); congruence).
  pose proof (carbon_step _ _ _ _ _ _ _ lo1 lo2 lo3 _ _ _ _ _ _ _ (b_coef _ _ _ _ _ St) R Q eq_refl
    K1 K2 K3 O1 O2 O3 N1 N2 N3 B1 B2 B3) as X.
  assert (c_period c = period) by (pose proof (r_period _ _ _ R); congruence).
  assert (c_rounding c = rounding) by (pose proof (r_rounding _ _ _ R); congruence). subst.
  rewrite X, IH. lra.
Qed.

(** ** C44 *)
Lemma py_max_stay b x : (b <= x)%R -> py_max (Some b) (Some x) = Some x.
Proof. intros L. unfold py_max. destruct (Rlt_dec b x); auto. f_equal. lra. Qed.

Lemma C44_proof a k ak w0 d0 d mateq mueq mleq lo1 lo2 lo3 b12 b23 : after_k a k ak w0 d0 d ->
  value env ak "mat0" = Ok (Some mateq) -> value env ak "mateq" = Ok (Some mateq) ->
  value env ak "mu0" = Ok (Some mueq) -> value env ak "mueq" = Ok (Some mueq) ->
  value env ak "ml0" = Ok (Some mleq) -> value env ak "mleq" = Ok (Some mleq) ->
  value env ak "b12" = Ok (Some b12) -> value env ak "b23" = Ok (Some b23) ->
  value env ak "mat_lower" = Ok (Some lo1) -> value env ak "mu_lower" = Ok (Some lo2) ->
  value env ak "ml_lower" = Ok (Some lo3) -> (lo1 <= mateq)%R -> (lo2 <= mueq)%R -> (lo3 <= mleq)%R ->
  (forall i, (i < k)%nat -> emission env ak i = Ok (Some 0%R)) ->
  forall i, (i <= k)%nat ->
  out env ak "mat" i = Ok (Some mateq) /\ out env ak "mu" i = Ok (Some mueq) /\ out env ak "ml" i = Ok (Some mleq).
Proof.
  intros A. rewrite !(ak_value _ _ _ _ _ _ A).
  intros V1 V2 V3 V4 V5 V6 V7 V8 V9 V10 V11 L1 L2 L3 E.
  destruct (ak_started _ _ _ _ _ _ A) as (n & init & St).
  assert (Ce : forall i, (i <= k)%nat -> cell d Mat i = Some mateq /\ cell d Mu i = Some mueq /\ cell d Ml i = Some mleq).
  { induction i as [|i IH]; intros Hi.
    - rewrite !(ak_initials _ _ _ _ _ _ A _ _ St). pose proof (in_scalar _ _ (b_init _ _ _ _ _ St)) as Is.
      pose proof (Is Mat ltac:(discriminate)) as I1. pose proof (Is Mu ltac:(discriminate)) as I2.
      pose proof (Is Ml ltac:(discriminate)) as I3. cbn [initial_name] in I1, I2, I3. repeat split; congruence.
    - assert (Li : (i < k)%nat) by lia. destruct (IH (Nat.lt_le_incl _ _ Li)) as (C1 & C2 & C3).
      destruct (ak_equations _ _ _ _ _ _ A _ Li) as (c & e & R & Em & Q). rewrite (E i Li) in Em. inversion Em; subst e.
      destruct Q. clear q_tocean q_forc q_tatm. rewrite q_mat, q_ml, q_mu, C1, C2, C3.
      destruct (b_coef _ _ _ _ _ St) as [K].
      destruct K as (b12' & b23' & mateq' & mueq' & mleq' & b21 & b32 & E1 & E2 & E3 & E4 & E5 & E6 & E7 & E8 & E9 & E10 & E11 & E12).
      rewrite V7 in E1. rewrite V8 in E2. rewrite V2 in E3. rewrite V4 in E4. rewrite V6 in E5.
      inversion E1; subst b12'. inversion E2; subst b23'. inversion E3; subst mateq'. inversion E4; subst mueq'. inversion E5; subst mleq'.
      apply div_some in E6. destruct E6 as [Nz1 E6]. apply div_some in E7. destruct E7 as [Nz2 E7].
      pose proof (r_b11 _ _ _ R) as R1. rewrite E8 in R1. inversion R1 as [X1].
      pose proof (r_b21 _ _ _ R) as R2. rewrite E9 in R2. inversion R2 as [X2].
      pose proof (r_b22 _ _ _ R) as R3. rewrite E10 in R3. inversion R3 as [X3].
      pose proof (r_b32 _ _ _ R) as R4. rewrite E11 in R4. inversion R4 as [X4].
      pose proof (r_b33 _ _ _ R) as R5. rewrite E12 in R5. inversion R5 as [X5].
      assert (Y1 : c_b12 c = Some b12) by (pose proof (r_b12 _ _ _ R); congruence).
      assert (Y2 : c_b23 c = Some b23) by (pose proof (r_b23 _ _ _ R); congruence).
      assert (Z1 : c_mat_lower c = Some lo1) by (pose proof (r_mat_lower _ _ _ R); congruence).
      assert (Z2 : c_mu_lower c = Some lo2) by (pose proof (r_mu_lower _ _ _ R); congruence).
      assert (Z3 : c_ml_lower c = Some lo3) by (pose proof (r_ml_lower _ _ _ R); congruence).
      rewrite <- X2, <- X4, Y1, Y2, Z1, Z2, Z3, E6, E7.
      unfold emitted, in_years, times_, plus_, minus_, nop.
      assert (F1 : (mateq * (1 - b12) + mueq * (b12 * mateq / mueq) +
        0 * dt_quot (c_period c) YEAR / (if truthy (c_rounding c) then 3666 / 1000 else 1) = mateq)%R)
        by (unfold Rdiv; rewrite !Rmult_0_l; field; auto).
      assert (F2 : (mleq * (1 - b23 * mueq / mleq) + mueq * b23 = mleq)%R) by (field; auto).
      assert (F3 : (mateq * b12 + mueq * (1 - b12 * mateq / mueq - b23) + mleq * (b23 * mueq / mleq) = mueq)%R) by (field; auto).
      rewrite F1, F2, F3. rewrite !py_max_stay by auto. auto. }
  intros i Hi. destruct (Ce i Hi) as (C1 & C2 & C3).
  rewrite (ak_out _ _ _ _ _ _ A Mat i Hi : out env ak "mat" i = _), C1.
  rewrite (ak_out _ _ _ _ _ _ A Mu i Hi : out env ak "mu" i = _), C2.
  rewrite (ak_out _ _ _ _ _ _ A Ml i Hi : out env ak "ml" i = _), C3. auto.
Qed.

(** ** C45 *)
Lemma nth_ext_err {A} : forall l l' : list A, (forall i, nth_error l i = nth_error l' i) -> l = l'.
Proof.
  induction l as [|a l IH]; destruct l' as [|b l']; intros E; auto; try (specialize (E 0%nat); discriminate).
  pose proof (E 0%nat) as E0. inversion E0; subst. f_equal. apply IH. intros i. exact (E (S i)).
Qed.
Lemma series_or_not (f : series -> nat) p : (exists x, p = f x) \/ forall x, p <> f x.
Proof.
  destruct (Nat.eq_dec p (f Mat)); [eauto|]. destruct (Nat.eq_dec p (f Ml)); [eauto|].
  destruct (Nat.eq_dec p (f Mu)); [eauto|]. destruct (Nat.eq_dec p (f Tatm)); [eauto|].
  destruct (Nat.eq_dec p (f Tocean)); [eauto|]. destruct (Nat.eq_dec p (f Forc)); [eauto|].
  right. intros []; auto.
Qed.
Lemma running_same w0 a b d : running env w0 a d -> running env w0 b d ->
  same_content (w_out (a_world _ a)) (w_out (a_world _ b)) /\ now b = now a /\
  forall x i, out env b (nm x) i = out env a (nm x) i.
Proof.
  intros Ra Rb. split; [|split].
  - pose proof (ru_sim _ _ _ _ Ra) as Ja. pose proof (ru_sim _ _ _ _ Rb) as Jb. split.
    + rewrite (j_regions _ _ _ _ _ _ _ Ja), (j_regions _ _ _ _ _ _ _ Jb). auto.
    + apply nth_ext_err. intros i. rewrite !nth_error_map.
      destruct (series_or_not (pi_of w0) i) as [(x & ->)|N].
      * destruct (j_series _ _ _ _ _ _ _ Ja x) as (v0 & q0 & v & q & V0 & Q0 & V & Q & Vs & Ps & L).
        destruct (j_series _ _ _ _ _ _ _ Jb x) as (v0' & q0' & v' & q' & V0' & Q0' & V' & Q' & Vs' & Ps' & L').
        rewrite Q, Q'. assert (v0' = v0) by congruence. assert (q0' = q0) by congruence. subst v0' q0'. simpl. f_equal.
        destruct (lv_kept _ _ _ _ L eq_refl) as (xs & T & D). destruct (lv_kept _ _ _ _ L' eq_refl) as (xs' & T' & D').
        rewrite (vsame_conv _ _ _ Vs) in T. rewrite (vsame_conv _ _ _ Vs') in T'.
        destruct Ps, Ps'. unfold forget_version.
        rewrite (lv_written _ _ _ _ L), (lv_written _ _ _ _ L'). f_equal; congruence.
      * rewrite (j_params _ _ _ _ _ _ _ Ja), (j_params _ _ _ _ _ _ _ Jb); auto.
  - unfold now. rewrite (j_time _ _ _ _ _ _ _ (ru_sim _ _ _ _ Ra)), (j_time _ _ _ _ _ _ _ (ru_sim _ _ _ _ Rb)). auto.
  - intros x i. unfold out. rewrite (running_item env _ _ _ x _ Ra), (running_item env _ _ _ x _ Rb). auto.
Qed.
Lemma steps_running j : forall w0 a d, running env w0 a d ->
  match p_repeat (In w0) j d with
  | (d', Ok _) => exists b, steps env j a b /\ running env w0 b d'
  | (d', Err e) => exists i b b', (i < j)%nat /\ steps env i a b /\ do_call world H SStep b = (b', Err e)
  end.
Proof.
  induction j as [|j IH]; intros w0 a d Ra; simpl.
  - exists a. auto.
  - unfold pbind. pose proof (step_running env _ _ _ Ra) as S.
    destruct (p_calc_step (In w0) d) as [d1 [[]|e]].
    + destruct S as (b & Eb & Rb). specialize (IH _ _ _ Rb). destruct (p_repeat (In w0) j d1) as [d' [[]|e]].
      * destruct IH as (b' & Sb & Rb'). exists b'. split; auto. exists b. auto.
      * destruct IH as (i & b' & b2 & Hi & Sb & E2). exists (S i), b', b2. split; [lia|]. split; auto. exists b. auto.
    + destruct S as (b & Eb). exists 0%nat, a, b. split; [lia|]. split; [reflexivity|exact Eb].
Qed.
Lemma steps_det j : forall a b c, steps env j a b -> steps env j a c -> c = b.
Proof.
  induction j as [|j IH]; simpl; intros a b c; [congruence|].
  intros (b1 & E1 & S1) (b2 & E2 & S2). rewrite E1 in E2. inversion E2; subst. eauto.
Qed.

Definition as_stepped (a' a2 : adapter world) : Prop :=
  same_content (w_out (a_world _ a2)) (w_out (a_world _ a')) /\ now a' = now a2 /\
  forall x i, out env a' (nm x) i = out env a2 (nm x) i.

Lemma C45_run a a1 n a2 : resets env a a1 -> points a1 = Some n -> steps env (Z.to_nat (n - 1)) a1 a2 ->
  exists a', do_call world H SRun a = (a', Ok tt) /\ as_stepped a' a2.
Proof.
  intros [U C] N S. change (do_call world H SRun a) with (then_do world (scm_reset_stepping world H a) (adapter_run world H)).
  change (do_call world H SResetStepping a) with (scm_reset_stepping world H a) in C. rewrite C. simpl.
  pose proof C as C'. apply reset_running in C'; [|now apply used_wf]. destruct C' as (w0 & d & Pw & Ru & Pr).
  assert (A : after_k a 0 a1 w0 d d) by (constructor; auto).
  destruct (ak_count _ _ _ _ _ _ A) as (n' & N' & P'). assert (n' = n) by congruence. subst n'.
  pose proof (run_running env _ _ _ Ru) as Rr. unfold p_run, pbind, plift in Rr. rewrite N' in Rr.
  pose proof (steps_running (Z.to_nat (n - 1)) _ _ _ Ru) as Sr.
  destruct (p_repeat (In w0) (Z.to_nat (n - 1)) d) as [d' [[]|e]].
  - destruct Sr as (b & Sb & Rb). assert (b = a2) by (eapply steps_det; eauto). subst b.
    destruct Rr as (a' & E & Ra). exists a'. split; auto. apply running_same with w0 d'; auto.
  - exfalso. destruct Sr as (i & b & b' & Hi & Sb & Eb).
    clear - S Hi Sb Eb. revert a1 i S Hi Sb. induction (Z.to_nat (n - 1)) as [|j IH]; intros a1 i S Hi Sb; [lia|].
    destruct S as (c & Ec & S). destruct i as [|i].
    + simpl in Sb. subst b. rewrite Eb in Ec. discriminate.
    + destruct Sb as (c' & Ec' & Sb). rewrite Ec in Ec'. inversion Ec'; subst. apply (IH c' i); auto. lia.
Qed.
Lemma C45_stepped a a' : runs env a a' -> exists a1 n a2, resets env a a1 /\ points a1 = Some n /\
  steps env (Z.to_nat (n - 1)) a1 a2 /\ as_stepped a' a2.
Proof.
  intros [U C]. change (do_call world H SRun a) with (then_do world (scm_reset_stepping world H a) (adapter_run world H)) in C.
  destruct (scm_reset_stepping world H a) as [a1 [[]|e]] eqn:Rs; simpl in C; [|discriminate].
  pose proof Rs as C'. apply reset_running in C'; [|now apply used_wf]. destruct C' as (w0 & d & Pw & Ru & Pr).
  assert (A : after_k a 0 a1 w0 d d) by (constructor; auto).
  destruct (ak_count _ _ _ _ _ _ A) as (n & N & P').
  pose proof (run_running env _ _ _ Ru) as Rr. unfold p_run, pbind, plift in Rr. rewrite N in Rr.
  pose proof (steps_running (Z.to_nat (n - 1)) _ _ _ Ru) as Sr.
  destruct (p_repeat (In w0) (Z.to_nat (n - 1)) d) as [d' [[]|e]].
  - destruct Sr as (b & Sb & Rb). destruct Rr as (c & E & Ra). assert (c = a') by congruence. subst c.
    exists a1, n, b. split; [split; auto|]. split; auto. split; auto. apply running_same with w0 d'; auto.
  - destruct Rr as (c & E). congruence.
Qed.
Lemma C45_error a a' e : used env a -> do_call world H SRun a = (a', Err e) ->
  (exists a1, do_call world H SResetStepping a = (a1, Err e)) \/
  exists a1 n k b b', resets env a a1 /\ points a1 = Some n /\ (k < Z.to_nat (n - 1))%nat /\ steps env k a1 b /\
    do_call world H SStep b = (b', Err e).
Proof.
  intros U C. change (do_call world H SRun a) with (then_do world (scm_reset_stepping world H a) (adapter_run world H)) in C.
  change (do_call world H SResetStepping a) with (scm_reset_stepping world H a).
  destruct (scm_reset_stepping world H a) as [a1 [[]|e1]] eqn:Rs; simpl in C; [right|left; exists a1; congruence].
  pose proof Rs as C'. apply reset_running in C'; [|now apply used_wf]. destruct C' as (w0 & d & Pw & Ru & Pr).
  assert (A : after_k a 0 a1 w0 d d) by (constructor; auto).
  destruct (ak_count _ _ _ _ _ _ A) as (n & N & P').
  pose proof (run_running env _ _ _ Ru) as Rr. unfold p_run, pbind, plift in Rr. rewrite N in Rr.
  pose proof (steps_running (Z.to_nat (n - 1)) _ _ _ Ru) as Sr.
  destruct (p_repeat (In w0) (Z.to_nat (n - 1)) d) as [d' [[]|e1]].
  - destruct Rr as (c & E & Ra). congruence.
  - destruct Rr as (c & E). assert (e1 = e) by congruence. subst e1. destruct Sr as (i & b & b' & Hi & Sb & Eb).
    exists a1, n, i, b, b'. split; [split; auto|]. auto.
Qed.

(** ** C47 *)
Lemma ensure_used a a1 : used env a -> ensure_initialized world H a = (a1, Ok tt) -> sane env (a_world _ a1).
Proof. intros U E. pose proof (ensure_sane env a (used_sane env a U)) as S. rewrite E in S. exact S. Qed.

Lemma prepared_times a w0 : used env a -> prepared_world env a w0 -> exists start stop period n,
  i_generic (In w0) "start_time" = Ok (GTime start) /\ i_generic (In w0) "stop_time" = Ok (GTime stop) /\
  i_generic (In w0) "period_length" = Ok (GDelta period) /\ timestep_count start stop period = Ok n /\
  i_count (In w0) = Ok n /\ w_time w0 = dt_ns start.
Proof.
  intros U (a1 & w1 & E & Rp & St). pose proof (ensure_used _ _ U E) as S1.
  pose proof (keeps_params env _ S1) as S2. rewrite Rp in S2. cbn [fst] in S2.
  apply initialize_run_parameters_spec in Rp; [|apply reachable_wf, S1].
  destruct (rp_count _ _ _ Rp) as (stop & start & period & n & G1 & G2 & G3 & Tc & Ct).
  assert (T1 : forall m t, snd (time_of env m (a_world _ a1)) = Ok t -> snd (generic env m (a_world _ a1)) = Ok (GTime t)).
  { intros m t. unfold time_of, bind. rewrite generic_pure. destruct (snd (generic env m _)) as [g|]; [|discriminate].
    destruct g; simpl; intros X; inversion X; auto. }
  assert (T2 : forall m t, snd (delta_of env m (a_world _ a1)) = Ok t -> snd (generic env m (a_world _ a1)) = Ok (GDelta t)).
  { intros m t. unfold delta_of, bind. rewrite generic_pure. destruct (snd (generic env m _)) as [g|]; [|discriminate].
    destruct g; simpl; intros X; inversion X; auto. }
  apply T1 in G1, G2. apply T2 in G3. destruct (rp_in _ _ _ Rp) as (o & No & Eo).
  assert (K1 : forall m g, ~ List.In m ["E"; "mat"; "ml"; "mu"; "tatm"; "tocean"; "forc"] ->
    snd (generic env m (a_world _ a1)) = Ok g -> snd (generic env m w1) = Ok g).
  { intros m g Nm. apply (generic_request env o); auto; [apply reachable_wf, S1|]. apply (rp_attr _ _ _ Rp); auto. }
  apply K1 in G1; [|simpl; intuition discriminate]. apply K1 in G2; [|simpl; intuition discriminate].
  apply K1 in G3; [|simpl; intuition discriminate].
  destruct (start_time_now env _ _ S2 St _ G2) as (Tm & o' & No' & Eo' & Ev').
  assert (K2 : forall m g, snd (generic env m w1) = Ok g -> snd (generic env m w0) = Ok g).
  { intros m g. apply (generic_request env o'); auto; [apply reachable_wf, S2|]. now rewrite Ev'. }
  apply K2 in G1, G2, G3. exists start, stop, period, n. repeat (split; auto).
  apply start_time_spec in St. destruct St as (_ & _ & _ & _ & Cn & _).
  unfold I. cbn [i_count]. unfold count. cbn [snd]. now rewrite Cn, Ct.
Qed.

Section T.
Variables (a ak : adapter world) (k : nat) (w0 : world) (d0 d : dstate).
Hypothesis A : after_k a k ak w0 d0 d.
Hypothesis U : used env a.

Lemma repeat_time j : forall e e' period, (0 <= d_t e)%Z -> p_repeat (In w0) j e = (e', Ok tt) ->
  i_generic (In w0) "period_length" = Ok (GDelta period) -> d_time e' = (d_time e + Z.of_nat j * dt_ns period)%Z.
Proof.
  induction j as [|j IH]; intros e e' period T E G.
  - inversion E; subst. lia.
  - change (p_repeat (In w0) (S j) e) with (pbind (p_calc_step (In w0)) (fun _ => p_repeat (In w0) j) e) in E.
    apply pbind_ok in E. destruct E as ([] & e1 & E1 & E2). pose proof E1 as E1'.
    apply p_calc_step_ok in E1; auto. destruct E1 as (c & x & new & St).
    apply IH with (period := period) in E2; auto; [|rewrite (s_t _ _ _ _ _ _ St); lia].
    rewrite E2, (s_time _ _ _ _ _ _ St). pose proof (r_period _ _ _ (s_reads _ _ _ _ _ _ St)).
    assert (c_period c = period) by congruence. subst. lia.
Qed.
Lemma ak_now start period : setting env ak "start_time" = Ok (GTime start) ->
  setting env ak "period_length" = Ok (GDelta period) -> now ak = (dt_ns start + Z.of_nat k * dt_ns period)%Z.
Proof.
  rewrite !(ak_setting _ _ _ _ _ _ A). intros G1 G2.
  destruct (prepared_times _ _ U (ak_prepared _ _ _ _ _ _ A)) as (st & stop & per & n & K1 & K2 & K3 & Tc & Ct & Tm).
  assert (st = start) by congruence. assert (per = period) by congruence. subst.
  unfold now. rewrite (j_time _ _ _ _ _ _ _ (ru_sim _ _ _ _ (ak_running _ _ _ _ _ _ A))).
  rewrite (repeat_time _ _ _ period (ak_t0' _ _ _ _ _ _ A) (ak_steps _ _ _ _ _ _ A) G2).
  destruct (ak_started _ _ _ _ _ _ A) as (n' & init & S). rewrite (b_time _ _ _ _ _ S). simpl. lia.
Qed.
Lemma ak_points start stop period n : setting env ak "start_time" = Ok (GTime start) ->
  setting env ak "stop_time" = Ok (GTime stop) -> setting env ak "period_length" = Ok (GDelta period) ->
  points ak = Some n -> timestep_count start stop period = Ok n.
Proof.
  rewrite !(ak_setting _ _ _ _ _ _ A). intros G1 G2 G3 P0.
  destruct (prepared_times _ _ U (ak_prepared _ _ _ _ _ _ A)) as (st & stop' & per & n' & K1 & K2 & K3 & Tc & Ct & Tm).
  destruct (ak_count _ _ _ _ _ _ A) as (n2 & N2 & P2). congruence.
Qed.
Lemma ak_settings : exists start stop period n, setting env ak "start_time" = Ok (GTime start) /\
  setting env ak "stop_time" = Ok (GTime stop) /\ setting env ak "period_length" = Ok (GDelta period) /\
  points ak = Some n /\ timestep_count start stop period = Ok n.
Proof.
  destruct (prepared_times _ _ U (ak_prepared _ _ _ _ _ _ A)) as (st & stop' & per & n' & K1 & K2 & K3 & Tc & Ct & Tm).
  destruct (ak_count _ _ _ _ _ _ A) as (n2 & N2 & P2).
  exists st, stop', per, n'. rewrite !(ak_setting _ _ _ _ _ _ A). repeat (split; auto). congruence.
Qed.
Lemma ak_shape n : i_count (In w0) = Ok n -> shape (d_coef d0) (Z.to_nat n) d.
Proof.
  intros N. split.
  - destruct (repeat_ok _ _ _ _ (ak_t0' _ _ _ _ _ _ A) (ak_steps _ _ _ _ _ _ A)) as (_ & C & _). exact C.
  - intros x. eapply ak_len; eauto.
Qed.
Lemma ak_t : d_t d = Z.of_nat k.
Proof.
  destruct (repeat_ok _ _ _ _ (ak_t0' _ _ _ _ _ _ A) (ak_steps _ _ _ _ _ _ A)) as (T & _).
  rewrite T, (ak_t0 _ _ _ _ _ _ A). lia.
Qed.
Lemma ak_past_end : (1 <= k)%nat -> points ak = Some (Z.of_nat (S k)) ->
  exists b, do_call world H SStep ak = (b, Err EIndexError).
Proof.
  intros Hk Pt. destruct (ak_count _ _ _ _ _ _ A) as (n & N & Pn). assert (n = Z.of_nat (S k)) by congruence. subst n.
  assert (L : (k - 1 < k)%nat) by lia.
  destruct (repeat_step _ _ _ _ (k - 1) (ak_t0' _ _ _ _ _ _ A) (ak_steps _ _ _ _ _ _ A) L) as (c & e & R & (l & El & _) & _).
  assert (Er : snd (p_calc_step (In w0) d) = Err EIndexError).
  { apply (step_past_end _ (d_coef d0) (Z.to_nat (Z.of_nat (S k))) c l d k); auto.
    - now apply ak_shape.
    - apply ak_t.
    - lia. }
  pose proof (step_running env _ _ _ (ak_running _ _ _ _ _ _ A)) as S.
  destruct (p_calc_step (In w0) d) as [d' [[]|e']]; simpl in Er; [discriminate|]. inversion Er; subst.
  exact S.
Qed.
End T.

(** ** C63 *)
Definition needed_scalars : list string :=
  ["mat_lower"; "ml_lower"; "mu_lower"; "tocean_lower"; "tocean_upper"; "tatm_upper";
   "c1"; "c3"; "c4"; "fex0"; "fex1"; "fco22x"; "t2xco2"].

Lemma started_reads I d d0 n init : started I d d0 n init ->
  (forall name, List.In name needed_scalars -> exists x, i_scalar I name = Ok x) ->
  forall period rounding start saturation, i_generic I "period_length" = Ok (GDelta period) ->
  i_generic I "original_rounding" = Ok rounding -> i_generic I "start_time" = Ok (GTime start) ->
  i_generic I "forcoth_saturation_time" = Ok (GTime saturation) ->
  exists c, reads I (d_coef d0) c /\ c_start c = start /\ c_saturation c = saturation.
Proof.
  intros S Nd period rounding start saturation G1 G2 G3 G4. destruct (b_coef _ _ _ _ _ S) as [K].
  destruct K as (b12 & b23 & mateq & mueq & mleq & b21 & b32 & E1 & E2 & E3 & E4 & E5 & E6 & E7 & E8 & E9 & E10 & E11 & E12).
  unfold needed_scalars in Nd.
  destruct (Nd "mat_lower") as (x1 & X1); [simpl; tauto|]. destruct (Nd "ml_lower") as (x2 & X2); [simpl; tauto|].
  destruct (Nd "mu_lower") as (x3 & X3); [simpl; tauto|]. destruct (Nd "tocean_lower") as (x4 & X4); [simpl; tauto|].
  destruct (Nd "tocean_upper") as (x5 & X5); [simpl; tauto|]. destruct (Nd "tatm_upper") as (x6 & X6); [simpl; tauto|].
  destruct (Nd "c1") as (x7 & X7); [simpl; tauto|]. destruct (Nd "c3") as (x8 & X8); [simpl; tauto|].
  destruct (Nd "c4") as (x9 & X9); [simpl; tauto|]. destruct (Nd "fex0") as (x10 & X10); [simpl; tauto|].
  destruct (Nd "fex1") as (x11 & X11); [simpl; tauto|]. destruct (Nd "fco22x") as (x12 & X12); [simpl; tauto|].
  destruct (Nd "t2xco2") as (x13 & X13); [simpl; tauto|].
  eexists (mkC period rounding start saturation x1 x2 x3 x4 x5 x6 b12 b23 _ _ _ _ _ x7 x8 x9 x10 x11 x12 x13 mateq).
  split; [constructor; simpl; eauto|]. auto.
Qed.

Lemma C63_proof a a1 n lower mateq t2xco2 period rounding start saturation : resets env a a1 -> points a1 = Some n ->
  (forall name, List.In name needed_scalars -> exists x, value env a1 name = Ok x) ->
  value env a1 "mat_lower" = Ok (Some lower) -> (0 < lower)%R ->
  value env a1 "mateq" = Ok (Some mateq) -> (0 < mateq)%R ->
  value env a1 "t2xco2" = Ok (Some t2xco2) -> t2xco2 <> 0%R ->
  setting env a1 "period_length" = Ok (GDelta period) -> setting env a1 "original_rounding" = Ok rounding ->
  setting env a1 "start_time" = Ok (GTime start) -> setting env a1 "forcoth_saturation_time" = Ok (GTime saturation) ->
  dt_ns (dt_sub saturation start) <> 0%Z ->
  (forall i, (Z.of_nat i < n - 1)%Z -> exists e, emission env a1 i = Ok e) ->
  (forall k, (Z.of_nat k <= n - 1)%Z -> exists ak, steps env k a1 ak) /\
  exists a', do_call world H SRun a = (a', Ok tt).
Proof.
  intros Rs Pt Nd V1 L1 V2 L2 V3 L3 G1 G2 G3 G4 Nz Em.
  destruct (resets_after _ _ Rs) as (w0 & d & A).
  rewrite (ak_value _ _ _ _ _ _ A) in V1, V2, V3. rewrite (ak_setting _ _ _ _ _ _ A) in G1, G2, G3, G4.
  destruct (ak_started _ _ _ _ _ _ A) as (n' & init & St).
  assert (Nd' : forall name, List.In name needed_scalars -> exists x, i_scalar (In w0) name = Ok x).
  { intros name Hn. destruct (Nd name Hn) as (x & X). exists x. now rewrite (ak_value _ _ _ _ _ _ A) in X. }
  destruct (started_reads _ _ _ _ _ St Nd' _ _ _ _ G1 G2 G3 G4) as (c & R & Cs & Ct).
  destruct (ak_count _ _ _ _ _ _ A) as (n2 & N2 & P2). assert (n2 = n) by congruence. subst n2.
  assert (Fi : fine c).
  { constructor.
    - exists lower. split; auto. pose proof (r_mat_lower _ _ _ R). congruence.
    - exists mateq. split; auto. pose proof (r_mateq _ _ _ R). congruence.
    - exists t2xco2. split; auto. pose proof (r_t2xco2 _ _ _ R). congruence.
    - now rewrite Cs, Ct. }
  assert (Go : forall k, (Z.of_nat k <= n - 1)%Z -> exists ak, steps env k a1 ak).
  { intros k Hk. destruct (Z.eq_dec n 1) as [->|N1].
    { exists a1. assert (k = 0)%nat by lia. subst. reflexivity. }
    assert (N0 : (1 <= n)%Z) by (apply (ak_room _ _ _ _ _ _ A _ N2)).
    destruct (Em 0%nat ltac:(lia)) as (e0 & E0). unfold emission in E0.
    rewrite (running_E env _ _ _ _ (ak_running _ _ _ _ _ _ A)) in E0.
    destruct (i_E (In w0)) as [l|] eqn:El; [|discriminate].
    assert (Ll : (Z.to_nat (n - 1) <= length l)%nat).
    { destruct (Em (Z.to_nat (n - 2)) ltac:(lia)) as (e1 & E1). unfold emission in E1.
      rewrite (running_E env _ _ _ _ (ak_running _ _ _ _ _ _ A)), El in E1.
      apply at_index_nth in E1; [|lia]. destruct E1 as [_ E1]. rewrite Nat2Z.id in E1. lia. }
    assert (Go : forall j m e b, (j + m <= Z.to_nat (n - 1))%nat -> running env w0 b e -> shape (d_coef d) (Z.to_nat n) e ->
      d_t e = Z.of_nat m -> exists b', steps env j b b').
    { induction j as [|j IH]; intros m e b Hm Rb Sh T; [exists b; reflexivity|].
      destruct (step_progress (In w0) (d_coef d) (Z.to_nat n) c l R El Fi e m Sh T) as ([] & e' & E' & _); [lia|lia|].
      pose proof (step_running env _ _ _ Rb) as S. rewrite E' in S. destruct S as (b1 & Eb & Rb1).
      pose proof E' as E2. apply p_calc_step_ok in E2; [|lia]. destruct E2 as (c' & x & new & S).
      destruct (IH (Datatypes.S m) e' b1) as (b' & Sb); auto; [lia| | |].
      - destruct Sh as [Ce Le]. split; [rewrite (s_coef _ _ _ _ _ _ S); auto|].
        intros y. rewrite (s_get _ _ _ _ _ _ S), upd_length. auto.
      - rewrite (s_t _ _ _ _ _ _ S). lia.
      - exists b', b1. auto. }
    apply (Go k 0%nat d a1); [lia|apply A|apply (ak_shape _ _ _ _ _ _ A); auto|apply (ak_t _ _ _ _ _ _ A)]. }
  split; auto. destruct (Go (Z.to_nat (n - 1))) as (a2 & S2).
  { pose proof (ak_room _ _ _ _ _ _ A _ N2). lia. }
  destruct (C45_run _ _ _ _ Rs Pt S2) as (a' & E & _). eauto.
Qed.

(** ** C64 *)
Lemma py_max_num a b : py_max (Some a) (Some b) = Some (Rmax a b).
Proof. unfold py_max. destruct (Rlt_dec a b); [rewrite Rmax_right|rewrite Rmax_left]; auto; lra. Qed.
Lemma py_min_num a b : py_min (Some a) (Some b) = Some (Rmin a b).
Proof. unfold py_min. destruct (Rlt_dec b a); [rewrite Rmin_right|rewrite Rmin_left]; auto; lra. Qed.

Lemma C64_initial_proof a k ak w0 d0 d p : after_k a k ak w0 d0 d ->
  (forall name, List.In name scalar_names -> value env ak name = Ok (Some (p name))) ->
  out env ak "mat" 0 = Ok (Some (p "mat0")) /\ out env ak "ml" 0 = Ok (Some (p "ml0")) /\
  out env ak "mu" 0 = Ok (Some (p "mu0")) /\ out env ak "tatm" 0 = Ok (Some (p "tatm0")) /\
  out env ak "tocean" 0 = Ok (Some (p "tocean0")) /\
  out env ak "forc" 0 = Ok (Some (p "fco22x" * (ln (p "mat0" / p "mateq") / ln 2) + p "fex0")%R).
Proof.
  intros A V. assert (V' : forall name, List.In name scalar_names -> i_scalar (In w0) name = Ok (Some (p name))).
  { intros name Hn. rewrite <- (ak_value _ _ _ _ _ _ A). auto. }
  destruct (ak_started _ _ _ _ _ _ A) as (n & init & St).
  pose proof (ak_initials _ _ _ _ _ _ A _ _ St) as Ce. destruct (b_init _ _ _ _ _ St) as [Is If].
  assert (O : forall x, out env ak (nm x) 0 = Ok (init x)).
  { intros x. rewrite (ak_out _ _ _ _ _ _ A x 0) by lia. now rewrite Ce. }
  assert (O1 : forall x, x <> Forc -> List.In (initial_name x) scalar_names -> out env ak (nm x) 0 = Ok (Some (p (initial_name x)))).
  { intros x Nx Hi. rewrite O. pose proof (Is x Nx) as X. rewrite (V' _ Hi) in X. congruence. }
  split; [apply (O1 Mat); [discriminate|simpl; tauto]|]. split; [apply (O1 Ml); [discriminate|simpl; tauto]|].
  split; [apply (O1 Mu); [discriminate|simpl; tauto]|]. split; [apply (O1 Tatm); [discriminate|simpl; tauto]|].
  split; [apply (O1 Tocean); [discriminate|simpl; tauto]|].
  change "forc" with (nm Forc). rewrite O. destruct If as (f & m & q & r & l & e & F1 & F2 & F3 & F4 & F5 & F6 & F7).
  rewrite V' in F1, F2, F3, F6 by (simpl; tauto). inversion F1; inversion F2; inversion F3; inversion F6; subst f m q e.
  apply div_some in F4. destruct F4 as [_ ->]. unfold log2, nop in F5.
  destruct (Rlt_dec 0 (p "mat0" / p "mateq")); [|discriminate]. inversion F5; subst l. rewrite F7. reflexivity.
Qed.

Lemma C64_proof a k ak w0 d0 d i p x e period rounding start saturation : after_k a k ak w0 d0 d -> (i < k)%nat ->
  (forall name, List.In name scalar_names -> value env ak name = Ok (Some (p name))) ->
  setting env ak "period_length" = Ok (GDelta period) -> setting env ak "original_rounding" = Ok rounding ->
  setting env ak "start_time" = Ok (GTime start) -> setting env ak "forcoth_saturation_time" = Ok (GTime saturation) ->
  (forall name, List.In name series_names -> out env ak name i = Ok (Some (x name))) ->
  emission env ak i = Ok (Some e) ->
  let b21 := (p "b12" * p "mateq" / p "mueq")%R in
  let b32 := (p "b23" * p "mueq" / p "mleq")%R in
  let mat := Rmax (p "mat_lower") (x "mat" * (1 - p "b12") + x "mu" * b21 + carbon_emitted e period rounding) in
  let ml := Rmax (p "ml_lower") (x "ml" * (1 - b32) + x "mu" * p "b23") in
  let mu := Rmax (p "mu_lower") (x "mat" * p "b12" + x "mu" * (1 - b21 - p "b23") + x "ml" * b32) in
  let tocean := Rmax (p "tocean_lower") (Rmin (p "tocean_upper") (x "tocean" + p "c4" * (x "tatm" - x "tocean"))) in
  let forc := (p "fco22x" * (ln (mat / p "mateq") / ln 2) +
     other_forcing start period saturation (Z.of_nat i + 1) (p "fex0") (p "fex1"))%R in
  let tatm := Rmin (p "tatm_upper") (x "tatm" + p "c1" *
     (forc - p "fco22x" / p "t2xco2" * x "tatm" - p "c3" * (x "tatm" - x "tocean"))) in
  out env ak "mat" (S i) = Ok (Some mat) /\ out env ak "ml" (S i) = Ok (Some ml) /\ out env ak "mu" (S i) = Ok (Some mu) /\
  out env ak "tocean" (S i) = Ok (Some tocean) /\ out env ak "forc" (S i) = Ok (Some forc) /\
  out env ak "tatm" (S i) = Ok (Some tatm).
Proof.
  intros A Hi V S1 S2 S3 S4 X Em b21 b32 mat ml mu tocean forc tatm.
  assert (V' : forall name, List.In name scalar_names -> i_scalar (In w0) name = Ok (Some (p name))).
  { intros name Hn. rewrite <- (ak_value _ _ _ _ _ _ A). auto. }
  rewrite (ak_setting _ _ _ _ _ _ A) in S1, S2, S3, S4.
  destruct (ak_started _ _ _ _ _ _ A) as (n & init & St).
  destruct (ak_equations _ _ _ _ _ _ A _ Hi) as (c & e' & R & Em' & Q).
  rewrite Em in Em'. inversion Em'; subst e'. clear Em'.
  assert (Cx : forall y, cell d y i = Some (x (nm y))).
  { intros y. pose proof (X (nm y)) as Xy. rewrite (ak_out _ _ _ _ _ _ A y i) in Xy by lia.
    assert (List.In (nm y) series_names) as Ny by (destruct y; simpl; tauto). specialize (Xy Ny). congruence. }
  assert (On : forall y, out env ak (nm y) (S i) = Ok (cell d y (S i))) by (intros; apply (ak_out _ _ _ _ _ _ A); lia).
  destruct (b_coef _ _ _ _ _ St) as [K].
  destruct K as (b12 & b23 & mateq & mueq & mleq & b21' & b32' & E1 & E2 & E3 & E4 & E5 & E6 & E7 & E8 & E9 & E10 & E11 & E12).
  rewrite V' in E1, E2, E3, E4, E5 by (simpl; tauto).
  inversion E1; inversion E2; inversion E3; inversion E4; inversion E5; subst b12 b23 mateq mueq mleq. clear E1 E2 E3 E4 E5.
  apply div_some in E6. destruct E6 as [_ ->]. apply div_some in E7. destruct E7 as [_ ->].
  assert (K_b11 : c_b11 c = Some (1 - p "b12")%R) by (rewrite (r_b11 _ _ _ R) in E8; now inversion E8).
  assert (K_b21 : c_b21 c = Some b21) by (rewrite (r_b21 _ _ _ R) in E9; now inversion E9).
  assert (K_b22 : c_b22 c = Some (1 - b21 - p "b23")%R) by (rewrite (r_b22 _ _ _ R) in E10; now inversion E10).
  assert (K_b32 : c_b32 c = Some b32) by (rewrite (r_b32 _ _ _ R) in E11; now inversion E11).
  assert (K_b33 : c_b33 c = Some (1 - b32)%R) by (rewrite (r_b33 _ _ _ R) in E12; now inversion E12).
  clear E8 E9 E10 E11 E12.
  assert (K_mat_lower : c_mat_lower c = Some (p "mat_lower")) by (pose proof (r_mat_lower _ _ _ R) as X1; rewrite V' in X1 by (simpl; tauto); congruence).
  assert (K_ml_lower : c_ml_lower c = Some (p "ml_lower")) by (pose proof (r_ml_lower _ _ _ R) as X1; rewrite V' in X1 by (simpl; tauto); congruence).
  assert (K_mu_lower : c_mu_lower c = Some (p "mu_lower")) by (pose proof (r_mu_lower _ _ _ R) as X1; rewrite V' in X1 by (simpl; tauto); congruence).
  assert (K_tocean_lower : c_tocean_lower c = Some (p "tocean_lower")) by (pose proof (r_tocean_lower _ _ _ R) as X1; rewrite V' in X1 by (simpl; tauto); congruence).
  assert (K_tocean_upper : c_tocean_upper c = Some (p "tocean_upper")) by (pose proof (r_tocean_upper _ _ _ R) as X1; rewrite V' in X1 by (simpl; tauto); congruence).
  assert (K_tatm_upper : c_tatm_upper c = Some (p "tatm_upper")) by (pose proof (r_tatm_upper _ _ _ R) as X1; rewrite V' in X1 by (simpl; tauto); congruence).
  assert (K_b12 : c_b12 c = Some (p "b12")) by (pose proof (r_b12 _ _ _ R) as X1; rewrite V' in X1 by (simpl; tauto); congruence).
  assert (K_b23 : c_b23 c = Some (p "b23")) by (pose proof (r_b23 _ _ _ R) as X1; rewrite V' in X1 by (simpl; tauto); congruence).
  assert (K_c1 : c_c1 c = Some (p "c1")) by (pose proof (r_c1 _ _ _ R) as X1; rewrite V' in X1 by (simpl; tauto); congruence).
  assert (K_c3 : c_c3 c = Some (p "c3")) by (pose proof (r_c3 _ _ _ R) as X1; rewrite V' in X1 by (simpl; tauto); congruence).
  assert (K_c4 : c_c4 c = Some (p "c4")) by (pose proof (r_c4 _ _ _ R) as X1; rewrite V' in X1 by (simpl; tauto); congruence).
  assert (K_fex0 : c_fex0 c = Some (p "fex0")) by (pose proof (r_fex0 _ _ _ R) as X1; rewrite V' in X1 by (simpl; tauto); congruence).
  assert (K_fex1 : c_fex1 c = Some (p "fex1")) by (pose proof (r_fex1 _ _ _ R) as X1; rewrite V' in X1 by (simpl; tauto); congruence).
  assert (K_fco22x : c_fco22x c = Some (p "fco22x")) by (pose proof (r_fco22x _ _ _ R) as X1; rewrite V' in X1 by (simpl; tauto); congruence).
  assert (K_t2xco2 : c_t2xco2 c = Some (p "t2xco2")) by (pose proof (r_t2xco2 _ _ _ R) as X1; rewrite V' in X1 by (simpl; tauto); congruence).
  assert (K_mateq : c_mateq c = Some (p "mateq")) by (pose proof (r_mateq _ _ _ R) as X1; rewrite V' in X1 by (simpl; tauto); congruence).
  assert (K_period : c_period c = period) by (pose proof (r_period _ _ _ R); congruence).
  assert (K_rounding : c_rounding c = rounding) by (pose proof (r_rounding _ _ _ R); congruence).
  assert (K_start : c_start c = start) by (pose proof (r_start _ _ _ R); congruence).
  assert (K_saturation : c_saturation c = saturation) by (pose proof (r_saturation _ _ _ R); congruence).
  pose proof (Cx Mat) as X1. pose proof (Cx Ml) as X2. pose proof (Cx Mu) as X3. pose proof (Cx Tatm) as X4. pose proof (Cx Tocean) as X5.
  destruct Q. unfold emitted, in_years in q_mat. rewrite K_mat_lower, K_b11, K_b21, K_period, K_rounding, X1, X3 in q_mat.
  cbn [plus_ times_ nop nm] in q_mat. rewrite py_max_num in q_mat.
  rewrite K_ml_lower, K_b33, K_b23, X2, X3 in q_ml. cbn [plus_ times_ nop nm] in q_ml. rewrite py_max_num in q_ml.
  rewrite K_mu_lower, K_b12, K_b22, K_b32, X1, X2, X3 in q_mu. cbn [plus_ times_ nop nm] in q_mu. rewrite py_max_num in q_mu.
  rewrite K_tocean_lower, K_tocean_upper, K_c4, X4, X5 in q_tocean. cbn [plus_ times_ minus_ nop nm] in q_tocean.
  rewrite py_min_num, py_max_num in q_tocean.
  assert (N1 : cell d Mat (S i) = Some mat) by (rewrite q_mat; unfold mat; rewrite carbon_is; reflexivity).
  assert (N5 : cell d Forc (S i) = Some forc).
  { destruct q_forc as (ex' & r & l & F1 & F2 & F3 & F4). rewrite F4. rewrite N1, K_mateq in F2.
    unfold np_div in F2. destruct (Req_EM_T (p "mateq") 0); [discriminate|]. inversion F2; subst r.
    unfold log2, nop in F3. destruct (Rlt_dec 0 (mat / p "mateq")); [|discriminate]. inversion F3; subst l.
    rewrite K_start, K_period, K_saturation, K_fex0, K_fex1 in F1. unfold exogenous_forcing in F1.
    rewrite K_fco22x. unfold forc, other_forcing.
    rewrite Z.geb_leb in F1. rewrite (Z.mul_comm (dt_ns period)) in F1.
    destruct (dt_ns saturation <=? dt_ns start + (Z.of_nat i + 1) * dt_ns period)%Z; [inversion F1; reflexivity|].
    destruct (dt_ns (dt_sub saturation start) =? 0)%Z; [discriminate|]. inversion F1. reflexivity. }
  change "mat" with (nm Mat). change "ml" with (nm Ml). change "mu" with (nm Mu). change "tocean" with (nm Tocean).
  change "forc" with (nm Forc). change "tatm" with (nm Tatm). rewrite !On, N1, N5.
  split; [reflexivity|]. split; [now rewrite q_ml|]. split; [now rewrite q_mu|]. split; [now rewrite q_tocean|].
  split; [reflexivity|]. destruct q_tatm as (lambda & L1 & L2). rewrite L2. rewrite K_fco22x, K_t2xco2 in L1.
  apply div_some in L1. destruct L1 as [_ ->]. rewrite K_tatm_upper, K_c1, K_c3, X4, X5, N5.
  cbn [plus_ times_ minus_ nop nm]. rewrite py_min_num. reflexivity.
Qed.

(** ** Statements with names *)
Lemma named name : List.In name series_names -> exists x, name = nm x.
Proof.
  intros Hn. unfold series_names in Hn. cbn [List.In] in Hn.
  destruct Hn as [<-|[<-|[<-|[<-|[<-|[<-|[]]]]]]];
  [exists Mat|exists Ml|exists Mu|exists Tatm|exists Tocean|exists Forc]; reflexivity.
Qed.
Lemma same_sym s s' : same_content s s' -> same_content s' s.
Proof. intros [E F]. split; symmetry; auto. Qed.
Lemma as_same a' a2 : as_stepped a' a2 -> same_results env a' a2.
Proof.
  intros (S & N & O). split; [now apply same_sym|]. split; auto.
  intros name i Hn. destruct (named name Hn) as (x & ->). auto.
Qed.
Lemma C42_run_proof a a' n i : runs env a a' -> points a' = Some n -> (1 <= i)%nat -> (Z.of_nat i < n)%Z ->
  at_least env a' "mat" i "mat_lower" /\ at_least env a' "ml" i "ml_lower" /\ at_least env a' "mu" i "mu_lower" /\
  at_least env a' "tocean" i "tocean_lower" /\ at_most env a' "tatm" i "tatm_upper" /\
  ((forall lo up, value env a' "tocean_lower" = Ok (Some lo) -> value env a' "tocean_upper" = Ok (Some up) -> (lo <= up)%R) ->
   value env a' "tocean_lower" <> Ok None ->
   at_most env a' "tocean" i "tocean_upper").
Proof.
  intros R Pn H1 H2. destruct (run_ok _ _ R) as (w0 & d0 & d & m & Em & A).
  destruct (ak_count _ _ _ _ _ _ A) as (m' & Em' & Pm). assert (m = n) by congruence. subst m.
  apply (bounds_at _ _ _ _ _ _ _ A). lia.
Qed.
Lemma C47_proof a a1 k ak : resets env a a1 -> steps env k a1 ak ->
  exists start stop period n,
    setting env ak "start_time" = Ok (GTime start) /\ setting env ak "stop_time" = Ok (GTime stop) /\
    setting env ak "period_length" = Ok (GDelta period) /\ points ak = Some n /\
    now ak = (dt_ns start + Z.of_nat k * dt_ns period)%Z /\ (Z.of_nat k <= n - 1)%Z /\
    ((1 <= k)%nat -> Z.of_nat k = (n - 1)%Z -> exists b, do_call world H SStep ak = (b, Err EIndexError)) /\
    (List.In (dt_unit start) numpy_units -> List.In (dt_unit stop) numpy_units -> List.In (dt_unit period) numpy_units ->
     let u := Z.min (dt_unit start) (Z.min (dt_unit stop) (dt_unit period)) in
     (0 < dt_ns period < u * 2 ^ 53)%Z -> (0 <= dt_ns stop - dt_ns start < u * 2 ^ 53)%Z ->
     (dt_ns start + (n - 1) * dt_ns period <= dt_ns stop < dt_ns start + n * dt_ns period)%Z).
Proof.
  intros R S. destruct (steps_after _ _ _ _ R S) as (w0 & d0 & d & A).
  destruct (ak_settings _ _ _ _ _ _ A (proj1 R)) as (start & stop & period & n & S1 & S2 & S3 & Pn & Ct).
  exists start, stop, period, n. split; auto. split; auto. split; auto. split; auto.
  split; [apply (ak_now _ _ _ _ _ _ A (proj1 R)); auto|].
  destruct (ak_count _ _ _ _ _ _ A) as (m & Em & Pm). assert (m = n) by congruence. subst m.
  pose proof (ak_room _ _ _ _ _ _ A _ Em).
  split; [lia|]. split.
  - intros K1 K2. apply (ak_past_end _ _ _ _ _ _ A); auto. rewrite Pn. f_equal. lia.
  - intros U1 U2 U3 u B1 B2. apply (count_last _ _ _ _ Ct); auto.
Qed.

Lemma C63_named a a1 n lower mateq t2xco2 period rounding start saturation : resets env a a1 -> points a1 = Some n ->
  (forall name, List.In name scalar_names -> exists x, value env a1 name = Ok x) ->
  value env a1 "mat_lower" = Ok (Some lower) -> (0 < lower)%R ->
  value env a1 "mateq" = Ok (Some mateq) -> (0 < mateq)%R ->
  value env a1 "t2xco2" = Ok (Some t2xco2) -> t2xco2 <> 0%R ->
  setting env a1 "period_length" = Ok (GDelta period) -> setting env a1 "original_rounding" = Ok rounding ->
  setting env a1 "start_time" = Ok (GTime start) -> setting env a1 "forcoth_saturation_time" = Ok (GTime saturation) ->
  dt_ns (dt_sub saturation start) <> 0%Z ->
  (forall i, (Z.of_nat i < n - 1)%Z -> exists e, emission env a1 i = Ok e) ->
  (forall k, (Z.of_nat k <= n - 1)%Z -> exists ak, steps env k a1 ak) /\ exists a', runs env a a'.
Proof.
  intros R Pn Nd V1 L1 V2 L2 V3 L3 G1 G2 G3 G4 Nz Em.
  destruct (C63_proof a a1 n lower mateq t2xco2 period rounding start saturation) as [Go (a' & E)]; auto.
  - intros name Hn. apply Nd. unfold needed_scalars, scalar_names in *. cbn [List.In] in *. tauto.
  - split; auto. exists a'. split; [apply R|exact E].
Qed.
End P.
