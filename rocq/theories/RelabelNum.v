(** Conversions of data that are given in other units (C75). *)
From Coq Require Import String List Arith Lia Bool ZArith Reals Lra.
From Coquelicot Require Import Coquelicot.
From Verif Require Import Base ListFacts Units TimeModel TimeFacts TimeLin TimeConv TimeConv2 TimeConv3 ConvShape Core Spec_Core Spec_Time CoreP2 Spec_Relabel.
Import ListNotations.
Local Open Scope R_scope.

Definition nsc (k : R) (x : num) : num := option_map (Rmult k) x.
Definition rok {A B} (f : A -> B) (r : res A) : res B := match r with Ok a => Ok (f a) | Err e => Err e end.

Lemma lcomb_scale k v : lcomb k 0 v v = map (Rmult k) v.
Proof. unfold lcomb. induction v; simpl; f_equal; auto. ring. Qed.

(** Interpolating functions are integrable, whatever the knots. *)
Lemma ex_RInt_cut (c : R) (f g h : R -> R) : (forall a b, ex_RInt f a b) -> (forall a b, ex_RInt g a b) ->
  (forall x, x < c -> h x = f x) -> (forall x, c < x -> h x = g x) -> forall a b, ex_RInt h a b.
Proof.
  intros F H E1 E2.
  assert (Y : forall y, ex_RInt h c y).
  { intros y. destruct (Rle_dec y c) as [C|C].
    - apply ex_RInt_swap. apply ex_RInt_ext with f; auto. intros x. rewrite Rmin_left, Rmax_right by lra.
      intros B. symmetry. apply E1. lra.
    - apply ex_RInt_ext with g; auto. intros x. rewrite Rmin_left, Rmax_right by lra.
      intros B. symmetry. apply E2. lra. }
  intros a b. apply (ex_RInt_Chasles (V := R_NormedModule)) with c; auto. apply ex_RInt_swap. auto.
Qed.
Lemma lin_ex_RInt x0 y0 x1 y1 a b : ex_RInt (lin x0 y0 x1 y1) a b.
Proof.
  apply (ex_RInt_continuous (V := R_CompleteNormedModule)). intros x _.
  apply (ex_derive_continuous (V := R_NormedModule)). unfold lin. now auto_derive.
Qed.
Lemma seg_ex_RInt rest : forall x0 y0 a b, ex_RInt (seg_eval x0 y0 rest) a b.
Proof.
  induction rest as [|[x1 y1] rest IH]; intros x0 y0 a b.
  - apply ex_RInt_const.
  - destruct rest as [|k rest]; [apply lin_ex_RInt|].
    apply (ex_RInt_cut x1 (lin x0 y0 x1 y1) (seg_eval x1 y1 (k :: rest))).
    + intros; apply lin_ex_RInt.
    + intros; apply IH.
    + intros x X. cbn [seg_eval]. destruct (Rle_dec x x1); [reflexivity|lra].
    + intros x X. change (seg_eval x0 y0 ((x1, y1) :: k :: rest) x) with
        (if Rle_dec x x1 then lin x0 y0 x1 y1 x else seg_eval x1 y1 (k :: rest) x). destruct (Rle_dec x x1); [lra|reflexivity].
Qed.
Lemma any_ip_ex_RInt f a b : ex_RInt (ip_val f) a b.
Proof.
  assert (P : forall a b, ex_RInt (pl_eval (ip_knots f)) a b).
  { intros. unfold pl_eval. destruct (ip_knots f) as [|[x y] l]; [apply ex_RInt_const|apply seg_ex_RInt]. }
  unfold ip_val. destruct (ip_extra f); [apply P| |apply P].
  apply (ex_RInt_cut (ip_lo f) (fun _ => fst (ip_fill f))
           (fun x => if Rlt_dec (ip_hi f) x then snd (ip_fill f) else pl_eval (ip_knots f) x)).
  - intros; apply ex_RInt_const.
  - apply (ex_RInt_cut (ip_hi f) (pl_eval (ip_knots f)) (fun _ => snd (ip_fill f))); auto.
    + intros; apply ex_RInt_const.
    + intros x X. destruct (Rlt_dec (ip_hi f) x); [lra|reflexivity].
    + intros x X. destruct (Rlt_dec (ip_hi f) x); [reflexivity|lra].
  - intros x X. destruct (Rlt_dec x (ip_lo f)); [reflexivity|lra].
  - intros x X. destruct (Rlt_dec x (ip_lo f)); [lra|reflexivity].
Qed.
Lemma sample_times k ty ex s t v : 
  sample ty (ip_val (rep_of ty ex s (map (Rmult k) v))) t = map (Rmult k) (sample ty (ip_val (rep_of ty ex s v)) t).
Proof.
  rewrite <- !lcomb_scale. apply LC_unique.
  assert (L : LC k 0 v v (lcomb k 0 v v)) by (apply LC_lcomb; auto).
  unfold sample. destruct ty; try (apply LC_map; intros; now apply LC_ip).
  apply LC_avgs; try (intros; apply any_ip_ex_RInt). intros; now apply LC_ip.
Qed.

Lemma convert_times k ty ex v s t :
  convert_R ty ex (map (Rmult k) v) s t = rok (map (Rmult k)) (convert_R ty ex v s t).
Proof.
  pose proof (convert_both ty ex v (map (Rmult k) v) s t) as B. rewrite map_length in B. specialize (B eq_refl).
  destruct (convert_R ty ex v s t) as [w|e] eqn:C, (convert_R ty ex (map (Rmult k) v) s t) as [w'|e'] eqn:C'; simpl in B; try contradiction.
  - destruct (convert_result _ _ _ _ _ _ C) as (_ & _ & _ & ->). destruct (convert_result _ _ _ _ _ _ C') as (_ & _ & _ & ->).
    cbn [rok]. f_equal. apply sample_times.
  - now subst.
Qed.

Lemma all_some_times k l : all_some (map (nsc k) l) = option_map (map (Rmult k)) (all_some l).
Proof.
  induction l as [|[x|] l IH]; simpl; auto. rewrite IH. now destruct (all_some l).
Qed.
Lemma nconvert_times k f l : (forall v, f (map (Rmult k) v) = rok (map (Rmult k)) (f v)) ->
  nconvert f (map (nsc k) l) = rok (map (nsc k)) (nconvert f l).
Proof.
  intros H. unfold nconvert. rewrite all_some_times. destruct (all_some l) as [xs|]; cbn [option_map].
  - rewrite H. destruct (f xs); cbn [rok]; [|reflexivity]. f_equal. now rewrite !map_map.
  - replace (map (fun x : num => match x with Some r => r | None => 0 end) (map (nsc k) l))
      with (map (Rmult k) (map (fun x : num => match x with Some r => r | None => 0 end) l)).
    + rewrite H. destruct (f _); cbn [rok]; [|reflexivity]. f_equal. now rewrite !map_map.
    + rewrite !map_map. apply map_ext. intros [x|]; simpl; ring.
Qed.

Lemma nsc_one x : nsc 1 x = x.
Proof. destruct x; simpl; auto. f_equal. ring. Qed.
Lemma nsc_add k x y : nsc k (nadd x y) = nadd (nsc k x) (nsc k y).
Proof. destruct x, y; simpl; auto. f_equal. ring. Qed.
Lemma nsum_times k l : nsum (map (nsc k) l) = nsc k (nsum l).
Proof.
  unfold nsum. replace (Some 0) with (nsc k (Some 0)) at 1 by (simpl; f_equal; ring).
  generalize (Some 0). induction l as [|x l IH]; intros a; simpl; [reflexivity|]. now rewrite <- nsc_add, IH.
Qed.
Lemma arr_add_times k a : forall b, arr_add (map (nsc k) a) (map (nsc k) b) = rok (map (nsc k)) (arr_add a b).
Proof.
  induction a as [|x a IH]; intros [|y b]; simpl; auto. rewrite IH. destruct (arr_add a b); simpl; [|reflexivity].
  now rewrite nsc_add.
Qed.
Lemma nth_nsc k l i : nth_error (map (nsc k) l) i = option_map (nsc k) (nth_error l i).
Proof. revert i; induction l; intros [|i]; simpl; auto. Qed.
Lemma upd_map {A B} (f : A -> B) l : forall i x, map f (upd l i x) = upd (map f l) i (f x).
Proof. induction l; intros [|i] x; simpl; auto. now rewrite IHl. Qed.

Section U.
Variable env : uenv.
Hypothesis G : good_env env.

Definition usc (u : string) : R := match env u with Some a => u_scale a | None => 1 end.
Definition kf (u u' : string) : R := usc u / usc u'.
Definition kfo (u u' : option string) : R :=
  match u, u' with Some u, Some u' => kf u u' | _, _ => 1 end.
Definition unit_rel (u u' : option string) : Prop :=
  match u, u' with Some u, Some u' => same_dimension env u u' | None, None => True | _, _ => False end.

Lemma usc_nz u : usc u <> 0.
Proof. unfold usc. destruct (env u) eqn:E; [eapply G; eauto|lra]. Qed.

Lemma dim_eqb_iff a b : dim_eqb a b = true <-> a = b.
Proof. unfold dim_eqb. destruct (list_eq_dec _ a b); split; congruence. Qed.

(** The same units are convertible. *)
Lemma uc_both pu pu' u u' : unit_rel pu pu' -> same_dimension env u u' ->
  both (unit_converter env pu (Some u)) (unit_converter env pu' (Some u')).
Proof.
  unfold unit_rel, same_dimension, unit_converter.
  destruct pu as [pu|], pu' as [pu'|]; try contradiction; [|reflexivity]. unfold same_dimension.
  destruct (env pu), (env pu'), (env u), (env u'); intros A B; try contradiction; try reflexivity.
  destruct A as [A _], B as [B _]. rewrite A, B. destruct (dim_eqb _ _); reflexivity.
Qed.
Lemma uc_scale pu pu' u u' c c' : unit_rel pu pu' -> same_dimension env u u' ->
  unit_converter env pu (Some u) = Ok c -> unit_converter env pu' (Some u') = Ok c' ->
  (forall x, uconvert_from c' (kfo pu pu' * x) = kf u u' * uconvert_from c x) /\
  (forall x, uconvert_to c' (kf u u' * x) = kfo pu pu' * uconvert_to c x).
Proof.
  intros A B C C'.
  destruct (unit_converter_inv _ _ _ _ C) as (p & w & ua & ub & -> & E2 & Ea & Eb & _ & S & O). inversion E2; subst w. clear E2.
  destruct (unit_converter_inv _ _ _ _ C') as (p' & w' & ua' & ub' & -> & E2 & Ea' & Eb' & _ & S' & O'). inversion E2; subst w'. clear E2.
  unfold unit_rel, same_dimension in A, B. rewrite Ea, Ea' in A. rewrite Eb, Eb' in B.
  destruct A as (_ & A1 & A2), B as (_ & B1 & B2).
  assert (u_scale ua <> 0) by (eapply G; eauto). assert (u_scale ub <> 0) by (eapply G; eauto).
  assert (u_scale ua' <> 0) by (eapply G; eauto). assert (u_scale ub' <> 0) by (eapply G; eauto).
  assert (X : uc_scaling c = u_scale ua / u_scale ub) by (rewrite S; unfold pint_to; field; auto).
  assert (X' : uc_scaling c' = u_scale ua' / u_scale ub') by (rewrite S'; unfold pint_to; field; auto).
  assert (Y : uc_offset c = 0) by (rewrite O, X; unfold pint_to; rewrite A1, B1; field; auto).
  assert (Y' : uc_offset c' = 0) by (rewrite O', X'; unfold pint_to; rewrite A2, B2; field; auto).
  unfold uconvert_from, uconvert_to, kfo, kf, usc. rewrite Ea, Ea', Eb, Eb', X, X', Y, Y'.
  split; intros x; field; auto.
Qed.

Lemma same_num_scaled u u' x x' : (exists a b, env u = Some a /\ env u' = Some b) -> same_dimension env u u' ->
  same_num env u x u' x' <-> x' = nsc (kf u u') x.
Proof.
  intros (a & b & A & B) D. unfold same_dimension in D. rewrite A, B in D. destruct D as (_ & D1 & D2).
  assert (u_scale a <> 0) by (eapply G; eauto). assert (u_scale b <> 0) by (eapply G; eauto).
  unfold same_num, nsc, kf, usc. rewrite A, B. destruct x as [x|], x' as [x'|]; simpl; split; intros H1; try contradiction; try discriminate; auto.
  - destruct H1 as (a' & b' & A' & B' & E). assert (a' = a) by congruence. assert (b' = b) by congruence. subst.
    rewrite D1, D2 in E. f_equal. apply (Rmult_eq_reg_r (u_scale b)); [|auto]. field_simplify; [lra|auto].
  - inversion H1; subst. exists a, b. repeat split; auto. rewrite D1, D2. field. auto.
Qed.
End U.
