(** Whether a time conversion succeeds depends on the length of the values only. *)
From Coq Require Import String List Arith Lia Bool ZArith Reals.
From Coquelicot Require Import Coquelicot.
From Verif Require Import Base ListFacts Units TimeModel Core TimeLin.
Import ListNotations.
Local Open Scope nat_scope.

Definition both {A B} (x : res A) (y : res B) : Prop :=
  match x, y with
  | Ok _, Ok _ => True
  | Err e, Err e' => e = e'
  | _, _ => False
  end.

Lemma edge_len v w : length v = length w -> length (edge_values v) = length (edge_values w).
Proof.
  destruct v, w; try discriminate; auto. intros H. rewrite !edge_values_len. simpl in H. lia.
Qed.
Lemma middle_len v : forall w e f, length v = length w -> length e = length f ->
  length (middle_values v e) = length (middle_values w f).
Proof.
  induction v as [|x v IH]; destruct w as [|y w]; intros e f Lv Le; try discriminate; auto.
  destruct e as [|e0 [|e1 e]], f as [|f0 [|f1 f]]; try discriminate; auto.
  cbn [middle_values length]. f_equal. apply IH; simpl in *; lia.
Qed.
Lemma removelast_len {A} (v w : list A) : length v = length w -> length (removelast v) = length (removelast w).
Proof.
  revert w. induction v as [|x [|x' v] IH]; intros [|y [|y' w]] H; try discriminate; auto.
  change (S (length (removelast (x' :: v))) = S (length (removelast (y' :: w)))). f_equal. apply IH. simpl in *. lia.
Qed.
Lemma linear_len v w : length v = length w ->
  length (linearization_values v) = length (linearization_values w).
Proof.
  intros H. unfold linearization_values. rewrite !app_length, !interleave_len. simpl. rewrite !app_length. simpl.
  rewrite (edge_len v w H).
  rewrite (middle_len (removelast (tl v)) (removelast (tl w)) (edge_values v) (edge_values w)).
  - reflexivity.
  - apply removelast_len. destruct v, w; simpl in *; try discriminate; auto.
  - now apply edge_len.
Qed.

Definition same_dom (f g : interp) : Prop :=
  ip_extra f = ip_extra g /\ map fst (ip_knots f) = map fst (ip_knots g).
Lemma fst_last (a : list (R * R)) : forall b, map fst a = map fst b ->
  fst (last a (0, 0)%R) = fst (last b (0, 0)%R).
Proof.
  induction a as [|x [|x' a] IH]; intros [|y [|y' b]] H; try discriminate; auto.
  - inversion H; auto.
  - change (last (x :: x' :: a) (0, 0)%R) with (last (x' :: a) (0, 0)%R).
    change (last (y :: y' :: b) (0, 0)%R) with (last (y' :: b) (0, 0)%R). apply IH. inversion H. simpl. congruence.
Qed.
Lemma same_ok f g l u : same_dom f g -> ip_ok f l u = ip_ok g l u.
Proof.
  intros [E K]. unfold ip_ok. rewrite E.
  assert (L : ip_lo f = ip_lo g).
  { unfold ip_lo. destruct (ip_knots f) as [|[a b] k], (ip_knots g) as [|[c d] m]; try discriminate; auto.
    inversion K; auto. }
  assert (H : ip_hi f = ip_hi g).
  { unfold ip_hi. pose proof (fst_last _ _ K) as F.
    destruct (last (ip_knots f) (0, 0)%R), (last (ip_knots g) (0, 0)%R). exact F. }
  now rewrite L, H.
Qed.
Lemma ia_both f g t : same_dom f g -> both (interval_averages f t) (interval_averages g t).
Proof.
  intros S. induction t as [|a [|b t] IH]; simpl; auto.
  rewrite (same_ok f g _ _ S). destruct (ip_ok g a b); simpl; auto.
  simpl in IH. destruct (match t with [] => _ | _ => _ end) as [r|e]; 
  destruct (match t with [] => _ | _ => _ end) as [r'|e']; simpl in *; auto.
Qed.
Lemma eval_both f g t : same_dom f g -> both (rmap (ip_eval f) t) (rmap (ip_eval g) t).
Proof.
  intros S. induction t as [|a t IH]; simpl; auto. unfold ip_eval at 1 3. rewrite (same_ok f g _ _ S).
  destruct (ip_ok g a a); simpl; auto.
  destruct (rmap (ip_eval f) t), (rmap (ip_eval g) t); simpl in *; auto.
Qed.
Lemma fst_combine (a : list R) : forall (b c : list R), length b = length c -> map fst (combine a b) = map fst (combine a c).
Proof.
  induction a as [|x a IH]; intros [|y b] [|z c] H; try discriminate; auto. simpl. f_equal. apply IH. simpl in H. lia.
Qed.

Lemma convert_both ty ex v w s t : length v = length w -> both (convert_R ty ex v s t) (convert_R ty ex w s t).
Proof.
  intros H. unfold convert_R. rewrite <- H. destruct (length v <? 3); [reflexivity|].
  assert (B : both (convert_unsafe ty ex v s t) (convert_unsafe ty ex w s t)).
  2: { destruct (convert_unsafe ty ex v s t) as [a|e], (convert_unsafe ty ex w s t) as [b|e']; simpl in *; auto;
       try contradiction. subst e'. destruct e; reflexivity. }
  unfold convert_unsafe, continuous_representation. destruct ty; try reflexivity.
  - rewrite (linear_len v w H). destruct (_ =? _); [|reflexivity]. unfold rbind.
    apply ia_both. split; [reflexivity|]. apply fst_combine, linear_len; auto.
  - rewrite <- H. destruct (_ =? _); [|reflexivity]. unfold rbind.
    apply eval_both. split; [reflexivity|]. apply fst_combine; auto.
Qed.

Lemma all_some_len l : forall xs, all_some l = Some xs -> length xs = length l.
Proof.
  induction l as [|[x|] l IH]; simpl; intros xs H; try discriminate; [inversion H; auto|].
  destruct (all_some l); inversion H; subst. simpl. f_equal. auto.
Qed.
Lemma nconvert_both ty ex s t l m : length l = length m ->
  both (nconvert (fun xs => convert_R ty ex xs s t) l) (nconvert (fun xs => convert_R ty ex xs s t) m).
Proof.
  intros H.
  assert (X : forall k, exists xs, length xs = length k /\ both (nconvert (fun xs => convert_R ty ex xs s t) k) (convert_R ty ex xs s t)).
  { intros k. unfold nconvert. destruct (all_some k) as [xs|] eqn:A.
    - exists xs. split; [now apply all_some_len|]. destruct (convert_R ty ex xs s t); simpl; auto.
    - exists (map (fun x : num => match x with Some r => r | None => 0%R end) k).
      split; [now rewrite map_length|]. destruct (convert_R ty ex _ s t); simpl; auto. }
  destruct (X l) as (xs & Lx & Bx), (X m) as (ys & Ly & By).
  pose proof (convert_both ty ex xs ys s t) as C. rewrite Lx, Ly in C. specialize (C H).
  destruct (nconvert _ l), (convert_R ty ex xs s t), (convert_R ty ex ys s t), (nconvert _ m); simpl in *;
    try contradiction; congruence || auto.
Qed.
Lemma to_param_both v d d' : length d = length d' -> both (to_param v d) (to_param v d').
Proof. intros H. unfold to_param, tconvert_to. apply nconvert_both. now rewrite !map_length. Qed.
