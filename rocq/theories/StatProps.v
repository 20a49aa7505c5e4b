(** Order of statistics over metadata.  (For C100.) *)
From Coq Require Import String Ascii List ZArith QArith Qcanon Reals Bool Lia Permutation Sorted Lra.
From Verif Require Import Base Core Filters Frame Spec_Frame FrameFilter FrameAppend Spec_Append AppendProps FrameWide Spec_Wide WideProps Spec_Stat.
Import ListNotations.
Local Open Scope string_scope.
Local Open Scope list_scope.

(** ** Positions in sorted lists *)
Lemma sorted_nth ys i j : StronglySorted Rle ys -> (i <= j < length ys)%nat -> (nth i ys 0 <= nth j ys 0)%R.
Proof.
  intros S. revert i j. induction S as [|y ys S IH F]; intros i j L; [cbn in L; lia|]. cbn [length] in L. destruct i as [|i], j as [|j]; cbn [nth]; try lia; try lra.
  - rewrite Forall_forall in F. apply F. apply nth_In. lia.
  - apply IH. lia.
Qed.
(** Between position [i] and the next one (or the last) *)
Definition next (ys : list R) (i : nat) : R := nth (Nat.min (i + 1) (length ys - 1)) ys 0%R.
Definition between (ys : list R) (i : nat) (d : R) : R := (nth i ys 0 + (next ys i - nth i ys 0) * d)%R.
Lemma next_eq ys i : (i < length ys)%nat -> nth (i + 1) ys (nth i ys 0%R) = next ys i.
Proof.
  intros L. unfold next. destruct (Nat.eq_dec i (length ys - 1)) as [->|N].
  - rewrite nth_overflow by lia. f_equal. lia.
  - rewrite (nth_indep ys (nth i ys 0%R) 0%R) by lia. f_equal. lia.
Qed.
Lemma next_le ys i : StronglySorted Rle ys -> (i < length ys)%nat -> (nth i ys 0 <= next ys i)%R.
Proof. intros S L. apply sorted_nth; auto. lia. Qed.
Lemma between_le ys i d : StronglySorted Rle ys -> (i < length ys)%nat -> (0 <= d <= 1)%R -> (nth i ys 0 <= between ys i d <= next ys i)%R.
Proof.
  intros S L D. pose proof (next_le ys i S L) as N. unfold between. assert (0 <= (next ys i - nth i ys 0) * d)%R by (apply Rmult_le_pos; lra).
  assert ((next ys i - nth i ys 0) * d <= (next ys i - nth i ys 0) * 1)%R by (apply Rmult_le_compat_l; lra). lra.
Qed.
Lemma quantile_pos q xs : xs <> [] -> (0 <= q <= 1)%R -> exists i, (INR i <= INR (length xs - 1) * q < INR i + 1)%R /\ (i < length xs)%nat /\
  quantile_of q xs = between (sort_R xs) i (INR (length xs - 1) * q - INR i).
Proof.
  intros N Q. unfold quantile_of. pose proof (sort_R_length xs) as L. set (ys := sort_R xs) in *. rewrite L. set (h := (INR (length xs - 1) * q)%R).
  assert (LX : (0 < length xs)%nat) by (destruct xs; [congruence|cbn; lia]).
  assert (P : (0 <= INR (length xs - 1))%R) by apply pos_INR.
  assert (H : (0 <= h <= INR (length xs - 1))%R) by (unfold h; split; [apply Rmult_le_pos; lra|rewrite <- (Rmult_1_r (INR (length xs - 1))) at 2; apply Rmult_le_compat_l; lra]).
  destruct (part_bounds h) as (i & E & B); [lra|]. assert (I : (i < length xs)%nat) by (assert (i <= length xs - 1)%nat; [apply INR_le; lra|lia]).
  exists i. split; [exact B|]. split; [exact I|]. cbv zeta. rewrite E, Nat2Z.id. replace (Z.to_nat (Z.of_nat i + 1)) with (i + 1)%nat by lia. rewrite <- INR_IZR_INZ. unfold between. rewrite next_eq by lia. reflexivity.
Qed.

(** ** Quantiles increase *)
Lemma quantile_mono p q xs : xs <> [] -> (0 <= p)%R -> (p <= q)%R -> (q <= 1)%R -> (quantile_of p xs <= quantile_of q xs)%R.
Proof.
  intros N P L Q. destruct (quantile_pos p xs N ltac:(lra)) as (i & B & I & ->). destruct (quantile_pos q xs N ltac:(lra)) as (j & C & J & ->).
  assert (H : (INR (length xs - 1) * p <= INR (length xs - 1) * q)%R) by (apply Rmult_le_compat_l; [apply pos_INR|exact L]).
  pose proof (sort_R_sorted xs) as S. pose proof (sort_R_length xs) as LS. set (ys := sort_R xs) in *.
  assert (IJ : (i <= j)%nat) by (assert (i < Datatypes.S j)%nat; [apply INR_lt; rewrite S_INR; lra|lia]).
  destruct (Nat.eq_dec i j) as [->|NE].
  - unfold between. assert (0 <= next ys j - nth j ys 0)%R by (pose proof (next_le ys j S ltac:(lia)); lra). apply Rplus_le_compat_l. apply Rmult_le_compat_l; lra.
  - apply Rle_trans with (next ys i); [apply between_le; auto; try lia; lra|]. apply Rle_trans with (nth j ys 0%R); [|apply between_le; auto; try lia; lra].
    unfold next. apply sorted_nth; auto. lia.
Qed.
Lemma nth_sort i xs : (i < length xs)%nat -> In (nth i (sort_R xs) 0%R) xs.
Proof. intros L. apply (Permutation_in _ (Permutation_sym (sort_R_perm xs))). apply nth_In. now rewrite sort_R_length. Qed.
Lemma sort_pos x xs : In x xs -> exists j, (j < length xs)%nat /\ nth j (sort_R xs) 0%R = x.
Proof.
  intros I. apply (Permutation_in _ (sort_R_perm xs)) in I. apply (In_nth _ _ 0%R) in I as (j & L & E). rewrite sort_R_length in L. eauto.
Qed.
Lemma quantile_0 xs : xs <> [] -> In (quantile_of 0 xs) xs /\ forall x, In x xs -> (quantile_of 0 xs <= x)%R.
Proof.
  intros N. destruct (quantile_pos 0 xs N ltac:(lra)) as (i & B & I & ->). rewrite Rmult_0_r in *. pose proof (pos_INR i) as P.
  assert (i = 0)%nat by (assert (i <= 0)%nat; [apply INR_le; cbn; lra|lia]). subst i. unfold between. cbn [INR] in *. replace (0 - 0)%R with 0%R by lra. rewrite Rmult_0_r, Rplus_0_r. split; [now apply nth_sort|].
  intros x X. destruct (sort_pos x xs X) as (j & L & <-). apply sorted_nth; [apply sort_R_sorted|]. rewrite sort_R_length. lia.
Qed.
Lemma quantile_1 xs : xs <> [] -> In (quantile_of 1 xs) xs /\ forall x, In x xs -> (x <= quantile_of 1 xs)%R.
Proof.
  intros N. destruct (quantile_pos 1 xs N ltac:(lra)) as (i & B & I & ->). rewrite Rmult_1_r in *.
  assert (i = length xs - 1)%nat by (assert (i <= length xs - 1 /\ length xs - 1 < Datatypes.S i)%nat; [split; [apply INR_le; lra|apply INR_lt; rewrite S_INR; lra]|lia]). subst i. unfold between.
  rewrite (Rminus_diag_eq (INR (length xs - 1))) by reflexivity. rewrite Rmult_0_r, Rplus_0_r. split; [now apply nth_sort|].
  intros x X. destruct (sort_pos x xs X) as (j & L & <-). apply sorted_nth; [apply sort_R_sorted|]. rewrite sort_R_length. lia.
Qed.

(** ** All statistics are within the values *)
Lemma total_le xs ys : Forall2 Rle xs ys -> (FrameAppend.total xs <= FrameAppend.total ys)%R.
Proof. induction 1 as [|x y xs ys L F IH]; [apply Rle_refl|]. unfold FrameAppend.total in *. cbn. lra. Qed.
Lemma mean_within xs : xs <> [] -> (quantile_of 0 xs <= FrameAppend.total xs / INR (length xs) <= quantile_of 1 xs)%R.
Proof.
  intros N. destruct (quantile_0 xs N) as (_ & A). destruct (quantile_1 xs N) as (_ & B). assert (P : (0 < INR (length xs))%R) by (apply lt_0_INR; destruct xs; [congruence|cbn; lia]).
  assert (T : forall c l, FrameAppend.total (map (fun _ : R => c) l) = (c * INR (length l))%R).
  { intros c l. induction l as [|x l IH]; [cbn; lra|]. unfold FrameAppend.total in *. cbn [map fold_right length]. rewrite IH, S_INR. lra. }
  assert (L1 : (quantile_of 0 xs * INR (length xs) <= FrameAppend.total xs)%R).
  { rewrite <- T. apply total_le. clear - A. revert A. generalize (quantile_of 0 xs). induction xs as [|x xs IH]; intros c A; constructor; [apply A; now left|apply IH; intros; apply A; now right]. }
  assert (L2 : (FrameAppend.total xs <= quantile_of 1 xs * INR (length xs))%R).
  { rewrite <- T. apply total_le. clear - B. revert B. generalize (quantile_of 1 xs). induction xs as [|x xs IH]; intros c B; constructor; [apply B; now left|apply IH; intros; apply B; now right]. }
  split; apply Rmult_le_reg_r with (INR (length xs)); auto; unfold Rdiv; rewrite Rmult_assoc, Rinv_l, Rmult_1_r by lra; assumption.
Qed.
Lemma statistic_within op xs : xs <> [] -> valid_op op -> (quantile_of 0 xs <= statistic op xs <= quantile_of 1 xs)%R.
Proof.
  intros N V. destruct op as [| |q|]; cbn [statistic]; [|now apply mean_within| |destruct V].
  - rewrite <- quantile_median by exact N. split; apply quantile_mono; auto; lra.
  - cbn in V. split; apply quantile_mono; auto; lra.
Qed.

(** ** Larger values have larger statistics *)
Lemma insert_right y c zs ws : (c <= y)%R -> Forall (Rle c) ws -> Forall2 Rle zs ws -> StronglySorted Rle ws -> Forall2 Rle (c :: zs) (insert_R y ws).
Proof.
  intros C1 C2 F. revert c C1 C2. induction F as [|z w zs ws ZW F IH]; intros c C1 C2 S; cbn [insert_R]; [auto|]. pose proof (Forall_inv C2) as C3. apply StronglySorted_inv in S as (S1 & S2). destruct (Rle_dec y w) as [L|L].
  - auto.
  - constructor; [auto|]. apply IH; [lra| |exact S1]. eapply Forall_impl; [|exact S2]. intros v V. cbn in V. lra.
Qed.
Lemma insert_left x d zs ws : (x <= d)%R -> Forall2 Rle zs ws -> StronglySorted Rle (d :: ws) -> Forall2 Rle (insert_R x zs) (d :: ws).
Proof.
  intros L F. revert d L. induction F as [|z w zs ws ZW F IH]; intros d L S; cbn [insert_R]; [auto|]. apply StronglySorted_inv in S as (S1 & S2). pose proof (Forall_inv S2) as S3. destruct (Rle_dec x z) as [X|X].
  - auto.
  - constructor; [lra|]. apply IH; [lra|exact S1].
Qed.
Lemma insert_mono x y xs ys : (x <= y)%R -> Forall2 Rle xs ys -> StronglySorted Rle ys -> Forall2 Rle (insert_R x xs) (insert_R y ys).
Proof.
  intros L F. induction F as [|a b xs ys AB F IH]; intros T; cbn [insert_R]; [auto|]. apply StronglySorted_inv in T as (T1 & T2).
  destruct (Rle_dec x a) as [X|X]; destruct (Rle_dec y b) as [Y|Y].
  - auto.
  - constructor; [lra|]. apply insert_right; auto; [lra|]. eapply Forall_impl; [|exact T2]. intros v V. cbn in V. lra.
  - constructor; [lra|]. apply insert_left; [lra|exact F|now constructor].
  - constructor; [exact AB|exact (IH T1)].
Qed.
Lemma sort_mono xs ys : Forall2 Rle xs ys -> Forall2 Rle (sort_R xs) (sort_R ys).
Proof. induction 1 as [|x y xs ys L F IH]; [constructor|]. cbn [sort_R]. apply insert_mono; auto. apply sort_R_sorted. Qed.
Lemma Forall2_nth xs ys i : Forall2 Rle xs ys -> (nth i xs 0 <= nth i ys 0)%R.
Proof. intros F. revert i. induction F as [|x y xs ys L F IH]; intros [|i]; cbn; auto; lra. Qed.
Lemma Forall2_len {A B} (P : A -> B -> Prop) xs ys : Forall2 P xs ys -> length xs = length ys.
Proof. induction 1; cbn; auto. Qed.
Lemma quantile_raised q xs ys : xs <> [] -> (0 <= q <= 1)%R -> Forall2 Rle xs ys -> (quantile_of q xs <= quantile_of q ys)%R.
Proof.
  intros N Q F. pose proof (Forall2_len _ _ _ F) as L. assert (N' : ys <> []) by (intros ->; destruct xs; [congruence|discriminate]).
  destruct (quantile_pos q xs N Q) as (i & B & I & ->). destruct (quantile_pos q ys N' Q) as (j & C & J & ->). rewrite <- L in *.
  assert (i = j) by (assert (i < Datatypes.S j /\ j < Datatypes.S i)%nat; [split; apply INR_lt; rewrite S_INR; lra|lia]). subst j. unfold between.
  pose proof (sort_mono xs ys F) as M. pose proof (Forall2_nth _ _ i M) as M1. pose proof (Forall2_nth _ _ (Nat.min (i + 1) (length (sort_R xs) - 1)) M) as M2.
  rewrite !sort_R_length in *. unfold next. rewrite !sort_R_length, <- L in *. set (d := (INR (length xs - 1) * q - INR i)%R) in *. assert (D : (0 <= d <= 1)%R) by (unfold d; lra).
  set (u := nth i (sort_R xs) 0%R) in *. set (v := nth i (sort_R ys) 0%R) in *. set (u' := nth (Nat.min (i + 1) (length xs - 1)) (sort_R xs) 0%R) in *. set (v' := nth (Nat.min (i + 1) (length xs - 1)) (sort_R ys) 0%R) in *.
  assert (0 <= (v - u) * (1 - d))%R by (apply Rmult_le_pos; lra). assert (0 <= (v' - u') * d)%R by (apply Rmult_le_pos; lra).
  apply Rminus_le. replace (u + (u' - u) * d - (v + (v' - v) * d))%R with (- ((v - u) * (1 - d)) - (v' - u') * d)%R by ring. lra.
Qed.
Lemma statistic_raised op xs ys : xs <> [] -> valid_op op -> Forall2 Rle xs ys -> (statistic op xs <= statistic op ys)%R.
Proof.
  intros N V F. pose proof (Forall2_len _ _ _ F) as L. assert (N' : ys <> []) by (intros ->; destruct xs; [congruence|discriminate]). destruct op as [| |q|]; cbn [statistic]; [| | |destruct V].
  - rewrite <- !quantile_median by assumption. apply quantile_raised; auto. lra.
  - rewrite L. unfold Rdiv. apply Rmult_le_compat_r; [|now apply total_le]. apply Rlt_le, Rinv_0_lt_compat, lt_0_INR. destruct ys; [congruence|cbn; lia].
  - now apply quantile_raised.
Qed.
Lemma present_raised l l' : Forall2 num_le l l' -> Forall2 Rle (present l) (present l').
Proof. induction 1 as [|x y l l' L F IH]; [constructor|]. destruct x, y; cbn in *; try contradiction; auto. Qed.
Lemma stat_num_raised op l l' : valid_op op -> Forall2 num_le l l' -> num_le (stat_num op l) (stat_num op l').
Proof.
  intros V F. apply present_raised in F. unfold stat_num. remember (present l) as xs eqn:E. remember (present l') as ys eqn:E'. clear E E'. destruct F as [|x y xs ys L F]; [exact I|]. cbn [num_le].
  apply statistic_raised; [discriminate|exact V|constructor; auto].
Qed.

(** ** Frames *)
Definition row_le {A} (r r' : A * list num) : Prop := fst r' = fst r /\ Forall2 num_le (snd r) (snd r').
Lemma F2_map {A B C D} (P : C -> D -> Prop) (u : A -> C) (v : B -> D) l l' (Q : A -> B -> Prop) : (forall x y, Q x y -> P (u x) (v y)) -> Forall2 Q l l' -> Forall2 P (map u l) (map v l').
Proof. intros H. induction 1; cbn; constructor; auto. Qed.
Lemma F2_filter {A} (p : A -> bool) (l l' : list (A * list num)) : Forall2 row_le l l' -> Forall2 row_le (filter (fun r => p (fst r)) l) (filter (fun r => p (fst r)) l').
Proof. induction 1 as [|x y l l' (E & L) F IH]; cbn; [constructor|]. rewrite E. destruct (p (fst x)); auto. constructor; auto. split; auto. Qed.
Lemma F2_keys {A} (l l' : list (A * list num)) : Forall2 row_le l l' -> map fst l' = map fst l.
Proof. induction 1 as [|x y l l' (E & L) F IH]; cbn; [reflexivity|]. now rewrite E, IH. Qed.
Lemma F2_nth_num l l' i : Forall2 num_le l l' -> num_le (nth i l None) (nth i l' None).
Proof. intros F. revert i. induction F as [|x y l l' L F IH]; intros [|i]; cbn [nth]; auto; exact I. Qed.
Lemma F2_combine (ls : list Z) vs vs' : Forall2 (Forall2 num_le) vs vs' -> Forall2 row_le (combine ls vs) (combine ls vs').
Proof. intros F. revert ls. induction F as [|v v' vs vs' L F IH]; intros [|l ls]; cbn; constructor; auto. split; auto. Qed.
Lemma wide_raised f f' ts : raised f f' -> wide f = Ok ts -> exists ts', wide f' = Ok ts' /\ Forall2 row_le ts ts'.
Proof.
  intros (_ & C & M & D) W. unfold wide, meta_dup in *. rewrite M. destruct (has_dup _); [discriminate|]. injection W as <-. eexists. split; [reflexivity|].
  clear C M. generalize (fr_meta f). induction D as [|c d l l' (E & L) D IH]; intros [|r m]; cbn; constructor; auto. split; auto.
Qed.
Lemma over_raised cols op f f' g : raised f f' -> process_over cols op f = Ok g -> exists g', process_over cols op f' = Ok g' /\ raised g g'.
Proof.
  intros R1 H. apply over_iff in H as (ts & W & N & V & ->). destruct (wide_raised f f' ts R1 W) as (ts' & W' & T). destruct R1 as (E1 & E2 & E3 & _).
  eexists. split; [apply over_iff; exists ts'; rewrite E2; split; [exact W'|]; split; [exact N|]; split; [exact V|reflexivity]|].
  set (C := filter _ (fr_cols f)). unfold over_frame. assert (RR : Forall2 row_le (over_rows C f ts) (over_rows C f' ts')).
  { unfold over_rows. rewrite E2. apply (F2_filter (fun k => negb (existsb is_missing k))). eapply F2_map; [|exact T]. intros x y (X1 & X2). split; [cbn; now rewrite X1|exact X2]. }
  cbv zeta. rewrite (F2_keys _ _ RR), E1. unfold raised. cbn [fr_times fr_cols fr_meta fr_data]. repeat split; auto. apply F2_combine.
  induction (distinct_keys (map fst (over_rows C f ts))) as [|k ks IH]; constructor; auto. unfold grouped. induction (seq 0 (length (fr_times f))) as [|i is IHi]; constructor; auto.
  apply stat_num_raised; [exact V|]. eapply F2_map; [|apply (F2_filter (row_same k)); exact RR]. intros x y (_ & X). now apply F2_nth_num.
Qed.

(** Two statistics of one frame *)
Lemma over_ordered cols op op' f g h : (forall xs, xs <> [] -> (statistic op xs <= statistic op' xs)%R) ->
  process_over cols op f = Ok g -> process_over cols op' f = Ok h -> raised g h.
Proof.
  intros S G H. apply over_iff in G as (ts & W & N & V & ->). apply over_iff in H as (ts' & W' & _ & V' & ->). rewrite W in W'. injection W' as <-.
  unfold over_frame, raised. cbn [fr_times fr_cols fr_meta fr_data]. repeat split; auto. cbv zeta. apply F2_combine. set (rows := over_rows _ f ts).
  induction (distinct_keys (map fst rows)) as [|k ks IH]; constructor; auto. unfold grouped. induction (seq 0 (length (fr_times f))) as [|i is IHi]; constructor; auto.
  unfold stat_num. destruct (present _) as [|x xs]; [exact I|]. apply S. discriminate.
Qed.
Lemma over_valid cols op op' f g : valid_op op' -> process_over cols op f = Ok g -> exists h, process_over cols op' f = Ok h.
Proof. intros V G. apply over_iff in G as (ts & W & N & _ & _). eexists. apply over_iff. exists ts. eauto. Qed.
