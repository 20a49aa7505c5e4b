(** Lemmas on statistics over metadata (C67) and reference periods (C59). *)
From Coq Require Import String Ascii List ZArith QArith Qcanon Reals Bool Lia Permutation Sorted Lra.
From Verif Require Import Base Core Filters Frame Spec_Frame FrameFilter FrameSelect FrameEdit FrameAppend Spec_Append AppendProps FrameWide Spec_Wide.
Import ListNotations.
Local Open Scope string_scope.
Local Open Scope list_scope.

(** ** Statistics *)
Lemma insert_R_perm x l : Permutation (x :: l) (insert_R x l).
Proof. induction l as [|y l IH]; cbn; auto. destruct (Rle_dec x y); auto. rewrite perm_swap. now constructor. Qed.
Lemma sort_R_perm l : Permutation l (sort_R l).
Proof. induction l as [|x l IH]; cbn; auto. rewrite <- insert_R_perm. now constructor. Qed.
Lemma insert_R_sorted x l : StronglySorted Rle l -> StronglySorted Rle (insert_R x l).
Proof.
  induction 1 as [|y l S IH F]; cbn; [repeat constructor|]. destruct (Rle_dec x y) as [L|L].
  - constructor; [constructor; auto|]. constructor; auto. eapply Forall_impl; [|exact F]. intros z Z. lra.
  - constructor; auto. apply (Permutation_Forall (insert_R_perm x l)). constructor; [lra|auto].
Qed.
Lemma sort_R_sorted l : StronglySorted Rle (sort_R l).
Proof. induction l as [|x l IH]; cbn; [constructor|now apply insert_R_sorted]. Qed.
Lemma sort_R_length l : length (sort_R l) = length l.
Proof. apply Permutation_length, Permutation_sym, sort_R_perm. Qed.
Lemma median_middle xs : middle xs (median_of xs).
Proof. exists (sort_R xs). split; [apply sort_R_perm|]. split; [apply sort_R_sorted|reflexivity]. Qed.
Lemma part_bounds h : (0 <= h)%R -> exists i, Int_part h = Z.of_nat i /\ (INR i <= h < INR i + 1)%R.
Proof.
  intros H. destruct (base_Int_part h) as (A & B). assert (P : (0 <= Int_part h)%Z).
  { apply le_IZR. destruct (Z_lt_le_dec (Int_part h) 0) as [L|L]; [|exact (IZR_le _ _ L)]. assert (X : (Int_part h <= -1)%Z) by lia. apply IZR_le in X. lra. }
  exists (Z.to_nat (Int_part h)). rewrite Z2Nat.id by auto. split; auto. rewrite INR_IZR_INZ, Z2Nat.id by auto. lra.
Qed.
Lemma quantile_fraction q xs : (0 <= q)%R -> at_fraction q xs (quantile_of q xs).
Proof.
  intros Q. unfold quantile_of. set (ys := sort_R xs). set (h := (INR (length ys - 1) * q)%R).
  destruct (part_bounds h) as (i & E & B); [unfold h; apply Rmult_le_pos; [apply pos_INR|auto]|].
  exists ys, i. split; [apply sort_R_perm|]. split; [apply sort_R_sorted|]. split; [exact B|]. cbv zeta. rewrite E, Nat2Z.id. replace (Z.to_nat (Z.of_nat i + 1)) with (i + 1)%nat by lia. now rewrite <- INR_IZR_INZ.
Qed.
Lemma statistic_spec op xs : (match op with Other => False | Quantile q => (0 <= q <= 1)%R | _ => True end) -> stat_spec op xs (statistic op xs).
Proof. destruct op as [| |q|]; cbn; try tauto; [intros _; apply median_middle|intros (A & B)]. split; auto. now apply quantile_fraction. Qed.
Lemma part_unique h i : (INR i <= h < INR i + 1)%R -> Int_part h = Z.of_nat i.
Proof. intros B. destruct (part_bounds h) as (j & E & B'); [pose proof (pos_INR i); lra|]. rewrite E. f_equal. assert (j < Datatypes.S i /\ i < Datatypes.S j)%nat; [|lia]. split; apply INR_lt; rewrite S_INR; lra. Qed.
Lemma quantile_median xs : xs <> [] -> quantile_of (1 / 2) xs = median_of xs.
Proof.
  intros N. unfold quantile_of, median_of. pose proof (sort_R_length xs) as L. set (ys := sort_R xs) in *. assert (length xs <> 0)%nat by (destruct xs; [congruence|discriminate]).
  destruct (Nat.Even_or_Odd (length ys)) as [(m & M)|(m & M)].
  - assert (0 < m)%nat by lia. rewrite (part_unique _ (m - 1)).
    + rewrite Nat2Z.id. replace (Z.to_nat (Z.of_nat (m - 1) + 1)) with m by lia. replace (Nat.div (length ys - 1) 2) with (m - 1)%nat by (rewrite M; replace (2 * m - 1)%nat with (1 + (m - 1) * 2)%nat by lia; now rewrite Nat.div_add by lia).
      replace (Nat.div (length ys) 2) with m by (rewrite M, Nat.mul_comm, Nat.div_mul; lia). rewrite (nth_indep ys (nth (m - 1) ys 0%R) 0%R) by lia. rewrite <- INR_IZR_INZ.
      replace (length ys - 1)%nat with (2 * (m - 1) + 1)%nat by lia. rewrite plus_INR, mult_INR. cbn [INR]. field_simplify. lra.
    + replace (length ys - 1)%nat with (2 * (m - 1) + 1)%nat by lia. rewrite plus_INR, mult_INR. cbn [INR]. lra.
  - rewrite (part_unique _ m).
    + rewrite Nat2Z.id. replace (Nat.div (length ys - 1) 2) with m by (rewrite M; replace (2 * m + 1 - 1)%nat with (m * 2)%nat by lia; now rewrite Nat.div_mul by lia).
      replace (Nat.div (length ys) 2) with m by (rewrite M; replace (2 * m + 1)%nat with (1 + m * 2)%nat by lia; now rewrite Nat.div_add by lia).
      rewrite <- INR_IZR_INZ. replace (length ys - 1)%nat with (2 * m)%nat by lia. rewrite mult_INR. cbn [INR]. field.
    + replace (length ys - 1)%nat with (2 * m)%nat by lia. rewrite mult_INR. cbn [INR]. lra.
Qed.

(** ** Grouping *)
Definition held (t : Z) (k : list mval) (times : list Z) (r : list mval * list num) : list R :=
  if row_dec (fst r) k then olist (value_at t (combine times (snd r))) else [].
Lemma missing_solid k : existsb is_missing k = false <-> Forall solid k.
Proof.
  rewrite Forall_forall. split.
  - intros H v V. destruct (is_missing v) eqn:E; [|destruct v; try discriminate; split; discriminate].
    assert (existsb is_missing k = true) by (apply existsb_exists; eauto). congruence.
  - intros H. destruct (existsb is_missing k) eqn:E; auto. apply existsb_exists in E as (v & V & M). destruct (H v V) as (A & B). destruct v; try discriminate; congruence.
Qed.
Lemma plain_solid k : Forall solid k -> map plain_value k = k.
Proof. induction 1 as [|v k S F IH]; cbn; auto. rewrite IH. destruct v; auto. now destruct S. Qed.
Lemma extend_cells C cols row : length row = length cols -> incl C cols -> extend C (combine cols row) = map plain_value (map (cell cols row) C).
Proof.
  intros L I. unfold extend. rewrite map_map. apply map_ext_in. intros c IC. rewrite alookup_combine by auto.
  assert (M : mem c cols = true) by (apply mem_in; auto). now rewrite M.
Qed.
Lemma plain_missing k : existsb is_missing k = true -> ~ Forall solid (map plain_value k).
Proof.
  intros H F. apply existsb_exists in H as (v & V & M). rewrite Forall_forall in F. specialize (F (plain_value v) (in_map _ _ _ V)). destruct F as (A & B). destruct v; try discriminate; cbn in *; congruence.
Qed.
Lemma value_nth times : forall vs t i, NoDup times -> nth_error times i = Some t -> value_at t (combine times vs) = nth i vs None.
Proof.
  induction times as [|t0 times IH]; intros vs t i N E; [destruct i; discriminate|]. apply NoDup_cons_iff in N as (A & N). destruct vs as [|v vs], i as [|i]; cbn in *; auto.
  - injection E as ->. now rewrite Z.eqb_refl.
  - destruct (Z.eqb_spec t t0) as [->|D]; [|auto]. apply nth_error_In in E. contradiction.
Qed.
Lemma olist_present (o : num) l : olist o ++ present l = present (o :: l).
Proof. now destruct o. Qed.
Lemma grouped_values op times rows k t : NoDup times -> Forall (fun r => Forall solid (fst r)) rows -> Forall solid k ->
  olist (value_at t (combine times (grouped op (length times) rows k))) = match flat_map (held t k times) rows with [] => [] | xs => [statistic op xs] end.
Proof.
  intros N S K. assert (G : forall i, nth_error times i = Some t -> flat_map (held t k times) rows = present (map (fun r => nth i (snd r) None) (filter (fun r => row_same k (fst r)) rows))).
  { intros i E. induction rows as [|r rows IH]; [reflexivity|]. apply Forall_cons_iff in S as (A & B). cbn [flat_map filter]. rewrite row_same_fun by auto. rewrite IH by auto.
    unfold held at 1. destruct (row_dec k (fst r)) as [Q|Q].
    - destruct (row_dec (fst r) k); [|congruence]. cbn [map]. rewrite (value_nth _ _ _ i) by auto. apply olist_present.
    - destruct (row_dec (fst r) k); [congruence|reflexivity]. }
  destruct (in_dec Z.eq_dec t times) as [I|I].
  - apply In_nth_error in I as (i & E). rewrite (G i E). rewrite (value_nth _ _ _ i) by auto. unfold grouped.
    assert (i < length times)%nat by (apply nth_error_Some; congruence).
    match goal with |- context [nth i (map ?f (seq 0 _)) _] => set (F := f) end.
    rewrite (nth_indep (map F (seq 0 (length times))) None (F 0%nat)) by (now rewrite map_length, seq_length). rewrite map_nth, seq_nth by auto. cbn [plus]. unfold F, stat_num. now destruct (present _).
  - rewrite value_absent by auto. clear G. induction rows as [|r rows IH]; [reflexivity|]. apply Forall_cons_iff in S as (A & B). cbn [flat_map]. unfold held at 1. rewrite value_absent by auto. destruct (row_dec _ _); cbn [olist app]; auto.
Qed.
Lemma no_held t k times rows : (forall r, In r rows -> fst r <> k) -> flat_map (held t k times) rows = [].
Proof.
  induction rows as [|r rows IH]; intros H; auto. cbn [flat_map]. rewrite IH by (intros r' R'; apply H; now right). unfold held. destruct (row_dec _ _) as [E|E]; [|reflexivity]. exfalso. apply (H r); auto. now left.
Qed.
Lemma keys_one keys k (F : list mval -> list R) : NoDup keys ->
  flat_map (fun key => if row_dec key k then F key else []) keys = if in_dec row_dec k keys then F k else [].
Proof.
  induction keys as [|a keys IH]; intros N; [reflexivity|]. apply NoDup_cons_iff in N as (A & N). cbn [flat_map]. rewrite IH by auto. destruct (row_dec a k) as [->|E].
  - destruct (in_dec row_dec k keys); [contradiction|]. rewrite app_nil_r. destruct (in_dec row_dec k (k :: keys)) as [|X]; auto. exfalso. apply X. now left.
  - cbn [app]. destruct (in_dec row_dec k keys) as [I|I], (in_dec row_dec k (a :: keys)) as [J|J]; auto; exfalso; [apply J; now right|destruct J; congruence].
Qed.

Definition over_rows (C : list string) (f : frame) (ts : list (list mval * list num)) : list (list mval * list num) :=
  filter (fun r => negb (existsb is_missing (fst r))) (map (fun r => (map (cell (fr_cols f) (fst r)) C, snd r)) ts).
Definition over_frame (C : list string) (op : operation) (f : frame) (ts : list (list mval * list num)) : frame :=
  let rows := over_rows C f ts in
  let keys := distinct_keys (map fst rows) in
  let labels := map Z.of_nat (seq 0 (length keys)) in
  mkFrame (fr_times f) (combine labels (map (grouped op (length (fr_times f)) rows) keys)) C (combine labels keys).
Definition valid_op (op : operation) : Prop := match op with Other => False | Quantile q => (0 <= q <= 1)%R | _ => True end.
Lemma over_iff cols op f g : process_over cols op f = Ok g <->
  exists ts, wide f = Ok ts /\ filter (fun c => negb (mem c cols)) (fr_cols f) <> [] /\ valid_op op /\ g = over_frame (filter (fun c => negb (mem c cols)) (fr_cols f)) op f ts.
Proof.
  unfold process_over. rewrite rbind_ok. split.
  - intros (ts & W & H). exists ts. split; auto. destruct (filter _ (fr_cols f)) as [|c C] eqn:E; [discriminate|]. split; [discriminate|].
    destruct op as [| |q|]; cbv zeta in H; try discriminate; try (injection H as <-; split; [exact I|reflexivity]).
    destruct (Rle_dec 0 q) as [A|A]; [|discriminate]. destruct (Rle_dec q 1) as [B|B]; [|discriminate]. injection H as <-. split; [split; auto|reflexivity].
  - intros (ts & W & N & V & ->). exists ts. split; auto. destruct (filter _ (fr_cols f)) as [|c C] eqn:E; [congruence|].
    destruct op as [| |q|]; cbv zeta; try reflexivity; [|destruct V]. destruct V as (A & B). destruct (Rle_dec 0 q); [|contradiction]. destruct (Rle_dec q 1); [reflexivity|contradiction].
Qed.

Lemma over_values C op f ts : aligned f -> wide f = Ok ts -> NoDup (fr_times f) -> incl C (fr_cols f) -> NoDup C ->
  let g := over_frame C op f ts in
  NoDup (map fst (fr_data g)) /\ map fst (fr_data g) = map fst (fr_meta g) /\ NoDup (map snd (fr_meta g)) /\
  (forall k t, ~ Forall solid k -> values_at C (points g) k t = []) /\
  (forall k t, Forall solid k -> values_at C (points g) k t = match values_at C (points f) k t with [] => [] | xs => [statistic op xs] end).
Proof.
  intros AL W NT IC NC g. set (rows := over_rows C f ts).
  assert (SR : Forall (fun r : list mval * list num => Forall solid (fst r)) rows).
  { apply Forall_forall. intros r R'. unfold rows, over_rows in R'. apply filter_In in R' as (_ & M). apply negb_true_iff, missing_solid in M. exact M. }
  assert (LR : forall r, In r rows -> length (fst r) = length C).
  { intros r R'. unfold rows, over_rows in R'. apply filter_In in R' as (R' & _). apply in_map_iff in R' as (x & <- & _). cbn. apply map_length. }
  set (keys := distinct_keys (map fst rows)).
  assert (SK : Forall (Forall solid) (map fst rows)) by (apply Forall_map; exact SR).
  assert (KI : forall k, In k keys <-> In k (map fst rows)) by (intros k; apply distinct_in; exact SK).
  assert (KN : NoDup keys) by (apply distinct_nodup; exact SK).
  assert (LL : length (map Z.of_nat (seq 0 (length keys))) = length keys) by (now rewrite map_length, seq_length).
  split; [|split; [|split]].
  - cbn. fold rows keys. rewrite combine_fst by (rewrite LL; symmetry; apply map_length). apply labels_nodup.
  - cbn. fold rows keys. rewrite !combine_fst; auto. rewrite LL. symmetry. apply map_length.
  - cbn. fold rows keys. rewrite combine_snd; auto.
  - assert (PF : forall k t, Forall solid k -> values_at C (points f) k t = flat_map (held t k (fr_times f)) rows).
    { intros k t K. destruct (aligned_series f AL) as (z & Z). pose proof (al_unique _ AL) as U. pose proof (al_values _ AL) as VL. pose proof (al_rows _ AL) as RL.
      pose proof W as W'. assert (D : meta_dup f = false) by (unfold wide in W; destruct (meta_dup f); [discriminate|reflexivity]).
      pose proof D as D'. rewrite Z in W', D'. rewrite wide_series in W' by auto. injection W' as W'.
      rewrite Z in U, VL, RL. unfold of_series in U, VL, RL. cbn [fr_data fr_meta fr_times fr_cols] in U, VL, RL. rewrite labels_data in U.
      assert (PS : points f = flat_map (spoints (fr_times f) (fr_cols f)) z) by (etransitivity; [exact (f_equal points Z)|now apply points_series]).
      rewrite PS, values_flat. unfold rows, over_rows. rewrite <- W', map_map. cbn [fst snd]. clear -NT VL RL K IC. induction z as [|x z IH]; [reflexivity|]. cbn [map flat_map filter].
      cbn [map] in VL, RL. apply Forall_cons_iff in VL as (V1 & V2). apply Forall_cons_iff in RL as (R1 & R2). rewrite IH by auto. clear IH V2 R2.
      assert (V0 : length (snd (fst x)) = length (fr_times f)) by exact V1. assert (R0 : length (snd x) = length (fr_cols f)) by exact R1.
      unfold spoints. rewrite values_series by auto. rewrite extend_cells by auto. cbn [fst]. destruct (existsb is_missing _) eqn:M; cbn [negb].
      - destruct (row_dec _ k) as [E|E]; [|reflexivity]. exfalso. apply (plain_missing _ M). now rewrite E.
      - apply missing_solid in M. rewrite plain_solid by exact M. reflexivity. }
    assert (PG : forall k t, values_at C (points g) k t = if in_dec row_dec k keys then olist (value_at t (combine (fr_times f) (grouped op (length (fr_times f)) rows k))) else []).
    { intros k t. assert (GI : g = of_series (fr_times f) C (map (fun p => (fst p, grouped op (length (fr_times f)) rows (snd p), snd p)) (combine (map Z.of_nat (seq 0 (length keys))) keys))).
      { unfold g, over_frame, of_series. fold rows keys. generalize (map Z.of_nat (seq 0 (length keys))). generalize keys. clear. intros keys ls. rewrite !map_map. f_equal.
        - revert ls. induction keys as [|k keys IH]; intros [|l ls]; cbn [map combine]; auto. now rewrite IH.
        - revert ls. induction keys as [|k keys IH]; intros [|l ls]; cbn [map combine]; auto. f_equal. apply IH. }
      rewrite GI, points_series.
      - rewrite values_flat, flat_map_map. etransitivity; [|apply (keys_one keys k (fun key => olist (value_at t (combine (fr_times f) (grouped op (length (fr_times f)) rows key)))) KN)].
        rewrite <- (flat_map_snd _ (map Z.of_nat (seq 0 (length keys))) keys LL). apply flat_map_ext_in. intros p P. unfold spoints. rewrite values_series; auto.
        + cbn [fst snd]. assert (IK : In (snd p) keys) by (destruct p; eapply in_combine_r; eauto). apply KI, in_map_iff in IK as (r & E & IR). rewrite Forall_forall in SR.
          pose proof (SR r IR) as S'. pose proof (LR r IR) as L'. rewrite E in S', L'. rewrite extend_cells, plain_solid; auto using incl_refl.
          * assert (map (cell C (snd p)) C = snd p) as ->; [|reflexivity]. clear -L' NC. revert L'. generalize (snd p). induction C as [|c C IH]; intros [|v r] L; try discriminate; auto. injection L as L. apply NoDup_cons_iff in NC as (A & N).
            cbn [map cell]. rewrite String.eqb_refl. f_equal. etransitivity; [|apply IH; auto]. apply map_ext_in. intros c' I. destruct (String.eqb_spec c' c) as [->|]; [contradiction|reflexivity].
          * apply Forall_forall. intros v V. apply in_map_iff in V as (c & <- & I). rewrite Forall_forall in S'. apply S'. now apply cell_in_row.
        + cbn. unfold grouped. now rewrite map_length, seq_length.
      - rewrite map_map. cbn. change (NoDup (map fst (combine (map Z.of_nat (seq 0 (length keys))) keys))). rewrite combine_fst by auto. apply labels_nodup. }
    split.
    + intros k t K. rewrite PG. destruct (in_dec row_dec k keys) as [I|I]; auto. exfalso. apply K. apply KI, in_map_iff in I as (r & <- & IR). rewrite Forall_forall in SR. auto.
    + intros k t K. rewrite PG, PF by auto. destruct (in_dec row_dec k keys) as [I|I]; [now apply grouped_values|]. rewrite no_held; auto. intros r IR E. apply I, KI, in_map_iff. eauto.
Qed.
