(** Data frame operations commute with changes of the unit of measure.  (For C99.) *)
From Coq Require Import String Ascii List ZArith QArith Qcanon Reals Bool Lia Lra Sorted.
From Verif Require Import Base ListFacts Units TimeModel TimeProps Core Filters ParameterType Spec_Time Frame Spec_Frame FrameEdit FrameAppend FrameWide FrameInterp Spec_Interp InterpProps AppendProps Calendar Civil Offsets OffsetsFacts Spec_Offsets OffsetsProps Spec_Rescale.
From Verif Require FrameFilter SplitProps.
Import ListNotations.
Local Open Scope string_scope.
Local Open Scope list_scope.

Section Values.
Variable h : R -> R.
Definition mdata (d : list (Z * list num)) : list (Z * list num) := map (fun c => (fst c, map (option_map h) (snd c))) d.
Definition mrows {A} (l : list (A * list num)) : list (A * list num) := map (fun c => (fst c, map (option_map h) (snd c))) l.

(** ** Filters do not look at values *)
Lemma apply_filters_mapped rx hn fl f : apply_filters rx hn fl (mapped h f) = apply_filters rx hn fl f.
Proof.
  unfold apply_filters. change (fr_times (mapped h f)) with (fr_times f). change (fr_meta (mapped h f)) with (fr_meta f).
  enough (H : forall l k, apply_filters_loop rx hn fl (mapped h f) k l = apply_filters_loop rx hn fl f k l) by apply H. induction l as [|c l IH]; intros k; [reflexivity|].
  cbn [apply_filters_loop]. change (apply_filter rx hn fl (mapped h f) k c) with (apply_filter rx hn fl f k c).
  destruct (apply_filter rx hn fl f k c); cbn [rbind]; [apply IH|reflexivity].
Qed.
Lemma combine_map_r {A B C} (g : B -> C) (a : list A) b : combine a (map g b) = map (fun p => (fst p, g (snd p))) (combine a b).
Proof. revert b. induction a as [|x a IH]; intros [|y b]; cbn; [reflexivity|reflexivity|reflexivity|now rewrite IH]. Qed.
Lemma where_mapped keep kt km d : where_idx keep kt km (mdata d) = mdata (where_idx keep kt km d).
Proof.
  unfold where_idx, mdata. rewrite combine_map_r, !map_map. apply map_ext. intros [k [l v]]. cbn [fst snd]. f_equal.
  rewrite combine_map_r, !map_map. apply map_ext. intros [t x]. cbn [fst snd]. destruct (Bool.eqb keep (t && k)); reflexivity.
Qed.
Lemma has_value_mapped c : has_value (fst c, map (option_map h) (snd c)) = has_value c.
Proof. destruct c as [k v]. unfold has_value. cbn [snd fst]. induction v as [|[x|] l IH]; [reflexivity|reflexivity|exact IH]. Qed.
Lemma filter_map_comm {A B} (g : A -> B) (p : B -> bool) (q : A -> bool) l : (forall x, p (g x) = q x) -> filter p (map g l) = map g (filter q l).
Proof. intros E. induction l as [|x l IH]; cbn; [reflexivity|]. rewrite E. destruct (q x); cbn; now rewrite IH. Qed.
Lemma values_mapped d : filter has_value (mdata d) = mdata (filter has_value d).
Proof. apply filter_map_comm. exact has_value_mapped. Qed.
Lemma nth_omap i v : nth i (map (option_map h) v) None = option_map h (nth i v None).
Proof. exact (map_nth (option_map h) v None i). Qed.
Lemma existsb_map {A B} (g : A -> B) p l : existsb p (map g l) = existsb (fun x => p (g x)) l.
Proof. induction l as [|x l IH]; cbn; [reflexivity|now rewrite IH]. Qed.
Lemma existsb_ext' {A} (p q : A -> bool) l : (forall x, p x = q x) -> existsb p l = existsb q l.
Proof. intros E. induction l as [|x l IH]; cbn; [reflexivity|now rewrite E, IH]. Qed.
Lemma used_mapped n d : used_times n (mdata d) = used_times n d.
Proof.
  unfold used_times. apply map_ext. intros i. unfold mdata. rewrite existsb_map. apply existsb_ext'. intros c. cbn [snd]. rewrite nth_omap. destruct (nth i (snd c) None); reflexivity.
Qed.
Lemma select_map {A B} (g : A -> B) m l : select m (map g l) = map g (select m l).
Proof.
  unfold select. revert l. induction m as [|b m IH]; intros [|x l]; cbn; try reflexivity. destruct b; cbn; now rewrite IH.
Qed.
Definition lifted (r : res frame) : res frame := rbind r (fun g => Ok (mapped h g)).
Lemma labels_mapped (l : Z) d : existsb (fun c : Z * list num => Z.eqb l (fst c)) (mdata d) = existsb (fun c => Z.eqb l (fst c)) d.
Proof. unfold mdata. rewrite existsb_map. reflexivity. Qed.
Lemma forallb_ext' {A} (p q : A -> bool) l : (forall x, p x = q x) -> forallb p l = forallb q l.
Proof. intros E. induction l as [|x l IH]; cbn; [reflexivity|now rewrite E, IH]. Qed.
Lemma filter_mapped keep rx hn fl f : fr_filter keep rx hn fl (mapped h f) = lifted (fr_filter keep rx hn fl f).
Proof.
  unfold fr_filter, lifted. rewrite apply_filters_mapped. destruct (apply_filters rx hn fl f) as [[[kt|] [km|]]|e]; try reflexivity. cbn [rbind].
  change (fr_data (mapped h f)) with (mdata (fr_data f)). change (fr_times (mapped h f)) with (fr_times f). change (fr_meta (mapped h f)) with (fr_meta f). change (fr_cols (mapped h f)) with (fr_cols f).
  rewrite where_mapped, values_mapped, used_mapped. set (d := where_idx keep kt km (fr_data f)). set (d1 := filter has_value d).
  rewrite (forallb_ext' _ (fun r : Z * list mval => existsb (fun c : Z * list num => Z.eqb (fst r) (fst c)) d)) by (intros r; apply labels_mapped).
  rewrite (filter_ext _ (fun r : Z * list mval => existsb (fun c : Z * list num => Z.eqb (fst r) (fst c)) d1)) by (intros r; apply labels_mapped).
  destruct (forallb _ (fr_meta f)); [|reflexivity]. cbv zeta. unfold mdata at 1. rewrite map_length. destruct (Nat.eqb _ _); [|reflexivity].
  cbn [rbind]. unfold mapped. cbn [fr_times fr_data fr_cols fr_meta]. do 2 f_equal. unfold mdata. rewrite !map_map. apply map_ext. intros c. cbn [fst snd]. f_equal. apply select_map.
Qed.

(** ** Metadata *)
Lemma rename_mapped m f : rename m (mapped h f) = (mapped h (fst (rename m f)), snd (rename m f)).
Proof.
  revert f. induction m as [|[c r] m IH]; intros f; [reflexivity|]. cbn [rename]. change (fr_cols (mapped h f)) with (fr_cols f). destruct (mem c (fr_cols f)); [|reflexivity].
  change (map_column c (replace_value r) (mapped h f)) with (mapped h (map_column c (replace_value r) f)).
  change (meta_dup (mapped h (map_column c (replace_value r) f))) with (meta_dup (map_column c (replace_value r) f)).
  destruct (meta_dup _); [reflexivity|]. apply IH.
Qed.
Lemma set_meta_mapped n a f : set_meta n a (mapped h f) = lifted (set_meta n a f).
Proof.
  unfold set_meta, lifted. destruct (String.eqb n ""); [reflexivity|]. change (fr_meta (mapped h f)) with (fr_meta f). destruct a as [v|vs]; [reflexivity|].
  destruct (fr_meta f) as [|r rs] eqn:E; [reflexivity|]. destruct (Nat.eqb _ _); reflexivity.
Qed.

(** ** Wide format *)
Lemma wide_mapped f : wide (mapped h f) = rbind (wide f) (fun ts => Ok (mrows ts)).
Proof.
  unfold wide. change (meta_dup (mapped h f)) with (meta_dup f). destruct (meta_dup f); [reflexivity|]. cbn [rbind]. f_equal.
  change (fr_meta (mapped h f)) with (fr_meta f). change (fr_data (mapped h f)) with (mdata (fr_data f)). unfold mrows. rewrite map_map. cbn [fst snd].
  generalize (fr_meta f). unfold mdata. induction (fr_data f) as [|c d IH]; intros [|r m]; cbn; try reflexivity. f_equal. apply IH.
Qed.
Lemma present_mapped l : present (map (option_map h) l) = map h (present l).
Proof. induction l as [|[x|] l IH]; cbn; [reflexivity|now rewrite IH|exact IH]. Qed.
Lemma value_at_mapped t s : value_at t (map (fun p => (fst p, option_map h (snd p))) s) = option_map h (value_at t s).
Proof. induction s as [|[t' v] s IH]; cbn; [reflexivity|]. destruct (Z.eqb t t'); auto. Qed.
End Values.

Section Affine.
Variables a b : R.
Notation h := (fun x => a * x + b)%R.

Lemma total_affine xs : FrameAppend.total (map h xs) = (a * FrameAppend.total xs + b * INR (length xs))%R.
Proof. induction xs as [|x xs IH]; [cbn; lra|]. change (FrameAppend.total (map h (x :: xs))) with (h x + FrameAppend.total (map h xs))%R. rewrite IH. cbn [length]. rewrite S_INR. change (FrameAppend.total (x :: xs)) with (x + FrameAppend.total xs)%R. lra. Qed.
Lemma mean_affine xs : xs <> [] -> (FrameAppend.total (map h xs) / INR (length (map h xs)) = h (FrameAppend.total xs / INR (length xs)))%R.
Proof.
  intros N. rewrite total_affine, map_length. assert (INR (length xs) <> 0)%R by (apply not_0_INR; destruct xs; [congruence|discriminate]). field. auto.
Qed.
Lemma mean_num_affine l : mean_num (map (option_map h) l) = option_map h (mean_num l).
Proof.
  unfold mean_num. rewrite present_mapped. destruct (present l) as [|x xs]; [reflexivity|]. change (map h (x :: xs)) with (h x :: map h xs).
  cbv iota. cbn [option_map]. f_equal. exact (mean_affine (x :: xs) ltac:(discriminate)).
Qed.
Lemma insert_affine x l : (0 < a)%R -> insert_R (h x) (map h l) = map h (insert_R x l).
Proof.
  intros A. induction l as [|y l IH]; [reflexivity|]. cbn [map insert_R]. destruct (Rle_dec x y) as [L|L]; destruct (Rle_dec (a * x + b) (a * y + b)) as [L'|L'].
  - reflexivity.
  - exfalso. apply L'. apply Rplus_le_compat_r. apply Rmult_le_compat_l; lra.
  - exfalso. apply L. apply Rplus_le_reg_r in L'. apply Rmult_le_reg_l in L'; auto.
  - cbn [map]. now rewrite IH.
Qed.
Lemma sort_affine l : (0 < a)%R -> sort_R (map h l) = map h (sort_R l).
Proof. intros A. induction l as [|x l IH]; [reflexivity|]. cbn [map sort_R]. now rewrite IH, insert_affine by exact A. Qed.
Lemma insert_length x l : length (insert_R x l) = Datatypes.S (length l).
Proof. induction l as [|y l IH]; [reflexivity|]. cbn [insert_R]. destruct (Rle_dec x y); cbn; [reflexivity|now rewrite IH]. Qed.
Lemma sort_length l : length (sort_R l) = length l.
Proof. induction l as [|x l IH]; [reflexivity|]. cbn [sort_R]. rewrite insert_length, IH. reflexivity. Qed.
Lemma nth_affine i l : (i < length l)%nat -> nth i (map h l) 0%R = h (nth i l 0%R).
Proof. intros L. rewrite (nth_indep (map h l) 0%R (h 0%R)) by now rewrite map_length. exact (map_nth h l 0%R i). Qed.
Definition valid (op : operation) : Prop := match op with Median => (0 < a)%R | Quantile q => (0 <= q <= 1)%R /\ (0 < a)%R | Other => False | Mean => True end.
Lemma statistic_affine op xs : valid op -> xs <> [] -> statistic op (map h xs) = h (statistic op xs).
Proof.
  intros V N. assert (L : (0 < length xs)%nat) by (destruct xs; [congruence|cbn; lia]). destruct op as [| |q|]; cbn [statistic]; [| | |destruct V].
  - unfold median_of. cbn in V. rewrite (sort_affine _ V), map_length, sort_length. rewrite !nth_affine; [lra| |]; rewrite sort_length.
    + apply Nat.div_lt; lia.
    + apply Nat.le_lt_trans with (length xs - 1)%nat; [apply Nat.div_le_upper_bound; lia|lia].
  - now apply mean_affine.
  - unfold quantile_of. destruct V as (V & A). rewrite (sort_affine _ A), map_length, sort_length. set (n := INR (length xs - 1)) in *. set (i := Int_part (n * q)).
    assert (NN : (0 <= n)%R) by apply pos_INR. destruct (base_Int_part (n * q)) as (B1 & B2). fold i in B1, B2.
    assert (QN : (0 <= n * q <= n)%R) by (split; [apply Rmult_le_pos; lra|rewrite <- (Rmult_1_r n) at 2; apply Rmult_le_compat_l; lra]).
    assert (I0 : (0 <= i)%Z) by (assert (-1 < i)%Z; [apply lt_IZR; lra|lia]).
    assert (I1 : (i <= Z.of_nat (length xs - 1))%Z) by (apply le_IZR; rewrite <- INR_IZR_INZ; fold n; lra).
    rewrite nth_affine by (rewrite sort_length; lia). rewrite (map_nth (fun x => a * x + b)%R). lra.
Qed.
Lemma stat_num_affine op l : valid op -> stat_num op (map (option_map h) l) = option_map h (stat_num op l).
Proof.
  intros V. unfold stat_num. rewrite present_mapped. destruct (present l) as [|x xs]; [reflexivity|]. change (map h (x :: xs)) with (h x :: map h xs). cbv iota. cbn [option_map].
  f_equal. exact (statistic_affine op (x :: xs) V ltac:(discriminate)).
Qed.

(** ** Statistics *)
Lemma over_affine cols op f g : (op <> Mean -> (0 < a)%R) -> process_over cols op f = Ok g -> process_over cols op (mapped h f) = Ok (mapped h g).
Proof.
  intros A. unfold process_over. rewrite wide_mapped. destruct (wide f) as [ts|e]; [|discriminate]. cbn [rbind].
  change (fr_cols (mapped h f)) with (fr_cols f). change (fr_times (mapped h f)) with (fr_times f). destruct (filter _ (fr_cols f)) as [|c0 C0]; [discriminate|]. set (C := c0 :: C0). cbv zeta.
  assert (E1 : map (fun r : list mval * list num => (map (cell (fr_cols f) (fst r)) C, snd r)) (mrows h ts) = mrows h (map (fun r => (map (cell (fr_cols f) (fst r)) C, snd r)) ts)).
  { unfold mrows. rewrite !map_map. reflexivity. }
  rewrite E1. set (rows := map (fun r : list mval * list num => (map (cell (fr_cols f) (fst r)) C, snd r)) ts).
  assert (E2 : filter (fun r : list mval * list num => negb (existsb is_missing (fst r))) (mrows h rows) = mrows h (filter (fun r => negb (existsb is_missing (fst r))) rows)) by (apply filter_map_comm; reflexivity).
  rewrite E2. set (rows' := filter (fun r : list mval * list num => negb (existsb is_missing (fst r))) rows).
  assert (E3 : map fst (mrows h rows') = map fst rows') by (unfold mrows; rewrite map_map; reflexivity). rewrite E3.
  set (keys := distinct_keys (map fst rows')).
  assert (E4 : valid op -> map (grouped op (length (fr_times f)) (mrows h rows')) keys = map (map (option_map h)) (map (grouped op (length (fr_times f)) rows') keys)).
  { intros V. rewrite map_map. apply map_ext. intros k. unfold grouped. rewrite map_map. apply map_ext. intros i.
    assert (E5 : filter (fun r : list mval * list num => row_same k (fst r)) (mrows h rows') = mrows h (filter (fun r => row_same k (fst r)) rows')) by (apply filter_map_comm; reflexivity).
    rewrite E5. rewrite <- stat_num_affine by exact V. f_equal. unfold mrows. rewrite !map_map. apply map_ext. intros r. cbn [snd]. apply nth_omap. }
  intros H. assert (V : valid op /\ g = mkFrame (fr_times f) (combine (map Z.of_nat (seq 0 (length keys))) (map (grouped op (length (fr_times f)) rows') keys)) C (combine (map Z.of_nat (seq 0 (length keys))) keys)).
  { destruct op as [| |q|]; try discriminate; try (split; [first [exact I|apply A; discriminate]|now injection H as <-]). destruct (Rle_dec 0 q); [|discriminate]. destruct (Rle_dec q 1); [|discriminate]. split; [split; [auto|apply A; discriminate]|now injection H as <-]. }
  destruct V as (V & ->). rewrite (E4 V). unfold mapped. cbn [fr_times fr_data fr_cols fr_meta]. rewrite combine_map_r.
  destruct op as [| |q|]; try reflexivity; [|destruct V]. destruct V as ((V1 & V2) & _). destruct (Rle_dec 0 q); [|contradiction]. destruct (Rle_dec q 1); [|contradiction]. reflexivity.
Qed.

(** ** Reference periods *)
Lemma relative_affine ap keep rx hn fl f g : relative_to_ref_period_mean ap keep rx hn fl f = Ok g ->
  relative_to_ref_period_mean ap keep rx hn fl (mapped h f) = Ok (mapped (fun x => a * x + 0)%R g).
Proof.
  unfold relative_to_ref_period_mean. rewrite wide_mapped, filter_mapped. destruct (wide f) as [ts|e]; [|discriminate]. cbn [rbind]. unfold lifted.
  destruct (fr_filter keep rx hn fl f) as [r|e]; [|discriminate]. cbn [rbind]. rewrite wide_mapped. destruct (wide r) as [ref|e]; [|discriminate]. cbn [rbind].
  assert (E1 : existsb (fun r0 : list mval * list num => existsb is_missing (fst r0)) (mrows h ts) = existsb (fun r0 => existsb is_missing (fst r0)) ts) by (unfold mrows; rewrite existsb_map; reflexivity).
  rewrite E1. destruct (existsb _ ts); [discriminate|]. destruct ref as [|r0 ref0]; [discriminate|].
  change (mrows h (r0 :: ref0)) with ((fst r0, map (option_map h) (snd r0)) :: mrows h ref0). cbv iota.
  change ((fst r0, map (option_map h) (snd r0)) :: mrows h ref0) with (mrows h (r0 :: ref0)). set (ref := r0 :: ref0).
  change (fr_cols (mapped h f)) with (fr_cols f). change (fr_times (mapped h f)) with (fr_times f). change (fr_meta (mapped h f)) with (fr_meta f).
  destruct (match ap with Some s => Ok s | None => default_append fl end) as [s|e]; [|discriminate]. cbn [rbind].
  destruct (rmap _ (fr_meta f)) as [m|e]; [|discriminate]. cbn [rbind]. intros H. injection H as <-. f_equal. unfold mapped. cbn [fr_times fr_data fr_cols fr_meta]. f_equal.
  rewrite <- (combine_map_r (map (option_map (fun x => a * x + 0)%R))). f_equal. change (mrows h ts) with (map (fun c : list mval * list num => (fst c, map (option_map h) (snd c))) ts). rewrite !map_map. apply map_ext. intros q. cbn [fst snd].
  assert (RM : ref_mean (mrows h ref) (fst q) = option_map h (ref_mean ref (fst q))).
  { unfold ref_mean. clearbody ref. clear. induction ref as [|[kx vx] ref IH]; [reflexivity|]. cbn [mrows map find fst]. destruct (row_same (fst q) kx); [cbn [snd]; apply mean_num_affine|exact IH]. }
  rewrite RM, !map_map. apply map_ext. intros x. destruct x as [x|], (ref_mean ref (fst q)) as [y|]; cbn; try reflexivity. f_equal. lra.
Qed.

(** ** Appending *)
Definition mjrows (l : list jrow) : list jrow := map (fun r => (fst r, map (fun p => (fst p, option_map h (snd p))) (snd r))) l.
Lemma joint_rows_affine cols f : joint_rows cols (mapped h f) = rbind (joint_rows cols f) (fun l => Ok (mjrows l)).
Proof.
  unfold joint_rows. change (fr_cols (mapped h f)) with (fr_cols f). destruct (existsb _ cols); [reflexivity|]. rewrite wide_mapped. destruct (wide f) as [ts|e]; [|reflexivity]. cbn [rbind]. f_equal.
  unfold mrows, mjrows. rewrite !map_map. apply map_ext. intros r. cbn [fst snd]. f_equal. apply combine_map_r.
Qed.
Lemma rows_affine cols fs : rmap (joint_rows cols) (map (mapped h) fs) = rbind (rmap (joint_rows cols) fs) (fun l => Ok (map mjrows l)).
Proof.
  induction fs as [|f fs IH]; [reflexivity|]. cbn [map rmap]. rewrite joint_rows_affine. destruct (joint_rows cols f) as [l|e]; [|reflexivity]. cbn [rbind]. rewrite IH. destruct (rmap (joint_rows cols) fs); reflexivity.
Qed.
Lemma concat_mjrows l : concat (map mjrows l) = mjrows (concat l).
Proof. induction l as [|x l IH]; [reflexivity|]. cbn [map concat]. rewrite IH. unfold mjrows. now rewrite map_app. Qed.
Lemma group_affine rows k : group (mjrows rows) k = mjrows (group rows k).
Proof. apply filter_map_comm. reflexivity. Qed.
Lemma at_affine t rows : map (fun r : jrow => value_at t (snd r)) (mjrows rows) = map (option_map h) (map (fun r => value_at t (snd r)) rows).
Proof. unfold mjrows. rewrite !map_map. apply map_ext. intros r. cbn [snd]. apply value_at_mapped. Qed.
Lemma contributions_affine times rows : contributions times (mjrows rows) = contributions times rows.
Proof.
  unfold contributions. assert (E : map fst (mjrows rows) = map fst rows) by (unfold mjrows; rewrite map_map; reflexivity). rewrite E.
  apply existsb_ext'. intros k. apply existsb_ext'. intros t. rewrite group_affine, at_affine, present_mapped, map_length. reflexivity.
Qed.
Lemma flat_map_map {X Y} (g : Y -> list X) (m : frame -> Y) fs : flat_map g (map m fs) = flat_map (fun f => g (m f)) fs.
Proof. induction fs as [|f fs IH]; [reflexivity|]. cbn. now rewrite IH. Qed.
Lemma append_affine msg f other g : fr_append msg f other = Ok (Joined g) -> fr_append msg (mapped h f) (mapped h other) = Ok (Joined (mapped h g)).
Proof.
  unfold fr_append. change [mapped h f; mapped h other] with (map (mapped h) [f; other]). generalize [f; other]. intros fs. unfold df_append.
  destruct fs as [|f0 fs0]; [discriminate|]. change (map (mapped h) (f0 :: fs0)) with (mapped h f0 :: map (mapped h) fs0). cbv iota.
  change (mapped h f0 :: map (mapped h) fs0) with (map (mapped h) (f0 :: fs0)). set (fs := f0 :: fs0). clearbody fs. clear f other f0 fs0.
  assert (E1 : forallb appendable (map (mapped h) fs) = forallb appendable fs) by (induction fs as [|f fs IH]; [reflexivity|cbn [map forallb]; now rewrite IH]).
  assert (E2 : joint_cols (map (mapped h) fs) = joint_cols fs) by (unfold joint_cols; rewrite flat_map_map; reflexivity).
  assert (E3 : joint_times (map (mapped h) fs) = joint_times fs) by (unfold joint_times; rewrite flat_map_map; reflexivity).
  rewrite E1, E2, E3. destruct (forallb appendable fs); [|discriminate]. cbv zeta. rewrite rows_affine. destruct (rmap (joint_rows (joint_cols fs)) fs) as [l|e]; [|discriminate]. cbn [rbind].
  rewrite concat_mjrows. set (rows := concat l). set (times := joint_times fs).
  assert (E4 : map fst (mjrows rows) = map fst rows) by (unfold mjrows; rewrite map_map; reflexivity). rewrite E4, contributions_affine.
  set (keys := distinct_keys (map fst rows)).
  assert (E5 : map (fun k => map (fun t => mean_num (map (fun r => value_at t (snd r)) (group (mjrows rows) k))) times) keys =
    map (map (option_map h)) (map (fun k => map (fun t => mean_num (map (fun r => value_at t (snd r)) (group rows k))) times) keys)).
  { rewrite map_map. apply map_ext. intros k. rewrite map_map. apply map_ext. intros t. rewrite group_affine, at_affine. apply mean_num_affine. }
  rewrite E5. destruct msg; try destruct (has_dup (map fst rows) && contributions times rows)%bool; try discriminate; intros H; injection H as <-;
    unfold mapped; cbn [fr_times fr_data fr_cols fr_meta]; rewrite combine_map_r; reflexivity.
Qed.

(** ** Interpolation *)
Lemma all_present_affine vs xs : all_present vs = Ok xs -> all_present (map (option_map h) vs) = Ok (map h xs).
Proof. rewrite !all_present_ok. intros ->. rewrite !map_map. reflexivity. Qed.
Lemma column_affine s t p ex c n vs w : increasing s -> increasing t -> timeseries_converter s t p ex = Ok c ->
  interp_column c n vs = Ok w -> interp_column c n (map (option_map h) vs) = Ok (map (option_map h) w).
Proof.
  intros IS IT C H. unfold interp_column in *. apply FrameFilter.rbind_ok in H as (xs & P & H). apply FrameFilter.rbind_ok in H as (y & T & H).
  rewrite (all_present_affine vs xs P). cbn [rbind].
  assert (D : conversion p ex s xs t (Ok y)) by (left; exists c; auto).
  pose proof (conversion_affine p ex s xs t y a b IS IT D) as E. apply conversion_eq in E.
  pose proof (converter_eq _ _ _ _ _ C) as (-> & _). unfold tconvert_from in *. cbn [tc_type tc_extra tc_source tc_target] in *.  rewrite <- E. cbn [rbind]. rewrite map_length.
  destruct (Nat.eqb (length y) n); [|discriminate]. injection H as <-. rewrite !map_map. reflexivity.
Qed.
Lemma find_mapped (l : Z) new : find (fun x : Z * list num => Z.eqb (fst x) l) (mdata h new) = option_map (fun c => (fst c, map (option_map h) (snd c))) (find (fun x => Z.eqb (fst x) l) new).
Proof. unfold mdata. induction new as [|[kx vx] new IH]; [reflexivity|]. cbn [map find fst]. destruct (Z.eqb kx l); [reflexivity|exact IH]. Qed.
Lemma groups_affine f0 ex n : increasing (fr_times f0) -> forall types targets data meta d m, increasing targets ->
  interp_groups f0 ex n types targets data meta = Ok (d, m) -> interp_groups (mapped h f0) ex n types targets (mdata h data) meta = Ok (mdata h d, m).
Proof.
  intros IS. induction types as [|ty types IH]; intros targets data meta d m IT H.
  - cbn [interp_groups] in *. now injection H as <- <-.
  - cbn [interp_groups] in *. change (fr_times (mapped h f0)) with (fr_times f0). change (type_labels (mapped h f0) ty) with (type_labels f0 ty). change (fr_cols (mapped h f0)) with (fr_cols f0).
    apply FrameFilter.rbind_ok in H as (p & P & H). rewrite P. cbn [rbind]. apply FrameFilter.rbind_ok in H as ([tg sr] & G & H). rewrite G. cbn [rbind].
    apply FrameFilter.rbind_ok in H as (c & C & H). rewrite C. cbn [rbind]. apply FrameFilter.rbind_ok in H as (new & N & H).
    assert (UP : increasing tg /\ increasing sr).
    { destruct p; try (injection G as <- <-; split; assumption). apply FrameFilter.rbind_ok in G as (x & X & G). apply FrameFilter.rbind_ok in G as (y & Y & G). injection G as <- <-.
      apply extended_closed in X as (-> & _). apply extended_closed in Y as (-> & _). split; now apply closed_increasing. }
    destruct UP as (UT & US).
    set (labels := type_labels f0 ty) in *. cbv zeta in *.
    assert (N' : rmap (fun col : Z * list num => if has_label (fst col) labels then rbind (interp_column c n (snd col)) (fun w => Ok (Some (fst col, w))) else Ok None) (fr_data (mapped h f0)) =
      Ok (map (option_map (fun x => (fst x, map (option_map h) (snd x)))) new)).
    { change (fr_data (mapped h f0)) with (mdata h (fr_data f0)). clear H. revert new N. unfold mdata. induction (fr_data f0) as [|[kc vc] cs IHc]; intros new N; [cbn in N; now injection N as <-|].
      cbn [map rmap fst snd] in *. apply FrameFilter.rbind_ok in N as (x & X & N). apply FrameFilter.rbind_ok in N as (xs & XS & N). injection N as <-. rewrite (IHc xs XS).
      destruct (has_label kc labels).
      - apply FrameFilter.rbind_ok in X as (w & W & X). injection X as <-. rewrite (column_affine sr tg p ex c n vc w US UT C W). reflexivity.
      - injection X as <-. reflexivity. }
    rewrite N'. cbn [rbind].
    assert (FM : flat_map (fun o : option (Z * list num) => match o with Some x => [x] | None => [] end) (map (option_map (fun x => (fst x, map (option_map h) (snd x)))) new) =
      mdata h (flat_map (fun o => match o with Some x => [x] | None => [] end) new)).
    { clear. unfold mdata. induction new as [|[x|] new IH]; [reflexivity| |exact IH]. cbn. now rewrite IH. }
    rewrite FM. set (nw := flat_map (fun o : option (Z * list num) => match o with Some x => [x] | None => [] end) new) in *.
    rewrite <- (IH tg _ _ d m UT H). f_equal. unfold mdata at 2 3. rewrite !map_map. apply map_ext. intros col. cbn [fst]. rewrite find_mapped. destruct (find _ nw); reflexivity.
Qed.
Lemma interpolate_affine env shared targets ex f g : increasing (fr_times f) -> increasing targets ->
  interpolate env shared targets ex f = Ok g -> interpolate env shared targets ex (mapped h f) = Ok (mapped h g).
Proof.
  intros IS IT H. unfold interpolate in *. apply FrameFilter.rbind_ok in H as (f0 & G & H). apply FrameFilter.rbind_ok in H as (types & T & H). apply FrameFilter.rbind_ok in H as ([d m] & L & H). injection H as <-.
  assert (W : with_type (mapped h f) = mapped h (with_type f)) by (unfold with_type; change (fr_cols (mapped h f)) with (fr_cols f); destruct (mem _ (fr_cols f)); reflexivity).
  assert (G' : guess_all env shared (mapped h (with_type f)) = Ok (mapped h f0)).
  { unfold guess_all in *. apply FrameFilter.rbind_ok in G as (ms & M & G). injection G as <-. change (fr_meta (mapped h (with_type f))) with (fr_meta (with_type f)). change (fr_cols (mapped h (with_type f))) with (fr_cols (with_type f)). rewrite M. reflexivity. }
  rewrite W, G'. cbn [rbind]. change (type_keys (mapped h f0)) with (type_keys f0). rewrite T. cbn [rbind].
  assert (IS0 : increasing (fr_times f0)).
  { unfold guess_all in G. apply FrameFilter.rbind_ok in G as (ms & M & G). injection G as <-. cbn. unfold with_type. destruct (mem _ (fr_cols f)); exact IS. }
  change (fr_meta (mapped h f0)) with (fr_meta f0). change (fr_cols (mapped h f0)) with (fr_cols f0).
  assert (E : map (fun col : Z * list num => (fst col, repeat None (length targets))) (fr_data (mapped h f0)) = mdata h (map (fun col => (fst col, repeat (@None R) (length targets))) (fr_data f0))).
  { change (fr_data (mapped h f0)) with (mdata h (fr_data f0)). unfold mdata. rewrite !map_map. apply map_ext. intros col. cbn [fst snd]. f_equal. clear; induction (length targets) as [|k IH]; [reflexivity|cbn [repeat map option_map]; f_equal; exact IH]. }
  rewrite E, (groups_affine f0 ex (length targets) IS0 types targets _ _ d m IT L). reflexivity.
Qed.
End Affine.

(** ** Times stay in order *)
Lemma select_increasing m t : increasing t -> increasing (select m t).
Proof.
  unfold increasing. revert t. induction m as [|x m IH]; intros t H; [constructor|]. destruct t as [|y t]; [constructor|]. inversion H as [|? ? Q F]; subst.
  specialize (IH t Q). unfold select in *. cbn [combine filter fst]. destruct x; [|exact IH]. cbn [map snd]. constructor; [exact IH|]. rewrite Forall_forall in *. intros z Z1. apply F. exact (SplitProps.select_in m t z Z1).
Qed.
Lemma range_increasing rule o start end_ ts : (start <= end_)%Z -> to_offset rule = Ok o -> generate_range start end_ o = Ok ts -> increasing ts.
Proof.
  intros L T H. pose proof (rule_anchored rule o T) as K. destruct (Z_lt_le_dec 0 (stride o)) as [P|P].
  - destruct K as [K|K]; [exact (range_sorted o start end_ ts K P H)|]. destruct o as [n| | | |]; try destruct K. destruct (range_ticks n start end_ P) as (l & X & Y & _). rewrite X in H. injection H as <-. exact Y.
  - rewrite (range_stuck o start end_ K P L) in H. discriminate.
Qed.
Lemma last_least (t0 : Z) t : increasing (t0 :: t) -> (t0 <= last (t0 :: t) t0)%Z.
Proof.
  intros H. inversion H as [|? ? Q F]; subst. rewrite Forall_forall in F. destruct t as [|t1 t]; [cbn; lia|]. assert (IN : In (last (t0 :: t1 :: t) t0) (t1 :: t)).
  { change (last (t0 :: t1 :: t) t0) with (last (t1 :: t) t0). destruct (exists_last (l := t1 :: t) ltac:(discriminate)) as (l & x & ->). rewrite last_last. apply in_or_app. right. now left. }
  apply F in IN. lia.
Qed.
Lemma rename_times m f : fr_times (fst (rename m f)) = fr_times f.
Proof.
  revert f. induction m as [|[c r] m IH]; intros f; [reflexivity|]. cbn [rename]. destruct (mem c (fr_cols f)); [|reflexivity]. destruct (meta_dup _); [reflexivity|]. rewrite IH. reflexivity.
Qed.
Lemma interpolate_times env shared targets ex f g : interpolate env shared targets ex f = Ok g -> fr_times g = targets.
Proof.
  unfold interpolate. intros H. apply FrameFilter.rbind_ok in H as (f0 & _ & H). apply FrameFilter.rbind_ok in H as (types & _ & H). apply FrameFilter.rbind_ok in H as ([d m] & _ & H). now injection H as <-.
Qed.
Lemma step_increasing env shared o f g : ordered o -> increasing (fr_times f) -> fdo env shared o f = Ok g -> increasing (fr_times g).
Proof.
  intros O I H. destruct o as [keep rx hn fl|m|n v|msg other|ts ex|rule ex|cols op|ap keep rx hn fl]; cbn [fdo ordered] in *.
  - unfold fr_filter in H. apply FrameFilter.rbind_ok in H as ([[kt|] [km|]] & _ & H); try discriminate. destruct (forallb _ (fr_meta f)); [|discriminate]. cbv zeta in H. destruct (Nat.eqb _ _); [|discriminate]. injection H as <-. cbn [fr_times]. now apply select_increasing.
  - pose proof (rename_times m f) as E. destruct (rename m f) as [g' r]. cbn [fst] in E. apply FrameFilter.rbind_ok in H as (u & _ & H). injection H as <-. now rewrite E.
  - unfold set_meta in H. destruct (String.eqb n ""); [discriminate|]. assert (E : fr_times g = fr_times f); [|now rewrite E].
    assert (P : forall l f', Ok (put_meta n l f') = Ok g -> fr_times g = fr_times f') by (intros l f' K; injection K as <-; unfold put_meta; destruct (mem n (fr_cols f')); reflexivity).
    destruct v as [v|vs]; [now apply P in H|]. destruct (fr_meta f); [now apply P in H|]. destruct (Nat.eqb _ _); [|discriminate]. now apply P in H.
  - apply FrameFilter.rbind_ok in H as (r & R1 & H). destruct r as [g'|]; [|discriminate]. injection H as <-. unfold fr_append, df_append in R1. cbv zeta in R1. destruct (forallb appendable [f; other]); [|discriminate].
    apply FrameFilter.rbind_ok in R1 as (rows & _ & R1).
    assert (E : fr_times g' = joint_times [f; other]) by (destruct msg; try destruct (has_dup _ && _)%bool; try discriminate; now injection R1 as <-). rewrite E. apply sort_times_sorted. apply NoDup_nodup.
  - rewrite (interpolate_times _ _ _ _ _ _ H). exact O.
  - unfold resample in H. destruct (fr_times f) as [|t0 t] eqn:E; [discriminate|]. apply FrameFilter.rbind_ok in H as (o & T & H). apply FrameFilter.rbind_ok in H as (ts & G & H). rewrite (interpolate_times _ _ _ _ _ _ H).
    exact (range_increasing rule o t0 (last (t0 :: t) t0) ts (last_least t0 t I) T G).
  - unfold process_over in H. apply FrameFilter.rbind_ok in H as (ts & _ & H). cbv zeta in H. destruct (filter _ (fr_cols f)); [discriminate|].
    assert (E : fr_times g = fr_times f) by (destruct op as [| |q|]; try discriminate; try destruct (Rle_dec 0 q); try destruct (Rle_dec q 1); try discriminate; now injection H as <-). now rewrite E.
  - unfold relative_to_ref_period_mean in H. apply FrameFilter.rbind_ok in H as (ts & _ & H). apply FrameFilter.rbind_ok in H as (x & _ & H). apply FrameFilter.rbind_ok in H as (ref & _ & H). destruct (existsb _ ts); [discriminate|]. destruct ref; [discriminate|].
    apply FrameFilter.rbind_ok in H as (s & _ & H). apply FrameFilter.rbind_ok in H as (m & _ & H). injection H as <-. exact I.
Qed.

(** ** Work flows *)
Definition step_unit (a b : R) (o : fop) : fop := match o with FAppend msg other => FAppend msg (rescaled a b other) | _ => o end.
Definition step_zero (b : R) (o : fop) : R := match o with FRelative _ _ _ _ _ => 0%R | _ => b end.
Lemma in_unit_cons a b o l : in_unit a b (o :: l) = step_unit a b o :: in_unit a (step_zero b o) l.
Proof. destruct o; reflexivity. Qed.
Lemma zero_point_cons b o l : zero_point b (o :: l) = zero_point (step_zero b o) l.
Proof. destruct o; reflexivity. Qed.
Lemma step_affine env shared a b o f g : keeps_order a o -> ordered o -> increasing (fr_times f) -> fdo env shared o f = Ok g ->
  fdo env shared (step_unit a b o) (rescaled a b f) = Ok (rescaled a (step_zero b o) g).
Proof.
  intros A O I H. unfold rescaled. destruct o as [keep rx hn fl|m|n v|msg other|ts ex|rule ex|cols op|ap keep rx hn fl]; cbn [fdo ordered step_unit step_zero] in *.
  - rewrite filter_mapped. unfold lifted. rewrite H. reflexivity.
  - rewrite rename_mapped. destruct (rename m f) as [g' r]. cbn [fst snd]. apply FrameFilter.rbind_ok in H as (u & R1 & H). injection H as <-. rewrite R1. reflexivity.
  - rewrite set_meta_mapped. unfold lifted. rewrite H. reflexivity.
  - apply FrameFilter.rbind_ok in H as (r & R1 & H). destruct r as [g'|]; [|discriminate]. injection H as <-. unfold rescaled. rewrite (append_affine a b msg f other g' R1). reflexivity.
  - exact (interpolate_affine a b env shared ts ex f g I O H).
  - unfold resample in *. change (fr_times (mapped (fun x => a * x + b)%R f)) with (fr_times f). destruct (fr_times f) as [|t0 t] eqn:E; [discriminate|].
    apply FrameFilter.rbind_ok in H as (o & T & H). apply FrameFilter.rbind_ok in H as (ts & G & H). rewrite T. cbn [rbind]. rewrite G. cbn [rbind].
    apply (interpolate_affine a b env shared ts ex f g); [now rewrite E|exact (range_increasing rule o t0 (last (t0 :: t) t0) ts (last_least t0 t I) T G)|exact H].
  - refine (over_affine a b cols op f g _ H). intros N. destruct op; cbn in A; tauto.
  - exact (relative_affine a b ap keep rx hn fl f g H).
Qed.
Lemma run_affine env shared a l : Forall (keeps_order a) l -> forall b f g, Forall ordered l -> increasing (fr_times f) -> frun env shared l f = Ok g ->
  frun env shared (in_unit a b l) (rescaled a b f) = Ok (rescaled a (zero_point b l) g).
Proof.
  intros A. induction A as [|o l A1 A IH]; intros b f g O I H.
  - cbn [frun in_unit zero_point] in *. now injection H as <-.
  - rewrite in_unit_cons, zero_point_cons. inversion O as [|? ? O1 O2]; subst. cbn [frun] in *. apply FrameFilter.rbind_ok in H as (f1 & D & H).
    rewrite (step_affine env shared a b o f f1 A1 O1 I D). cbn [rbind]. apply IH; auto. exact (step_increasing env shared o f f1 O1 I D).
Qed.

(** ** Back again *)
Lemma back_R a b x : (a <> 0 -> / a * (a * x + b) + - b / a = x)%R.
Proof. intros A. field. exact A. Qed.
Lemma back_frame a b f : (a <> 0)%R -> rescaled (/ a) (- b / a) (rescaled a b f) = f.
Proof.
  intros A. destruct f as [t d c m]. unfold rescaled, mapped. cbn [fr_times fr_data fr_cols fr_meta]. f_equal. rewrite map_map. rewrite <- (map_id d) at 2. apply map_ext. intros [k v]. cbn [fst snd]. f_equal.
  rewrite map_map. rewrite <- (map_id v) at 2. apply map_ext. intros [x|]; [|reflexivity]. cbn [option_map]. f_equal. now apply back_R.
Qed.
Lemma back_zero a b o : (- step_zero b o / a = step_zero (- b / a) o)%R.
Proof. destruct o; cbn [step_zero]; try reflexivity. unfold Rdiv. rewrite Ropp_0, Rmult_0_l. reflexivity. Qed.
Lemma back_flow a l : (a <> 0)%R -> forall b, in_unit (/ a) (- b / a) (in_unit a b l) = l.
Proof.
  intros A. induction l as [|o l IH]; intros b; [reflexivity|]. rewrite in_unit_cons, in_unit_cons. f_equal.
  - destruct o; try reflexivity. cbn [step_unit]. now rewrite back_frame.
  - assert (E : step_zero (- b / a) (step_unit a b o) = (- step_zero b o / a)%R) by (rewrite back_zero; destruct o; reflexivity). rewrite E. apply IH.
Qed.
Lemma flow_ordered a l : Forall ordered l -> forall b, Forall ordered (in_unit a b l).
Proof. intros O. induction O as [|o l H O IH]; intros b; [constructor|]. rewrite in_unit_cons. constructor; [destruct o; exact H|apply IH]. Qed.
Lemma flow_back a l : Forall (keeps_order a) l -> forall b, Forall (keeps_order (/ a)) (in_unit a b l).
Proof.
  intros O. induction O as [|o l H O IH]; intros b; [constructor|]. rewrite in_unit_cons. constructor; [|apply IH]. destruct o; try exact I. destruct op; cbn in *; auto; now apply Rinv_0_lt_compat.
Qed.
Lemma run_fails env shared a b l f : (a <> 0)%R -> Forall (keeps_order a) l -> Forall ordered l -> increasing (fr_times f) ->
  (exists e, frun env shared l f = Err e) -> (exists e, frun env shared (in_unit a b l) (rescaled a b f) = Err e).
Proof.
  intros A K O I (e & H). destruct (frun env shared (in_unit a b l) (rescaled a b f)) as [g|e'] eqn:E; [|eauto]. exfalso.
  pose proof (run_affine env shared (/ a) (in_unit a b l) (flow_back a l K b) (- b / a)%R (rescaled a b f) _ (flow_ordered a l O b) I E) as Q. rewrite back_flow, back_frame in Q by exact A. congruence.
Qed.
