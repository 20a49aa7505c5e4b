(** Lemmas on appending data frames (C50). *)
From Coq Require Import String Ascii List ZArith QArith Qcanon Reals Bool Lia Permutation Sorted Lra.
From Verif Require Import Base Core Filters Frame Spec_Frame FrameFilter FrameSelect FrameEdit FrameAppend Spec_Append.
Import ListNotations.
Local Open Scope string_scope.
Local Open Scope list_scope.

(** ** Values and keys *)
Definition solid (v : mval) : Prop := v <> MNaN /\ v <> MNone.
Lemma same_solid a b : solid a -> solid b -> (mval_same a b = true <-> a = b).
Proof. intros (A & A') (B & B'). rewrite mval_same_iff. unfold missing. split; [intros [E|([E|E] & _)]; congruence|auto]. Qed.
Lemma fill_solid : solid fill.
Proof. split; discriminate. Qed.
Lemma filled_solid v : solid (filled v).
Proof. destruct v; cbn; split; discriminate. Qed.
Lemma joint_solid cols row c : solid (joint_cell cols row c).
Proof. unfold joint_cell. destruct (mem c cols); [apply filled_solid|apply fill_solid]. Qed.
Lemma unfilled_cases v : solid v -> (v = fill /\ unfilled v = MNaN) \/ (v <> fill /\ unfilled v = v).
Proof.
  intros S. unfold unfilled. destruct (mval_same v fill) eqn:E.
  - left. split; auto. now apply same_solid in E; [|auto|apply fill_solid].
  - right. split; auto. intros ->. assert (mval_same fill fill = true) by (apply same_solid; auto using fill_solid). congruence.
Qed.
Lemma unfilled_inj v w : solid v -> solid w -> unfilled v = unfilled w -> v = w.
Proof.
  intros S T E. destruct (unfilled_cases v S) as [(A & B)|(A & B)], (unfilled_cases w T) as [(A' & B')|(A' & B')]; try congruence.
  - exfalso. destruct T as (T & _). congruence.
  - exfalso. destruct S as (S & _). congruence.
Qed.
Lemma unfilled_row_inj a : forall b, Forall solid a -> Forall solid b -> map unfilled a = map unfilled b -> a = b.
Proof.
  induction a as [|x a IH]; intros [|y b] A B E; try discriminate; auto. inversion A; inversion B; subst. cbn [map] in E.
  assert (E1 := f_equal (hd MNaN) E). assert (E2 := f_equal (@tl _) E). cbn [hd tl] in E1, E2. f_equal; [now apply unfilled_inj|now apply IH].
Qed.
Lemma row_same_solid a : forall b, Forall solid a -> Forall solid b -> (row_same a b = true <-> a = b).
Proof.
  induction a as [|x a IH]; intros [|y b] A B; cbn; try (split; [discriminate|congruence]); [tauto|]. inversion A; inversion B; subst.
  rewrite andb_true_iff, same_solid, IH by auto. split; [intros (-> & ->); auto|intros [= -> ->]; auto].
Qed.
Lemma row_same_fun a b : Forall solid a -> Forall solid b -> row_same a b = if row_dec a b then true else false.
Proof.
  intros A B. destruct (row_dec a b) as [->|N]; [now apply row_same_solid|]. destruct (row_same a b) eqn:E; auto. apply row_same_solid in E; auto. contradiction.
Qed.

Lemma alookup_combine cols c : forall row, length row = length cols ->
  alookup c (combine cols row) = if mem c cols then Some (cell cols row c) else None.
Proof.
  induction cols as [|c0 cols IH]; intros [|v row] L; try discriminate; auto. injection L as L. cbn [combine alookup mem existsb cell].
  destruct (String.eqb c c0); cbn [orb]; auto.
Qed.
Lemma cell_in_row cols c : forall row, length row = length cols -> In c cols -> In (cell cols row c) row.
Proof.
  induction cols as [|c0 cols IH]; intros [|v row] L I; try discriminate; [easy|]. injection L as L. cbn [cell].
  destruct (String.eqb_spec c c0) as [->|N]; [now left|]. right. apply IH; auto. destruct I as [E|I]; congruence.
Qed.
Lemma extend_key C cols row : length row = length cols -> ~ In fill row ->
  extend C (combine cols row) = map unfilled (map (joint_cell cols row) C).
Proof.
  intros L NF. unfold extend. rewrite map_map. apply map_ext. intros c. rewrite alookup_combine by auto. unfold joint_cell.
  destruct (mem c cols) eqn:M; [|reflexivity]. apply mem_in in M. pose proof (cell_in_row cols c row L M) as I.
  destruct (cell cols row c) eqn:E; try reflexivity.
  - cbn [plain_value filled]. destruct (unfilled_cases (MNum q)) as [(A & _)|(_ & A)]; [split; discriminate| |auto]. rewrite A in I. contradiction.
Qed.
Lemma extend_own C k : NoDup C -> length k = length C -> Forall solid k -> extend C (combine C (map unfilled k)) = map unfilled k.
Proof.
  intros N L S. unfold extend. apply nth_error_ext. intros i. rewrite !nth_error_map.
  destruct (nth_error C i) as [c|] eqn:E.
  - assert (exists v, nth_error k i = Some v) as (v & V).
    { destruct (nth_error k i) eqn:K; eauto. apply nth_error_None in K. assert (i < length C)%nat by (apply nth_error_Some; congruence). lia. }
    rewrite V. cbn [option_map]. f_equal. rewrite alookup_combine by (now rewrite map_length).
    assert (M : mem c C = true) by (apply mem_in; eapply nth_error_In; eauto). rewrite M.
    assert (CE : cell C (map unfilled k) c = unfilled v).
    { apply in_cell; auto. apply (nth_error_In _ i). clear M N S L. revert k i E V. induction C as [|c0 C IH]; intros [|v0 k] [|i] E V; try discriminate; cbn in *; [congruence|eauto]. }
    rewrite CE. rewrite Forall_forall in S. specialize (S v (nth_error_In _ _ V)).
    destruct (unfilled_cases v S) as [(_ & U)|(_ & U)]; rewrite U; auto. destruct v; auto. now destruct S.
  - apply nth_error_None in E. cbn [option_map]. assert (nth_error k i = None) as -> by (apply nth_error_None; lia). reflexivity.
Qed.

(** ** Points of rows *)
Definition olist {A} (o : option A) : list A := match o with Some x => [x] | None => [] end.
Definition row_values (k : list mval) (t : Z) (r : jrow) : list R :=
  if row_dec (map unfilled (fst r)) k then olist (value_at t (snd r)) else [].

Lemma values_app C a b k t : values_at C (a ++ b) k t = values_at C a k t ++ values_at C b k t.
Proof. unfold values_at. now rewrite filter_app, map_app. Qed.
Lemma values_flat {A} C (g : A -> list point) k t l : values_at C (flat_map g l) k t = flat_map (fun x => values_at C (g x) k t) l.
Proof. induction l as [|a l IH]; cbn [flat_map]; auto. now rewrite values_app, IH. Qed.
Lemma values_series C md k t : forall times vs, NoDup times -> length vs = length times ->
  values_at C (series_points md times vs) k t = if row_dec (extend C md) k then olist (value_at t (combine times vs)) else [].
Proof.
  unfold values_at. intros times vs N. revert vs. induction times as [|t0 times IH]; intros [|v vs] L; try discriminate.
  - cbn. now destruct (row_dec _ _).
  - injection L as L. inversion N as [|? ? A B]; subst. cbn [series_points combine value_at]. specialize (IH B vs L).
    destruct (row_dec (extend C md) k) as [E|E].
    + destruct v as [x|]; cbn [filter fst snd].
      * destruct (row_dec (extend C md) k) as [E1|E1]; [|contradiction]. rewrite (Z.eqb_sym t t0). destruct (Z.eqb_spec t0 t) as [->|NE].
        -- cbn [map snd olist]. f_equal. rewrite IH. assert (V : forall vs, value_at t (combine times vs) = None).
           { clear -A. induction times as [|s times IH]; intros [|w vs]; cbn; auto. destruct (Z.eqb_spec t s) as [->|]; [exfalso; apply A; now left|]. apply IH. intros I. apply A. now right. }
           now rewrite V.
        -- exact IH.
      * rewrite (Z.eqb_sym t t0). destruct (Z.eqb_spec t0 t) as [->|NE]; [|exact IH]. rewrite IH.
        assert (V : forall vs, value_at t (combine times vs) = None).
           { clear -A. induction times as [|s times IH]; intros [|w vs]; cbn; auto. destruct (Z.eqb_spec t s) as [->|]; [exfalso; apply A; now left|]. apply IH. intros I. apply A. now right. }
        now rewrite V.
    + destruct v as [x|]; cbn [filter fst snd]; [destruct (row_dec (extend C md) k); [contradiction|]|]; exact IH.
Qed.
Lemma value_absent t : forall times vs, ~ In t times -> value_at t (combine times vs) = None.
Proof.
  induction times as [|s times IH]; intros [|w vs] A; cbn; auto. destruct (Z.eqb_spec t s) as [->|]; [exfalso; apply A; now left|]. apply IH. intros I. apply A. now right.
Qed.
Lemma value_map t (m : Z -> num) : forall times, (~ In t times -> m t = None) -> value_at t (combine times (map m times)) = m t.
Proof.
  intros times H. destruct (in_dec Z.eq_dec t times) as [I|I]; [|rewrite H by auto; now apply value_absent]. clear H.
  induction times as [|s times IH]; [easy|]. cbn. destruct (Z.eqb_spec t s) as [->|N]; auto. apply IH. destruct I; congruence.
Qed.

Lemma wide_series times cols z : meta_dup (of_series times cols z) = false ->
  wide (of_series times cols z) = Ok (map (fun x => (snd x, snd (fst x))) z).
Proof.
  intros H. unfold wide. rewrite H. f_equal. unfold of_series. cbn [fr_data fr_meta]. induction z as [|x z IH]; auto. cbn [map combine]. rewrite IH; auto.
  unfold meta_dup in *. cbn [of_series fr_meta map has_dup] in H. now apply orb_false_iff in H.
Qed.

Lemma joint_rows_ok C f rows : aligned f -> joint_rows C f = Ok rows -> appendable f = true -> no_fill f ->
  (forall k t, values_at C (points f) k t = flat_map (row_values k t) rows) /\
  Forall (fun r => length (fst r) = length C /\ Forall solid (fst r) /\ map fst (snd r) = fr_times f) rows /\ meta_dup f = false /\ rows <> [].
Proof.
  intros AL H AP NF. unfold joint_rows in H. destruct (existsb _ C); [discriminate|]. apply rbind_ok in H as (ts & W & E). injection E as <-.
  assert (D : meta_dup f = false) by (unfold wide in W; destruct (meta_dup f); [discriminate|reflexivity]).
  destruct (aligned_series f AL) as (z & Z). pose proof (al_unique _ AL) as U. pose proof (al_values _ AL) as VL. pose proof (al_rows _ AL) as RL.
  pose proof Z as Z'. rewrite Z' in W, D. rewrite wide_series in W by auto. injection W as <-. rewrite <- Z' in D.
  unfold appendable in AP. apply andb_true_iff in AP as (AP & NM). apply andb_true_iff in AP as (ND & _).
  assert (NT : NoDup (fr_times f)).
  { apply negb_true_iff in ND. unfold has_time_dup in ND. apply negb_false_iff, Nat.eqb_eq in ND. clear -ND. induction (fr_times f) as [|t l IH]; [constructor|].
    cbn [nodup length] in ND. destruct (in_dec Z.eq_dec t l) as [I|I].
    - exfalso. assert (length (nodup Z.eq_dec l) <= length l)%nat; [|cbn in ND; lia]. clear. induction l as [|a l IH]; cbn; auto. destruct (in_dec Z.eq_dec a l); cbn; lia.
    - constructor; [exact I|apply IH; cbn in ND; lia]. }
  rewrite Z' in U, VL, RL, NM. unfold of_series in U, VL, RL, NM. cbn [fr_data fr_meta fr_times fr_cols] in U, VL, RL, NM. rewrite labels_data in U.
  assert (F : forall x, In x z -> length (snd (fst x)) = length (fr_times f) /\ length (snd x) = length (fr_cols f) /\ ~ In fill (snd x)).
  { intros x X. rewrite Forall_forall in VL, RL. split; [exact (VL _ (in_map s_data _ _ X))|]. split; [exact (RL _ (in_map s_meta _ _ X))|].
    apply (NF (s_label x) (snd x)). rewrite Z'. cbn [fr_meta of_series]. exact (in_map s_meta _ _ X). }
  split; [|split; [|split; auto]].
  - intros k t. assert (PS : points f = flat_map (spoints (fr_times f) (fr_cols f)) z) by (etransitivity; [exact (f_equal points Z')|now apply points_series]).
    rewrite PS, values_flat, flat_map_map, flat_map_map. apply flat_map_ext_in. intros x X. destruct (F x X) as (A & B & D').
    unfold spoints. rewrite values_series by auto. unfold row_values. cbn [fst snd]. rewrite <- extend_key by auto. reflexivity.
  - apply Forall_forall. intros r R'. rewrite map_map in R'. apply in_map_iff in R' as (x & <- & X). destruct (F x X) as (A & _ & _). cbn [fst snd]. split; [now rewrite map_length|]. split.
    + apply Forall_forall. intros v V. apply in_map_iff in V as (c & <- & _). apply joint_solid.
    + clear -A. revert A. generalize (snd (fst x)). induction (fr_times f) as [|t l IH]; intros [|v vs] A; try discriminate; auto. injection A as A. cbn. now rewrite IH.
  - rewrite map_map. intros E. apply map_eq_nil in E. subst z. discriminate.
Qed.

Lemma rmap_ok_cons {A B} (f : A -> res B) a l bs : rmap f (a :: l) = Ok bs <-> exists b bs', bs = b :: bs' /\ f a = Ok b /\ rmap f l = Ok bs'.
Proof.
  cbn [rmap]. destruct (f a) as [b|e]; cbn [rbind]; [|split; [discriminate|intros (b & bs' & _ & E & _); discriminate]].
  destruct (rmap f l) as [bs'|e]; cbn [rbind]; (split; [try discriminate; intros [= <-]; eauto|intros (b0 & bs0 & -> & [= <-] & E); congruence]).
Qed.
Lemma all_rows_ok C fs rows : rmap (joint_rows C) fs = Ok rows -> Forall aligned fs -> forallb appendable fs = true -> Forall no_fill fs ->
  (forall k t, values_at C (flat_map points fs) k t = flat_map (row_values k t) (concat rows)) /\
  Forall (fun r => length (fst r) = length C /\ Forall solid (fst r) /\ exists f, In f fs /\ map fst (snd r) = fr_times f) (concat rows) /\
  Forall (fun f => meta_dup f = false) fs.
Proof.
  revert rows. induction fs as [|f fs IH]; intros rows H AL AP NF.
  - cbn in H. injection H as <-. repeat split; constructor.
  - apply rmap_ok_cons in H as (r & rs & -> & H & HS). inversion AL; inversion NF; subst. cbn [forallb] in AP. apply andb_true_iff in AP as (AP & APS).
    destruct (IH rs HS) as (I1 & I2 & I3); auto. destruct (joint_rows_ok C f r) as (J1 & J2 & J3 & _); auto. split; [|split].
    + intros k t. cbn [flat_map concat]. rewrite flat_map_app, <- J1, <- I1. apply values_app.
    + cbn [concat]. apply Forall_app. split.
      * eapply Forall_impl; [|exact J2]. intros a (X & Y & Z). repeat split; auto. exists f. split; [now left|auto].
      * eapply Forall_impl; [|exact I2]. intros a (X & Y & f' & Z & T). repeat split; auto. exists f'. split; [now right|auto].
    + constructor; auto.
Qed.

(** ** Groups *)
Lemma distinct_in rows k : Forall (Forall solid) rows -> (In k (distinct_keys rows) <-> In k rows).
Proof.
  induction rows as [|r rows IH]; intros S; cbn; [tauto|]. inversion S as [|? ? A B]; subst. rewrite filter_In, IH by auto. split; [intros [E|(I & _)]; auto|].
  intros [E|I]; auto. destruct (row_dec r k) as [E|E]; auto. right. split; auto. rewrite row_same_fun; auto; [|rewrite Forall_forall in B; auto]. destruct (row_dec r k); [contradiction|reflexivity].
Qed.
Lemma distinct_nodup rows : Forall (Forall solid) rows -> NoDup (distinct_keys rows).
Proof.
  induction rows as [|r rows IH]; intros S; cbn; constructor; inversion S as [|? ? A B]; subst.
  - rewrite filter_In. intros (_ & H). rewrite (proj2 (row_same_solid r r A A) eq_refl) in H. discriminate.
  - apply NoDup_filter. auto.
Qed.
Lemma present_app a b : present (a ++ b) = present a ++ present b.
Proof. induction a as [|[x|] a IH]; cbn; auto. now rewrite IH. Qed.
Lemma group_values rows k t : Forall (fun r : jrow => Forall solid (fst r)) rows -> Forall solid k ->
  flat_map (row_values (map unfilled k) t) rows = present (map (fun r => value_at t (snd r)) (group rows k)).
Proof.
  intros S K. induction rows as [|r rows IH]; [reflexivity|]. inversion S as [|? ? A B]; subst. cbn [flat_map group filter].
  rewrite row_same_fun by auto. rewrite IH by auto. unfold row_values. destruct (row_dec k (fst r)) as [E|E].
  - rewrite <- E. destruct (row_dec (map unfilled k) (map unfilled k)); [|congruence]. cbn [map]. fold (group rows k). destruct (value_at t (snd r)); reflexivity.
  - destruct (row_dec (map unfilled (fst r)) (map unfilled k)) as [E'|E']; [|reflexivity]. apply unfilled_row_inj in E'; auto. congruence.
Qed.
Lemma no_values rows k t : (forall r, In r rows -> map unfilled (fst r) <> k) -> flat_map (row_values k t) rows = [].
Proof.
  induction rows as [|r rows IH]; intros H; auto. cbn [flat_map]. rewrite IH by (intros r' R'; apply H; now right).
  unfold row_values. destruct (row_dec _ _) as [E|E]; [|reflexivity]. exfalso. apply (H r); auto. now left.
Qed.
Lemma keys_values keys k (F : list mval -> num) : NoDup keys -> Forall (Forall solid) keys ->
  flat_map (fun key => if row_dec (map unfilled key) k then olist (F key) else []) keys =
  match find (fun key => if row_dec (map unfilled key) k then true else false) keys with Some key => olist (F key) | None => [] end.
Proof.
  induction keys as [|a keys IH]; intros N S; auto. inversion N as [|? ? A B]; inversion S as [|? ? A' B']; subst. cbn [flat_map find].
  destruct (row_dec (map unfilled a) k) as [E|E]; [|now apply IH].
  assert (X : flat_map (fun key => if row_dec (map unfilled key) k then olist (F key) else []) keys = []); [|rewrite X; apply app_nil_r].
  clear IH. assert (G : forall b, In b keys -> map unfilled b <> k).
  { intros b I E'. apply A. rewrite Forall_forall in B'. assert (a = b) by (apply unfilled_row_inj; auto; congruence). now subst. }
  clear -G. induction keys as [|b keys IH]; auto. cbn [flat_map]. rewrite IH by (intros c C; apply G; now right).
  destruct (row_dec (map unfilled b) k) as [E|E]; auto. exfalso. apply (G b); auto. now left.
Qed.

(** ** Sorting *)
Lemma insert_time_in t l x : In x (insert_time t l) <-> x = t \/ In x l.
Proof. induction l as [|y l IH]; cbn; [intuition|]. destruct (Z.leb t y); cbn; [intuition|]. rewrite IH. intuition. Qed.
Lemma sort_times_in l x : In x (sort_times l) <-> In x l.
Proof. induction l as [|y l IH]; cbn; [tauto|]. rewrite insert_time_in, IH. intuition. Qed.
Lemma sort_times_sorted l : NoDup l -> StronglySorted Z.lt (sort_times l).
Proof.
  induction l as [|y l IH]; intros N; cbn; [constructor|]. inversion N as [|? ? A B]; subst. specialize (IH B).
  assert (A' : ~ In y (sort_times l)) by (now rewrite sort_times_in). clear -IH A'. induction IH as [|x s S IH F]; cbn; [repeat constructor|].
  destruct (Z.leb_spec y x) as [L|L].
  - constructor; [now constructor|]. assert (y <> x) by (intros ->; apply A'; now left). constructor; [lia|]. eapply Forall_impl; [|exact F]. intros; cbn in *; lia.
  - constructor; [apply IH; intros I; apply A'; now right|]. apply Forall_forall. intros z Z. apply insert_time_in in Z as [->|Z]; [auto|]. rewrite Forall_forall in F. auto.
Qed.
Lemma sorted_ext (a b : list Z) : StronglySorted Z.lt a -> StronglySorted Z.lt b -> (forall x, In x a <-> In x b) -> a = b.
Proof.
  revert b. induction a as [|x a IH]; intros [|y b] A B H; auto; [exfalso; apply (proj2 (H y)); now left|exfalso; apply (proj1 (H x)); now left|].
  inversion A as [|? ? A1 A2]; inversion B as [|? ? B1 B2]; subst. rewrite Forall_forall in A2, B2.
  assert (x = y).
  { destruct (proj1 (H x) (or_introl eq_refl)) as [E|E]; auto. destruct (proj2 (H y) (or_introl eq_refl)) as [E'|E']; auto. apply B2 in E. apply A2 in E'. lia. }
  subst y. f_equal. apply IH; auto. intros z. split; intros I.
  - destruct (proj1 (H z) (or_intror I)) as [<-|]; auto. apply A2 in I. lia.
  - destruct (proj2 (H z) (or_intror I)) as [<-|]; auto. apply B2 in I. lia.
Qed.
Lemma sorted_nodup l : StronglySorted Z.lt l -> NoDup l.
Proof. induction 1 as [|x l S IH F]; constructor; auto. rewrite Forall_forall in F. intros I. apply F in I. lia. Qed.

Lemma joint_times_in fs t : In t (joint_times fs) <-> exists f, In f fs /\ In t (fr_times f).
Proof. unfold joint_times. rewrite sort_times_in, nodup_In, in_flat_map. tauto. Qed.
Lemma joint_times_sorted fs : StronglySorted Z.lt (joint_times fs).
Proof. apply sort_times_sorted, NoDup_nodup. Qed.
Lemma joint_cols_perm fs : fs <> [] -> Forall aligned fs -> Permutation (nodup string_dec (flat_map fr_cols fs)) (joint_cols fs).
Proof.
  intros N AL. apply sorted_perm; [apply NoDup_nodup|]. destruct fs as [|f fs]; [congruence|]. inversion AL as [|? ? A B]; subst. intros c C. apply nodup_In, in_flat_map. exists f. split; [now left|]. now apply (al_required _ A).
Qed.
Lemma joint_cols_in fs c : fs <> [] -> Forall aligned fs -> (In c (joint_cols fs) <-> exists f, In f fs /\ In c (fr_cols f)).
Proof.
  intros N AL. pose proof (joint_cols_perm fs N AL) as P. split.
  - intros I. apply (Permutation_in _ (Permutation_sym P)) in I. apply nodup_In, in_flat_map in I. auto.
  - intros I. apply (Permutation_in _ P). apply nodup_In, in_flat_map. auto.
Qed.
Lemma joint_cols_nodup fs : fs <> [] -> Forall aligned fs -> NoDup (joint_cols fs).
Proof. intros N AL. eapply Permutation_NoDup; [now apply joint_cols_perm|apply NoDup_nodup]. Qed.

(** ** The result *)
Definition joined_frame (fs : list frame) (rows : list jrow) : frame :=
  let times := joint_times fs in
  let keys := distinct_keys (map fst rows) in
  let labels := map Z.of_nat (seq 0 (length keys)) in
  mkFrame times
    (combine labels (map (fun k => map (fun t => mean_num (map (fun r => value_at t (snd r)) (group rows k))) times) keys))
    (joint_cols fs) (combine labels (map (map unfilled) keys)).
Definition joined_series (times : list Z) (rows : list jrow) (p : Z * list mval) : series :=
  (fst p, map (fun t => mean_num (map (fun r => value_at t (snd r)) (group rows (snd p)))) times, map unfilled (snd p)).
Lemma joined_is fs rows : joined_frame fs rows =
  of_series (joint_times fs) (joint_cols fs) (map (joined_series (joint_times fs) rows) (combine (map Z.of_nat (seq 0 (length (distinct_keys (map fst rows))))) (distinct_keys (map fst rows)))).
Proof.
  unfold joined_frame, of_series. generalize (distinct_keys (map fst rows)) as keys. intros keys.
  generalize (map Z.of_nat (seq 0 (length keys))) as ls. intros ls. rewrite !map_map. f_equal.
  - revert ls. induction keys as [|k keys IH]; intros [|l ls]; cbn [map combine]; auto. now rewrite IH.
  - revert ls. induction keys as [|k keys IH]; intros [|l ls]; cbn [map combine]; auto. now rewrite IH.
Qed.
Lemma combine_fst {A B} (a : list A) (b : list B) : length a = length b -> map fst (combine a b) = a.
Proof. revert b. induction a as [|x a IH]; intros [|y b] L; try discriminate; auto. injection L as L. cbn. now rewrite IH. Qed.
Lemma combine_snd {A B} (a : list A) (b : list B) : length a = length b -> map snd (combine a b) = b.
Proof. revert b. induction a as [|x a IH]; intros [|y b] L; try discriminate; auto. injection L as L. cbn. now rewrite IH. Qed.
Lemma labels_nodup n : NoDup (map Z.of_nat (seq 0 n)).
Proof. apply FinFun.Injective_map_NoDup; [intros a b; apply Nat2Z.inj|apply seq_NoDup]. Qed.
Lemma flat_map_snd {A B C} (g : B -> list C) (a : list A) (b : list B) : length a = length b -> flat_map (fun p => g (snd p)) (combine a b) = flat_map g b.
Proof. revert b. induction a as [|x a IH]; intros [|y b] L; try discriminate; auto. injection L as L. cbn. now rewrite IH. Qed.

Lemma append_cases msg fs res : df_append msg fs = Ok res -> fs <> [] /\ forallb appendable fs = true /\
  exists rows, rmap (joint_rows (joint_cols fs)) fs = Ok rows /\
    let dup := has_dup (map fst (concat rows)) && contributions (joint_times fs) (concat rows) in
    res = match msg with DReturn => if dup then Inspect (concat rows) else Joined (joined_frame fs (concat rows)) | _ => Joined (joined_frame fs (concat rows)) end /\
    (msg = DOther -> dup = false).
Proof.
  unfold df_append. destruct fs as [|f fs]; [discriminate|]. destruct (forallb appendable (f :: fs)) eqn:A; [|discriminate]. intros H.
  apply rbind_ok in H as (rows & R' & H). split; [discriminate|]. split; [reflexivity|]. exists rows. split; [exact R'|].
  destruct msg; cbv zeta in H |- *; try (injection H as <-; split; [reflexivity|discriminate]).
  match type of H with (if ?b then _ else _) = _ => change b with (has_dup (map fst (concat rows)) && contributions (joint_times (f :: fs)) (concat rows)) in H end.
  destruct (has_dup _ && contributions _ _); [discriminate|]. injection H as <-. split; reflexivity.
Qed.

Lemma joined_values fs rows : fs <> [] -> Forall aligned fs ->
  Forall (fun r => length (fst r) = length (joint_cols fs) /\ Forall solid (fst r) /\ exists f, In f fs /\ map fst (snd r) = fr_times f) rows ->
  aligned (joined_frame fs rows) /\ unique_rows (map snd (fr_meta (joined_frame fs rows))) /\
  forall k t, values_at (joint_cols fs) (points (joined_frame fs rows)) k t =
    match flat_map (row_values k t) rows with [] => [] | xs => [mean xs] end.
Proof.
  intros NE AL RW. set (C := joint_cols fs). set (keys := distinct_keys (map fst rows)).
  assert (S : Forall (Forall solid) (map fst rows)) by (apply Forall_map; eapply Forall_impl; [|exact RW]; intros a H; apply H).
  assert (SR : Forall (fun r : jrow => Forall solid (fst r)) rows) by (eapply Forall_impl; [|exact RW]; intros a H; apply H).
  assert (KS : Forall (Forall solid) keys) by (apply Forall_forall; intros k K; apply (proj1 (distinct_in _ _ S)) in K; exact (proj1 (Forall_forall _ _) S k K)).
  assert (KN : NoDup keys) by (now apply distinct_nodup).
  assert (KL : Forall (fun k => length k = length C) keys).
  { apply Forall_forall. intros k K. apply (proj1 (distinct_in _ _ S)) in K. apply in_map_iff in K as (r & <- & K). rewrite Forall_forall in RW. apply (RW r K). }
  assert (LN : length (map Z.of_nat (seq 0 (length keys))) = length keys) by (now rewrite map_length, seq_length).
  assert (CN : NoDup C) by (now apply joint_cols_nodup).
  rewrite joined_is. fold C keys. set (z := map _ (combine _ keys)).
  assert (LB : map s_label z = map Z.of_nat (seq 0 (length keys))).
  { unfold z. rewrite map_map. unfold s_label, joined_series. cbn [fst]. rewrite <- (combine_fst (map Z.of_nat (seq 0 (length keys))) keys) at 2 by exact LN. reflexivity. }
  assert (UN : NoDup (map s_label z)) by (rewrite LB; apply labels_nodup).
  split; [|split].
  - split; cbn [of_series fr_data fr_meta fr_times fr_cols].
    + now rewrite labels_data, labels_meta.
    + now rewrite labels_data.
    + apply Forall_map, Forall_forall. intros x X. unfold z in X. apply in_map_iff in X as (p & <- & P). unfold s_data, joined_series. cbn [fst snd]. now rewrite map_length.
    + apply Forall_map, Forall_forall. intros x X. unfold z in X. apply in_map_iff in X as ([l k] & <- & P). unfold s_meta, joined_series. cbn [fst snd]. rewrite map_length.
      apply in_combine_r in P. rewrite Forall_forall in KL. auto.
    + exact CN.
    + intros c I. unfold C. apply joint_cols_in; auto. destruct fs as [|f fs0]; [congruence|]. exists f. split; [now left|]. inversion AL as [|? ? A B]; subst. now apply (al_required _ A).
  - cbn [of_series fr_meta]. rewrite map_map. unfold z. rewrite map_map. unfold s_meta, joined_series. cbn [snd].
    rewrite <- (map_map snd (map unfilled)). rewrite combine_snd by exact LN. intros i j a b A B SM.
    rewrite nth_error_map in A, B. destruct (nth_error keys i) as [ka|] eqn:KA; [|discriminate]. destruct (nth_error keys j) as [kb|] eqn:KB; [|discriminate].
    cbn [option_map] in A, B. apply (f_equal (fun o => match o with Some x => x | None => a end)) in A. apply (f_equal (fun o => match o with Some x => x | None => b end)) in B. cbn in A, B.
    rewrite Forall_forall in KS. pose proof (KS ka (nth_error_In _ _ KA)) as SA. pose proof (KS kb (nth_error_In _ _ KB)) as SB.
    assert (E : ka = kb).
    { apply unfilled_row_inj; auto. rewrite A, B. subst a b. revert SM SA SB. clear. unfold same_meta. revert kb. induction ka as [|x ka IH]; intros [|y kb] SM SA SB; inversion SM as [|? ? ? ? P Q]; subst; auto.
      inversion SA; inversion SB; subst. cbn [map]. f_equal; [|now apply IH]. destruct P as [P|(P & P')]; auto.
      destruct (unfilled_cases x) as [(_ & U)|(_ & U)], (unfilled_cases y) as [(_ & U')|(_ & U')]; auto; unfold missing, solid in *; rewrite U, U' in *; destruct P, P'; try congruence; intuition congruence. }
    subst kb. rewrite NoDup_nth_error in KN. apply KN; [apply nth_error_Some; congruence|congruence].
  - intros k t. rewrite points_series by exact UN. rewrite values_flat. unfold z. rewrite flat_map_map.
    transitivity (flat_map (fun p : Z * list mval => (fun key => if row_dec (map unfilled key) k then olist (mean_num (map (fun r => value_at t (snd r)) (group rows key))) else []) (snd p))
       (combine (map Z.of_nat (seq 0 (length keys))) keys)).
    + apply flat_map_ext_in. intros [l key] P. apply in_combine_r in P. rewrite Forall_forall in KL, KS. unfold spoints, joined_series. cbn [fst snd].
      rewrite values_series; [|apply sorted_nodup, joint_times_sorted|now rewrite map_length].
      rewrite extend_own by auto. destruct (row_dec (map unfilled key) k); auto. f_equal. apply value_map. intros NT.
      assert (X : forall rs, (forall r, In r rs -> In r rows) -> present (map (fun r => value_at t (snd r)) rs) = []); [|unfold mean_num; rewrite X; auto; intros r G; unfold group in G; apply filter_In in G; apply G].
      induction rs as [|r rs IH]; intros I; auto. cbn [map present]. assert (V : value_at t (snd r) = None); [|rewrite V; apply IH; intros r' R'; apply I; now right].
      rewrite Forall_forall in RW. destruct (RW r (I r (or_introl eq_refl))) as (_ & _ & f & Ff & E). assert (~ In t (map fst (snd r))) as NI by (rewrite E; intros Q; apply NT, joint_times_in; eauto).
      clear -NI. induction (snd r) as [|[s v] l IH]; auto. cbn in *. destruct (Z.eqb_spec t s) as [->|]; [exfalso; auto|]. apply IH. auto.
    + etransitivity; [apply (flat_map_snd (fun key => if row_dec (map unfilled key) k then olist (mean_num (map (fun r : jrow => value_at t (snd r)) (group rows key))) else [])); exact LN|].
      rewrite (keys_values keys k (fun key => mean_num (map (fun r : jrow => value_at t (snd r)) (group rows key)))) by auto. destruct (find _ keys) as [key|] eqn:FD.
      * apply find_some in FD as (I & E). destruct (row_dec (map unfilled key) k) as [E'|]; [|discriminate]. subst k. rewrite Forall_forall in KS. rewrite group_values by auto.
        unfold mean_num. destruct (present _) as [|x xs]; reflexivity.
      * rewrite no_values; auto. intros r R' E. assert (In (fst r) keys) as I by (unfold keys; apply (proj2 (distinct_in _ _ S)); now apply in_map).
        pose proof (find_none _ _ FD _ I) as X. cbn beta in X. destruct (row_dec (map unfilled (fst r)) k); [discriminate|contradiction].
Qed.

Lemma append_points msg fs g : Forall aligned fs -> Forall no_fill fs -> df_append msg fs = Ok (Joined g) ->
  aligned g /\ unique_rows (map snd (fr_meta g)) /\ StronglySorted Z.lt (fr_times g) /\
  (forall t, In t (fr_times g) <-> exists f, In f fs /\ In t (fr_times f)) /\
  (forall c, In c (fr_cols g) <-> exists f, In f fs /\ In c (fr_cols f)) /\
  forall k t, values_at (fr_cols g) (points g) k t =
    match values_at (fr_cols g) (flat_map points fs) k t with [] => [] | xs => [mean xs] end.
Proof.
  intros AL NF H. apply append_cases in H as (NE & AP & rows & RW & E & _). assert (G : g = joined_frame fs (concat rows)).
  { destruct msg; try (now injection E). destruct (_ && _); [discriminate|now injection E]. } subst g. clear E.
  destruct (all_rows_ok _ _ _ RW AL AP NF) as (V & F & _). destruct (joined_values fs (concat rows) NE AL F) as (A & U & J).
  split; auto. split; auto. split; [apply joint_times_sorted|]. split; [apply joint_times_in|]. split; [intros c; now apply joint_cols_in|].
  intros k t. cbn [joined_frame fr_cols]. rewrite V. apply J.
Qed.

(** ** When appending succeeds *)
Lemma unique_iff f : meta_dup f = false <-> unique_rows (map snd (fr_meta f)).
Proof. apply has_dup_iff. Qed.
Lemma appendable_iff f : appendable f = true <-> NoDup (fr_times f) /\ fr_times f <> [] /\ fr_meta f <> [].
Proof.
  unfold appendable. rewrite !andb_true_iff, !negb_true_iff. unfold has_time_dup. rewrite negb_false_iff, !Nat.eqb_eq, !Nat.eqb_neq.
  assert (E : length (nodup Z.eq_dec (fr_times f)) = length (fr_times f) <-> NoDup (fr_times f)).
  { split; [|intros N; now rewrite nodup_fixed_point]. intros E. apply NoDup_incl_NoDup with (l := nodup Z.eq_dec (fr_times f)); [apply NoDup_nodup|lia|]. intros x X. apply nodup_In in X. exact X. }
  rewrite E. split; [intros ((A & B) & C)|intros (A & B & C)]; (repeat split; auto); try (intros Q; apply length_zero_iff_nil in Q; auto); intros Q; rewrite Q in *; cbn in *; lia.
Qed.
Lemma append_accepts fs : fs <> [] -> Forall aligned fs -> Forall (fun f => NoDup (fr_times f) /\ fr_times f <> [] /\ fr_meta f <> []) fs ->
  Forall (fun f => ~ In ""%string (fr_cols f)) fs ->
  ((exists g, df_append DFalse fs = Ok (Joined g)) <-> Forall (fun f => unique_rows (map snd (fr_meta f))) fs).
Proof.
  intros NE AL AP NC. assert (AP' : forallb appendable fs = true) by (apply forallb_forall; intros f F; apply appendable_iff; rewrite Forall_forall in AP; auto).
  assert (NJ : ~ In ""%string (joint_cols fs)) by (rewrite joint_cols_in by auto; intros (f & F & I); rewrite Forall_forall in NC; exact (NC f F I)).
  assert (JR : forall f, joint_rows (joint_cols fs) f = (rbind (wide f) (fun ts => Ok (map (fun r => (map (joint_cell (fr_cols f) (fst r)) (joint_cols fs), combine (fr_times f) (snd r))) ts)))).
  { intros f. unfold joint_rows. assert (existsb (fun c => String.eqb c "" && negb (mem c (fr_cols f))) (joint_cols fs) = false) as ->; auto.
    apply not_true_is_false. intros E. apply existsb_exists in E as (c & I & E). apply andb_true_iff in E as (E & _). apply String.eqb_eq in E. subst c. contradiction. }
  assert (X : forall l, (exists rows, rmap (joint_rows (joint_cols fs)) l = Ok rows) <-> Forall (fun f => unique_rows (map snd (fr_meta f))) l).
  { induction l as [|f l IH]; [split; [constructor|exists []; reflexivity]|]. split.
    - intros (rows & H). apply rmap_ok_cons in H as (b & bs & -> & H & HS). constructor; [|apply IH; eauto]. rewrite JR in H. apply rbind_ok in H as (ts & W & _). unfold wide in W.
      apply unique_iff. destruct (meta_dup f); [discriminate|reflexivity].
    - intros H. inversion H as [|? ? A B]; subst. apply IH in B as (bs & B). apply unique_iff in A. eexists. apply rmap_ok_cons. do 2 eexists. split; [reflexivity|]. split; [|exact B].
      rewrite JR. unfold wide. rewrite A. reflexivity. }
  rewrite <- X. split.
  - intros (g & H). apply append_cases in H as (_ & _ & rows & H & _). eauto.
  - intros (rows & H). unfold df_append. destruct fs as [|f fs]; [congruence|]. rewrite AP'. cbv zeta. rewrite H. cbn [rbind]. eauto.
Qed.

(** ** Duplicates *)
Lemma present_length l : (length (present l) <= length l)%nat.
Proof. induction l as [|[x|] l IH]; cbn; lia. Qed.
Lemma group_dup rows k : Forall (fun r : jrow => Forall solid (fst r)) rows -> Forall solid k -> (1 < length (group rows k))%nat -> has_dup (map fst rows) = true.
Proof.
  intros S K. induction rows as [|r rows IH]; intros L; [cbn in L; lia|]. inversion S as [|? ? A B]; subst. cbn [group filter] in L. rewrite row_same_fun in L by auto. cbn [map has_dup].
  apply orb_true_iff. destruct (row_dec k (fst r)) as [E|E]; [|right; apply IH; auto]. left. subst k. cbn [length] in L. fold (group rows (fst r)) in L.
  destruct (group rows (fst r)) as [|r1 rs] eqn:G; [cbn in L; lia|]. apply existsb_exists. assert (In r1 (group rows (fst r))) as I by (rewrite G; now left). unfold group in I. apply filter_In in I as (I & SM).
  exists (fst r1). split; [now apply in_map|auto].
Qed.
Lemma append_duplicates fs g : Forall aligned fs -> Forall no_fill fs -> df_append DFalse fs = Ok (Joined g) ->
  (df_append DOther fs = Err EValueError <-> exists k t, (1 < length (values_at (fr_cols g) (flat_map points fs) k t))%nat) /\
  (df_append DOther fs = Ok (Joined g) <-> forall k t, (length (values_at (fr_cols g) (flat_map points fs) k t) <= 1)%nat) /\
  df_append DWarn fs = Ok (Joined g) /\
  (df_append DReturn fs = Ok (Joined g) <-> forall k t, (length (values_at (fr_cols g) (flat_map points fs) k t) <= 1)%nat).
Proof.
  intros AL NF H. pose proof H as H0. apply append_cases in H as (NE & AP & rows & RW & E & _). injection E as ->.
  destruct (all_rows_ok _ _ _ RW AL AP NF) as (V & F & _). cbn [joined_frame fr_cols].
  set (dup := has_dup (map fst (concat rows)) && contributions (joint_times fs) (concat rows)).
  assert (O : df_append DOther fs = if dup then Err EValueError else Ok (Joined (joined_frame fs (concat rows)))) by (unfold df_append; destruct fs as [|f fs]; [congruence|]; rewrite AP; cbv zeta; rewrite RW; reflexivity).
  assert (W : df_append DWarn fs = Ok (Joined (joined_frame fs (concat rows)))) by (unfold df_append; destruct fs as [|f fs]; [congruence|]; rewrite AP; cbv zeta; rewrite RW; reflexivity).
  assert (T : df_append DReturn fs = Ok (if dup then Inspect (concat rows) else Joined (joined_frame fs (concat rows)))) by (unfold df_append; destruct fs as [|f fs]; [congruence|]; rewrite AP; cbv zeta; rewrite RW; reflexivity).
  assert (SR : Forall (fun r : jrow => Forall solid (fst r)) (concat rows)) by (eapply Forall_impl; [|exact F]; intros a X; apply X).
  assert (S : Forall (Forall solid) (map fst (concat rows))) by (now apply Forall_map).
  assert (D : dup = true <-> exists k t, (1 < length (values_at (joint_cols fs) (flat_map points fs) k t))%nat).
  { unfold dup. rewrite andb_true_iff. unfold contributions. rewrite existsb_exists. split.
    - intros (_ & key & I & X). apply existsb_exists in X as (t & It & X). apply Nat.ltb_lt in X. exists (map unfilled key), t. rewrite V, group_values; auto.
      apply (proj1 (distinct_in _ _ S)) in I. exact (proj1 (Forall_forall _ _) S _ I).
    - intros (k & t & X). rewrite V in X. destruct (in_dec (list_eq_dec mval_dec) k (map (map unfilled) (map fst (concat rows)))) as [I|I].
      + apply in_map_iff in I as (key & <- & I). pose proof (proj1 (Forall_forall _ _) S _ I) as SK. rewrite group_values in X by auto. split.
        * apply group_dup with (k := key); auto. eapply Nat.lt_le_trans; [exact X|]. etransitivity; [apply present_length|]. now rewrite map_length.
        * exists key. split; [now apply (distinct_in _ _ S)|]. apply existsb_exists. exists t. split; [|now apply Nat.ltb_lt].
          apply joint_times_in. assert (P : present (map (fun r : jrow => value_at t (snd r)) (group (concat rows) key)) <> []) by (intros P; assert (X' : (1 < length (present (map (fun r : jrow => value_at t (snd r)) (group (concat rows) key))))%nat) by exact X; rewrite P in X'; cbn in X'; lia).
          assert (Y : exists r, In r (group (concat rows) key) /\ value_at t (snd r) <> None).
          { clear -P. induction (group (concat rows) key) as [|r rs IH]; [cbn in P; congruence|]. cbn [map present] in P. destruct (value_at t (snd r)) eqn:E; [exists r; split; [now left|congruence]|].
            destruct (IH P) as (r' & R' & Q). exists r'. split; [now right|auto]. }
          destruct Y as (r & R' & Q). unfold group in R'. apply filter_In in R' as (R' & _). rewrite Forall_forall in F. destruct (F r R') as (_ & _ & f & Ff & E). exists f. split; auto. rewrite <- E.
          clear -Q. induction (snd r) as [|[s v] l IH]; cbn in *; [congruence|]. destruct (Z.eqb_spec t s) as [->|]; [now left|right; auto].
      + rewrite no_values in X; [cbn in X; lia|]. intros r R' E. apply I. rewrite <- E. apply in_map, in_map. exact R'. }
  assert (D' : dup = false <-> forall k t, (length (values_at (joint_cols fs) (flat_map points fs) k t) <= 1)%nat).
  { split.
    - intros N k t. destruct (Nat.leb_spec (length (values_at (joint_cols fs) (flat_map points fs) k t)) 1) as [L|L]; auto. assert (dup = true) by (apply D; eauto). congruence.
    - intros N. apply not_true_is_false. intros X. apply D in X as (k & t & X). specialize (N k t). lia. }
  rewrite O, W, T. split; [rewrite <- D; destruct dup; split; congruence|]. split; [rewrite <- D'; destruct dup; split; congruence|]. split; [reflexivity|].
  rewrite <- D'. destruct dup; split; congruence.
Qed.

(** ** Order *)
From Coq Require Import OrderedTypeEx.
Lemma leb_cases a b : String.leb a b = true <-> String.compare a b = Lt \/ a = b.
Proof.
  unfold String.leb. destruct (String.compare a b) eqn:E; split; auto; try discriminate.
  - intros _. right. now apply String.compare_eq_iff.
  - intros [X0|X0]; [discriminate|subst b]. pose proof (String.compare_antisym a a) as X. rewrite E in X. discriminate.
Qed.
Lemma leb_trans a b c : String.leb a b = true -> String.leb b c = true -> String.leb a c = true.
Proof.
  rewrite !leb_cases. intros [A|A] [B|B]; subst; auto. left. apply String_as_OT.cmp_lt. eapply String_as_OT.lt_trans; apply String_as_OT.cmp_lt; eassumption.
Qed.
Lemma insert_sorted s l : StronglySorted (fun a b => String.leb a b = true) l -> StronglySorted (fun a b => String.leb a b = true) (insert_string s l).
Proof.
  induction 1 as [|x l S IH F]; cbn; [repeat constructor|]. destruct (String.leb s x) eqn:E.
  - constructor; [now constructor|]. constructor; auto. eapply Forall_impl; [|exact F]. intros y Y. eapply leb_trans; eauto.
  - constructor; auto. apply Forall_forall. intros y Y. apply (Permutation_in _ (Permutation_sym (insert_perm s l))) in Y. destruct Y as [<-|Y].
    + destruct (String.leb_total s x); congruence.
    + rewrite Forall_forall in F. auto.
Qed.
Lemma sort_sorted l : StronglySorted (fun a b => String.leb a b = true) (sort_strings l).
Proof. induction l as [|s l IH]; cbn; [constructor|]. now apply insert_sorted. Qed.
Lemma sorted_unique a : forall b, StronglySorted (fun a b => String.leb a b = true) a -> StronglySorted (fun a b => String.leb a b = true) b -> Permutation a b -> a = b.
Proof.
  induction a as [|x a IH]; intros b A B P; [now apply Permutation_nil in P|]. destruct b as [|y b]; [apply Permutation_sym, Permutation_nil in P; discriminate|].
  inversion A as [|? ? A1 A2]; inversion B as [|? ? B1 B2]; subst. rewrite Forall_forall in A2, B2. assert (x = y).
  { destruct (Permutation_in _ P (or_introl eq_refl)) as [E|E]; auto. destruct (Permutation_in _ (Permutation_sym P) (or_introl eq_refl)) as [E'|E']; auto. apply String.leb_antisym; auto. }
  subst y. f_equal. apply IH; auto. eapply Permutation_cons_inv; eauto.
Qed.
Lemma Permutation_filter {A} (p : A -> bool) a b : Permutation a b -> Permutation (filter p a) (filter p b).
Proof.
  induction 1 as [|x a b P IH|x y a|a b c P IH Q IH']; cbn; auto.
  - destruct (p x); auto.
  - destruct (p x), (p y); auto. apply perm_swap.
  - eapply perm_trans; eauto.
Qed.
Lemma joint_cols_order fs fs' : Permutation fs fs' -> joint_cols fs = joint_cols fs'.
Proof.
  intros P. unfold joint_cols, sorted_cols. f_equal. apply sorted_unique; try apply sort_sorted.
  eapply perm_trans; [apply Permutation_sym, sort_perm|]. eapply perm_trans; [|apply sort_perm]. apply Permutation_filter.
  apply NoDup_Permutation; try apply NoDup_nodup. intros c. rewrite !nodup_In, !in_flat_map. split; intros (f & F & I); exists f; split; auto; eapply Permutation_in; [|exact F| |exact F]; auto. now apply Permutation_sym.
Qed.
Lemma joint_times_order fs fs' : Permutation fs fs' -> joint_times fs = joint_times fs'.
Proof.
  intros P. apply sorted_ext; try apply joint_times_sorted. intros t. rewrite !joint_times_in. split; intros (f & F & I); exists f; split; auto; [eapply Permutation_in; eauto|eapply Permutation_in; [apply Permutation_sym|]; eauto].
Qed.
Lemma Permutation_values C k t a b : Permutation a b -> Permutation (values_at C a k t) (values_at C b k t).
Proof. intros P. unfold values_at. apply Permutation_map. now apply Permutation_filter. Qed.
Lemma mean_perm a b : Permutation a b -> mean a = mean b.
Proof.
  intros P. unfold mean. rewrite (Permutation_length P). f_equal. induction P as [|x a b P IH|x y a|a b c P IH Q IH']; cbn; [reflexivity|now rewrite IH|lra|congruence].
Qed.
Lemma rmap_all {A B} (f : A -> res B) l : (exists bs, rmap f l = Ok bs) <-> forall a, In a l -> exists b, f a = Ok b.
Proof.
  induction l as [|a l IH]; [split; [intros _ a []|exists []; reflexivity]|]. split.
  - intros (bs & H). apply rmap_ok_cons in H as (b & bs' & -> & H & HS). intros a' [<-|I]; [eauto|]. apply IH; eauto.
  - intros H. destruct (H a (or_introl eq_refl)) as (b & Hb). destruct (proj2 IH) as (bs & HB); [intros a' I; apply H; now right|]. exists (b :: bs). apply rmap_ok_cons. eauto 6.
Qed.
Lemma append_order fs fs' g : Permutation fs fs' -> Forall aligned fs -> Forall no_fill fs -> df_append DFalse fs = Ok (Joined g) ->
  exists g', df_append DFalse fs' = Ok (Joined g') /\ fr_times g' = fr_times g /\ fr_cols g' = fr_cols g /\
    forall k t, values_at (fr_cols g) (points g') k t = values_at (fr_cols g) (points g) k t.
Proof.
  intros P AL NF H. pose proof H as H0. apply append_cases in H as (NE & AP & rows & RW & E & _).
  assert (AL' : Forall aligned fs') by (eapply Permutation_Forall; eauto). assert (NF' : Forall no_fill fs') by (eapply Permutation_Forall; eauto).
  assert (NE' : fs' <> []) by (intros ->; apply Permutation_sym, Permutation_nil in P; congruence).
  assert (AP' : forallb appendable fs' = true) by (apply forallb_forall; intros f F; rewrite forallb_forall in AP; apply AP; eapply Permutation_in; [apply Permutation_sym|]; eauto).
  assert (exists rows', rmap (joint_rows (joint_cols fs')) fs' = Ok rows') as (rows' & RW').
  { apply rmap_all. intros f F. rewrite <- (joint_cols_order fs fs' P). apply (proj1 (rmap_all (joint_rows (joint_cols fs)) fs)); eauto. eapply Permutation_in; [apply Permutation_sym|]; eauto. }
  assert (H' : df_append DFalse fs' = Ok (Joined (joined_frame fs' (concat rows')))) by (unfold df_append; destruct fs' as [|f fs']; [congruence|]; rewrite AP'; cbv zeta; rewrite RW'; reflexivity).
  exists (joined_frame fs' (concat rows')). split; auto. injection E as ->. cbn [joined_frame fr_times fr_cols]. split; [symmetry; now apply joint_times_order|]. split; [symmetry; now apply joint_cols_order|].
  intros k t. destruct (append_points _ _ _ AL NF H0) as (_ & _ & _ & _ & _ & V). destruct (append_points _ _ _ AL' NF' H') as (_ & _ & _ & _ & _ & V').
  specialize (V k t). specialize (V' k t). cbn [joined_frame fr_cols] in V, V'. rewrite (joint_cols_order fs fs' P) in *. etransitivity; [exact V'|]. etransitivity; [|symmetry; exact V].
  assert (Q : Permutation (values_at (joint_cols fs') (flat_map points fs) k t) (values_at (joint_cols fs') (flat_map points fs') k t)) by (apply Permutation_values; now apply Permutation_flat_map).
  destruct (values_at _ (flat_map points fs) k t) as [|x xs]; [apply Permutation_nil in Q; now rewrite Q|]. destruct (values_at _ (flat_map points fs') k t) as [|y ys]; [apply Permutation_sym, Permutation_nil in Q; discriminate|].
  f_equal. symmetry. now apply mean_perm.
Qed.
