(** Lemmas on the construction of frames from tables (C66, C68, C69). *)
From Coq Require Import String Ascii List ZArith QArith Qcanon Reals Bool Lia Permutation Sorted Lra.
From Verif Require Import Base Calendar Core Filters Frame Spec_Frame FrameFilter FrameSelect FrameEdit FrameAppend Spec_Append AppendProps FrameWide FrameFormat.
Import ListNotations.
Local Open Scope string_scope.
Local Open Scope list_scope.

(** ** Sorting *)
Lemma insert_by_perm {A} leb (x : A) l : Permutation (x :: l) (insert_by leb x l).
Proof. induction l as [|y l IH]; cbn; auto. destruct (leb x y); auto. rewrite perm_swap. now constructor. Qed.
Lemma sort_by_perm {A} leb (l : list A) : Permutation l (sort_by leb l).
Proof. induction l as [|x l IH]; cbn; auto. rewrite <- insert_by_perm. now constructor. Qed.
Lemma insert_by_map {A B} (h : A -> B) leb x l : insert_by leb (h x) (map h l) = map h (insert_by (fun a b => leb (h a) (h b)) x l).
Proof. induction l as [|y l IH]; cbn; auto. destruct (leb (h x) (h y)); cbn; auto. now rewrite IH. Qed.
Lemma sort_by_map {A B} (h : A -> B) leb l : sort_by leb (map h l) = map h (sort_by (fun a b => leb (h a) (h b)) l).
Proof. induction l as [|x l IH]; cbn; auto. rewrite IH. apply insert_by_map. Qed.
Lemma insert_by_sorted {A} (leb : A -> A -> bool) x l : (forall a b, leb a b = false -> leb b a = true) -> (forall a b c, leb a b = true -> leb b c = true -> leb a c = true) ->
  StronglySorted (fun a b => leb a b = true) l -> StronglySorted (fun a b => leb a b = true) (insert_by leb x l).
Proof.
  intros T TR. induction 1 as [|y l S IH F]; cbn; [repeat constructor|]. destruct (leb x y) eqn:E.
  - constructor; [constructor; auto|]. constructor; auto. eapply Forall_impl; [|exact F]. eauto.
  - constructor; auto. apply (Permutation_Forall (insert_by_perm leb x l)). constructor; auto.
Qed.
Lemma sort_by_sorted {A} (leb : A -> A -> bool) l : (forall a b, leb a b = false -> leb b a = true) -> (forall a b c, leb a b = true -> leb b c = true -> leb a c = true) ->
  StronglySorted (fun a b => leb a b = true) (sort_by leb l).
Proof. intros T TR. induction l as [|x l IH]; cbn; [constructor|]. now apply insert_by_sorted. Qed.
Lemma rmap_map {A B C} (g : B -> res C) (h : A -> B) l : rmap g (map h l) = rmap (fun x => g (h x)) l.
Proof. induction l as [|a l IH]; cbn; auto. now rewrite IH. Qed.
Lemma rmap_total {A B} (g : A -> res B) (h : A -> B) l : (forall a, In a l -> g a = Ok (h a)) -> rmap g l = Ok (map h l).
Proof. induction l as [|a l IH]; intros H; cbn; auto. rewrite (H a) by (now left). cbn. rewrite IH; auto. intros b I. apply H. now right. Qed.
Lemma label_eqb_eq a b : label_eqb a b = true <-> a = b.
Proof.
  destruct a, b; cbn; try (split; [discriminate|congruence]); rewrite ?String.eqb_eq, ?Z.eqb_eq; (split; [now intros ->|now intros [= ->]]).
Qed.
Lemma label_dup_nodup l : NoDup l -> label_dup l = false.
Proof.
  induction 1 as [|x l N D IH]; cbn; auto. rewrite IH, orb_false_r. destruct (existsb (label_eqb x) l) eqn:E; auto. apply existsb_exists in E as (y & Y & E). apply label_eqb_eq in E. subst. contradiction.
Qed.
Lemma filter_all {A} (p : A -> bool) l : (forall a, In a l -> p a = true) -> filter p l = l.
Proof. induction l as [|a l IH]; intros H; cbn; auto. rewrite (H a) by (now left). rewrite IH; auto. intros b I. apply H. now right. Qed.
Lemma filter_no {A} (p : A -> bool) l : (forall a, In a l -> p a = false) -> filter p l = [].
Proof. induction l as [|a l IH]; intros H; cbn; auto. rewrite (H a) by (now left). apply IH. intros b I. apply H. now right. Qed.
Lemma nth_map_seq {A} (l : list A) d : map (fun i => nth i l d) (seq 0 (length l)) = l.
Proof.
  induction l as [|a l IH]; auto. cbn [length seq map nth]. f_equal. rewrite <- seq_shift, map_map. exact IH.
Qed.

Lemma has_text_map s (h : string -> list tcell) l : has_text s (map (fun c => (LText c, h c)) l) = mem s l.
Proof. unfold has_text, mem. induction l as [|c l IH]; auto. cbn [map existsb]. f_equal. exact IH. Qed.

(** ** Rebuilding from [timeseries] *)
Definition time_columns (f : frame) (ts : list (list mval * list num)) : list (Z * list num) :=
  map (fun i => (nth i (fr_times f) 0%Z, map (fun r => nth i (snd r) None) ts)) (seq 0 (length (fr_times f))).
Definition sorted_columns (f : frame) (ts : list (list mval * list num)) : list (Z * list num) :=
  sort_by (fun a b => Z.leb (fst a) (fst b)) (time_columns f ts).
Definition rebuilt (f : frame) (ts : list (list mval * list num)) : frame :=
  mkFrame (map fst (sorted_columns f ts))
    (map (fun i => (Z.of_nat i, map (fun p => nth i (snd p) None) (sorted_columns f ts))) (seq 0 (length ts)))
    (fr_cols f)
    (map (fun i => (Z.of_nat i, map (fun c => nth i (map (fun r => index_value (cell (fr_cols f) (fst r) c)) ts) MNaN) (fr_cols f))) (seq 0 (length ts))).
Lemma rebuild_is is_time read f ts : aligned f -> NoDup (fr_times f) -> fr_times f <> [] ->
  (forall c, In c (fr_cols f) -> ~ In c required_cols -> is_time c = false) -> ~ In "value" (fr_cols f) ->
  format_data is_time read (wide_table f ts) = Ok (sort_meta_cols (rebuilt f ts)).
Proof.
  intros AL NT NE TI NV. unfold format_data, wide_table. cbn [tb_columns tb_index tb_rows].
  set (icols := map (fun i : string * list mval => (LText (fst i), map (fun v => TMeta (index_value v)) (snd i))) (map (fun c => (c, map (fun r => cell (fr_cols f) (fst r) c) ts)) (fr_cols f))).
  set (tcols := map (fun p : Z * list num => (LTime (fst p), map TVal (snd p))) (time_columns f ts)).
  match goal with |- context [map (fun c => (text_lower (fst c), snd c)) ?l] => assert (TC : map (fun c => (text_lower (fst c), snd c)) l = tcols) end.
  { unfold tcols, time_columns. rewrite !map_map. apply map_ext. intros i. cbn [fst snd text_lower]. now rewrite map_map. }
  rewrite TC. clear TC.
  assert (HT : forall s, has_text s tcols = false).
  { intros s. unfold has_text, tcols. generalize (time_columns f ts). clear. intros l. induction l as [|p l IH]; auto. }
  assert (IX : existsb (fun i : string * list mval => has_text (fst i) tcols) (map (fun c => (c, map (fun r => cell (fr_cols f) (fst r) c) ts)) (fr_cols f)) = false).
  { destruct (existsb _ _) eqn:E; auto. apply existsb_exists in E as (x & _ & E). rewrite HT in E. discriminate. }
  rewrite IX. clear IX. cbn [app].
  assert (HI : forall s, has_text s icols = mem s (fr_cols f)).
  { intros s. unfold icols. rewrite map_map. cbn [fst snd]. exact (has_text_map s (fun c => map (fun v => TMeta (index_value v)) (map (fun r => cell (fr_cols f) (fst r) c) ts)) (fr_cols f)). }
  assert (HC : forall s, has_text s (icols ++ tcols) = mem s (fr_cols f)).
  { intros s. unfold has_text. rewrite existsb_app. fold (has_text s icols) (has_text s tcols). now rewrite HI, HT, orb_false_r. }
  assert (RQ : forallb (fun c => has_text c (icols ++ tcols)) required_cols = true).
  { apply forallb_forall. intros c C. rewrite HC. apply mem_in. now apply (al_required _ AL). }
  rewrite RQ, HC. assert (V : mem "value" (fr_cols f) = false) by (destruct (mem "value" (fr_cols f)) eqn:E; auto; apply mem_in in E; contradiction).
  rewrite V. unfold format_wide.
  assert (LI : map fst icols = map LText (fr_cols f)) by (unfold icols; rewrite !map_map; reflexivity).
  assert (LT : map fst tcols = map LTime (fr_times f)).
  { unfold tcols, time_columns. rewrite !map_map. cbn [fst]. rewrite <- (map_map (fun i => nth i (fr_times f) 0%Z) LTime). now rewrite nth_map_seq. }
  assert (ND : label_dup (map fst (icols ++ tcols)) = false).
  { apply label_dup_nodup. rewrite map_app, LI, LT. apply NoDup_app_intro.
    - apply FinFun.Injective_map_NoDup; [intros a b; congruence|apply AL].
    - apply FinFun.Injective_map_NoDup; [intros a b; congruence|auto].
    - intros x I J. apply in_map_iff in I as (c & <- & _). apply in_map_iff in J as (t & E & _). discriminate. }
  rewrite ND. rewrite !filter_app.
  assert (F1 : filter (fun c : label * list tcell => negb (match fst c with LText s => mem s required_cols | _ => false end) && time_label is_time (fst c)) icols = []).
  { apply filter_no. intros a I. unfold icols in I. rewrite map_map in I. apply in_map_iff in I as (c & <- & C). cbn [fst time_label]. destruct (mem c required_cols) eqn:M; cbn [negb andb]; auto. apply TI; auto. intros R. apply mem_in in R. congruence. }
  assert (F2 : filter (fun c : label * list tcell => negb (match fst c with LText s => mem s required_cols | _ => false end) && time_label is_time (fst c)) tcols = tcols).
  { apply filter_all. intros a I. unfold tcols in I. apply in_map_iff in I as (p & <- & _). reflexivity. }
  assert (F3 : filter (fun c : label * list tcell => match fst c with LText s => mem s required_cols | _ => false end || negb (time_label is_time (fst c))) icols = icols).
  { apply filter_all. intros a I. unfold icols in I. rewrite map_map in I. apply in_map_iff in I as (c & <- & C). cbn [fst time_label]. destruct (mem c required_cols) eqn:M; cbn [orb]; auto. rewrite TI; auto. intros R. apply mem_in in R. congruence. }
  assert (F4 : filter (fun c : label * list tcell => match fst c with LText s => mem s required_cols | _ => false end || negb (time_label is_time (fst c))) tcols = []).
  { apply filter_no. intros a I. unfold tcols in I. apply in_map_iff in I as (p & <- & _). reflexivity. }
  rewrite F1, F2, F3, F4, app_nil_r. cbn [app].
  assert (TN : tcols <> []).
  { intros E. apply (f_equal (map fst)) in E. rewrite LT in E. destruct (fr_times f); [congruence|discriminate]. }
  destruct tcols as [|c0 tc] eqn:TE; [congruence|]. rewrite <- TE. clear TN.
  assert (SE : sort_by (fun a b => label_leb (fst a) (fst b)) tcols = map (fun p => (LTime (fst p), map TVal (snd p))) (sorted_columns f ts)).
  { unfold tcols. rewrite sort_by_map. reflexivity. }
  fold tcols in TE. rewrite TE, <- TE. rewrite SE. rewrite map_map. cbn [fst].
  assert (TS : label_times read (map (fun p : Z * list num => LTime (fst p)) (sorted_columns f ts)) = Ok (map fst (sorted_columns f ts))).
  { assert (X : rmap (fun l => match l with LTime t => Ok t | _ => Err ETypeError end) (map (fun p : Z * list num => LTime (fst p)) (sorted_columns f ts)) = Ok (map fst (sorted_columns f ts))).
    { rewrite rmap_map. apply rmap_total. auto. }
    destruct (sorted_columns f ts); [reflexivity|exact X]. }
  rewrite TS. cbn [rbind].
  assert (VS : rmap (fun c : label * list tcell => rmap float_cell (snd c)) (map (fun p => (LTime (fst p), map TVal (snd p))) (sorted_columns f ts)) = Ok (map snd (sorted_columns f ts))).
  { rewrite rmap_map. apply rmap_total. intros p _. cbn [snd]. rewrite rmap_map. rewrite (rmap_total _ (fun x => x)) by auto. now rewrite map_id. }
  rewrite VS. cbn [rbind].
  assert (MS : meta_columns icols = Ok (map (fun c => (c, map (fun r => index_value (cell (fr_cols f) (fst r) c)) ts)) (fr_cols f))).
  { unfold meta_columns, icols. rewrite !rmap_map. apply rmap_total. intros c _. cbn [fst snd]. rewrite !rmap_map. cbn [meta_cell]. rewrite (rmap_total _ (fun r => index_value (cell (fr_cols f) (fst r) c))) by auto. reflexivity. }
  rewrite MS. cbn [rbind]. f_equal. f_equal. unfold rebuilt. rewrite map_map. cbn [fst]. rewrite map_id. f_equal.
  - apply map_ext. intros i. now rewrite map_map.
  - apply map_ext. intros i. now rewrite map_map.
Qed.
Lemma combine_seq {A B} (da : A) (db : B) a : forall b, length b = length a -> map (fun j => (nth j a da, nth j b db)) (seq 0 (length a)) = combine a b.
Proof.
  induction a as [|x a IH]; intros [|y b] L; try discriminate; auto. injection L as L. cbn [length seq map nth combine]. f_equal. rewrite <- seq_shift, map_map. now apply IH.
Qed.
Lemma combine_maps {A B C} (g : A -> B) (h : A -> C) l : combine (map g l) (map h l) = map (fun x => (g x, h x)) l.
Proof. induction l as [|a l IH]; cbn; auto. now rewrite IH. Qed.
Lemma seq_labels n : map fst (map (fun i => (Z.of_nat i, tt)) (seq 0 n)) = map Z.of_nat (seq 0 n).
Proof. now rewrite map_map. Qed.
Lemma sorted_columns_times f ts : NoDup (fr_times f) -> StronglySorted Z.lt (map fst (sorted_columns f ts)) /\ Permutation (fr_times f) (map fst (sorted_columns f ts)).
Proof.
  intros N. assert (P : Permutation (fr_times f) (map fst (sorted_columns f ts))).
  { replace (fr_times f) with (map fst (time_columns f ts)) at 1; [apply Permutation_map, sort_by_perm|]. unfold time_columns. rewrite map_map. cbn [fst]. apply nth_map_seq. }
  split; [|exact P]. assert (N' : NoDup (map fst (sorted_columns f ts))) by (eapply Permutation_NoDup; eauto).
  assert (S : StronglySorted (fun a b => Z.leb (fst a) (fst b) = true) (sorted_columns f ts)).
  { apply (sort_by_sorted (fun a b : Z * list num => Z.leb (fst a) (fst b))); [intros a b H; lia|intros a b c H H'; lia]. }
  clear P N. induction S as [|p l S IH F]; cbn; [constructor|]. cbn in N'. apply NoDup_cons_iff in N' as (A & N'). constructor; [auto|]. apply Forall_forall. intros t I. rewrite Forall_forall in F.
  pose proof I as I'. apply in_map_iff in I as (q & <- & I). apply F in I. assert (fst p <> fst q) by (intros E; rewrite E in A; contradiction). lia.
Qed.
Lemma index_plain v : index_value v = plain_value v.
Proof. now destruct v. Qed.
Lemma nth_map_at {A B} (g : A -> B) d d' l i : (i < length l)%nat -> nth i (map g l) d = g (nth i l d').
Proof. intros L. rewrite (nth_indep _ d (g d')) by (now rewrite map_length). apply map_nth. Qed.
Lemma rebuilt_ok f ts : aligned f -> wide f = Ok ts -> NoDup (fr_times f) ->
  aligned (rebuilt f ts) /\ length ts = length (fr_data f) /\
  forall i l vs, nth_error (fr_data f) i = Some (l, vs) ->
    (forall c v, meta_of (rebuilt f ts) (Z.of_nat i) c v <-> exists v', meta_of f l c v' /\ v = plain_value v') /\
    exists vs', In (Z.of_nat i, vs') (fr_data (rebuilt f ts)) /\ Permutation (combine (fr_times f) vs) (combine (fr_times (rebuilt f ts)) vs').
Proof.
  intros AL W NT. destruct (aligned_series f AL) as (z & Z). assert (D : meta_dup f = false) by (unfold wide in W; destruct (meta_dup f); [discriminate|reflexivity]).
  pose proof W as W'. rewrite Z in W', D. rewrite wide_series in W' by auto. injection W' as TS.
  assert (LT : length ts = length (fr_data f)) by (rewrite <- TS, map_length; rewrite Z at 1; cbn; now rewrite map_length).
  split.
  { constructor; cbn [rebuilt fr_data fr_meta fr_times fr_cols].
    - now rewrite !map_map.
    - rewrite map_map. cbn [fst]. apply labels_nodup.
    - apply Forall_map, Forall_forall. intros i _. cbn [snd]. now rewrite !map_length.
    - apply Forall_map, Forall_forall. intros i _. cbn [snd]. now rewrite !map_length.
    - apply AL.
    - apply AL. }
  split; [exact LT|]. intros i l vs E.
  assert (X : exists x, nth_error z i = Some x /\ l = s_label x /\ vs = snd (fst x)).
  { rewrite Z in E. cbn [of_series fr_data] in E. rewrite nth_error_map in E. destruct (nth_error z i) as [x|]; [|discriminate]. injection E as E. exists x. split; auto. unfold s_data in E. unfold s_label. rewrite E. auto. }
  destruct X as (x & X & -> & ->). assert (TI : nth i ts ([], []) = (snd x, snd (fst x))) by (rewrite <- TS; apply nth_error_nth; exact (map_nth_error _ _ _ X)).
  assert (IL : (i < length ts)%nat) by (rewrite <- TS, map_length; apply nth_error_Some; intros E'; assert (E2 := eq_trans (eq_sym X) E'); discriminate E2).
  assert (SI : In i (seq 0 (length ts))) by (apply in_seq; lia).
  assert (XL : length (snd (fst x)) = length (fr_times f) /\ length (snd x) = length (fr_cols f)).
  { apply (aligned_lengths (fr_times f) (fr_cols f) z); [now rewrite <- Z|]. eapply nth_error_In; eauto. }
  assert (XM : In (s_label x, snd x) (fr_meta f)).
  { rewrite Z. cbn [of_series fr_meta]. change (In (s_meta x) (map s_meta z)). apply in_map. eapply nth_error_In; eauto. }
  split.
  - intros c v. unfold meta_of. cbn [rebuilt fr_meta fr_cols]. split.
    + intros (row & I & H). apply in_map_iff in I as (j & EJ & _). apply pair_equal_spec in EJ as (EJ & <-). apply Nat2Z.inj in EJ. subst j.
      apply combine_map_in in H as (H & ->). exists (cell (fr_cols f) (snd x) c). split; [exists (snd x); split; auto; apply cell_in; [apply AL|auto|apply XL]|].
      rewrite <- index_plain. rewrite (nth_indep _ MNaN (index_value (cell (fr_cols f) (fst (@nil mval, @nil num)) c))) by (now rewrite map_length).
      rewrite (map_nth (fun r => index_value (cell (fr_cols f) (fst r) c))). now rewrite TI.
    + intros (v' & (row & I & H) & ->). rewrite (meta_unique f _ _ _ AL I XM) in H. clear I row. apply cell_iff in H as (H & ->); [|apply AL|apply XL].
      eexists. split; [apply in_map_iff; exists i; split; [reflexivity|exact SI]|]. apply combine_map_in. split; auto. rewrite <- index_plain.
      rewrite (nth_indep _ MNaN (index_value (cell (fr_cols f) (fst (@nil mval, @nil num)) c))) by (now rewrite map_length).
      rewrite (map_nth (fun r => index_value (cell (fr_cols f) (fst r) c))). now rewrite TI.
  - eexists. split; [cbn [rebuilt fr_data]; apply in_map_iff; exists i; split; [reflexivity|exact SI]|]. cbn [rebuilt fr_times]. rewrite combine_maps.
    transitivity (map (fun p : BinNums.Z * list num => (fst p, nth i (snd p) None)) (time_columns f ts)); [|apply Permutation_map, sort_by_perm].
    etransitivity; [exact (Permutation_refl' (eq_sym (combine_seq 0%Z None (fr_times f) (snd (fst x)) (proj1 XL))))|]. unfold time_columns. rewrite map_map. cbn [fst snd].
    match goal with |- Permutation ?a ?b => assert (a = b) as ->; [|reflexivity] end. apply map_ext. intros j. f_equal. symmetry. etransitivity; [apply (nth_map_at _ _ (@nil mval, @nil num)); exact IL|]. rewrite TI. reflexivity.
Qed.
