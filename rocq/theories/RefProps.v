(** Lemmas on reference periods (C59). *)
From Coq Require Import String Ascii List ZArith QArith Qcanon Reals Bool Lia Permutation Sorted Lra.
From Verif Require Import Base Core Filters Frame Spec_Frame FrameFilter FrameSelect FrameEdit FrameAppend Spec_Append AppendProps FrameWide Spec_Wide WideProps.
Import ListNotations.
Local Open Scope string_scope.
Local Open Scope list_scope.

(** ** Tracks *)
Fixpoint stamps (times : list Z) (vs : list num) : list (Z * R) :=
  match times, vs with
  | t :: times', Some x :: vs' => (t, x) :: stamps times' vs'
  | _ :: times', None :: vs' => stamps times' vs'
  | _, _ => []
  end.
Lemma track_app a b k : track (a ++ b) k = track a k ++ track b k.
Proof. unfold track. now rewrite filter_app, map_app. Qed.
Lemma track_flat {A} (g : A -> list point) k l : track (flat_map g l) k = flat_map (fun x => track (g x) k) l.
Proof. induction l as [|a l IH]; cbn [flat_map]; auto. now rewrite track_app, IH. Qed.
Lemma track_series md k : forall times vs, track (series_points md times vs) k = if tag_dec md k then stamps times vs else [].
Proof.
  induction times as [|t times IH]; intros vs; [now destruct (tag_dec md k)|]. destruct vs as [|[x|] vs]; cbn [series_points stamps]; [now destruct (tag_dec md k)| |apply IH].
  unfold track in *. cbn [filter fst]. specialize (IH vs). destruct (tag_dec md k) as [E|E]; cbn [map fst snd]; rewrite IH; auto.
Qed.
Lemma stamps_present : forall times vs, length vs = length times -> map snd (stamps times vs) = present vs.
Proof. induction times as [|t times IH]; intros [|[x|] vs] L; try discriminate; auto; injection L as L; cbn; now rewrite IH. Qed.
Lemma stamps_sub m : forall times vs, stamps times (map (fun v => num_sub v (Some m)) vs) = map (fun p => (fst p, (snd p - m)%R)) (stamps times vs).
Proof. induction times as [|t times IH]; intros [|[x|] vs]; auto; cbn; now rewrite IH. Qed.
Lemma stamps_none : forall times vs, stamps times (map (fun v => num_sub v None) vs) = [].
Proof. induction times as [|t times IH]; intros [|[x|] vs]; auto; cbn; apply IH. Qed.
Lemma track_filter (w : point -> bool) (u : Z -> bool) k pts : (forall pt, fst (fst pt) = k -> w pt = u (snd (fst pt))) ->
  track (filter w pts) k = filter (fun p => u (fst p)) (track pts k).
Proof.
  intros H. unfold track. induction pts as [|pt pts IH]; [reflexivity|]. cbn [filter]. destruct (tag_dec (fst (fst pt)) k) as [E|E].
  - cbn [map filter fst]. rewrite <- (H pt E). destruct (w pt); cbn [filter].
    + destruct (tag_dec (fst (fst pt)) k); [|congruence]. cbn [map]. now rewrite IH.
    + exact IH.
  - destruct (w pt); cbn [filter]; auto. destruct (tag_dec (fst (fst pt)) k); [congruence|auto].
Qed.

(** ** Suffixes *)
Lemma string_append_length (a b : string) : String.length (a ++ b) = (String.length a + String.length b)%nat.
Proof. induction a as [|x a IH]; cbn; auto. Qed.
Lemma append_inj (a b c : string) : (a ++ c = b ++ c)%string -> a = b.
Proof.
  revert b. induction a as [|x a IH]; intros [|y b] E; auto.
  - exfalso. apply (f_equal String.length) in E. cbn in E. rewrite string_append_length in E. lia.
  - exfalso. apply (f_equal String.length) in E. cbn in E. rewrite string_append_length in E. lia.
  - injection E as -> E. f_equal. auto.
Qed.
Lemma suffixed_inj s a : forall b, suffixed s a = suffixed s b -> a = b.
Proof.
  induction a as [|[c v] a IH]; intros [|[c' v'] b] E; try discriminate; auto. unfold suffixed in E. cbn [map fst snd] in E.
  assert (E1 := f_equal (hd (c, v)) E). assert (E2 := f_equal (@tl _) E). cbn [hd tl] in E1, E2. f_equal; [|now apply IH].
  destruct (String.eqb_spec c "variable") as [C|C], (String.eqb_spec c' "variable") as [C'|C']; try congruence; try (injection E1 as -> E1; try congruence; exfalso; congruence).
  injection E1 as -> E1. f_equal. destruct v, v'; try congruence. injection E1 as E1. apply append_inj in E1. congruence.
Qed.
Lemma suffixed_row cols row s v : length row = length cols -> NoDup cols -> cell cols row "variable" = MStr v ->
  combine cols (map_cell cols "variable" (fun _ => MStr (v ++ " " ++ s)%string) row) = suffixed s (combine cols row).
Proof.
  unfold suffixed, map_cell. revert row. induction cols as [|c cols IH]; intros [|x row] L N E; try discriminate; auto. injection L as L. apply NoDup_cons_iff in N as (A & N).
  cbn [combine map fst snd cell] in *. rewrite (String.eqb_sym c). destruct (String.eqb_spec "variable" c) as [<-|D].
  - subst x. f_equal. clear IH. revert row L. induction cols as [|c cols IH]; intros [|x row] L; try discriminate; auto. injection L as L. apply NoDup_cons_iff in N as (_ & N).
    cbn [combine map fst snd]. rewrite (String.eqb_sym c). destruct (String.eqb_spec "variable" c) as [<-|D]; [exfalso; apply A; now left|]. f_equal. apply IH; auto. intros I. apply A. now right.
  - f_equal. now apply IH.
Qed.
Lemma combine_inj {A B} (c : list A) : forall a b : list B, length a = length c -> length b = length c -> combine c a = combine c b -> a = b.
Proof. induction c as [|x c IH]; intros [|y a] [|z b] L L' E; try discriminate; auto. injection L as L. injection L' as L'. injection E as -> E. f_equal. now apply IH. Qed.

(** ** The mean of the reference period *)
Definition mean_opt (xs : list R) : num := match xs with [] => None | _ => Some (mean xs) end.
Lemma mean_num_opt l : mean_num l = mean_opt (present l).
Proof. unfold mean_num, mean_opt. now destruct (present l). Qed.
Lemma same_solid_l k : forall r, Forall solid k -> row_same k r = true -> k = r.
Proof.
  induction k as [|x k IH]; intros [|y r] S H; try discriminate; auto. apply Forall_cons_iff in S as (A & B). cbn in H. apply andb_true_iff in H as (H1 & H2). f_equal; [|now apply IH].
  apply mval_same_iff in H1 as [E|([E|E] & _)]; auto; destruct A; congruence.
Qed.
Lemma ref_mean_track times cols z k : Forall solid k -> length k = length cols -> NoDup (map s_label z) ->
  Forall (fun x : series => length (snd (fst x)) = length times /\ length (snd x) = length cols) z -> has_dup (map snd z) = false ->
  ref_mean (map (fun x => (snd x, snd (fst x))) z) k = mean_opt (map snd (track (points (of_series times cols z)) (combine cols k))).
Proof.
  intros S L N F D. rewrite points_series by auto. rewrite track_flat. clear N. unfold ref_mean. induction z as [|x z IH]; [reflexivity|]. cbn [map find flat_map fst snd].
  apply Forall_cons_iff in F as ((F1 & F2) & F). cbn [map has_dup] in D. apply orb_false_iff in D as (D1 & D). unfold spoints at 1. rewrite track_series.
  destruct (row_same k (snd x)) eqn:E.
  - apply same_solid_l in E; auto. rewrite <- E. destruct (tag_dec _ _) as [_|X]; [|congruence]. rewrite mean_num_opt, map_app, stamps_present by auto.
    assert (X : flat_map (fun y => track (spoints times cols y) (combine cols k)) z = []); [|now rewrite X, app_nil_r].
    clear -E D1 F L S. induction z as [|y z IH]; [reflexivity|]. cbn [map existsb] in D1. apply orb_false_iff in D1 as (D1 & D2). apply Forall_cons_iff in F as ((_ & F2) & F). cbn [flat_map]. rewrite IH by auto.
    unfold spoints. rewrite track_series. destruct (tag_dec _ _) as [X|X]; [|reflexivity]. exfalso. apply combine_inj in X; auto. rewrite <- E, <- X in D1.
    assert (row_same (snd y) (snd y) = true); [|congruence]. apply row_same_solid; auto; rewrite X; auto.
  - destruct (tag_dec _ _) as [X|X].
    + exfalso. apply combine_inj in X; auto. rewrite X in E. assert (row_same k k = true); [|congruence]. apply row_same_solid; auto.
    + apply IH; auto.
Qed.

Lemma mean_shift xs : xs <> [] -> mean (map (fun x => (x - mean xs)%R) xs) = 0%R.
Proof.
  intros N. assert (T : forall m l, fold_right Rplus 0%R (map (fun x => (x - m)%R) l) = (fold_right Rplus 0%R l - INR (length l) * m)%R).
  { intros m l. induction l as [|x l IH]; [cbn; lra|]. cbn [map fold_right length]. rewrite IH, S_INR. lra. }
  assert (P : (0 < INR (length xs))%R) by (apply lt_0_INR; destruct xs; [congruence|cbn; lia]).
  unfold mean at 1. rewrite T, map_length. unfold mean. field. lra.
Qed.

Theorem relative_ok ap keep rx hn fl f g : aligned f -> relative_to_ref_period_mean ap keep rx hn fl f = Ok g ->
  exists s a, (forall s', ap = Some s' -> s = s') /\ (ap = None -> default_append fl = Ok s) /\ fr_filter keep rx hn fl f = Ok a /\
  aligned g /\ fr_times g = fr_times f /\ fr_cols g = fr_cols f /\
  (forall pt, In pt (points g) -> exists k, fst (fst pt) = suffixed s k) /\
  forall k, let x := track (points f) k in let r := track (points a) k in let y := track (points g) (suffixed s k) in
    (r = [] -> y = []) /\
    (r <> [] -> y = map (fun p => (fst p, (snd p - mean (map snd r))%R)) x /\
      mean (map snd (filter (fun p => if in_dec Z.eq_dec (fst p) (map fst r) then true else false) y)) = 0%R).
Proof.
  intros AL H. unfold relative_to_ref_period_mean in H. apply rbind_ok in H as (ts & W & H). apply rbind_ok in H as (a & FA & H). apply rbind_ok in H as (ref & WA & H).
  destruct (existsb _ ts) eqn:M; [discriminate|]. destruct ref as [|r0 ref0]; [discriminate|]. set (ref := r0 :: ref0) in *. clearbody ref. clear r0 ref0.
  apply rbind_ok in H as (s & AP & H). apply rbind_ok in H as (meta & RM & H). injection H as <-. exists s, a.
  split; [intros s' ->; congruence|]. split; [intros ->; exact AP|]. split; [exact FA|].
  destruct (filter_ok _ _ _ _ _ _ FA) as (NE & ME & p & q & AC). destruct (filter_acts_on rx hn fl f p q AC keep f (within_refl f NE) ME AL) as (a' & FA' & Aa & Ca & Ia & Pa).
  rewrite FA in FA'. injection FA' as <-.
  destruct (aligned_series f AL) as (z & Z). destruct (aligned_series a Aa) as (za & Za). set (times := fr_times f) in *. set (cols := fr_cols f) in *.
  assert (D : meta_dup f = false) by (unfold wide in W; destruct (meta_dup f); [discriminate|reflexivity]).
  assert (Da : meta_dup a = false) by (unfold wide in WA; destruct (meta_dup a); [discriminate|reflexivity]).
  pose proof W as W'. rewrite Z in W', D. rewrite wide_series in W' by auto. injection W' as <-.
  pose proof WA as WA'. rewrite Za in WA', Da. rewrite wide_series in WA' by auto. injection WA' as WA'.
  rewrite Z in AL. rewrite Za in Aa. pose proof (aligned_lengths _ _ _ AL) as LZ. pose proof (aligned_lengths _ _ _ Aa) as LZa.
  pose proof (al_unique _ AL) as U. cbn [of_series fr_data] in U. rewrite labels_data in U. pose proof (al_unique _ Aa) as Ua. cbn [of_series fr_data] in Ua. rewrite labels_data in Ua.
  assert (SZ : forall x, In x z -> Forall solid (snd x)).
  { intros x X. apply missing_solid. destruct (existsb is_missing (snd x)) eqn:E; auto. exfalso.
    match type of M with ?b = false => assert (b = true); [|congruence] end. apply existsb_exists. exists (snd x, snd (fst x)). split; auto. change (In (snd x, snd (fst x)) (map (fun x => (snd x, snd (fst x))) z)). now apply (in_map (fun x : series => (snd x, snd (fst x)))). }
  assert (RF : forall x, In x z -> ref_mean ref (snd x) = mean_opt (map snd (track (points a) (combine cols (snd x))))).
  { intros x X. rewrite <- WA'. replace (points a) with (points (of_series (fr_times a) (fr_cols a) za)) by (now rewrite <- Za). rewrite <- Ca. apply ref_mean_track; auto.
    - rewrite Ca. now apply LZ.
    - apply Forall_forall. auto.
    - unfold meta_dup, of_series in Da. cbn [fr_meta] in Da. rewrite map_map in Da. exact Da. }
  (* the new series *)
  assert (GS : exists z', mkFrame times (combine (map fst (fr_meta f)) (map (fun r => map (fun v => num_sub v (ref_mean ref (fst r))) (snd r)) (map (fun x : series => (snd x, snd (fst x))) z))) cols meta = of_series times cols z' /\
     map s_label z' = map s_label z /\
     Forall2 (fun x y => snd (fst y) = map (fun v => num_sub v (ref_mean ref (snd x))) (snd (fst x)) /\ combine cols (snd y) = suffixed s (combine cols (snd x)) /\ length (snd y) = length cols) z z').
  { assert (FM : fr_meta f = map s_meta z) by (rewrite Z; reflexivity). rewrite FM in RM |- *. pose proof (al_cols _ AL) as NC. cbn [of_series fr_cols] in NC.
    assert (LZ' : forall x, In x z -> length (snd x) = length cols) by (intros x X; now apply LZ).
    clear - RM NC LZ'. unfold of_series. revert meta RM. induction z as [|x z IH]; intros meta RM.
    - injection RM as <-. exists []. split; [reflexivity|]. split; constructor.
    - cbn [map] in RM. apply rmap_ok_cons in RM as (m & meta' & -> & RM1 & RM2). destruct (IH (fun x X => LZ' x (or_intror X)) meta' RM2) as (z' & G & LB & F2). clear IH.
      injection G as G1 G2. cbn [snd s_meta] in RM1. destruct (cell cols (snd x) "variable") as [v| | |] eqn:CE; try discriminate. injection RM1 as <-.
      exists ((s_label x, map (fun v => num_sub v (ref_mean ref (snd x))) (snd (fst x)), map_cell cols "variable" (fun _ => MStr (v ++ " " ++ s)%string) (snd x)) :: z'). split; [|split].
      + cbn [map combine fst snd]. rewrite G2. f_equal. cbn [s_data]. f_equal. exact G1.
      + cbn [map]. f_equal. exact LB.
      + constructor; [|exact F2]. cbn [fst snd]. split; auto. split; [apply suffixed_row; auto; apply LZ'; now left|apply map_cell_length; apply LZ'; now left]. }
  destruct GS as (z' & GE & LB & F2). change (aligned f) with (aligned f) in *.
  match type of GE with ?g0 = _ => change (mkFrame times _ cols meta) with g0 end.
  rewrite GE. assert (U' : NoDup (map s_label z')) by (now rewrite LB).
  split.
  { pose proof AL as AL'. destruct AL' as [_ _ _ _ A5 A6]. constructor; cbn [of_series fr_data fr_meta fr_times fr_cols]; auto.
    - now rewrite labels_data, labels_meta.
    - now rewrite labels_data.
    - apply Forall_map. clear -F2 LZ. induction F2 as [|x y z z' (E1 & _) F2 IH]; constructor; [|apply IH; intros; apply LZ; now right]. unfold s_data. rewrite E1, map_length. apply LZ. now left.
    - apply Forall_map. clear -F2. induction F2 as [|x y z z' (_ & _ & E) F2 IH]; constructor; auto. }
  split; [reflexivity|]. split; [reflexivity|].
  rewrite points_series by auto. split.
  - intros pt I. apply in_flat_map in I as (y & Y & I). assert (exists x : series, combine cols (snd y) = suffixed s (combine cols (snd x))) as (x & E).
    { clear -F2 Y. induction F2 as [|x y' z z' (_ & E & _) F2 IH]; [destruct Y|]. destruct Y as [->|Y]; eauto. }
    exists (combine cols (snd x)). rewrite <- E. unfold spoints in I. clear -I. revert I. generalize (snd (fst y)). induction times as [|t times IH]; intros [|[v|] vs] I; cbn in I; try (now destruct I); [destruct I as [<-|I]; auto; eauto|eauto].
  - intros k x r y. assert (PX : x = flat_map (fun x => if tag_dec (combine cols (snd x)) k then stamps times (snd (fst x)) else []) z).
    { unfold x. rewrite Z at 1. rewrite points_series by auto. rewrite track_flat. apply flat_map_ext_in. intros x0 _. unfold spoints. apply track_series. }
    assert (PY : y = flat_map (fun x => if tag_dec (combine cols (snd x)) k then stamps times (map (fun v => num_sub v (mean_opt (map snd r))) (snd (fst x))) else []) z).
    { unfold y. rewrite track_flat. clear -F2 RF. unfold r. clear r. assert (RF' : forall x, In x z -> combine cols (snd x) = k -> ref_mean ref (snd x) = mean_opt (map snd (track (points a) k))) by (intros x X <-; auto). clear RF.
      induction F2 as [|x0 y0 z z' (E1 & E2 & _) F2 IH]; [reflexivity|]. cbn [flat_map]. rewrite IH by (intros; apply RF'; auto; now right). f_equal. unfold spoints. rewrite track_series, E2.
      destruct (tag_dec (combine cols (snd x0)) k) as [E|E].
      - rewrite E. destruct (tag_dec (suffixed s k) (suffixed s k)); [|congruence]. rewrite E1, RF'; auto. now left.
      - destruct (tag_dec _ (suffixed s k)) as [E'|E']; [|reflexivity]. apply suffixed_inj in E'. contradiction. }
    split.
    + intros R0. rewrite PY, R0. cbn [map mean_opt]. clear. induction z as [|x z IH]; [reflexivity|]. cbn [flat_map]. rewrite IH, stamps_none. now destruct (tag_dec _ _).
    + intros R0. assert (MO : mean_opt (map snd r) = Some (mean (map snd r))) by (destruct r; [congruence|reflexivity]).
      assert (YX : y = map (fun p => (fst p, (snd p - mean (map snd r))%R)) x).
      { rewrite PY, PX, MO. generalize (mean (map snd r)). intros m. clear. induction z as [|x z IH]; [reflexivity|]. cbn [flat_map]. rewrite IH, map_app. f_equal. destruct (tag_dec _ _); [apply stamps_sub|reflexivity]. }
      split; [exact YX|]. assert (RX : r = filter (fun p0 => Bool.eqb keep (q (fst p0) && p (map snd k))) x).
      { unfold r, x. rewrite Pa. apply (track_filter _ (fun t => Bool.eqb keep (q t && p (map snd k)))). intros pt <-. reflexivity. }
      assert (FR : filter (fun p0 => if in_dec Z.eq_dec (fst p0) (map fst r) then true else false) x = r).
      { etransitivity; [|symmetry; exact RX]. apply filter_ext_in. intros p0 P0. destruct (in_dec Z.eq_dec (fst p0) (map fst r)) as [I|I].
        - apply in_map_iff in I as (p1 & E & I). rewrite RX in I. apply filter_In in I as (_ & I). rewrite E in I. now rewrite I.
        - destruct (Bool.eqb _ _) eqn:B; auto. exfalso. apply I, in_map. rewrite RX. apply filter_In. auto. }
      rewrite YX. assert (C : forall l, filter (fun p0 : BinNums.Z * R => if in_dec Z.eq_dec (fst p0) (map fst r) then true else false) (map (fun p0 => (fst p0, (snd p0 - mean (map snd r))%R)) l) =
        map (fun p0 => (fst p0, (snd p0 - mean (map snd r))%R)) (filter (fun p0 => if in_dec Z.eq_dec (fst p0) (map fst r) then true else false) l)).
      { induction l as [|p0 l IH]; [reflexivity|]. cbn [map filter fst]. destruct (in_dec Z.eq_dec (fst p0) (map fst r)); cbn [map]; now rewrite IH. }
      rewrite C, FR, map_map. cbn [snd]. rewrite <- (map_map snd (fun v => (v - mean (map snd r))%R)). apply mean_shift. destruct r; [congruence|discriminate].
Qed.

Lemma filter_wide keep rx hn fl f a : aligned f -> unique_rows (map snd (fr_meta f)) -> fr_filter keep rx hn fl f = Ok a ->
  exists ref, wide a = Ok ref /\ (points a <> [] -> ref <> []).
Proof.
  intros AL UQ FA. destruct (filter_ok _ _ _ _ _ _ FA) as (NE & ME & p & q & AC). destruct (filter_acts_on rx hn fl f p q AC keep f (within_refl f NE) ME AL) as (a' & FA' & Aa & Ca & Ia & _).
  rewrite FA in FA'. injection FA' as <-.
  assert (D : meta_dup a = false).
  { unfold meta_dup. apply has_dup_iff. intros i j r r' I J S. rewrite nth_error_map in I, J.
    destruct (nth_error (fr_meta a) i) as [[l x]|] eqn:EI; [|discriminate]. destruct (nth_error (fr_meta a) j) as [[l' x']|] eqn:EJ; [|discriminate]. injection I as ->. injection J as ->.
    pose proof (Ia _ (nth_error_In _ _ EI)) as FI. pose proof (Ia _ (nth_error_In _ _ EJ)) as FJ. apply In_nth_error in FI as (i' & FI). apply In_nth_error in FJ as (j' & FJ).
    assert (i' = j') by (apply (UQ i' j' r r'); auto; rewrite nth_error_map, ?FI, ?FJ; reflexivity). subst j'. rewrite FI in FJ. injection FJ as -> ->.
    assert (N : NoDup (map fst (fr_meta a))) by (rewrite <- (al_labels _ Aa); apply Aa).
    apply (proj1 (NoDup_nth_error _) N); [apply nth_error_Some; rewrite nth_error_map, EI; discriminate|]. now rewrite !nth_error_map, EI, EJ. }
  unfold wide. rewrite D. eexists. split; [reflexivity|]. intros P E. apply P. apply map_eq_nil in E. unfold points. pose proof (al_labels _ Aa) as L.
  destruct (fr_data a) as [|d da], (fr_meta a) as [|m ma]; try discriminate; reflexivity.
Qed.
Lemma relative_accepts s keep rx hn fl f a : aligned f -> unique_rows (map snd (fr_meta f)) -> fr_filter keep rx hn fl f = Ok a -> points a <> [] ->
  (forall l c v, meta_of f l c v -> v <> MNaN /\ v <> MNone) -> (forall l v, meta_of f l "variable" v -> exists x, v = MStr x) ->
  exists g, relative_to_ref_period_mean (Some s) keep rx hn fl f = Ok g.
Proof.
  intros AL UQ FA PA SM SV. destruct (filter_wide keep rx hn fl f a AL UQ FA) as (ref & W & RN). specialize (RN PA). unfold relative_to_ref_period_mean.
  assert (D : meta_dup f = false) by (unfold meta_dup; now apply has_dup_iff). unfold wide at 1. rewrite D. cbn [rbind]. rewrite FA. cbn [rbind]. rewrite W. cbn [rbind].
  assert (SR : forall r, In r (fr_meta f) -> Forall solid (snd r)).
  { intros [l r] I. apply Forall_forall. intros v V. pose proof (al_rows _ AL) as RL. rewrite Forall_forall in RL. specialize (RL _ I). cbn [snd] in *.
    apply In_nth_error in V as (i & V). assert (exists c, nth_error (fr_cols f) i = Some c) as (c & C).
    { destruct (nth_error (fr_cols f) i) eqn:E; eauto. apply nth_error_None in E. assert (i < length r)%nat by (apply nth_error_Some; congruence). lia. }
    apply (SM l c v). exists r. split; auto. clear -C V. revert r i C V. induction (fr_cols f) as [|c0 cs IH]; intros [|v0 r] [|i] C V; try discriminate; cbn in *; [left; congruence|right; eauto]. }
  destruct (existsb _ (map _ _)) eqn:E.
  { exfalso. apply existsb_exists in E as (r & R' & E). apply in_map_iff in R' as ([d m] & <- & P). apply in_combine_r in P. apply SR in P. apply missing_solid in P. cbn [fst snd] in E. congruence. }
  destruct ref as [|r0 ref]; [congruence|].
  match goal with |- context [rmap ?F (fr_meta f)] => assert (X : exists meta, rmap F (fr_meta f) = Ok meta) end.
  { assert (SV' : forall r, In r (fr_meta f) -> exists x, cell (fr_cols f) (snd r) "variable" = MStr x).
    { intros [l r] I. pose proof (al_rows _ AL) as RL. rewrite Forall_forall in RL. specialize (RL _ I). apply (SV l). exists r. split; auto. apply cell_in; [apply AL| |exact RL]. apply (al_required _ AL). cbn. tauto. }
    clear -SV'. induction (fr_meta f) as [|r m IH]; [exists []; reflexivity|]. destruct (SV' r (or_introl eq_refl)) as (x & X). destruct IH as (m' & IH); [intros; apply SV'; now right|].
    eexists. cbn [rmap]. rewrite X. cbn [rbind]. rewrite IH. reflexivity. }
  destruct X as (meta & X). cbn [rbind]. rewrite X. cbn [rbind]. eauto.
Qed.
