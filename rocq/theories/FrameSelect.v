(** Proofs about filters of data frames: order of keywords, meaning of keywords (C48, C49). *)
From Coq Require Import String Ascii List ZArith QArith Qcanon Reals Bool Lia Permutation.
From Verif Require Import Base Regex Units TimeModel Core Filters Spec_Filters FiltersProps FiltersTimes Civil Offsets Spec_Offsets CivilFacts
  OffsetsProps Frame Spec_Frame FrameFilter.
Import ListNotations.
Local Open Scope list_scope.

(** ** The order of keywords *)
Lemma loop_permutation rx hn fl f : fr_times f <> [] -> forall l l', Permutation l l' ->
  forall (q0 : Z -> bool) (p0 : Z * list mval -> bool) k,
  apply_filters_loop rx hn fl f (Some (map q0 (fr_times f)), Some (map p0 (fr_meta f))) l = Ok k ->
  apply_filters_loop rx hn fl f (Some (map q0 (fr_times f)), Some (map p0 (fr_meta f))) l' = Ok k.
Proof.
  intros N l l' P. induction P as [|c l l' P IH|c d l|l1 l2 l3 P1 IH1 P2 IH2]; intros q0 p0 k H; auto.
  - cbn [apply_filters_loop] in *. apply rbind_ok in H as (k1 & H & K). destruct (filter_acts rx hn fl f q0 p0 c k1 N H) as (p & q & A).
    pose proof (A f q0 p0 (within_refl f N)) as E. pose proof (eq_trans (eq_sym H) E) as E1. injection E1 as ->.
    rewrite E. cbn [rbind]. apply (IH (fun t => q0 t && q t) (fun r => p0 r && p (snd r)) k K).
  - cbn [apply_filters_loop] in *. apply rbind_ok in H as (k1 & H & K). apply rbind_ok in K as (k2 & K1 & K2).
    destruct (filter_acts rx hn fl f q0 p0 d k1 N H) as (p & q & A).
    pose proof (A f q0 p0 (within_refl f N)) as E. pose proof (eq_trans (eq_sym H) E) as E1. injection E1 as ->.
    destruct (filter_acts rx hn fl f (fun t => q0 t && q t) (fun r => p0 r && p (snd r)) c k2 N K1) as (p' & q' & A').
    pose proof (A' f (fun t => q0 t && q t) (fun r => p0 r && p (snd r)) (within_refl f N)) as E'. pose proof (eq_trans (eq_sym K1) E') as E1. injection E1 as ->.
    rewrite (A' f q0 p0 (within_refl f N)). cbn [rbind].
    rewrite (A f (fun t => q0 t && q' t) (fun r => p0 r && p' (snd r)) (within_refl f N)). cbn [rbind]. rewrite <- K2. do 2 f_equal.
    + f_equal. apply map_ext. intros t. rewrite <- !andb_assoc. f_equal. apply andb_comm.
    + f_equal. apply map_ext. intros t. rewrite <- !andb_assoc. f_equal. apply andb_comm.
Qed.
Lemma alookup_perm {A} c (a b : list (string * A)) : Permutation a b -> NoDup (map fst a) -> alookup c a = alookup c b.
Proof.
  intros P. induction P as [|[d x] l l' P IH|[d x] [e y] l|l1 l2 l3 P1 IH1 P2 IH2]; intros N; auto.
  - cbn in *. inversion N; subst. now rewrite IH.
  - cbn in *. destruct (String.eqb_spec c e) as [E1|], (String.eqb_spec c d) as [E2|]; auto.
    inversion N as [|? ? I _]. exfalso. apply I. left. congruence.
  - rewrite IH1 by auto. apply IH2. eapply Permutation_NoDup; [apply Permutation_map; eassumption|auto].
Qed.
Lemma order_irrelevant keep rx hn fl fl' f g : NoDup (map fst fl) -> Permutation fl fl' ->
  fr_filter keep rx hn fl f = Ok g -> fr_filter keep rx hn fl' f = Ok g.
Proof.
  intros ND P H. destruct (filter_ok _ _ _ _ _ _ H) as (N & M & _). unfold fr_filter in *.
  apply rbind_ok in H as (k & H & K). assert (E : apply_filters rx hn fl' f = Ok k); [|rewrite E; exact K].
  unfold apply_filters in *. rewrite !all_true_map in * by auto.
  rewrite (loop_fl rx hn fl' fl).
  - eapply loop_permutation; eauto.
  - intros _. symmetry. now apply alookup_perm.
  - intros _. apply mem_eq. (split; apply Permutation_in; apply Permutation_map); [apply Permutation_sym|]; exact P.
Qed.

(** ** The meaning of keywords *)
Lemma cell_in cols row c : NoDup cols -> In c cols -> length row = length cols -> In (c, cell cols row c) (combine cols row).
Proof.
  revert row. induction cols as [|c' cols IH]; intros [|v row] ND I L; try easy. cbn [cell combine].
  destruct (String.eqb_spec c c') as [->|E]; [now left|]. right. inversion ND; subst. apply IH; auto. destruct I as [->|I]; [easy|auto].
Qed.
Lemma in_cell cols row c v : NoDup cols -> In (c, v) (combine cols row) -> cell cols row c = v.
Proof.
  revert row. induction cols as [|c' cols IH]; intros [|w row] ND I; try easy. cbn [cell combine] in *. inversion ND as [|? ? A B]; subst.
  destruct I as [[= -> ->]|I]; [now rewrite String.eqb_refl|]. destruct (String.eqb_spec c c') as [->|E]; [|auto].
  exfalso. apply A. now apply in_combine_l in I.
Qed.
Lemma rmap_ok {A B} (f : A -> res B) g l : (forall a, In a l -> f a = Ok (g a)) -> rmap f l = Ok (map g l).
Proof. induction l as [|a l IH]; intros H; cbn; [reflexivity|]. rewrite (H a), IH; [reflexivity|intros b Hb; apply H; now right|now left]. Qed.
Lemma in_ints z l : existsb (tval_eqb (TInt z)) (map TInt l) = true <-> In z l.
Proof.
  rewrite existsb_exists. split; [|intros H; exists (TInt z); split; [now apply in_map|cbn; apply Z.eqb_refl]].
  intros (x & X & E). apply in_map_iff in X as (y & <- & Y). cbn in E. apply Z.eqb_eq in E. now subst.
Qed.
Lemma in_dates z l : existsb (tval_eqb (TDate z)) (map TDate l) = true <-> In z l.
Proof.
  rewrite existsb_exists. split; [|intros H; exists (TDate z); split; [now apply in_map|cbn; apply Z.eqb_refl]].
  intros (x & X & E). apply in_map_iff in X as (y & <- & Y). cbn in E. apply Z.eqb_eq in E. now subst.
Qed.
Lemma targ_ints l : targ_of (Many (map PInt l)) = TList (map TInt l).
Proof. cbn [targ_of]. rewrite map_map. reflexivity. Qed.
Lemma targ_dates l : targ_of (Many (map PDate l)) = TList (map TDate l).
Proof. cbn [targ_of]. rewrite map_map. reflexivity. Qed.
Lemma fields_iff D t y m d s : gregorian D -> falls D t y m d s -> year_of t = y /\ month_of t = m /\ day_of t = d /\ hour_of t = (s / 3600)%Z /\ (0 <= s < 86400)%Z.
Proof. intros G F. destruct (proj1 (proj2 (fields_ok D t G)) y m d s F) as (A & B & C & E). repeat split; auto; apply F. Qed.

Definition means (D : Z -> Z -> Z -> Z) (f : frame) (fl : list (string * parg)) (w : keyword) (p : list mval -> bool) (q : Z -> bool) : Prop :=
  (forall q0 p0, apply_filter false true fl f (Some (map q0 (fr_times f)), Some (map p0 (fr_meta f))) (argument w) =
    Ok (Some (map (fun t => q0 t && q t) (fr_times f)), Some (map (fun r => p0 r && p (snd r)) (fr_meta f)))) /\
  forall r t x, In r (fr_meta f) -> (q t && p (snd r) = true <-> passes D (combine (fr_cols f) (snd r), t, x) w).

Lemma means_times D f fl w (g : Z -> tval) items : fr_times f <> [] -> ~ In (fst (argument w)) (fr_cols f) ->
  (forall q0 p0, apply_filter false true fl f (Some (map q0 (fr_times f)), Some (map p0 (fr_meta f))) (argument w) =
     rbind (Ok (is_in (map g (fr_times f)) items)) (fun m => rbind (and_mask (Some (map q0 (fr_times f))) m) (fun kt => Ok (kt, Some (map p0 (fr_meta f)))))) ->
  (forall k t x, existsb (tval_eqb (g t)) items = true <-> passes D (k, t, x) w) ->
  means D f fl w (fun _ => true) (fun t => existsb (tval_eqb (g t)) items).
Proof.
  intros N C E P. split.
  - intros q0 p0. rewrite E, is_in_map. cbn [rbind and_mask]. rewrite andb_map. now rewrite (mask_true_l p0).
  - intros r t x _. rewrite andb_true_r. apply P.
Qed.
Lemma not_mem c l : ~ In c l -> mem c l = false.
Proof. intros H. destruct (mem c l) eqn:E; [|reflexivity]. apply mem_in in E. contradiction. Qed.

Lemma keyword_means D f fl w : gregorian D -> aligned f -> fr_times f <> [] -> alookup "level" fl = None -> usable f w ->
  exists p q, means D f fl w p q.
Proof.
  intros G AL N LV U. destruct w as [c ps|l|l|l|l|l]; cbn [usable] in U.
  - destruct U as (NL & C & PL & TX). rewrite Forall_forall in PL.
    assert (TC : forall r, In r (fr_meta f) -> exists s, text_of (cell (fr_cols f) (snd r) c) = Some s /\ one_line s).
    { intros r Hr. apply (TX r); auto. apply cell_in; auto; [apply AL|]. destruct AL as [_ _ _ R' _ _]. rewrite Forall_forall in R'. now apply R'. }
    assert (SS : exists ss, strs (column f c) ss).
    { unfold strs, column. clear - TC. induction (fr_meta f) as [|r m IH]; [exists []; reflexivity|].
      destruct IH as (ss & IH); [intros r' Hr'; apply TC; now right|]. destruct (TC r (or_introl eq_refl)) as (s & S & _). exists (s :: ss). cbn. now rewrite S, IH. }
    destruct SS as (ss & SS). destruct (C55_proof (column f c) ss ps separator SS PL) as (bs & B & LB & HB).
    pose proof (pm_ok _ _ _ _ _ _ _ B) as EB.
    exists (fun row => pm1 (map MStr ps) None false true separator (cell (fr_cols f) row c)), (fun _ => true). split.
    + intros q0 p0. unfold argument, apply_filter. rewrite LV. cbn [values_of].
      assert (V : map mval_of (map PStr ps) = map MStr ps) by (rewrite map_map; reflexivity). rewrite V.
      rewrite B, EB. cbn [rbind and_mask]. unfold column. rewrite map_map, andb_map.
      rewrite (proj2 (mem_in c (fr_cols f)) C). rewrite <- mask_true_l. destruct (String.eqb c "variable"); reflexivity.
    + intros r t x Hr. cbn [andb]. cbn [passes].
      apply In_nth_error in Hr as (i & Hi). pose proof (map_nth_error (fun r => cell (fr_cols f) (snd r) c) i _ Hi) as Hc. fold (column f c) in Hc.
      destruct (TC r (nth_error_In _ _ Hi)) as (s & S & O).
      assert (Hs : nth_error ss i = Some s).
      { unfold strs in SS. pose proof (map_nth_error text_of i _ Hc) as H1. rewrite SS, S, nth_error_map in H1. destruct (nth_error ss i); cbn in H1; congruence. }
      specialize (HB i s Hs). rewrite EB, (map_nth_error _ i _ Hc) in HB.
      assert (ND : NoDup (fr_cols f)) by apply AL. assert (LR : length (snd r) = length (fr_cols f)).
      { destruct AL as [_ _ _ R' _ _]. rewrite Forall_forall in R'. apply R'. eapply nth_error_In; eauto. }
      split.
      * intros E. rewrite E in HB. destruct (proj1 HB eq_refl) as (p & P & L). exists (cell (fr_cols f) (snd r) c), s, p.
        split; [now apply cell_in|]. split; auto. split; auto. now apply line_end_one_line.
      * intros (v & s' & p & I & Ts & P & W). apply in_cell in I; auto. subst v. assert (s' = s) by congruence. subst s'.
        assert (X : Some (pm1 (map MStr ps) None false true separator (cell (fr_cols f) (snd r) c)) = Some true)
          by (apply HB; exists p; split; auto; now apply line_end_one_line). now injection X.
  - destruct U as (NE & C). exists (fun _ => true), (fun t => existsb (tval_eqb (TInt (year_of t))) (map TInt l)).
    apply (means_times D f fl (Year l) (fun t => TInt (year_of t))); auto.
    + intros q0 p0. cbn [argument fst] in *. unfold apply_filter. cbn [String.eqb Ascii.eqb Bool.eqb]. rewrite (not_mem _ _ C), targ_ints.
      destruct (fr_times f) as [|t0 ts] eqn:ET; [easy|]. unfold years, vectorized. cbn [rbind]. rewrite years_numbers, map_map. reflexivity.
    + intros k t x. rewrite in_ints. cbn [passes]. split.
      * intros H. exists (year_of t), (month_of t), (day_of t), (second_of_day t). split; auto. now apply fields_ok.
      * intros (y & m & d & s & F & I). apply (fields_iff D t) in F as (-> & _); auto.
  - destruct U as (NE & C). exists (fun _ => true), (fun t => existsb (tval_eqb (TInt (month_of t))) (map TInt l)).
    apply (means_times D f fl (Month l) (fun t => TInt (month_of t))); auto.
    + intros q0 p0. cbn [argument fst] in *. unfold apply_filter. cbn [String.eqb Ascii.eqb Bool.eqb]. rewrite (not_mem _ _ C), targ_ints.
      destruct (fr_times f) as [|t0 ts] eqn:ET; [easy|]. unfold Civil.months, vectorized. cbn [rbind]. unfold month_match. rewrite numbers_match, map_map by auto. reflexivity.
    + intros k t x. rewrite in_ints. cbn [passes]. split.
      * intros H. exists (year_of t), (month_of t), (day_of t), (second_of_day t). split; auto. now apply fields_ok.
      * intros (y & m & d & s & F & I). apply (fields_iff D t) in F as (_ & -> & _); auto.
  - destruct U as (NE & C). exists (fun _ => true), (fun t => existsb (tval_eqb (TInt (day_of t))) (map TInt l)).
    apply (means_times D f fl (Day l) (fun t => TInt (day_of t))); auto.
    + intros q0 p0. cbn [argument fst] in *. unfold apply_filter. cbn [String.eqb Ascii.eqb Bool.eqb]. rewrite (not_mem _ _ C). unfold fr_day_match. rewrite targ_ints.
      destruct (fr_times f) as [|t0 ts] eqn:ET; [easy|]. unfold days, vectorized. destruct l as [|z l]; [easy|]. cbn [map rbind]. unfold day_match.
      change (TInt z :: map TInt l) with (map TInt (z :: l)). rewrite <- (map_cons TInt), <- (map_cons day_of), numbers_match by auto.
      rewrite map_map. reflexivity.
    + intros k t x. rewrite in_ints. cbn [passes]. split.
      * intros H. exists (year_of t), (month_of t), (day_of t), (second_of_day t). split; auto. now apply fields_ok.
      * intros (y & m & d & s & F & I). apply (fields_iff D t) in F as (_ & _ & -> & _); auto.
  - destruct U as (NE & C). exists (fun _ => true), (fun t => existsb (tval_eqb (TInt (hour_of t))) (map TInt l)).
    apply (means_times D f fl (Hour l) (fun t => TInt (hour_of t))); auto.
    + intros q0 p0. cbn [argument fst] in *. unfold apply_filter. cbn [String.eqb Ascii.eqb Bool.eqb]. rewrite (not_mem _ _ C), targ_ints.
      destruct (fr_times f) as [|t0 ts] eqn:ET; [easy|]. unfold hours, vectorized. cbn [rbind hour_match]. rewrite map_map. reflexivity.
    + intros k t x. rewrite in_ints. cbn [passes]. pose proof (proj1 (fields_ok D t G)) as F0. split.
      * intros H. exists (year_of t), (month_of t), (day_of t), (second_of_day t). split; auto.
        exists (hour_of t). split; auto. apply (fields_iff D t) in F0 as (_ & _ & _ & -> & S); auto.
        pose proof (Z.div_mod (second_of_day t) 3600 ltac:(lia)). pose proof (Z.mod_pos_bound (second_of_day t) 3600 ltac:(lia)). lia.
      * intros (y & m & d & s & F & h & I & B). apply (fields_iff D t) in F as (_ & _ & _ & -> & _); auto.
        replace (s / 3600)%Z with h; auto. apply (Z.div_unique s 3600 h (s - 3600 * h)); lia.
  - destruct U as (NE & C). exists (fun _ => true), (fun t => existsb (tval_eqb (TDate t)) (map TDate l)).
    apply (means_times D f fl (Times l) TDate); auto.
    + intros q0 p0. cbn [argument fst] in *. unfold apply_filter. cbn [String.eqb Ascii.eqb Bool.eqb]. rewrite (not_mem _ _ C), targ_dates.
      cbn [rbind datetime_match]. assert (I : existsb is_int (map TDate l) = false) by (clear; induction l; auto). now rewrite I.
    + intros k t x. apply in_dates.
Qed.

Lemma keywords_mean D f fl : gregorian D -> aligned f -> fr_times f <> [] -> alookup "level" fl = None -> forall ws, Forall (usable f) ws ->
  exists p q, (forall q0 p0, apply_filters_loop false true fl f (Some (map q0 (fr_times f)), Some (map p0 (fr_meta f))) (map argument ws) =
      Ok (Some (map (fun t => q0 t && q t) (fr_times f)), Some (map (fun r => p0 r && p (snd r)) (fr_meta f)))) /\
    forall r t x, In r (fr_meta f) -> (q t && p (snd r) = true <-> forall w, In w ws -> passes D (combine (fr_cols f) (snd r), t, x) w).
Proof.
  intros G AL N LV ws U. induction U as [|w ws Uw U (p & q & IH1 & IH2)].
  - exists (fun _ => true), (fun _ => true). split; [intros q0 p0; cbn; now rewrite <- !mask_true_l|]. intros r t x _. cbn. now split.
  - destruct (keyword_means D f fl w G AL N LV Uw) as (p1 & q1 & M1 & M2).
    exists (fun r => p1 r && p r), (fun t => q1 t && q t). split.
    + intros q0 p0. cbn [map apply_filters_loop]. rewrite M1. cbn [rbind]. rewrite IH1. do 3 f_equal; apply map_ext; intros a; now rewrite andb_assoc.
    + intros r t x Hr. cbn [In]. specialize (M2 r t x Hr). specialize (IH2 r t x Hr).
      split.
      * intros H w' [<-|W].
        -- apply M2. destruct (q1 t), (p1 (snd r)); auto; cbn in H; try discriminate; now rewrite andb_false_r in H.
        -- apply IH2; auto. destruct (q1 t), (q t), (p1 (snd r)), (p (snd r)); auto.
      * intros H. pose proof (proj2 M2 (H w (or_introl eq_refl))) as A. pose proof (proj2 IH2 (fun w' W => H w' (or_intror W))) as B.
        destruct (q1 t), (q t), (p1 (snd r)), (p (snd r)); auto.
Qed.

Lemma selection D f ws keep : gregorian D -> aligned f -> fr_times f <> [] -> fr_meta f <> [] -> Forall (usable f) ws ->
  exists g s, fr_filter keep false true (map argument ws) f = Ok g /\ points g = filter s (points f) /\
    forall pt, In pt (points f) -> (s pt = true <-> (if keep then (forall w, In w ws -> passes D pt w) else ~ forall w, In w ws -> passes D pt w)).
Proof.
  intros G AL N M U. assert (LV : alookup "level" (map argument ws) = None).
  { clear - U. induction U as [|w ws Uw U IH]; [reflexivity|]. cbn [map alookup]. destruct w; cbn [argument usable] in *; try exact IH.
    destruct Uw as (NL & _). destruct (String.eqb_spec "level" c) as [E|E]; [congruence|exact IH]. }
  destruct (keywords_mean D f (map argument ws) G AL N LV ws U) as (p & q & H1 & H2).
  destruct (aligned_series f AL) as (z & E). remember (fr_times f) as times. remember (fr_cols f) as cols.
  assert (ND : NoDup (map s_label z)) by (rewrite <- labels_data; rewrite E in AL; apply AL).
  assert (H : apply_filters false true (map argument ws) f = Ok (Some (map q times), Some (map (fun r => p (snd r)) (map s_meta z)))).
  { unfold apply_filters. rewrite !all_true_map by (auto; congruence). rewrite <- Heqtimes. rewrite H1. rewrite E. reflexivity. }
  assert (LN : forall x, In x z -> length (snd (fst x)) = length times /\ length (snd x) = length cols) by (apply aligned_lengths; now rewrite <- E).
  exists (kept keep q p times cols z), (fun pt => Bool.eqb keep (sel p q pt)). split; [rewrite E in H |- *; now apply filter_kept|].
  split; [rewrite E; now apply kept_points|]. intros pt I.
  rewrite E in I. rewrite points_series in I by auto. apply in_flat_map in I as (x & X & I). unfold spoints in I.
  assert (IP : fst (fst pt) = combine cols (snd x)).
  { revert I. generalize (snd (fst x)) as v. clear. induction times as [|t ts IH]; intros [|[y|] v] I; cbn in I; try easy.
    - destruct I as [<-|I]; [reflexivity|]. eauto.
    - eauto. }
  assert (Hr : In (s_meta x) (fr_meta f)) by (rewrite E; cbn; now apply in_map).
  specialize (H2 (s_meta x) (snd (fst pt)) (snd pt) Hr). cbn [s_meta snd] in H2.
  destruct pt as [[k t] v]. cbn [fst snd] in *. subst k. unfold sel. cbn [fst snd]. rewrite map_snd_combine by (symmetry; apply LN, X).
  destruct keep; cbn [Bool.eqb]; [rewrite <- H2; now destruct (q t && p (snd x))|]. destruct (q t && p (snd x)); cbn [negb].
  - split; [discriminate|]. intros NN. exfalso. apply NN. now apply H2.
  - split; [|reflexivity]. intros _ NN. apply H2 in NN. discriminate.
Qed.
