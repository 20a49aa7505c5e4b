(** Lemmas on the alignment of data and metadata (C66). *)
From Coq Require Import String Ascii List ZArith QArith Qcanon Reals Bool Lia Permutation Sorted Lra.
From Verif Require Import Base Calendar Core Filters Frame Spec_Frame FrameFilter FrameSelect FrameEdit FrameAppend Spec_Append AppendProps FrameWide WideProps FrameInterp InterpProps FrameFormat FrameItems Spec_Format FormatProps LongProps.
Import ListNotations.
Local Open Scope string_scope.
Local Open Scope list_scope.

Lemma combine_len {A B} (a : list A) (b : list B) : length a = length b -> length (combine a b) = length b.
Proof. intros L. rewrite combine_length. lia. Qed.
Lemma rmap_length {A B} (g : A -> res B) l : forall bs, rmap g l = Ok bs -> length bs = length l.
Proof. induction l as [|a l IH]; intros bs H; [now injection H as <-|]. apply rmap_ok_cons in H as (b & bs' & -> & _ & H). cbn. f_equal. auto. Qed.
Lemma rmap_nth {A B} (g : A -> res B) l : forall bs i a, rmap g l = Ok bs -> nth_error l i = Some a -> exists b, nth_error bs i = Some b /\ g a = Ok b.
Proof.
  induction l as [|a0 l IH]; intros bs i a H E; [destruct i; discriminate|]. apply rmap_ok_cons in H as (b & bs' & -> & G & H). destruct i as [|i]; [injection E as <-; now exists b|]. cbn in *. eauto.
Qed.

(** ** [from_ts] *)
(** The value of the argument for the [i]-th timeseries *)
Lemma from_ts_ok times data columns g : Forall (fun vs => length vs = length times) data -> NoDup (map fst columns) -> from_ts times data columns = Ok g ->
  aligned g /\ fr_times g = times /\ fr_data g = combine (map Z.of_nat (seq 0 (length data))) data /\
  (forall c, In c (fr_cols g) <-> In c (map fst columns)) /\
  forall i c v, (i < length data)%nat -> (meta_of g (Z.of_nat i) c v <-> exists a, In (c, a) columns /\
    (nth_error (values_of a) i = Some v /\ length (values_of a) = length data \/ values_of a = [v])).
Proof.
  intros LD ND H. unfold from_ts in H. destruct (forallb _ required_cols) eqn:RQ; [|discriminate]. cbv zeta in H. apply rbind_ok in H as (cols & RM & H). injection H as <-.
  set (f := mkFrame _ _ _ _). pose proof (rmap_length _ _ _ RM) as LC.
  assert (LL : length (map Z.of_nat (seq 0 (length data))) = length data) by (now rewrite map_length, seq_length).
  assert (AL : aligned f).
  { split; cbn [f fr_data fr_meta fr_times fr_cols].
    - rewrite combine_fst by exact LL. now rewrite map_map.
    - rewrite combine_fst by exact LL. apply labels_nodup.
    - apply Forall_forall. intros [l vs] I. cbn. rewrite Forall_forall in LD. apply LD. eapply in_combine_r; eauto.
    - apply Forall_map, Forall_forall. intros i _. cbn. now rewrite !map_length.
    - exact ND.
    - intros c I. rewrite forallb_forall in RQ. now apply mem_in, RQ. }
  split; [now apply sort_meta_aligned|]. split; [reflexivity|]. split; [reflexivity|]. split.
  - intros c. pose proof (sorted_perm (fr_cols f) (al_cols _ AL) (al_required _ AL)) as P. cbn [sort_meta_cols fr_cols]. split; apply Permutation_in; [apply Permutation_sym|]; exact P.
  - intros i c v L. rewrite sort_meta_of by auto.
    assert (M : meta_of f (Z.of_nat i) c v <-> In (c, v) (combine (map fst columns) (map (fun l => nth i l MNaN) cols))).
    { unfold meta_of. cbn [f fr_meta fr_cols]. split.
      - intros (row & I & J). apply in_map_iff in I as (j & E & _). apply pair_equal_spec in E as (E & <-). apply Nat2Z.inj in E. now subst j.
      - intros J. eexists. split; [apply in_map_iff; exists i; split; [reflexivity|apply in_seq; lia]|exact J]. }
    rewrite M. clear M AL f LL. revert cols RM LC. clear RQ ND. induction columns as [|[c0 a0] columns IH]; intros cols RM LC.
    + cbn. split; [easy|intros (a & [] & _)].
    + apply rmap_ok_cons in RM as (b & bs & -> & G & RM). cbn [map fst combine]. injection LC as LC. cbn [In]. rewrite (IH bs RM LC). cbn [snd] in G.
      assert (V : v = nth i b MNaN <-> nth_error (values_of a0) i = Some v /\ length (values_of a0) = length data \/ values_of a0 = [v]).
      { destruct (Nat.eqb_spec (length (values_of a0)) (length data)) as [E|E].
        - injection G as <-. split; [intros ->; left; split; auto; apply nth_error_nth'; lia|]. intros [(X & _)|X]; [symmetry; now apply nth_error_nth|].
          rewrite X in *. cbn in E. assert (i = 0)%nat by lia. now subst i.
        - destruct (values_of a0) as [|w [|w' l]]; try discriminate. injection G as <-. rewrite (nth_indep _ MNaN w), nth_repeat by (now rewrite repeat_length). split; [intros ->; now right|]. intros [(_ & X)|X]; [congruence|now injection X]. }
      split.
      * intros [[= <- E]|(a & I & X)]; [|exists a; split; auto]. symmetry in E. apply V in E. exists a0. split; auto.
      * intros (a & [[= <- <-]|I] & X); [left; apply V in X; now rewrite X|right; eauto].
Qed.
Lemma from_ts_accepts times data columns : (exists g, from_ts times data columns = Ok g) <->
  incl required_cols (map fst columns) /\ forall c a, In (c, a) columns -> length (values_of a) = length data \/ length (values_of a) = 1%nat.
Proof.
  unfold from_ts. split.
  - intros (g & H). destruct (forallb _ required_cols) eqn:RQ; [|discriminate]. cbv zeta in H. apply rbind_ok in H as (cols & RM & _). split.
    + intros c I. rewrite forallb_forall in RQ. now apply mem_in, RQ.
    + intros c a I. apply In_nth_error in I as (i & I). destruct (rmap_nth _ _ _ _ _ RM I) as (b & _ & B). cbn [snd] in B. destruct (Nat.eqb_spec (length (values_of a)) (length data)); auto. destruct (values_of a) as [|w [|w' l]]; try discriminate. now right.
  - intros (RQ & H). assert (F : forallb (fun c => mem c (map fst columns)) required_cols = true) by (apply forallb_forall; intros c I; now apply mem_in, RQ). rewrite F. cbv zeta.
    destruct (proj2 (rmap_all (fun c : string * parg => let l := values_of (snd c) in if Nat.eqb (length l) (length data) then Ok l else match l with [v] => Ok (repeat v (length data)) | _ => Err EValueError end) columns)) as (cols & C).
    + intros [c a] I. cbn [snd]. destruct (H c a I) as [E|E]; destruct (Nat.eqb_spec (length (values_of a)) (length data)); cbv zeta; eauto; try congruence. destruct (values_of a) as [|w [|w' l]]; try discriminate. eauto.
    + cbv zeta in C. rewrite C. cbn [rbind]. eauto.
Qed.

(** ** [rename] and [set_meta] *)
Lemma rename_aligned mapping : forall f, aligned f -> aligned (fst (rename mapping f)).
Proof.
  induction mapping as [|[c m] mapping IH]; intros f AL; cbn [rename]; auto. destruct (mem c (fr_cols f)); auto. pose proof (map_column_aligned c (replace_value m) f AL) as A.
  destruct (meta_dup _); auto.
Qed.
Lemma set_meta_ok name a f g : aligned f -> fr_data f <> [] \/ (exists v, a = One v) -> set_meta name a f = Ok g ->
  aligned g /\ fr_times g = fr_times f /\ fr_data g = fr_data f /\ (forall c, In c (fr_cols g) <-> In c (fr_cols f) \/ c = name) /\
  (forall l c v, c <> name -> (meta_of g l c v <-> meta_of f l c v)) /\
  forall i l vs v, nth_error (fr_data f) i = Some (l, vs) -> (meta_of g l name v <-> match a with One w => v = mval_of w | Many ws => option_map mval_of (nth_error ws i) = Some v end).
Proof.
  intros AL NE H. unfold set_meta in H. destruct (String.eqb name ""); [discriminate|].
  assert (V : exists vs, g = put_meta name vs f /\ match a with One w => vs = map (fun _ => mval_of w) (fr_meta f) | Many ws => length ws = length (fr_meta f) /\ vs = map mval_of ws end).
  { destruct a as [w|ws]; [injection H as <-; eexists; split; reflexivity|]. pose proof (al_labels _ AL) as L. destruct (fr_meta f) as [|m ms] eqn:EM.
    - destruct NE as [N|(v & N)]; [|discriminate]. destruct (fr_data f); [contradiction|discriminate].
    - destruct (Nat.eqb_spec (length ws) (length (m :: ms))); [|discriminate]. injection H as <-. eauto. }
  clear H NE. destruct V as (vs & -> & V). unfold put_meta.
  assert (LV : length vs = length (fr_meta f)).
  { destruct a as [w|ws]; [rewrite V; apply map_length|]. destruct V as (L & ->). now rewrite map_length. }
  assert (VA : forall i l row, nth_error (fr_meta f) i = Some (l, row) -> exists v, nth_error vs i = Some v /\ forall v', (v' = v <-> match a with One w => v' = mval_of w | Many ws => option_map mval_of (nth_error ws i) = Some v' end)).
  { intros i l row E. assert (L : (i < length vs)%nat) by (rewrite LV; apply nth_error_Some; congruence). destruct (nth_error vs i) as [v|] eqn:EV; [|apply nth_error_None in EV; lia]. exists v. split; auto. intros v'.
    destruct a as [w|ws]; [subst vs|destruct V as (_ & ->)].
    - rewrite nth_error_map in EV. rewrite E in EV. cbn in EV. injection EV as <-. tauto.
    - rewrite nth_error_map in EV. rewrite EV. split; [now intros ->|congruence]. }
  clear V. set (put := fun p : mval * (BinNums.Z * list mval) => let (v, r) := p in (fst r, if mem name (fr_cols f) then map_cell (fr_cols f) name (fun _ => v) (snd r) else snd r ++ [v])).
  match goal with |- context[map ?h (combine vs (fr_meta f))] => change h with put end.
  assert (FP : forall ms, length vs = length ms -> map fst (map put (combine vs ms)) = map fst ms).
  { clear. induction vs as [|v vs IH]; intros [|m ms] L; try discriminate; auto. injection L as L. cbn [combine map put fst]. f_equal. auto. }
  set (g := mkFrame _ _ _ _).
  assert (CG : forall c, In c (fr_cols g) <-> In c (fr_cols f) \/ c = name).
  { intros c. cbn [g fr_cols]. destruct (mem name (fr_cols f)) eqn:M; [apply mem_in in M; split; [tauto|intros [I| ->]; auto]|]. rewrite in_app_iff. cbn. intuition. }
  assert (RL : forall l row, In (l, row) (fr_meta f) -> length row = length (fr_cols f)) by (intros l row I; eapply row_length; eauto).
  assert (AG : aligned g).
  { destruct AL as [A1 A2 A3 A4 A5 A6]. split; cbn [g fr_data fr_meta fr_times fr_cols]; auto.
    - rewrite FP by auto. exact A1.
    - apply Forall_map, Forall_forall. intros [v [l row]] I. apply in_combine_r in I. apply RL in I. unfold put. cbn [fst snd]. destruct (mem name (fr_cols f)); [now apply map_cell_length|]. rewrite !app_length. cbn. lia.
    - destruct (mem name (fr_cols f)) eqn:M; auto. apply NoDup_app_intro; auto; [repeat constructor; intros []|]. intros c C [<-|[]]. apply mem_in in C. congruence.
    - intros c I. apply CG. left. auto. }
  assert (MG : forall l row v, In (v, (l, row)) (combine vs (fr_meta f)) -> forall c w, meta_of g l c w <-> (c = name /\ w = v) \/ (c <> name /\ In (c, w) (combine (fr_cols f) row))).
  { intros l row v I c w. assert (IG : In (put (v, (l, row))) (fr_meta g)) by (cbn [g fr_meta]; now apply in_map).
    assert (LR : length row = length (fr_cols f)) by (apply in_combine_r in I; eauto).
    assert (X : meta_of g l c w <-> In (c, w) (combine (fr_cols g) (snd (put (v, (l, row)))))).
    { split; [|intros J; eexists; split; [exact IG|exact J]]. intros (row' & I' & J). assert (row' = snd (put (v, (l, row)))) as ->; auto. apply (meta_unique g l); auto. }
    rewrite X. unfold put. cbn [g fr_cols fst snd]. destruct (mem name (fr_cols f)) eqn:M.
    - rewrite map_cell_in. apply mem_in in M. split.
      + intros (u & J & ->). destruct (String.eqb_spec name c) as [->|N]; auto.
      + intros [(-> & ->)|(N & J)].
        * exists (cell (fr_cols f) row name). split; [apply cell_in; auto; apply AL|]. now rewrite String.eqb_refl.
        * exists w. split; auto. destruct (String.eqb_spec name c); congruence.
    - assert (EC : combine (fr_cols f ++ [name]) (row ++ [v]) = combine (fr_cols f) row ++ [(name, v)]).
      { clear - LR. revert row LR. induction (fr_cols f) as [|a0 cs IH]; intros [|b row0] L0; try discriminate; cbn; auto. f_equal. apply IH. now injection L0. }
      rewrite EC, in_app_iff. cbn [In]. split.
      + intros [J|[[= <- <-]|[]]]; auto. right. split; auto. intros ->. apply in_combine_l in J. apply mem_in in J. congruence.
      + intros [(-> & ->)|(N & J)]; auto. }
  assert (IC : forall l row, In (l, row) (fr_meta f) -> exists v, In (v, (l, row)) (combine vs (fr_meta f))).
  { revert LV. clear. generalize (fr_meta f). induction vs as [|v vs IH]; intros [|m ms] L l row I; try discriminate; [easy|]. injection L as L. destruct I as [->|I]; [exists v; now left|]. destruct (IH ms L l row I) as (w & W). exists w. now right. }
  split; [exact AG|]. split; [reflexivity|]. split; [reflexivity|]. split; [exact CG|]. split.
  - intros l c v N. split.
    + intros J. pose proof J as (row' & I' & _). cbn [g fr_meta] in I'. apply in_map_iff in I' as ([u [l0 row]] & E & I). cbn in E. apply pair_equal_spec in E as (-> & _). apply (MG l row u I) in J as [(X & _)|(_ & J)]; [contradiction|].
      exists row. split; auto. now apply in_combine_r in I.
    + intros (row & I & J). destruct (IC l row I) as (u & U). apply (MG l row u U). now right.
  - intros i l vals v E. assert (EM : exists row, nth_error (fr_meta f) i = Some (l, row)).
    { pose proof (al_labels _ AL) as LB. apply (f_equal (fun x => nth_error x i)) in LB. rewrite !nth_error_map, E in LB. cbn in LB. destruct (nth_error (fr_meta f) i) as [[l' row]|]; [|discriminate]. injection LB as ->. eauto. }
    destruct EM as (row & EM). destruct (VA i l row EM) as (w & W & X). assert (I : In (w, (l, row)) (combine vs (fr_meta f))).
    { clear -W EM. revert i W EM. generalize (fr_meta f). induction vs as [|v vs IH]; intros [|m ms] [|i] W EM; try discriminate; [injection W as ->; injection EM as ->; now left|right; eapply IH; eauto]. }
    rewrite (MG l row w I). rewrite <- X. split; [intros [(_ & ->)|(N & _)]; congruence|auto].
Qed.

(** ** [convert_unit] *)
Lemma convert_labels_aligned ls conv unit ctx f : aligned f -> aligned (convert_labels ls conv unit ctx f).
Proof.
  intros [A1 A2 A3 A4 A5 A6]. assert (D : map fst (fr_data (convert_labels ls conv unit ctx f)) = map fst (fr_data f)).
  { cbn [convert_labels fr_data]. rewrite map_map. apply map_ext. intros c. now destruct (has_label _ _). }
  split; auto.
  - rewrite D, A1. cbn [convert_labels fr_meta]. rewrite map_map. apply map_ext. intros c. now destruct (has_label _ _).
  - now rewrite D.
  - cbn [convert_labels fr_data fr_times]. apply Forall_map. eapply Forall_impl; [|exact A3]. intros c L. destruct (has_label _ _); auto. cbn. now rewrite map_length.
  - cbn [convert_labels fr_meta fr_cols]. apply Forall_map. eapply Forall_impl; [|exact A4]. intros c L. destruct (has_label _ _); auto. cbn [snd]. now repeat apply map_cell_length.
Qed.
Lemma convert_aligned mk unit ctx keep rx hn fl f : aligned f -> aligned (fst (convert_unit mk unit ctx keep rx hn fl f)).
Proof.
  intros AL. destruct (with_context_ok f AL) as (A & _). unfold convert_unit. cbv zeta. destruct (fr_filter _ _ _ _ _) as [g|e]; auto. destruct (units_of g) as [us|e]; auto.
  revert A. generalize (with_context f). induction us as [|u us IH]; intros f' A; cbn [convert_groups]; auto. destruct (mk u) as [conv|e]; auto. apply IH. now apply convert_labels_aligned.
Qed.

(** ** [df_append] *)
Lemma joint_rows_shape C f rows : aligned f -> joint_rows C f = Ok rows ->
  Forall (fun r => length (fst r) = length C /\ Forall solid (fst r) /\ map fst (snd r) = fr_times f) rows.
Proof.
  intros AL H. unfold joint_rows in H. destruct (existsb _ C); [discriminate|]. apply rbind_ok in H as (ts & W & E). injection E as <-.
  assert (D : meta_dup f = false) by (unfold wide in W; destruct (meta_dup f); [discriminate|reflexivity]).
  destruct (aligned_series f AL) as (z & Z). rewrite Z in W, D. rewrite wide_series in W by auto. injection W as <-.
  apply Forall_forall. intros r R'. rewrite map_map in R'. apply in_map_iff in R' as (x & <- & X). cbn [fst snd]. split; [now rewrite map_length|]. split.
  - apply Forall_forall. intros v V. apply in_map_iff in V as (c & <- & _). apply joint_solid.
  - apply combine_fst. symmetry. apply (aligned_lengths (fr_times f) (fr_cols f) z); auto. now rewrite <- Z.
Qed.
Lemma append_aligned msg fs g : Forall aligned fs -> df_append msg fs = Ok (Joined g) -> aligned g.
Proof.
  intros AL H. destruct (append_cases msg fs _ H) as (NE & _ & rows & R' & E & _). cbv zeta in E.
  assert (g = joined_frame fs (concat rows)) as -> by (destruct msg; try (injection E as ->; reflexivity); destruct (_ && _); [discriminate|now injection E as ->]).
  apply (joined_values fs (concat rows) NE AL). clear E H NE. revert rows R'. generalize (joint_cols fs). intros C. induction fs as [|f fs IH]; intros rows H; [injection H as <-; constructor|].
  apply rmap_ok_cons in H as (r & rs & -> & H & HS). apply Forall_cons_iff in AL as (A & AL). cbn [concat]. apply Forall_app. split.
  - eapply Forall_impl; [|exact (joint_rows_shape C f r A H)]. intros a (X & Y & Z). repeat split; auto. exists f. split; [now left|auto].
  - eapply Forall_impl; [|exact (IH AL rs HS)]. intros a (X & Y & f' & Z & T). repeat split; auto. exists f'. split; [now right|auto].
Qed.

(** ** [format_data] *)
Lemma label_nodup l : label_dup l = false -> NoDup l.
Proof.
  induction l as [|x l IH]; intros D; constructor; cbn in D; apply orb_false_iff in D as (A & B); auto. intros I. assert (existsb (label_eqb x) l = true); [|congruence]. apply existsb_exists. exists x. split; auto. now apply label_eqb_eq.
Qed.
Lemma NoDup_map_filter {A B} (h : A -> B) p l : NoDup (map h l) -> NoDup (map h (filter p l)).
Proof.
  induction l as [|a l IH]; intros N; auto. cbn [map filter] in *. apply NoDup_cons_iff in N as (X & N). destruct (p a); auto. cbn. constructor; auto. intros I. apply X. apply in_map_iff in I as (b & E & I). apply filter_In in I as (I & _). rewrite <- E. now apply in_map.
Qed.
Lemma meta_columns_names cols meta : meta_columns cols = Ok meta -> map fst cols = map LText (map fst meta).
Proof.
  unfold meta_columns. revert meta. induction cols as [|[l vs] cols IH]; intros meta H; [now injection H as <-|]. apply rmap_ok_cons in H as (b & bs & -> & G & H). cbn [fst snd] in G. destruct l; try discriminate.
  apply rbind_ok in G as (ws & _ & G). injection G as <-. cbn. f_equal. auto.
Qed.
Lemma has_text_in s cols : has_text s cols = true <-> In (LText s) (map fst cols).
Proof.
  unfold has_text. rewrite existsb_exists, in_map_iff. split; intros (c & A & B); exists c; [apply label_eqb_eq in B|split; auto; apply label_eqb_eq]; auto.
Qed.
Lemma labels_unmap (a : list string) : NoDup (map LText a) -> NoDup a.
Proof. apply NoDup_map_inv. Qed.
Lemma label_times_length read ls ts : (forall ss us, read ss = Ok us -> length us = length ss) -> label_times read ls = Ok ts -> length ts = length ls.
Proof.
  intros RD H. unfold label_times in H. destruct ls as [|[s|y|t] ls]; [now injection H as <-| | |].
  - apply rbind_ok in H as (ss & S & H). apply rmap_length in S. apply RD in H. lia.
  - now apply rmap_length in H.
  - now apply rmap_length in H.
Qed.
Lemma format_aligned is_time read tb g : (forall ss ts, read ss = Ok ts -> length ts = length ss) -> format_data is_time read tb = Ok g -> aligned g.
Proof.
  intros RD H. unfold format_data in H. destruct (existsb _ _); [discriminate|]. set (cols := _ ++ _) in H. destruct (forallb _ required_cols) eqn:RQ; [|discriminate].
  assert (RQ' : forall c, In c required_cols -> In (LText c) (map fst cols)) by (intros c I; rewrite forallb_forall in RQ; now apply has_text_in, RQ). clear RQ. clearbody cols.
  destruct (has_text "value" cols) eqn:HV.
  - unfold format_long in H. destruct (label_dup _) eqn:D; [discriminate|]. apply label_nodup in D. destruct (Bool.eqb _ _); [discriminate|]. cbv zeta in H.
    set (T := if has_text "year" cols then "year" else "time") in *.
    apply rbind_ok in H as (times & _ & H). apply rbind_ok in H as (values & _ & H). apply rbind_ok in H as (meta & M & H). apply meta_columns_names in M.
    set (f := pivot (map fst meta) _) in H. assert (A : aligned f).
    { apply pivot_values.
      - apply labels_unmap. rewrite <- M. now apply NoDup_map_filter.
      - intros c I. assert (J : In (LText c) (map LText (map fst meta))); [|apply in_map_iff in J as (c' & [= ->] & J); exact J]. rewrite <- M. pose proof (RQ' c I) as K. apply in_map_iff in K as (col & E & K). apply in_map_iff. exists col. split; auto.
        apply filter_In. split; auto. rewrite E. cbn [label_eqb]. unfold T. cbn in I. destruct I as [<-|[<-|[<-|[<-|[<-|[]]]]]]; destruct (has_text "year" cols); reflexivity.
      - apply Forall_map, Forall_forall. intros i _. cbn [fst]. now rewrite !map_length. }
    destruct (fr_meta f); [discriminate|]. injection H as <-. now apply sort_meta_aligned.
  - unfold format_wide in H. destruct (label_dup _) eqn:D; [discriminate|]. apply label_nodup in D. cbv zeta in H.
    set (tcs := filter _ cols) in H. destruct tcs as [|tc tcs'] eqn:TC; [discriminate|]. rewrite <- TC in H. clear TC tc tcs'. set (sorted := sort_by _ tcs) in H.
    apply rbind_ok in H as (times & T & H). apply rbind_ok in H as (values & V & H). apply rbind_ok in H as (meta & M & H). injection H as <-. apply sort_meta_aligned. apply meta_columns_names in M.
    apply label_times_length in T; auto. apply rmap_length in V. rewrite map_length in T. split; cbn [fr_data fr_meta fr_times fr_cols].
    + now rewrite !map_map.
    + rewrite map_map. cbn [fst]. apply labels_nodup.
    + apply Forall_map, Forall_forall. intros i _. cbn [snd]. rewrite map_length. exact (eq_trans V (eq_sym T)).
    + apply Forall_map, Forall_forall. intros i _. cbn [snd]. now rewrite !map_length.
    + apply labels_unmap. rewrite <- M. now apply NoDup_map_filter.
    + intros c I. assert (J : In (LText c) (map LText (map fst meta))); [|apply in_map_iff in J as (c' & [= ->] & J); exact J]. rewrite <- M. pose proof (RQ' c I) as K. apply in_map_iff in K as (col & E & K). apply in_map_iff. exists col. split; auto.
      apply filter_In. split; auto. rewrite E. apply orb_true_iff. left. now apply mem_in.
Qed.

Lemma set_index_aligned ts f g : aligned f -> set_index ts f = Ok g -> aligned g.
Proof.
  intros [A1 A2 A3 A4 A5 A6] H. unfold set_index in H. destruct (Nat.eqb_spec (length ts) (length (fr_times f))) as [E|]; [|discriminate]. injection H as <-.
  split; cbn; auto. now rewrite E.
Qed.

(** ** [set_meta] with an index *)
Definition key_rows (names : list string) (f : frame) : option (list (list string * (Z * list mval))) :=
  fold_right (fun r acc => match texts (map (cell (fr_cols f) (snd r)) names), acc with Some k, Some l => Some ((k, r) :: l) | _, _ => None end) (Some []) (fr_meta f).
Lemma texts_some vs : forall ks, texts vs = Some ks <-> vs = map MStr ks.
Proof.
  induction vs as [|v vs IH]; intros ks; cbn [texts fold_right].
  - split; [intros [= <-]; reflexivity|]. destruct ks; [reflexivity|discriminate].
  - fold (texts vs). destruct v as [s|q| |]; try (split; [discriminate|destruct ks; discriminate]).
    destruct (texts vs) as [l|]; [|split; [discriminate|]]; [split|].
    + intros [= <-]. cbn. f_equal. now apply IH.
    + destruct ks as [|k ks]; [discriminate|]. intros [= -> E]. apply IH in E. congruence.
    + destruct ks as [|k ks]; [discriminate|]. intros [= -> E]. apply IH in E. discriminate.
Qed.
Lemma key_rows_ok names f rows : key_rows names f = Some rows -> map snd rows = fr_meta f /\ Forall (fun p => map (cell (fr_cols f) (snd (snd p))) names = map MStr (fst p)) rows.
Proof.
  unfold key_rows. revert rows. induction (fr_meta f) as [|r ms IH]; intros rows H; cbn [fold_right] in H; [injection H as <-; auto|].
  destruct (texts _) as [k|] eqn:T; [|discriminate]. destruct (fold_right _ _ ms) as [l|]; [|discriminate]. injection H as <-. destruct (IH l eq_refl) as (A & B). cbn. split; [now f_equal|]. constructor; auto. now apply texts_some.
Qed.
Lemma key_lookup_spec values k v : NoDup (map fst values) -> (key_lookup k values = v <-> In (k, v) values \/ (v = MNaN /\ ~ In k (map fst values))).
Proof.
  induction values as [|[k' v'] values IH]; intros N; cbn [key_lookup map fst In].
  - split; [intros <-; auto|]. intros [[]|(-> & _)]. reflexivity.
  - apply NoDup_cons_iff in N as (A & N). destruct (list_eq_dec string_dec k k') as [->|E].
    + split; [intros ->; auto|]. intros [[[= ->]|I]|(_ & X)]; auto; exfalso; [apply A; now apply (in_map fst) in I|apply X; auto].
    + rewrite IH by auto. split; [intros [I|(-> & I)]; auto; right; split; auto; intros [J|J]; congruence|]. intros [[J|I]|(-> & I)]; [apply pair_equal_spec in J as (J & _); congruence|auto|right; split; auto].
Qed.
Lemma nodup_full {A} (dec : forall a b : A, {a = b} + {a <> b}) l : length (nodup dec l) = length l -> NoDup l.
Proof.
  induction l as [|a l IH]; intros L; constructor; cbn [nodup length] in L; destruct (in_dec dec a l) as [I|I]; auto; try (apply IH; cbn in L; lia);
  exfalso; assert (length (nodup dec l) <= length l)%nat by (clear; induction l as [|b l IH]; cbn; auto; destruct (in_dec dec b l); cbn; lia); lia.
Qed.
Lemma Forall2_cells f names l row : aligned f -> In (l, row) (fr_meta f) -> incl names (fr_cols f) -> forall ks, keyed f names l ks <-> map (cell (fr_cols f) row) names = map MStr ks.
Proof.
  intros AL I. assert (X : forall c s, In c (fr_cols f) -> (meta_of f l c (MStr s) <-> cell (fr_cols f) row c = MStr s)).
  { intros c s J. split.
    - intros (row' & I' & K). rewrite (meta_unique f l row' row AL I' I) in K. apply in_cell in K; [auto|apply AL].
    - intros E. exists row. split; auto. rewrite <- E. apply cell_in; auto; [apply AL|eapply row_length; eauto]. }
  unfold keyed. induction names as [|c names IH]; intros IN ks; cbn [map].
  - split; [inversion 1; reflexivity|destruct ks; [constructor|discriminate]].
  - split.
    + inversion 1 as [|? s ? ks' A B]; subst. cbn. f_equal; [apply X; auto; apply IN; now left|]. apply IH; auto. intros c' J. apply IN. now right.
    + destruct ks as [|s ks]; [discriminate|]. cbn [map]. intros E. assert (E' := E). apply (f_equal (hd MNaN)) in E. apply (f_equal (@tl _)) in E'. cbn in E, E'. constructor; [apply X; auto; apply IN; now left|]. apply IH; auto. intros c' J. apply IN. now right.
Qed.
Lemma MStr_inj a : forall b, map MStr a = map MStr b -> a = b.
Proof. induction a as [|x a IH]; intros [|y b] E; try discriminate; auto. cbn in E. injection E as -> E. f_equal. auto. Qed.
Lemma set_index_ok name names values f g : aligned f -> set_meta_index name names values f = Ok g ->
  fr_times g = fr_times f /\ fr_data g = fr_data f /\ (forall c, In c (fr_cols g) <-> In c (fr_cols f) \/ c = name) /\
  Permutation (map fst (fr_meta f)) (map fst (fr_meta g)) /\ (aligned g <-> map fst (fr_meta g) = map fst (fr_data g)) /\
  (forall l c v, c <> name -> (meta_of g l c v <-> meta_of f l c v)) /\
  forall l v, In l (map fst (fr_data f)) -> (meta_of g l name v <-> exists ks, keyed f names l ks /\ (In (ks, v) values \/ (v = MNaN /\ ~ In ks (map fst values)))).
Proof.
  intros AL H. unfold set_meta_index in H. destruct (String.eqb name ""); [discriminate|]. destruct (forallb _ names) eqn:FN; cbn [negb] in H; [|discriminate]. destruct (mem name (fr_cols f)) eqn:MN; [discriminate|].
  change (fold_right _ _ (fr_meta f)) with (key_rows names f) in H. destruct (key_rows names f) as [rows|] eqn:KR; [|discriminate]. apply key_rows_ok in KR as (KM & KF).
  destruct (Nat.eqb_spec (length (nodup (list_eq_dec string_dec) (map fst values))) (length values)) as [ND|]; cbn [negb] in H; [|discriminate].
  assert (NV : NoDup (map fst values)) by (apply (nodup_full (list_eq_dec string_dec)); now rewrite map_length). destruct (forallb _ values); cbn [negb] in H; [|discriminate].
  injection H as <-. set (rows' := if list_eq_dec _ _ _ then _ else _).
  assert (P : Permutation rows rows') by (unfold rows'; destruct (list_eq_dec _ _ _); [reflexivity|apply sort_by_perm]). clearbody rows'.
  set (meta := map (fun r : list string * (BinNums.Z * list mval) => (fst (snd r), snd (snd r) ++ [key_lookup (fst r) values])) rows').
  assert (NI : ~ In name (fr_cols f)) by (intros I; apply mem_in in I; congruence).
  assert (IN : incl names (fr_cols f)) by (intros c I; rewrite forallb_forall in FN; now apply mem_in, FN).
  assert (PM : Permutation (map fst (fr_meta f)) (map fst meta)).
  { unfold meta. rewrite map_map. cbn [fst]. rewrite <- KM, map_map. apply (Permutation_map (fun r : list string * (BinNums.Z * list mval) => fst (snd r))). exact P. }
  assert (RL : Forall (fun r : BinNums.Z * list mval => length (snd r) = length (fr_cols f ++ [name])) meta).
  { apply Forall_map, Forall_forall. intros r R'. cbn [snd]. rewrite !app_length. cbn. f_equal. eapply Permutation_in in R'; [|apply Permutation_sym; exact P]. apply (in_map snd) in R'. rewrite KM in R'. destruct (snd r) as [l row]. eapply row_length; eauto. }
  assert (NC : NoDup (fr_cols f ++ [name])) by (apply NoDup_app_intro; [apply AL|repeat constructor; intros []|intros c C [<-|[]]; contradiction]).
  assert (RQ : incl required_cols (fr_cols f ++ [name])) by (intros c I; apply in_or_app; left; now apply (al_required _ AL)).
  set (f2 := mkFrame [] (map (fun r : BinNums.Z * list mval => (fst r, [])) meta) (fr_cols f ++ [name]) meta).
  assert (A2 : aligned f2).
  { split; cbn [f2 fr_data fr_meta fr_times fr_cols]; auto.
    - now rewrite map_map.
    - rewrite map_map. cbn [fst]. eapply Permutation_NoDup; [exact PM|]. rewrite <- (al_labels _ AL). apply AL.
    - apply Forall_map, Forall_forall. reflexivity. }
  set (g1 := mkFrame (fr_times f) (fr_data f) (fr_cols f ++ [name]) meta).
  assert (MO : forall l c v, meta_of (sort_meta_cols g1) l c v <-> meta_of f2 l c v).
  { intros l c v. rewrite <- (sort_meta_of f2 l c v A2). reflexivity. }
  assert (MF : forall l row, In (l, row) (fr_meta f) -> exists ks, In (l, row ++ [key_lookup ks values]) meta /\ keyed f names l ks).
  { intros l row I. rewrite <- KM in I. apply in_map_iff in I as ([ks r] & E & I). cbn in E. subst r. exists ks. split.
    - unfold meta. apply in_map_iff. exists (ks, (l, row)). split; auto. eapply Permutation_in; [exact P|auto].
    - apply (Forall2_cells f names l row); auto; [rewrite <- KM; now apply (in_map snd) in I|]. rewrite Forall_forall in KF. exact (KF _ I). }
  assert (EC : forall (row : list mval) v, length row = length (fr_cols f) -> combine (fr_cols f ++ [name]) (row ++ [v]) = combine (fr_cols f) row ++ [(name, v)]).
  { clear. intros row v. revert row. induction (fr_cols f) as [|a0 cs IH]; intros [|b row0] L0; try discriminate; cbn; auto. f_equal. apply IH. now injection L0. }
  assert (UQ : forall l row ks v c, In (l, row) (fr_meta f) -> keyed f names l ks -> (meta_of f2 l c v <-> In (c, v) (combine (fr_cols f) row) \/ (c = name /\ v = key_lookup ks values))).
  { intros l row ks v c I K. destruct (MF l row I) as (ks' & J & K'). apply (Forall2_cells f names l row AL I IN) in K, K'. assert (E' : ks = ks') by (apply MStr_inj; exact (eq_trans (eq_sym K) K')); subst ks'.
    assert (LR : length row = length (fr_cols f)) by (eapply row_length; eauto). split.
    - intros (row' & I' & M). rewrite (meta_unique f2 l row' _ A2 I' J) in M. cbn [f2 fr_cols] in M. rewrite EC in M by auto. apply in_app_or in M as [M|[[= <- <-]|[]]]; auto.
    - intros M. eexists. split; [exact J|]. cbn [f2 fr_cols]. rewrite EC by auto. apply in_or_app. destruct M as [M|(-> & ->)]; [now left|right; now left]. }
  split; [reflexivity|]. split; [reflexivity|]. split; [|split; [|split; [|split]]].
  - intros c. pose proof (sorted_perm (fr_cols f ++ [name]) NC RQ) as Q. cbn [sort_meta_cols fr_cols]. transitivity (In c (fr_cols f ++ [name])); [split; apply Permutation_in; [apply Permutation_sym|]; exact Q|]. rewrite in_app_iff. cbn. intuition.
  - cbn [sort_meta_cols fr_meta]. rewrite map_map. exact PM.
  - split; [intros A; symmetry; apply A|]. intros E. apply (sort_meta_aligned g1). cbn [sort_meta_cols fr_meta fr_data] in E. rewrite map_map in E. cbn [fst] in E. split; cbn [g1 fr_data fr_meta fr_times fr_cols]; [symmetry; exact E|apply AL|apply AL|exact RL|exact NC|exact RQ].
  - intros l c v N. rewrite MO. split.
    + intros M. pose proof M as (row' & I' & _). assert (IL : In l (map fst (fr_meta f))) by (eapply Permutation_in; [apply Permutation_sym; exact PM|]; now apply (in_map fst) in I').
      apply in_map_iff in IL as ([l0 row] & E & I). cbn in E. subst l0. destruct (MF l row I) as (ks & _ & K). apply (UQ l row ks v c I K) in M as [M|(X & _)]; [|contradiction]. exists row. auto.
    + intros (row & I & M). destruct (MF l row I) as (ks & _ & K). apply (UQ l row ks v c I K). now left.
  - intros l v IL. rewrite (al_labels _ AL) in IL. apply in_map_iff in IL as ([l0 row] & E & I). cbn in E. subst l0. destruct (MF l row I) as (ks & _ & K). rewrite MO, (UQ l row ks v name I K). split.
    + intros [M|(_ & ->)]; [apply in_combine_l in M; contradiction|]. exists ks. split; auto. now apply key_lookup_spec.
    + intros (ks' & K' & X). right. split; auto. apply (Forall2_cells f names l row AL I IN) in K, K'. assert (E' : ks = ks') by (apply MStr_inj; exact (eq_trans (eq_sym K) K')); subst ks'.
      symmetry. now apply key_lookup_spec.
Qed.

(** ** All frames *)
Lemma reachable_aligned is_time read f : (forall ss ts, read ss = Ok ts -> length ts = length ss) -> reachable is_time read f -> aligned f.
Proof.
  intros RD. induction 1 as [times data columns f L N H|tb f H|keep rx hn fl f g _ IH H|m f _ IH|name a f g _ IH N H|ts f g _ IH H|mk u ctx keep rx hn fl f _ IH|msg fs g _ IH H|env sh tg ex f g _ IH H|env sh rule ex f g _ IH H].
  - now apply (from_ts_ok times data columns).
  - now apply (format_aligned is_time read tb).
  - destruct (filter_selects _ _ _ _ _ _ IH H) as (_ & A & _). exact A.
  - now apply rename_aligned.
  - now apply (set_meta_ok name a f).
  - now apply (set_index_aligned ts f).
  - now apply convert_aligned.
  - apply (append_aligned msg fs); auto. now apply Forall_forall.
  - now apply (interp_converts env sh tg ex f g).
  - unfold resample in H. destruct (fr_times f); [discriminate|]. apply rbind_ok in H as (o & _ & H). apply rbind_ok in H as (ts & _ & H). now apply (interp_converts env sh ts ex f g).
Qed.

(** ** Rebuilding *)
Lemma rebuild_ok is_time read f ts : aligned f -> NoDup (fr_times f) -> fr_times f <> [] ->
  (forall c, In c (fr_cols f) -> ~ In c required_cols -> is_time c = false) -> ~ In "value" (fr_cols f) -> wide f = Ok ts ->
  exists g, format_data is_time read (wide_table f ts) = Ok g /\ aligned g /\ (forall c, In c (fr_cols g) <-> In c (fr_cols f)) /\
    StronglySorted Z.lt (fr_times g) /\ (forall t, In t (fr_times g) <-> In t (fr_times f)) /\ map fst (fr_data g) = map Z.of_nat (seq 0 (length (fr_data f))) /\
    forall i l vs, nth_error (fr_data f) i = Some (l, vs) ->
      (forall c v, meta_of g (Z.of_nat i) c v <-> exists v', meta_of f l c v' /\ v = plain_value v') /\
      exists vs', In (Z.of_nat i, vs') (fr_data g) /\ forall t x, In (t, x) (combine (fr_times g) vs') <-> In (t, x) (combine (fr_times f) vs).
Proof.
  intros AL NT NE IT NV W. exists (sort_meta_cols (rebuilt f ts)). split; [now apply rebuild_is|]. destruct (rebuilt_ok f ts AL W NT) as (AR & LT & H). destruct (sorted_columns_times f ts NT) as (SS & SP).
  split; [now apply sort_meta_aligned|]. split; [|split; [exact SS|split; [|split]]].
  - intros c. pose proof (sorted_perm (fr_cols f) (al_cols _ AL) (al_required _ AL)) as P. cbn [sort_meta_cols rebuilt fr_cols]. split; apply Permutation_in; [apply Permutation_sym|]; exact P.
  - intros t. cbn [sort_meta_cols rebuilt fr_times]. split; apply Permutation_in; [apply Permutation_sym|]; exact SP.
  - cbn [sort_meta_cols rebuilt fr_data]. rewrite map_map. cbn [fst]. now rewrite LT.
  - intros i l vs E. destruct (H i l vs E) as (M & vs' & I & P). split; [intros c v; rewrite sort_meta_of by auto; apply M|]. exists vs'. split; [exact I|]. intros t x. split; apply Permutation_in; [apply Permutation_sym|]; exact P.
Qed.
Lemma rmap_all_in {A B} (g : A -> res B) l bs a : rmap g l = Ok bs -> In a l -> exists b, g a = Ok b.
Proof. intros H I. apply In_nth_error in I as (i & I). destruct (rmap_nth _ _ _ _ _ H I) as (b & _ & B'). eauto. Qed.
Lemma mixed_labels read ls ts s t : label_times read ls = Ok ts -> In (LText s) ls -> In (LTime t) ls -> False.
Proof.
  intros H A B. unfold label_times in H. destruct ls as [|[s'|y|t'] ls]; [easy| | |].
  - apply rbind_ok in H as (ss & S & _). destruct (rmap_all_in _ _ _ _ S B) as (x & X). discriminate.
  - destruct (rmap_all_in _ _ _ _ H B) as (x & X). discriminate.
  - destruct (rmap_all_in _ _ _ _ H A) as (x & X). discriminate.
Qed.
Lemma rebuild_fails is_time read f ts c g : fr_times f <> [] -> In c (fr_cols f) -> ~ In c required_cols -> is_time c = true -> ~ In "value" (fr_cols f) ->
  format_data is_time read (wide_table f ts) <> Ok g.
Proof.
  intros NE IC NR IT NV H. unfold format_data in H. destruct (existsb _ _); [discriminate|]. set (cols := _ ++ _) in H. destruct (forallb _ required_cols); [|discriminate].
  assert (HV : has_text "value" cols = false).
  { destruct (has_text "value" cols) eqn:E; auto. exfalso. apply has_text_in in E. unfold cols, wide_table in E. cbn [tb_index tb_columns] in E. rewrite map_app, in_app_iff, !map_map in E. cbn [fst] in E. destruct E as [E|E]; apply in_map_iff in E as (x & E & I); cbn in E; [|discriminate]. injection E as ->. contradiction. }
  rewrite HV in H. unfold format_wide in H. destruct (label_dup _); [discriminate|]. cbv zeta in H. set (tcs := filter _ cols) in H.
  assert (A : In (LText c) (map fst tcs)).
  { apply in_map_iff. exists (LText c, map (fun r : list mval * list num => TMeta (index_value (cell (fr_cols f) (fst r) c))) ts). split; auto. apply filter_In. split.
    - unfold cols, wide_table. cbn [tb_index tb_columns]. apply in_or_app. left. rewrite map_map. apply in_map_iff. exists c. cbn [fst snd]. rewrite map_map. auto.
    - cbn [fst]. rewrite mem_false by auto. cbn. exact IT. }
  assert (B : exists t, In (LTime t) (map fst tcs)).
  { destruct (fr_times f) as [|t0 tl] eqn:ET; [contradiction|]. exists t0. apply in_map_iff. exists (LTime t0, map (fun r : list mval * list num => TVal (nth 0 (snd r) None)) ts). split; auto. apply filter_In. split; [|reflexivity].
    unfold cols, wide_table. cbn [tb_index tb_columns]. apply in_or_app. right. rewrite map_map. apply in_map_iff. exists 0%nat. rewrite ET. cbn [fst snd text_lower nth]. split; auto. apply in_seq. cbn. lia. }
  destruct tcs as [|tc tcs'] eqn:TC; [discriminate|]. rewrite <- TC in *. clear TC tc tcs'. set (sorted := sort_by _ tcs) in H. apply rbind_ok in H as (times & T & _). destruct B as (t & B).
  assert (P : Permutation (map fst tcs) (map fst sorted)) by (apply Permutation_map, sort_by_perm).
  apply (mixed_labels _ _ _ c t T); eapply Permutation_in; eauto.
Qed.
