(** Splitting a data frame with a filter and appending the parts.  (For C94.) *)
From Coq Require Import String Ascii List ZArith QArith Qcanon Reals Bool Lia Lra Permutation.
From Verif Require Import Base ListFacts Core Filters Frame Spec_Frame FrameFilter FrameEdit FrameAppend Spec_Append AppendProps.
Import ListNotations.
Local Open Scope list_scope.

Lemma filter_shape keep rx hn fl f g : fr_filter keep rx hn fl f = Ok g ->
  exists P used, fr_meta g = filter P (fr_meta f) /\ fr_times g = select used (fr_times f).
Proof.
  intros H. unfold fr_filter in H. apply rbind_ok in H as ([[kt|] [km|]] & _ & H); try discriminate.
  destruct (forallb _ (fr_meta f)); [|discriminate]. destruct (Nat.eqb _ _); [|discriminate]. injection H as <-. cbn. eauto.
Qed.
Lemma select_in {A} (m : list bool) (l : list A) x : In x (select m l) -> In x l.
Proof.
  unfold select. intros I. apply in_map_iff in I as ((b & y) & <- & I). apply filter_In in I as [I _]. now apply in_combine_r in I.
Qed.
Lemma select_nodup {A} (m : list bool) : forall l : list A, NoDup l -> NoDup (select m l).
Proof.
  induction m as [|b m IH]; intros [|x l] N; try constructor. inversion N as [|? ? A1 B1]; subst. unfold select. cbn [combine filter fst]. destruct b; [|now apply IH].
  cbn [map snd]. constructor; [|now apply IH]. intros I. apply A1. now apply (select_in m).
Qed.
Lemma has_dup_filter P (l : list (Z * list mval)) : has_dup (map snd l) = false -> has_dup (map snd (filter P l)) = false.
Proof.
  induction l as [|r l IH]; intros H; auto. cbn [map has_dup] in H. apply orb_false_iff in H as [A B]. cbn [filter]. destruct (P r); [|now apply IH].
  cbn [map has_dup]. apply orb_false_iff. split; [|now apply IH]. apply not_true_is_false. intros E. apply existsb_exists in E as (x & I & E).
  apply in_map_iff in I as (y & <- & I). apply filter_In in I as [I _]. assert (K : existsb (row_same (snd r)) (map snd l) = true) by (apply existsb_exists; exists (snd y); split; auto; now apply in_map).
  congruence.
Qed.
Lemma plain_same a b : plain_value a = plain_value b -> mval_same a b = true.
Proof.
  intros H. apply mval_same_iff. unfold missing. destruct a, b; cbn in H; try discriminate H; try (injection H as <-); auto.
Qed.
Lemma extend_same C cols a b : NoDup cols -> incl cols C -> length a = length cols -> length b = length cols ->
  extend C (combine cols a) = extend C (combine cols b) -> row_same a b = true.
Proof.
  intros N I La Lb E.
  assert (K : forall c, In c cols -> plain_value (cell cols a c) = plain_value (cell cols b c)).
  { intros c J. assert (E' : forall l, extend l (combine cols a) = extend l (combine cols b) -> In c l -> plain_value (cell cols a c) = plain_value (cell cols b c)).
    { induction l as [|x l IH]; intros H [].
      - subst x. cbn [extend map] in H. apply (f_equal (hd MNaN)) in H. cbn [hd] in H. rewrite !alookup_combine in H by auto. now rewrite (proj2 (mem_in _ _) J) in H.
      - apply IH; auto. exact (f_equal (@tl _) H). }
    apply (E' C); auto. }
  clear I E. revert cols N La Lb K. revert b. induction a as [|x a IH]; intros [|y b] [|c cols] N La Lb K; try discriminate; auto. cbn [row_same]. apply andb_true_iff.
  inversion N as [|? ? N1 N2]; subst. split.
  - specialize (K c (or_introl eq_refl)). cbn [cell] in K. rewrite String.eqb_refl in K. now apply plain_same.
  - apply (IH b cols); auto. intros d J. specialize (K d (or_intror J)). cbn [cell] in K. destruct (String.eqb_spec d c) as [Ed|_]; [rewrite Ed in J; contradiction|exact K].
Qed.
(** A frame in which no timeseries and no time occurs twice has at most one value for metadata and a time. *)
Lemma values_once C f k t : aligned f -> meta_dup f = false -> NoDup (fr_times f) -> incl (fr_cols f) C -> (length (values_at C (points f) k t) <= 1)%nat.
Proof.
  intros AL D NT I. destruct (aligned_series f AL) as (z & Z). pose proof (al_unique _ AL) as U. pose proof (al_values _ AL) as VL. pose proof (al_rows _ AL) as RL.
  pose proof (al_cols _ AL) as NC.
  assert (PS : points f = flat_map (spoints (fr_times f) (fr_cols f)) z).
  { etransitivity; [exact (f_equal points Z)|]. apply points_series. rewrite Z in U. unfold of_series in U. cbn [fr_data] in U. now rewrite labels_data in U. }
  rewrite PS, values_flat. unfold meta_dup in D. rewrite Z in D, VL, RL. unfold of_series in D, VL, RL. cbn [fr_data fr_meta fr_times fr_cols] in D, VL, RL.
  clear PS U Z. induction z as [|x z IH]; [cbn; lia|]. cbn [map] in VL, RL, D. inversion VL as [|? ? V1 V2]; inversion RL as [|? ? R1 R2]; subst.
  cbn [has_dup] in D. apply orb_false_iff in D as [D1 D2]. specialize (IH D2 V2 R2). cbn [flat_map]. rewrite app_length. unfold spoints at 1. rewrite values_series by auto.
  destruct (row_dec _ k) as [E|E]; [|cbn [length]; lia].
  assert (Q : flat_map (fun y => values_at C (spoints (fr_times f) (fr_cols f) y) k t) z = []).
  { assert (G : forall y, In y z -> values_at C (spoints (fr_times f) (fr_cols f) y) k t = []).
    { intros y Y. rewrite Forall_forall in V2, R2. pose proof (V2 _ (in_map s_data _ _ Y)) as Vy. pose proof (R2 _ (in_map s_meta _ _ Y)) as Ry.
      unfold spoints. rewrite values_series by auto. destruct (row_dec _ k) as [E'|]; [|reflexivity]. exfalso. rewrite <- E' in E.
      assert (T : existsb (row_same (snd (s_meta x))) (map snd (map s_meta z)) = true).
      { apply existsb_exists. exists (snd (s_meta y)). split; [now apply in_map, in_map|]. eapply (extend_same C (fr_cols f)); eauto. }
      congruence. }
    clear -G. induction z as [|y z IH]; auto. cbn [flat_map]. rewrite (G y (or_introl eq_refl)), IH; auto. intros y' Y'. apply G. now right. }
  rewrite Q. destruct (value_at t (combine (fr_times f) (snd (fst x)))); cbn; lia.
Qed.
Lemma points_data f : points f <> [] -> fr_times f <> [] /\ fr_meta f <> [].
Proof.
  intros P. unfold points in P. split; intros E; apply P; rewrite E; clear.
  - induction (fr_data f) as [|c l IH]; auto. cbn [flat_map]. rewrite IH. destruct (zlookup (fst c) (fr_meta f)); reflexivity.
  - induction (fr_data f) as [|c l IH]; auto.
Qed.
Lemma filter_partition_perm {A} (p : A -> bool) l : Permutation (filter p l ++ filter (fun x => negb (p x)) l) l.
Proof.
  induction l as [|x l IH]; [constructor|]. cbn [filter]. destruct (p x); cbn [negb app]; [now constructor|].
  eapply perm_trans; [apply Permutation_sym, Permutation_middle|now constructor].
Qed.

Lemma two {A} (P : A -> Prop) a b : P a -> P b -> Forall P [a; b].
Proof. auto. Qed.
Theorem split_append rx hn fl f a b msg : aligned f -> unique_rows (map snd (fr_meta f)) -> NoDup (fr_times f) -> no_fill f -> ~ In ""%string (fr_cols f) ->
  fr_filter true rx hn fl f = Ok a -> fr_filter false rx hn fl f = Ok b -> points a <> [] -> points b <> [] ->
  exists g, fr_append msg a b = Ok (Joined g) /\ aligned g /\ (forall c, In c (fr_cols g) <-> In c (fr_cols f)) /\
    (forall t, In t (fr_times g) -> In t (fr_times f)) /\
    forall k t, values_at (fr_cols g) (points g) k t = values_at (fr_cols g) (points f) k t.
Proof.
  intros AL U NT NF NE Ha Hb Pa Pb. destruct (partition true rx hn fl f a AL Ha) as (p & q & a' & b' & Ha' & Hb' & Aa & Ab & Ca & Cb & Qa & Qb).
  rewrite Ha in Ha'. injection Ha' as <-. rewrite Hb in Hb'. injection Hb' as <-.
  assert (D : meta_dup f = false) by now apply unique_iff.
  destruct (filter_shape _ _ _ _ _ _ Ha) as (P1 & u1 & M1 & T1), (filter_shape _ _ _ _ _ _ Hb) as (P2 & u2 & M2 & T2).
  assert (Ok' : forall c P u, fr_meta c = filter P (fr_meta f) -> fr_times c = select u (fr_times f) -> points c <> [] ->
    no_fill c /\ (NoDup (fr_times c) /\ fr_times c <> [] /\ fr_meta c <> []) /\ unique_rows (map snd (fr_meta c)) /\ forall t, In t (fr_times c) -> In t (fr_times f)).
  { intros c P u M T N. destruct (points_data c N) as [N1 N2]. split; [|split; [|split]].
    - intros l row I. rewrite M in I. apply filter_In in I as [I _]. exact (NF l row I).
    - split; [rewrite T; now apply select_nodup|auto].
    - apply unique_iff. unfold meta_dup. rewrite M. now apply has_dup_filter.
    - intros t. rewrite T. apply select_in. }
  destruct (Ok' a P1 u1 M1 T1 Pa) as (F1 & X1 & U1 & I1), (Ok' b P2 u2 M2 T2 Pb) as (F2 & X2 & U2 & I2).
  pose proof (two aligned a b Aa Ab) as ALs. pose proof (two no_fill a b F1 F2) as NFs.
  assert (N1 : Forall (fun f => ~ In ""%string (fr_cols f)) [a; b]) by (apply two; congruence).
  destruct (proj2 (append_accepts [a; b] ltac:(discriminate) ALs (two _ a b X1 X2) N1) (two _ a b U1 U2)) as (g & G).
  exists g. destruct (append_points DFalse [a; b] g ALs NFs G) as (Ag & _ & _ & Tg & Cg & Vg).
  assert (Pm : Permutation (flat_map points [a; b]) (points f)).
  { cbn [flat_map]. rewrite app_nil_r, Qa, Qb. apply filter_partition_perm. }
  assert (Cf : forall c, In c (fr_cols g) <-> In c (fr_cols f)).
  { intros c. rewrite Cg. split; [intros (x & [<-|[<-|[]]] & I); congruence|]. intros I. exists a. split; [now left|congruence]. }
  assert (One : forall k t, (length (values_at (fr_cols g) (points f) k t) <= 1)%nat).
  { intros k t. apply values_once; auto. intros c. apply Cf. }
  assert (Eq : forall k t, values_at (fr_cols g) (flat_map points [a; b]) k t = values_at (fr_cols g) (points f) k t).
  { intros k t. pose proof (Permutation_values (fr_cols g) k t _ _ Pm) as Q. specialize (One k t). destruct (values_at (fr_cols g) (points f) k t) as [|x [|y l]].
    - apply Permutation_sym in Q. now apply Permutation_nil in Q.
    - apply Permutation_sym in Q. now apply Permutation_length_1_inv in Q.
    - cbn in One. lia. }
  destruct (append_duplicates [a; b] g ALs NFs G) as (_ & D1 & D2 & D3).
  assert (L : forall k t, (length (values_at (fr_cols g) (flat_map points [a; b]) k t) <= 1)%nat) by (intros k t; rewrite Eq; apply One).
  split; [|split; [exact Ag|split; [exact Cf|split]]].
  - unfold fr_append. destruct msg; [exact D2|now apply D3|exact G|now apply D1].
  - intros t I. apply Tg in I as (x & [<-|[<-|[]]] & I); auto.
  - intros k t. rewrite Vg, Eq. specialize (One k t). destruct (values_at (fr_cols g) (points f) k t) as [|x [|y l]]; auto; [|cbn in One; lia].
    unfold mean. cbn. f_equal. field.
Qed.

Lemma filter_none {A} (p : A -> bool) l : filter p l = [] -> filter (fun x => negb (p x)) l = l.
Proof. induction l as [|x l IH]; cbn; auto. destruct (p x); [discriminate|]. cbn. intros H. f_equal. auto. Qed.
Lemma filter_nothing {A} (p : A -> bool) l : filter (fun x => negb (p x)) l = [] -> filter p l = l.
Proof. induction l as [|x l IH]; cbn; auto. destruct (p x); [|discriminate]. cbn. intros H. f_equal. auto. Qed.
Lemma split_whole rx hn fl f a b : aligned f -> fr_filter true rx hn fl f = Ok a -> fr_filter false rx hn fl f = Ok b ->
  (points a = [] -> points b = points f) /\ (points b = [] -> points a = points f).
Proof.
  intros A Ha Hb. destruct (partition true rx hn fl f a A Ha) as (p & q & a' & b' & Ha' & Hb' & _ & _ & _ & _ & Pa & Pb).
  rewrite Ha in Ha'. rewrite Hb in Hb'. injection Ha' as <-. injection Hb' as <-. rewrite Pa, Pb. split; [apply filter_none|apply filter_nothing].
Qed.
