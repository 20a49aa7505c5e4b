(** Proofs that resampling again with the same rule changes nothing (C105). *)
From Coq Require Import String Ascii List ZArith Reals Bool Lia Sorted.
From Verif Require Import Base Units TimeModel Core Filters ParameterType Spec_Time Frame Spec_Frame FrameInterp Spec_Interp InterpProps RegridProps InterpGiven AppendProps FrameFilter Offsets OffsetsFacts Spec_Offsets OffsetsProps Spec_Resample ResampleProps.
Import ListNotations.
Local Open Scope string_scope.
Local Open Scope list_scope.
Local Open Scope Z_scope.

Lemma next_fun D o x y z : next_anchor D o x y -> next_anchor D o x z -> y = z.
Proof.
  intros (A1 & A2 & A3 & A4) (B1 & B2 & B3 & B4). pose proof (A4 z B2 B3 B1). pose proof (B4 y A2 A3 A1). lia.
Qed.
Lemma nth_fun D o n : forall x y z, nth_anchor D o n x y -> nth_anchor D o n x z -> y = z.
Proof.
  induction n as [|n IH]; cbn; intros x y z; [intros -> ->; reflexivity|].
  intros (a & A & A') (b & B & B'). rewrite (next_fun D o x b a B A) in B'. exact (IH a y z A' B').
Qed.
Lemma nth_later D o n : forall x y, nth_anchor D o n x y -> x <= y.
Proof.
  induction n as [|n IH]; cbn; intros x y; [lia|]. intros (a & (A & _) & A'). pose proof (IH a y A'). lia.
Qed.
Lemma nth_after D o n x y : (0 < n)%nat -> nth_anchor D o n x y -> x < y.
Proof. destruct n as [|n]; [lia|]. cbn. intros _ (a & (A & _) & A'). pose proof (nth_later D o n a y A'). lia. Qed.

(** Chains with the same start, the same steps and the same bound are the same. *)
Lemma chain_unique (N : Z -> Z -> Prop) e : (forall x y z, N x y -> N x z -> y = z) -> forall a b h,
  (forall l1 x y l2, h :: a = l1 ++ x :: y :: l2 -> N x y) -> (forall l1 x y l2, h :: b = l1 ++ x :: y :: l2 -> N x y) ->
  Forall (fun x => x <= e) a -> Forall (fun x => x <= e) b ->
  (forall l1 x y, h :: a = l1 ++ [x] -> N x y -> e < y) -> (forall l1 x y, h :: b = l1 ++ [x] -> N x y -> e < y) -> a = b.
Proof.
  intros Fu. induction a as [|x a IH]; intros [|y b] h A B FA FB EA EB; [reflexivity| | |].
  - inversion FB; subst. pose proof (EA [] h y eq_refl (B [] h y b eq_refl)). lia.
  - inversion FA; subst. pose proof (EB [] h x eq_refl (A [] h x a eq_refl)). lia.
  - assert (y = x) as -> by exact (Fu h y x (B [] h y b eq_refl) (A [] h x a eq_refl)). f_equal.
    inversion FA; inversion FB; subst. apply (IH b x); auto.
    + intros l1 u v l2 E. apply (A (h :: l1) u v l2). cbn. now rewrite E.
    + intros l1 u v l2 E. apply (B (h :: l1) u v l2). cbn. now rewrite E.
    + intros l1 u v E. apply (EA (h :: l1) u v). cbn. now rewrite E.
    + intros l1 u v E. apply (EB (h :: l1) u v). cbn. now rewrite E.
Qed.

Lemma sorted_last (l : list Z) d : StronglySorted Z.lt l -> Forall (fun x => x <= last l d) l.
Proof.
  induction 1 as [|a l S IH F]; [constructor|]. destruct l as [|b l]; [repeat constructor; cbn; lia|].
  constructor; [|exact IH]. inversion F; subst. inversion IH; subst. change (last (a :: b :: l) d) with (last (b :: l) d). lia.
Qed.
Lemma last_in (l : list Z) d : l <> [] -> In (last l d) l.
Proof. intros N. destruct (exists_last N) as (l' & x & ->). rewrite last_last. apply in_or_app. right. now left. Qed.

Lemma range_again o start end_ l : anchored o \/ is_tick o -> 0 < stride o -> generate_range start end_ o = Ok l -> l <> [] ->
  generate_range (hd 0 l) (last l 0) o = Ok l.
Proof.
  intros [A|T] P E NE.
  - pose proof gregorian_exists as G. set (D := fun y m d => _) in G. clearbody D.
    pose proof (range_sorted o start end_ l A P E) as S. pose proof (range_on D o start end_ l G A P E) as On.
    destruct (range_ok D o start end_ G A P) as (fi & st & l0 & _ & _ & E0 & _ & _ & St & Up & En). rewrite E in E0. injection E0 as <-.
    destruct l as [|h a]; [congruence|]. cbn [hd].
    destruct (range_ok D o h (last (h :: a) 0) G A P) as (fi' & st' & l' & F' & S' & E' & H' & _ & St' & Up' & En').
    rewrite E'. f_equal. rewrite Forall_forall in On.
    assert (fi' = h) as ->.
    { destruct F' as (F1 & _ & _ & F2). assert (h <= fi'); [|lia]. apply F2; [apply On; now left|exists 0; lia|lia]. }
    assert (st' = last (h :: a) 0) as ->.
    { destruct S' as (S1 & _ & _ & S2). assert (st' <= last (h :: a) 0); [|lia]. apply S2; [apply On, last_in; discriminate|exists 0; lia|lia]. }
    pose proof (sorted_last (h :: a) 0 S) as Le. inversion Le as [|? ? Le1 Le2]; subst.
    destruct (H' Le1) as (b & ->). f_equal. inversion Up'; subst.
    apply (chain_unique (nth_anchor D o (Z.to_nat (stride o))) (last (h :: a) 0) (nth_fun D o _) b a h); auto.
    intros l1 x y Ex Nx. rewrite Ex, last_last. apply (nth_after D o (Z.to_nat (stride o))); [lia|exact Nx].
  - destruct o as [n| | | |]; try destruct T. cbn [stride] in P.
    destruct (range_ticks n start end_ P) as (l0 & E0 & S & I). rewrite E in E0. injection E0 as <-.
    destruct (range_ticks n (hd 0 l) (last l 0) P) as (l' & E' & S' & I'). rewrite E'. f_equal.
    assert (H : In (hd 0 l) l) by (destruct l; [congruence|now left]). apply I in H as ((H1 & H2) & k & K).
    pose proof (last_in l 0 NE) as L. apply I in L as ((L1 & L2) & _).
    apply sorted_ext; auto. intros x. rewrite I'. split.
    + intros ((X1 & X2) & j & X). apply I. split; [lia|]. exists (k + j). lia.
    + intros X. split.
      * pose proof (sorted_last l 0 S) as Le. rewrite Forall_forall in Le. split; [|exact (Le x X)].
        destruct l as [|h a]; [destruct X|]. cbn. destruct X as [->|X]; [lia|]. inversion S as [|? ? _ F]; subst. rewrite Forall_forall in F. specialize (F x X). lia.
      * apply I in X as (_ & j & X). exists (j - k). lia.
Qed.
Lemma rule_range_again rule o start end_ l : to_offset rule = Ok o -> 0 < stride o -> generate_range start end_ o = Ok l -> l <> [] ->
  generate_range (hd 0 l) (last l 0) o = Ok l.
Proof.
  intros T. apply range_again. destruct o; [right; exact I|left; apply (rule_anchored' rule _ T); exact (fun x => x)..].
Qed.
Lemma rule_range_sorted rule o start end_ l : to_offset rule = Ok o -> 0 < stride o -> generate_range start end_ o = Ok l -> increasing l.
Proof.
  intros T P E. destruct o as [n| | | |].
  { destruct (range_ticks n start end_ P) as (l0 & E0 & S & _). rewrite E in E0. injection E0 as ->. exact S. }
  all: refine (range_sorted _ start end_ l (rule_anchored' rule _ T _) P E); exact (fun x => x).
Qed.

Lemma resample_again env ex rule o f g p : to_offset rule = Ok o -> 0 < stride o -> aligned f -> timeseries p -> one_type env f p ->
  resample env true rule ex f = Ok g -> (3 <= length (fr_times g))%nat ->
  exists h, resample env true rule ex g = Ok h /\ fr_times h = fr_times g /\ fr_data h = fr_data g /\
    forall l c v, c <> "parameter_type" -> (meta_of h l c v <-> meta_of g l c v).
Proof.
  intros T P AL TP OT H L3. unfold resample in H. destruct (fr_times f) as [|t0 ts] eqn:Et; [discriminate|].
  rewrite T in H. cbn [rbind] in H. apply rbind_ok in H as (tg & R & H).
  destruct (interp_converts env true tg ex f g AL H) as (X1 & X2 & X3 & _ & _ & X6 & _).
  pose proof (one_type_after env tg ex f g p AL TP OT H) as OT'.
  rewrite X2 in L3. assert (NE : tg <> []) by (intros ->; cbn in L3; lia).
  pose proof (rule_range_again rule o _ _ tg T P R NE) as Again. pose proof (rule_range_sorted rule o _ _ tg T P R) as Inc.
  destruct (same_times env ex g p X1 TP OT') as (h & Hh & Th & Dh & Mh); [now rewrite X2|now rewrite X2| |].
  - intros l ws I. assert (J : In l (map fst (fr_data f))) by (rewrite <- X3; now apply (in_map fst) in I).
    destruct (in_labels _ _ J) as (vs & V). destruct (X6 l vs p V) as (xs & w & _ & _ & _ & W & _); [now apply OT|discriminate|].
    rewrite (data_unique _ l ws (map Some w) (al_unique _ X1) I W).
    intros N. apply in_map_iff in N as (? & N & _). discriminate.
  - exists h. split; [|auto]. unfold resample. rewrite X2 in *. destruct tg as [|u tg]; [congruence|]. rewrite T. cbn [rbind].
    replace (last (u :: tg) u) with (last (u :: tg) 0) by (clear; revert u; assert (Q : forall l a b c, last (a :: l) b = last (a :: l) c :> Z) by (induction l; intros; [reflexivity|cbn in *; auto]); intros; apply Q).
    cbn [hd] in Again. rewrite Again. exact Hh.
Qed.

Lemma resample_types env ex rule o f g p : to_offset rule = Ok o -> aligned f -> one_type env f p -> resample env true rule ex f = Ok g ->
  aligned g /\ forall l, In l (map fst (fr_data g)) -> exists v, meta_of g l "parameter_type" v /\ v <> MNone.
Proof.
  intros T AL OT H. unfold resample in H. destruct (fr_times f) as [|t0 ts] eqn:Et; [discriminate|].
  rewrite T in H. cbn [rbind] in H. apply rbind_ok in H as (tg & _ & H).
  destruct (interp_converts env true tg ex f g AL H) as (X1 & _ & X3 & _ & _ & X6 & _). split; [exact X1|]. intros l I. rewrite X3 in I.
  destruct (in_labels _ _ I) as (vs & V). destruct (X6 l vs p V) as (xs & w & _ & _ & _ & _ & M); [now apply OT|discriminate|].
  exists (MStr (type_text p)). split; [exact M|discriminate].
Qed.
Lemma resample_again_given env shared ex rule o f g p : to_offset rule = Ok o -> 0 < stride o -> aligned f -> timeseries p -> one_type env f p ->
  (forall l, In l (map fst (fr_data f)) -> exists v, meta_of f l "parameter_type" v /\ v <> MNone) ->
  resample env shared rule ex f = Ok g -> (3 <= length (fr_times g))%nat ->
  exists h, resample env shared rule ex g = Ok h /\ fr_times h = fr_times g /\ fr_data h = fr_data g /\
    forall l c v, c <> "parameter_type" -> (meta_of h l c v <-> meta_of g l c v).
Proof.
  intros T P AL TP OT GI H L3. rewrite (resample_given env shared rule ex f AL GI) in H.
  destruct (resample_types env ex rule o f g p T AL OT H) as (AG & GG). rewrite (resample_given env shared rule ex g AG GG).
  exact (resample_again env ex rule o f g p T P AL TP OT H L3).
Qed.
