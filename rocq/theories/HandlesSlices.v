(** C86: what slices, lists of positions and masks stand for. *)
From Coq Require Import String List Arith ZArith Bool Reals Sorted Lia Zdiv.
From Verif Require Import Base Units Core Spec_Core Spec_Apart Handles Spec_Handles.
Import ListNotations.

Lemma seq_map_sorted (R : nat -> nat -> Prop) (f : nat -> nat) len : forall k,
  (forall i j, k <= i -> i < j -> j < k + len -> R (f i) (f j)) -> StronglySorted R (map f (seq k len)).
Proof.
  induction len as [|len IH]; intros k H; simpl; constructor.
  - apply IH. intros i j A B C. apply H; lia.
  - apply Forall_forall. intros x I. apply in_map_iff in I. destruct I as (i & <- & I). apply in_seq in I. apply H; lia.
Qed.
Lemma sorted_unique (R : nat -> nat -> Prop) : (forall a, ~ R a a) -> (forall a b, R a b -> ~ R b a) ->
  forall l l', StronglySorted R l -> StronglySorted R l' -> (forall j, In j l <-> In j l') -> l = l'.
Proof.
  intros Irr As. induction l as [|a l IH]; intros [|b l'] S S' H; auto.
  - destruct (proj2 (H b)); simpl; auto.
  - destruct (proj1 (H a)); simpl; auto.
  - inversion S as [|? ? Sl Fl]; inversion S' as [|? ? Sl' Fl']; subst. rewrite Forall_forall in Fl, Fl'.
    assert (a = b).
    { destruct (proj1 (H a)) as [E|I]; simpl; auto. destruct (proj2 (H b)) as [E|I']; simpl; auto.
      exfalso. eapply As; [apply Fl; exact I'|apply Fl'; exact I]. }
    subst b. f_equal. apply IH; auto. intros j. split; intros I.
    + destruct (proj1 (H j)) as [E|I']; simpl; auto. subst j. exfalso. eapply Irr, Fl; eauto.
    + destruct (proj2 (H j)) as [E|I']; simpl; auto. subst j. exfalso. eapply Irr, Fl'; eauto.
Qed.

Lemma count_up start stop step i : (0 < step)%Z ->
  i < slice_length start stop step <-> (start + Z.of_nat i * step < stop)%Z.
Proof.
  intros Hs. unfold slice_length. destruct (Z.ltb_spec 0 step); [|lia].
  destruct (Z.ltb_spec start stop).
  - assert (X : (Z.of_nat i <= (stop - start - 1) / step <-> Z.of_nat i * step <= stop - start - 1)%Z).
    { split; intros Y.
      - pose proof (Z.mul_div_le (stop - start - 1) step Hs). nia.
      - apply Z.div_le_lower_bound; lia. }
    assert (0 <= (stop - start - 1) / step)%Z by (apply Z.div_pos; lia). lia.
  - simpl. nia.
Qed.
Lemma count_down start stop step i : (step < 0)%Z ->
  i < slice_length start stop step <-> (stop < start + Z.of_nat i * step)%Z.
Proof.
  intros Hs. unfold slice_length. destruct (Z.ltb_spec 0 step); [lia|].
  destruct (Z.ltb_spec stop start).
  - assert (X : (Z.of_nat i <= (start - stop - 1) / (- step) <-> Z.of_nat i * (- step) <= start - stop - 1)%Z).
    { split; intros Y.
      - pose proof (Z.mul_div_le (start - stop - 1) (- step) ltac:(lia)). nia.
      - apply Z.div_le_lower_bound; lia. }
    assert (0 <= (start - stop - 1) / (- step))%Z by (apply Z.div_pos; lia). nia.
  - simpl. nia.
Qed.

Lemma slice_ok n a b c js : positions n (SSlice a b c) = Ok js -> sliced n a b c js.
Proof.
  unfold positions, slice_bounds. fold (slice_step c). unfold sliced. set (st := slice_step c).
  destruct (Z.eqb_spec st 0); [discriminate|]. destruct (Z.ltb_spec 0 st) as [Hs|Hs].
  - set (A := match a with Some _ => _ | None => _ end). set (B := match b with Some _ => _ | None => _ end).
    intros E; inversion E; subst js; clear E. left. split; auto.
    assert (HA : (0 <= A <= Z.of_nat n)%Z) by (unfold A; destruct a; unfold adjust; lia).
    assert (HB : (0 <= B <= Z.of_nat n)%Z) by (unfold B; destruct b; unfold adjust; lia).
    split.
    + apply seq_map_sorted. intros i j _ L K. simpl in K. apply (count_up A B) in K; auto. nia.
    + intros j. rewrite in_map_iff. split.
      * intros (i & <- & I). apply in_seq in I. destruct I as [_ I]. simpl in I. apply (count_up A B) in I; auto.
        assert (FA : (first_up n a = A)%Z).
        { unfold first_up, A, adjust, from_end in *. destruct a; [|auto]. destruct (Z.ltb_spec z 0); nia. }
        rewrite FA. rewrite Z2Nat.id by nia. repeat split; [nia|nia| |exists (Z.of_nat i); lia].
        unfold stop_up, B, adjust, from_end in *. destruct b; nia.
      * intros (L & (F & U) & (k & Dv)).
        assert (FA : (first_up n a = A)%Z).
        { unfold first_up, A, adjust, from_end in *. destruct a; [|auto]. destruct (Z.ltb_spec z 0); nia. }
        rewrite FA in *. exists (Z.to_nat k). assert (0 <= k)%Z by nia. rewrite Z2Nat.id by auto.
        split; [rewrite <- (Nat2Z.id j); f_equal; lia|]. apply in_seq. split; [lia|]. simpl.
        apply count_up; auto. rewrite Z2Nat.id by auto.
        assert (Z.of_nat j < B)%Z by (unfold B, stop_up, adjust, from_end in *; destruct b; nia). lia.
  - assert (Hn : (st < 0)%Z) by lia.
    set (A := match a with Some _ => _ | None => _ end). set (B := match b with Some _ => _ | None => _ end).
    intros E; inversion E; subst js; clear E. right. split; auto.
    assert (HA : (-1 <= A <= Z.of_nat n - 1)%Z) by (unfold A; destruct a; unfold adjust; lia).
    assert (HB : (-1 <= B <= Z.of_nat n - 1)%Z) by (unfold B; destruct b; unfold adjust; lia).
    split.
    + apply seq_map_sorted. intros i j _ L K. simpl in K. apply (count_down A B) in K; auto. nia.
    + intros j. rewrite in_map_iff. split.
      * intros (i & <- & I). apply in_seq in I. destruct I as [_ I]. simpl in I. apply (count_down A B) in I; auto.
        assert (FA : (first_down n a = A)%Z).
        { unfold first_down, A, adjust, from_end in *. destruct a; [|auto]. destruct (Z.ltb_spec z 0); nia. }
        rewrite FA. rewrite Z2Nat.id by nia. repeat split; [nia| |nia|exists (- Z.of_nat i)%Z; lia].
        unfold stop_down, B, adjust, from_end in *. destruct b; nia.
      * intros (L & (F & U) & (k & Dv)).
        assert (FA : (first_down n a = A)%Z).
        { unfold first_down, A, adjust, from_end in *. destruct a; [|auto]. destruct (Z.ltb_spec z 0); nia. }
        rewrite FA in *. exists (Z.to_nat (- k)). assert (0 <= - k)%Z by nia. rewrite Z2Nat.id by auto.
        split; [rewrite <- (Nat2Z.id j); f_equal; lia|]. apply in_seq. split; [lia|]. simpl.
        apply count_down; auto. rewrite Z2Nat.id by auto.
        assert (B < Z.of_nat j)%Z by (unfold B, stop_down, adjust, from_end in *; destruct b; nia). lia.
Qed.
Lemma sliced_unique n a b c js js' : sliced n a b c js -> sliced n a b c js' -> js = js'.
Proof.
  unfold sliced. intros [(P & S & H)|(P & S & H)] [(P' & S' & H')|(P' & S' & H')]; try lia.
  - eapply sorted_unique; [| |exact S|exact S'|]; try lia. intros j. rewrite H, H'. reflexivity.
  - eapply sorted_unique; [| |exact S|exact S'|]; try lia. intros j. rewrite H, H'. reflexivity.
Qed.

Lemma index_iff n i j : pyindex n i = Some j <-> index n i j.
Proof.
  unfold pyindex, index, from_end. set (k := if (i <? 0)%Z then _ else _).
  destruct (Z.leb_spec 0 k); simpl; [|split; [discriminate|lia]].
  destruct (Z.ltb_spec k (Z.of_nat n)); simpl; [|split; [discriminate|lia]].
  split; [intros E; inversion E; subst; lia|]. intros (A & B). f_equal. lia.
Qed.
Lemma list_ok n l js : positions n (SList l) = Ok js <-> Forall2 (index n) l js.
Proof.
  simpl. revert js. induction l as [|i l IH]; intros js; simpl.
  - split; intros H; inversion H; auto.
  - destruct (pyindex n i) as [j|] eqn:P.
    + destruct (rmap _ l) as [ks|] eqn:R.
      * split; intros H; inversion H; subst.
        { constructor; [now apply index_iff|]. now apply IH. }
        apply index_iff in H2. f_equal. f_equal; [congruence|]. apply IH in H4. congruence.
      * split; intros H; inversion H; subst. apply IH in H4. discriminate.
    + split; intros H; inversion H; subst. apply index_iff in H2. congruence.
Qed.
Lemma mask_sorted m : forall k, StronglySorted lt (map fst (filter snd (combine (seq k (length m)) m))) /\
  forall j, In j (map fst (filter snd (combine (seq k (length m)) m))) <-> k <= j /\ nth_error m (j - k) = Some true.
Proof.
  induction m as [|b m IH]; intros k; simpl.
  - split; [constructor|]. intros j. split; [contradiction|]. intros (_ & H). destruct (j - k); discriminate.
  - destruct (IH (S k)) as (S1 & H1).
    assert (X : forall j, In j (map fst (filter snd (combine (seq (S k) (length m)) m))) -> k < j) by (intros j I; apply H1 in I; lia).
    destruct b; simpl.
    + split; [constructor; auto; apply Forall_forall; auto|]. intros j. rewrite H1. split.
      * intros [<-|(L & N)]; [rewrite Nat.sub_diag; auto|]. split; [lia|]. replace (j - k) with (S (j - S k)) by lia. auto.
      * intros (L & N). destruct (Nat.eq_dec k j); auto. right. split; [lia|]. replace (j - k) with (S (j - S k)) in N by lia. auto.
    + split; auto. intros j. rewrite H1. split.
      * intros (L & N). split; [lia|]. replace (j - k) with (S (j - S k)) by lia. auto.
      * intros (L & N). destruct (Nat.eq_dec k j); [subst; rewrite Nat.sub_diag in N; discriminate|].
        split; [lia|]. replace (j - k) with (S (j - S k)) in N by lia. auto.
Qed.

Lemma positions_iff n x js : positions n x = Ok js <-> selected n x js.
Proof.
  destruct x as [a b c|l|m].
  - split; [apply slice_ok|]. simpl selected. intros H.
    destruct (positions n (SSlice a b c)) as [js'|e] eqn:P.
    + f_equal. eapply sliced_unique; [apply slice_ok; exact P|auto].
    + exfalso. unfold positions, slice_bounds in P. fold (slice_step c) in P. unfold sliced in H.
      destruct (Z.eqb_spec (slice_step c) 0); [lia|]. destruct (Z.ltb_spec 0 (slice_step c)); discriminate.
  - apply list_ok.
  - simpl. destruct (Nat.eqb_spec (length m) n) as [<-|N].
    + destruct (mask_sorted m 0) as (S1 & H1). split.
      * intros E; inversion E; subst. split; auto. split; auto. intros j. rewrite H1, Nat.sub_0_r. intuition lia.
      * intros (_ & S2 & H2). f_equal. eapply sorted_unique; [| |exact S1|exact S2|]; try lia.
        intros j. rewrite H1, H2, Nat.sub_0_r. intuition lia.
    + split; [discriminate|]. intros (E & _). contradiction.
Qed.
Lemma selected_lt n x js j : selected n x js -> In j js -> j < n.
Proof.
  destruct x as [a b c|l|m]; simpl.
  - intros [(_ & _ & H)|(_ & _ & H)] I; apply H in I; tauto.
  - intros F I. induction F; [contradiction|]. destruct I as [<-|I]; auto. apply H.
  - intros (<- & _ & H) I. apply H in I. apply nth_error_Some. congruence.
Qed.
(** Everything but a step of zero, a position outside and a mask of another length is fine. *)
Lemma positions_fail n x e : positions n x = Err e ->
  match x with
  | SSlice _ _ c => slice_step c = 0%Z /\ e = EValueError
  | SList l => e = EIndexError /\ exists i, In i l /\ forall j, ~ index n i j
  | SMask m => e = EIndexError /\ length m <> n
  end.
Proof.
  destruct x as [a b c|l|m].
  - unfold positions, slice_bounds. fold (slice_step c). destruct (Z.eqb_spec (slice_step c) 0).
    + intros E; inversion E; auto.
    + destruct (Z.ltb_spec 0 (slice_step c)); discriminate.
  - simpl. induction l as [|i l IH]; simpl; [discriminate|]. destruct (pyindex n i) as [j|] eqn:P.
    + destruct (rmap _ l); [discriminate|]. intros E; inversion E; subst. destruct IH as (A & k & K & B); auto. split; auto. eauto.
    + intros E; inversion E; subst. split; auto. exists i. split; auto. intros j X. apply index_iff in X. congruence.
  - simpl. destruct (Nat.eqb_spec (length m) n); [discriminate|]. intros E; inversion E; auto.
Qed.
