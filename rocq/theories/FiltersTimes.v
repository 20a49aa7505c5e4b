(** Proofs about the time filters of [Filters.v] (C57). *)
From Coq Require Import String Ascii List ZArith Bool Lia Arith.
From Verif Require Import Base Filters Spec_Filters FiltersProps.
Import ListNotations.
Local Open Scope string_scope.
Local Open Scope list_scope.

(** ** Names *)

Definition code (calendar : list (Z * (string * string))) (short : bool) : list string :=
  map (fun p => if short then fst (snd p) else snd (snd p)) calendar.

Lemma months_code : [month_abbr; month_name] = [code months true; code months false].
Proof. reflexivity. Qed.
Lemma days_code : [day_abbr; day_name] = [code weekdays true; code weekdays false].
Proof. reflexivity. Qed.

(** What is needed of a calendar: consecutive numbers, names without repetition or hyphen. *)
Fixpoint consecutive (first : Z) (l : list (Z * (string * string))) : Prop :=
  match l with [] => True | (i, _) :: l' => i = first /\ consecutive (first + 1) l' end.
Definition good (calendar : list (Z * (string * string))) (first : Z) : Prop :=
  consecutive first calendar /\ forall short, NoDup (code calendar short) /\
  forall n, In n (code calendar short) -> is_range n = false.
Lemma good_months : good months 1.
Proof.
  split; [cbn; repeat split|]. intros [|]; split;
    try (repeat constructor; cbn; intuition discriminate);
    cbn; intuition (subst; reflexivity).
Qed.
Lemma good_weekdays : good weekdays 0.
Proof.
  split; [cbn; repeat split|]. intros [|]; split;
    try (repeat constructor; cbn; intuition discriminate);
    cbn; intuition (subst; reflexivity).
Qed.

Lemma index_names cal short first s i : consecutive first cal -> NoDup (code cal short) ->
  (index_of (lower s) (code cal short) first = Some i <-> names cal short s i).
Proof.
  unfold names. revert first. induction cal as [|[j [ab fu]] cal IH]; intros first C D; cbn [code map index_of snd fst].
  - split; [discriminate|]. intros (a & b & [] & _).
  - destruct C as [-> C]. cbn [code map snd fst] in D. apply NoDup_cons_iff in D as [D1 D2].
    destruct (String.eqb_spec (lower s) (if short then ab else fu)).
    + split.
      * intros E. injection E as <-. exists ab, fu. split; [now left|auto].
      * intros (a & b & [E|E] & L); [congruence|]. exfalso. apply D1. rewrite <- e, L.
        unfold code. change (if short then a else b) with
          ((fun p : Z * (string * string) => if short then fst (snd p) else snd (snd p)) (i, (a, b))).
        now apply in_map.
    + fold (code cal short) in *. rewrite IH by auto. split.
      * intros (a & b & H & L). exists a, b. split; [now right|auto].
      * intros (a & b & [E|E] & L); [injection E as <- <- <-; contradiction|eauto].
Qed.

Lemma range_lower s : is_range (lower s) = is_range s.
Proof.
  unfold is_range. induction s as [|c s IH]; auto. cbn [lower smap list_ascii_of_string existsb].
  fold (lower s). rewrite IH. f_equal. clear. destruct c as [[] [] [] [] [] [] [] []]; reflexivity.
Qed.

Section Calendar.
  Variable cal : list (Z * (string * string)).
  Variable first : Z.
  Hypothesis G : good cal first.
  Let codes := [code cal true; code cal false].

  Lemma strptime_names short s i : strptime (code cal short) first s = Ok i <-> names cal short s i.
  Proof.
    destruct G as (C & H). destruct (H short) as (D & _). unfold strptime.
    rewrite <- (index_names cal short first s i C D).
    destruct (index_of (lower s) (code cal short) first); split; congruence.
  Qed.

  Lemma names_range short s i : names cal short s i -> is_range s = false.
  Proof.
    intros (a & b & H & L). destruct G as (_ & H2). destruct (H2 short) as (_ & N).
    rewrite <- range_lower, L. apply N. unfold code.
    change (if short then a else b) with
          ((fun p : Z * (string * string) => if short then fst (snd p) else snd (snd p)) (i, (a, b))).
    now apply in_map.
  Qed.

  Lemma strptime_range short s : is_range s = true -> strptime (code cal short) first s = Err EValueError.
  Proof.
    intros H. destruct (strptime (code cal short) first s) eqn:E.
    - apply strptime_names in E. apply names_range in E. congruence.
    - unfold strptime in E. now destruct (index_of _ _ _).
  Qed.

  Lemma names_det short s i j : names cal short s i -> names cal short s j -> i = j.
  Proof. intros H1 H2. apply strptime_names in H1, H2. congruence. Qed.
  Lemma names_first short s i : names cal short s i -> (first <= i)%Z.
  Proof.
    intros (a & b & H & _). destruct G as (C & _). clear G codes. revert first C.
    induction cal as [|[j p] c IH]; intros f C; [destruct H|]. cbn in C. destruct C as [-> C].
    destruct H as [E|E]; [injection E as ->; lia|]. specialize (IH E _ C). lia.
  Qed.

  Lemma rmap_names short ss is : Forall2 (names cal short) ss is ->
    rmap (conv_one (code cal short) first) (map TStr ss) = Ok is.
  Proof.
    induction 1 as [|s i ss is H _ IH]; cbn; auto. rewrite (proj2 (strptime_names _ _ _) H). now rewrite IH.
  Qed.
  Lemma rmap_names_inv short ss : (exists is, rmap (conv_one (code cal short) first) (map TStr ss) = Ok is /\ Forall2 (names cal short) ss is) \/
    rmap (conv_one (code cal short) first) (map TStr ss) = Err EValueError.
  Proof.
    induction ss as [|s ss IH]; cbn.
    - left. eauto.
    - destruct (strptime (code cal short) first s) eqn:E.
      + apply strptime_names in E. destruct IH as [(is & -> & F)| ->]; [left|now right].
        exists (a :: is). split; auto.
      + right. unfold strptime in E. destruct (index_of _ _ _); congruence.
  Qed.

  (** Reading a list all of whose elements are names of style [short]. *)
  Lemma conv_names short ss is : Forall2 (names cal short) ss is ->
    (forall s i j, In s ss -> names cal true s i -> names cal false s j -> i = j) ->
    conv_strs codes first (map TStr ss) = Ok is.
  Proof.
    intros F Agree. unfold codes. cbn [conv_strs].
    destruct (rmap_names_inv true ss) as [(is' & -> & F')|E].
    - f_equal. destruct short.
      + clear Agree. revert is' F'. induction F as [|s i ss is H _ IH]; intros is' F'; inversion F'; subst; auto.
        f_equal; [eapply names_det; eauto|auto].
      + revert is' F'. induction F as [|s i ss is H _ IH]; intros is' F'; inversion F'; subst; auto.
        f_equal; [eapply Agree; eauto; now left|]. apply IH; auto. intros; eapply Agree; eauto. now right.
    - rewrite E. destruct short; [rewrite (rmap_names _ _ _ F) in E; discriminate|]. now rewrite (rmap_names _ _ _ F).
  Qed.

  (** A range in the list cannot be read as a name. *)
  Lemma conv_range ss s : In s ss -> is_range s = true -> conv_strs codes first (map TStr ss) = Err EValueError.
  Proof.
    intros H R. assert (E : forall short, rmap (conv_one (code cal short) first) (map TStr ss) = Err EValueError).
    { intros short. destruct (rmap_names_inv short ss) as [(is & _ & F)|E]; auto. exfalso.
      assert (exists i, names cal short s i) as (i & N).
      { clear R. induction F as [|s0 i0 ss is H0 _ IH]; [destruct H|]. destruct H as [->|H]; eauto. }
      apply names_range in N. congruence. }
    unfold codes. cbn [conv_strs]. now rewrite !E.
  Qed.

  Lemma has_char_range s : has_char "-" s = is_range s.
  Proof.
    unfold has_char, is_range. assert (N : forall s, (0 <= count_char "-" s)%Z).
    { intros t. rewrite count_eq. lia. }
    induction s as [|c s IH]; auto. cbn [count_char list_ascii_of_string existsb]. rewrite <- IH.
    rewrite Ascii.eqb_sym. specialize (N s). destruct (Ascii.eqb "-" c); cbn [orb].
    - apply Z.ltb_lt. lia.
    - reflexivity.
  Qed.

  (** ** Deleting *)
  Lemma delete_at_app {A} (a : list A) x b : delete_at (length a) (a ++ x :: b) = Some (a ++ b).
  Proof. induction a; cbn; auto. now rewrite IHa. Qed.

  Lemma delete_at_nth {A} i (l l' : list A) p : delete_at i l = Some l' -> (i <= p)%nat -> nth_error l' p = nth_error l (S p).
  Proof.
    revert i l' p. induction l as [|x l IH]; intros i l' p H L; [destruct i; discriminate|].
    destruct i as [|i]; cbn in H.
    - injection H as <-. reflexivity.
    - destruct (delete_at i l) as [l''|] eqn:E; [|discriminate]. injection H as <-.
      destruct p as [|p]; [lia|]. cbn. apply (IH i); auto. lia.
  Qed.
  Definition hyphens (l : list string) : nat := List.length (filter is_range l).
  Lemma delete_at_hyphens i l l' : delete_at i l = Some l' ->
    exists x, nth_error l i = Some x /\ hyphens l = (hyphens l' + if is_range x then 1 else 0)%nat.
  Proof.
    revert i l'. induction l as [|y l IH]; intros i l' H; [destruct i; discriminate|].
    destruct i as [|i]; cbn in H.
    - injection H as <-. exists y. split; auto. unfold hyphens. cbn. destruct (is_range y); cbn; lia.
    - destruct (delete_at i l) as [l''|] eqn:E; [|discriminate]. injection H as <-.
      destruct (IH _ _ E) as (x & N & C). exists x. split; auto. unfold hyphens in *. cbn. destruct (is_range y); cbn; lia.
  Qed.

  (** All deletions but the last are before its position, so the last one deletes an element that
      was further back. *)
  Lemma delete_all_keeps is : forall p (l l' : list string), (forall i, In i is -> (i < p)%nat) ->
    delete_all (is ++ [p]) l = (l', Ok tt) ->
    exists x, nth_error l (p + length is) = Some x /\ (hyphens l <= hyphens l' + length is + if is_range x then 1 else 0)%nat.
  Proof.
    induction is as [|i is IH]; intros p l l' H D; cbn in D.
    - destruct (delete_at p l) as [l1|] eqn:E; [|discriminate]. injection D as <-.
      destruct (delete_at_hyphens _ _ _ E) as (x & N & C). exists x. rewrite Nat.add_0_r. cbn. split; auto. lia.
    - destruct (delete_at i l) as [l1|] eqn:E; [|discriminate].
      destruct (IH p l1 l') as (x & N & C); auto; [intros; apply H; now right|].
      exists x. split.
      + rewrite <- N. cbn [length]. rewrite Nat.add_succ_r. symmetry. apply (delete_at_nth i); auto.
        specialize (H i (or_introl eq_refl)). lia.
      + destruct (delete_at_hyphens _ _ _ E) as (y & _ & C'). cbn [length]. destruct (is_range y); lia.
  Qed.

  (** ** Finding the ranges *)
  Fixpoint positions (i : nat) (l : list string) : list nat :=
    match l with [] => [] | s :: l' => if is_range s then i :: positions (S i) l' else positions (S i) l' end.
  Lemma find_positions l : forall i ps zs, find_ranges codes first i (map TStr l) = Ok (ps, zs) -> ps = positions i l.
  Proof.
    induction l as [|s l IH]; intros i ps zs H; cbn in H; [injection H as <- <-; reflexivity|].
    rewrite has_char_range in H. cbn. destruct (is_range s).
    - match type of H with rbind ?c _ = _ => destruct c as [ints|]; [|discriminate] end. cbn [rbind] in H.
      destruct (_ <? _)%Z; [discriminate|].
      destruct (find_ranges codes first (S i) (map TStr l)) as [[ps' zs']|] eqn:E; [|discriminate].
      cbn in H. injection H as <- <-. f_equal. eapply IH; eauto.
    - eapply IH; eauto.
  Qed.
  Lemma positions_len i l : length (positions i l) = hyphens l.
  Proof. revert i. induction l as [|s l IH]; intros i; cbn; auto. unfold hyphens in *. cbn. destruct (is_range s); cbn; auto. Qed.
  Lemma positions_range i l p : In p (positions i l) -> (i <= p)%nat /\ exists x, nth_error l (p - i) = Some x /\ is_range x = true.
  Proof.
    revert i. induction l as [|s l IH]; intros i H; [destruct H|]. cbn in H.
    assert (R : In p (positions (S i) l) -> (i <= p)%nat /\ exists x, nth_error (s :: l) (p - i) = Some x /\ is_range x = true).
    { intros H1. destruct (IH _ H1) as (L & x & N & R). split; [lia|]. exists x. split; auto.
      replace (p - i)%nat with (S (p - S i)) by lia. auto. }
    destruct (is_range s) eqn:E; [|auto]. destruct H as [<-|H]; [|auto]. split; auto. exists s. rewrite Nat.sub_diag. auto.
  Qed.
  Lemma positions_complete i l k x : nth_error l k = Some x -> is_range x = true -> In (i + k)%nat (positions i l).
  Proof.
    revert i k. induction l as [|s l IH]; intros i k N R; [destruct k; discriminate|].
    destruct k as [|k]; cbn in *.
    - injection N as ->. rewrite R, Nat.add_0_r. now left.
    - rewrite Nat.add_succ_r. specialize (IH (S i) k N R). destruct (is_range s); [right|]; auto.
  Qed.
  Lemma positions_last i l ps p : positions i l = ps ++ [p] -> forall q, In q ps -> (q < p)%nat.
  Proof.
    revert i ps. induction l as [|s l IH]; intros i ps H q Hq; cbn in H; [destruct ps; discriminate|].
    destruct (is_range s) eqn:E; [|eapply IH; eauto].
    destruct ps as [|q0 ps]; [destruct Hq|]. cbn in H. injection H as <- H. destruct Hq as [<-|Hq]; [|eapply IH; eauto].
    assert (In p (positions (S i) l)) by (rewrite H; apply in_or_app; cbn; auto).
    apply positions_range in H0. lia.
  Qed.

  Lemma time_match_strs data L : L <> [] -> time_match data (TList (map TStr L)) codes first =
    match find_ranges codes first 0 (map TStr L) with
    | Err e => (TList (map TStr L), Err e)
    | Ok (to_delete, to_append) =>
      let (l, r) := delete_all to_delete (map TStr L) in
      (TList l, match r with
               | Err e => Err e
               | Ok _ => match conv_strs codes first l with
                         | Err e => Err e
                         | Ok ints => Ok (is_in data (map TInt (ints ++ to_append)))
                         end
               end)
    end.
  Proof. destruct L; [congruence|reflexivity]. Qed.

  (** Two ranges make it fail. *)
  Lemma two_ranges data l : (2 <= hyphens l)%nat ->
    exists e, snd (time_match data (TList (map TStr l)) codes first) = Err e.
  Proof.
    intros H2. rewrite time_match_strs by (intros ->; unfold hyphens in H2; cbn in H2; lia). rename l into L.
    destruct (find_ranges codes first 0 (map TStr L)) as [[ps zs]|e] eqn:F; [|cbn; eauto].
    rewrite (find_positions _ _ _ _ F).
    destruct (delete_all (positions 0 L) (map TStr L)) as [l' [[]|e]] eqn:D; [|cbn; eauto].
    assert (exists l2, l' = map TStr l2 /\ delete_all (positions 0 L) L = (l2, Ok tt)) as (l2 & -> & D2).
    { clear - D. revert D. generalize (positions 0 L) as is. generalize L as M. intros M is. revert M.
      induction is as [|i is IH]; intros M D; cbn in *; [injection D as <-; eauto|].
      assert (DM : forall i M, delete_at i (map TStr M) = option_map (map TStr) (delete_at i M)).
      { clear. intros i M. revert i. induction M; intros [|i]; cbn; auto. rewrite IHM. destruct (delete_at i M); auto. }
      rewrite DM in D. destruct (delete_at i M); cbn in D; [eauto|discriminate]. }
    destruct (exists_last (l := positions 0 L)) as (qs & p & E).
    { intros E. pose proof (positions_len 0 L) as PL. rewrite E in PL. cbn in PL. lia. }
    pose proof (positions_len 0 L) as PL. rewrite E, app_length in PL. cbn in PL.
    rewrite E in D2. destruct (delete_all_keeps qs p L l2 (positions_last _ _ _ _ E) D2) as (x & N & C).
    assert (R : is_range x = false).
    { destruct (is_range x) eqn:R; auto. exfalso.
      pose proof (positions_complete 0 L _ _ N R) as I. rewrite E in I. cbn [plus] in I.
      apply in_app_or in I as [I|[I|[]]]; [|lia].
      pose proof (positions_last _ _ _ _ E _ I). lia. }
    rewrite R in C. assert (exists y, In y l2 /\ is_range y = true) as (y & Y1 & Y2).
    { unfold hyphens in C. destruct (filter is_range l2) as [|y t] eqn:Fi; [cbn in C; unfold hyphens in *; lia|].
      exists y. apply filter_In. rewrite Fi. now left. }
    cbn [snd]. rewrite (conv_range l2 y) by auto. eauto.
  Qed.

  (** ** At most one range *)
  Lemma is_in_spec data items : forall k z, nth_error data k = Some z ->
    nth_error (is_in (map TInt data) (map TInt items)) k = Some (existsb (Z.eqb z) items).
  Proof.
    intros k z H. unfold is_in. rewrite map_map. rewrite (map_nth_error _ _ _ H). f_equal.
    induction items; cbn; auto. now rewrite IHitems.
  Qed.

  Lemma split_no sep s : existsb (Ascii.eqb sep) (list_ascii_of_string s) = false -> split sep s = [s].
  Proof.
    induction s as [|c s IH]; cbn; auto. intros H. apply orb_false_iff in H as [H1 H2]. rewrite Ascii.eqb_sym, H1.
    now rewrite IH.
  Qed.
  Lemma split_app sep a b : existsb (Ascii.eqb sep) (list_ascii_of_string a) = false ->
    split sep (a ++ String sep b) = a :: split sep b.
  Proof.
    induction a as [|c a IH]; cbn.
    - intros _. now rewrite Ascii.eqb_refl.
    - intros H. apply orb_false_iff in H as [H1 H2]. rewrite Ascii.eqb_sym, H1. now rewrite IH.
  Qed.

  Lemma int_range_in a b j : In j (int_range a b) <-> (a <= j <= b)%Z.
  Proof.
    unfold int_range. rewrite in_map_iff. split.
    - intros (k & <- & H). apply in_seq in H. lia.
    - intros H. exists (Z.to_nat (j - a)). split; [lia|]. apply in_seq. lia.
  Qed.

  Hypothesis Agree : forall s i j, names cal true s i -> names cal false s j -> i = j.

  Lemma find_range short s1 s2 i1 i2 rest k : names cal short s1 i1 -> names cal short s2 i2 -> (i1 <= i2)%Z ->
    find_ranges codes first k (map TStr ((s1 ++ "-" ++ s2)%string :: rest)) =
    rbind (find_ranges codes first (S k) (map TStr rest)) (fun p => Ok (k :: fst p, int_range i1 i2 ++ snd p)).
  Proof.
    intros N1 N2 L. cbn [map find_ranges].
    pose proof (names_range _ _ _ N1) as R1. pose proof (names_range _ _ _ N2) as R2. unfold is_range in R1, R2.
    assert (R : has_char "-" (s1 ++ "-" ++ s2) = true).
    { rewrite has_char_range. unfold is_range. rewrite lst_app, existsb_app. apply orb_true_iff. right. reflexivity. }
    rewrite R. change ("-" ++ s2)%string with (String "-" s2). rewrite split_app, split_no by auto.
    rewrite (conv_names short [s1; s2] [i1; i2]); [|repeat constructor; auto|intros; eapply Agree; eauto].
    cbn [rbind nth]. replace (i2 <? i1)%Z with false by (symmetry; apply Z.ltb_ge; lia). reflexivity.
  Qed.

  Lemma find_none ss k : (forall s, In s ss -> is_range s = false) -> find_ranges codes first k (map TStr ss) = Ok ([], []).
  Proof.
    revert k. induction ss as [|s ss IH]; intros k H; cbn; auto. rewrite has_char_range, (H s) by now left.
    apply IH. intros; apply H; now right.
  Qed.
  Lemma find_skip ss rest k : (forall s, In s ss -> is_range s = false) ->
    find_ranges codes first k (map TStr (ss ++ rest)) = find_ranges codes first (k + length ss) (map TStr rest).
  Proof.
    revert k. induction ss as [|s ss IH]; intros k H; cbn [app length].
    - now rewrite Nat.add_0_r.
    - cbn. rewrite has_char_range, (H s) by now left. rewrite IH by (intros; apply H; now right). f_equal. lia.
  Qed.

  (** Items of a list without ranges are names. *)
  Lemma items_names short ss Ps : Forall2 (item cal short) ss Ps -> (forall s, In s ss -> is_range s = false) ->
    exists is, Forall2 (names cal short) ss is /\ forall j, (exists P, In P Ps /\ P j) <-> In j is.
  Proof.
    induction 1 as [|s P ss Ps It _ IH]; intros H.
    - exists []. split; auto. intros j. split; [intros (P & [] & _)|intros []].
    - destruct IH as (is & F & Iff); [intros; apply H; now right|].
      specialize (H s (or_introl eq_refl)). inversion It as [s' i N|short' s1 s2 i1 i2 N1 N2 L]; subst.
      + exists (i :: is). split; auto. intros j. split.
        * intros (P & [<-|HP] & Hj); [left; auto|right; apply Iff; eauto].
        * intros [<-|Hj]; [exists (fun j => j = i); split; [now left|auto]|].
          apply Iff in Hj as (P & HP & Hj). exists P. split; auto. now right.
      + exfalso. unfold is_range in H. rewrite lst_app, existsb_app in H. apply orb_false_iff in H as [_ H]. discriminate.
  Qed.

  Lemma one_range data short ss Ps : ss <> [] -> Forall2 (item cal short) ss Ps -> (hyphens ss <= 1)%nat ->
    exists bs, snd (time_match (map TInt data) (TList (map TStr ss)) codes first) = Ok bs /\ length bs = length data /\
      forall k z, nth_error data k = Some z -> (nth_error bs k = Some true <-> exists P, In P Ps /\ P z).
  Proof.
    intros NE F H.
    enough (exists to_delete to_append l ints, find_ranges codes first 0 (map TStr ss) = Ok (to_delete, to_append) /\
      delete_all to_delete (map TStr ss) = (map TStr l, Ok tt) /\ conv_strs codes first (map TStr l) = Ok ints /\
      forall z, In z (ints ++ to_append) <-> exists P, In P Ps /\ P z) as (td & ta & l & ints & E1 & E2 & E3 & Iff).
    { rewrite time_match_strs, E1, E2 by auto. cbn [snd]. rewrite E3. eexists. split; [reflexivity|].
      split; [unfold is_in; now rewrite !map_length|].
      intros k z Hk. rewrite (is_in_spec _ _ _ _ Hk). rewrite <- Iff. split.
      - intros E. injection E as E. apply existsb_exists in E as (y & Y & E). apply Z.eqb_eq in E. now subst.
      - intros I. f_equal. apply existsb_exists. exists z. split; auto. apply Z.eqb_refl. }
    destruct (filter is_range ss) as [|r rest] eqn:Fi.
    - assert (NR : forall s, In s ss -> is_range s = false).
      { intros s Hs. destruct (is_range s) eqn:R; auto. assert (In s (filter is_range ss)) by now apply filter_In.
        rewrite Fi in H0. destruct H0. }
      destruct (items_names _ _ _ F NR) as (is & FN & Iff).
      exists [], [], ss, is. rewrite find_none by auto. split; auto. split; auto.
      split; [apply (conv_names short); auto; intros; eapply Agree; eauto|]. intros z. rewrite app_nil_r. symmetry. apply Iff.
    - assert (rest = []) as -> by (unfold hyphens in H; rewrite Fi in H; destruct rest; [auto|cbn in H; lia]).
      assert (I : In r ss /\ is_range r = true) by (apply filter_In; rewrite Fi; now left). destruct I as [I R].
      apply in_split in I as (a & b & ->). rewrite filter_app in Fi. cbn in Fi. rewrite R in Fi.
      assert (Fa : filter is_range a = [] /\ filter is_range b = []).
      { apply (f_equal (@List.length _)) in Fi. rewrite app_length in Fi. cbn in Fi.
        destruct (filter is_range a), (filter is_range b); cbn in Fi; try lia; auto. }
      destruct Fa as [Fa Fb].
      assert (NR : forall s, In s (a ++ b) -> is_range s = false).
      { intros s Hs. destruct (is_range s) eqn:Rs; auto. assert (In s (filter is_range (a ++ b))) by now apply filter_In.
        rewrite filter_app, Fa, Fb in H0. destruct H0. }
      apply Forall2_app_inv_l in F as (Pa & Pb' & FA & FB & ->).
      inversion FB as [|r0 P b0 Pb It FB']; subst.
      destruct (items_names short (a ++ b) (Pa ++ Pb)) as (is & FN & Iff); [now apply Forall2_app|auto|].
      inversion It as [s' i N|short' s1 s2 i1 i2 N1 N2 L]; subst; [apply names_range in N; congruence|].
      exists [length a], (int_range i1 i2), (a ++ b), is.
      rewrite find_skip by (intros; apply NR; apply in_or_app; auto).
      rewrite (find_range short' s1 s2 i1 i2) by auto.
      rewrite find_none by (intros; apply NR; apply in_or_app; auto). cbn [rbind fst snd]. rewrite app_nil_r.
      split; [reflexivity|]. split.
      { cbn [delete_all]. rewrite map_app. cbn [map].
        replace (0 + length a)%nat with (length (map TStr a)) by now rewrite map_length.
        rewrite <- (map_length TStr a). rewrite delete_at_app. now rewrite map_app. }
      split; [apply (conv_names short); auto; intros; eapply Agree; eauto|].
      intros z. rewrite in_app_iff, <- Iff, int_range_in. split.
      + intros [(P & HP & Hz)|Hz].
        * exists P. split; auto. apply in_app_iff in HP. apply in_app_iff. cbn. tauto.
        * eexists. split; [apply in_app_iff; right; left; reflexivity|]. auto.
      + intros (P & HP & Hz). apply in_app_iff in HP as [HP|[<-|HP]].
        * left. exists P. split; auto. apply in_app_iff. auto.
        * now right.
        * left. exists P. split; auto. apply in_app_iff. auto.
  Qed.
End Calendar.

Lemma agree_months s i j : names months true s i -> names months false s j -> i = j.
Proof.
  intros (a & b & H1 & L1) (a' & b' & H2 & L2). rewrite L1 in L2. clear L1.
  cbn in H1, H2. repeat match goal with
    | H : _ \/ _ |- _ => destruct H
    | H : False |- _ => destruct H
    | H : (_, _) = (_, _) |- _ => injection H as <- <- <-
    end; try congruence.
Qed.
Lemma agree_days s i j : names weekdays true s i -> names weekdays false s j -> i = j.
Proof.
  intros (a & b & H1 & L1) (a' & b' & H2 & L2). rewrite L1 in L2. clear L1.
  cbn in H1, H2. repeat match goal with
    | H : _ \/ _ |- _ => destruct H
    | H : False |- _ => destruct H
    | H : (_, _) = (_, _) |- _ => injection H as <- <- <-
    end; try congruence.
Qed.

(** Lists of numbers. *)
Lemma is_in_ints data l k z : nth_error data k = Some z ->
  (nth_error (is_in (map TInt data) (map TInt l)) k = Some true <-> In z l).
Proof.
  intros H. rewrite (is_in_spec _ _ _ _ H). split.
  - intros E. injection E as E. apply existsb_exists in E as (y & Y & E). apply Z.eqb_eq in E. now subst.
  - intros I. f_equal. apply existsb_exists. exists z. split; auto. apply Z.eqb_refl.
Qed.
Lemma numbers_match data l codes first : l <> [] ->
  time_match (map TInt data) (TList (map TInt l)) codes first = (TList (map TInt l), Ok (is_in (map TInt data) (map TInt l))).
Proof. intros N. destruct l; [easy|reflexivity]. Qed.
Lemma years_numbers data l : years_match (map TInt data) (TList (map TInt l)) = Ok (is_in (map TInt data) (map TInt l)).
Proof. cbn. assert (E : forallb is_int (map TInt l) = true) by (induction l; auto). now rewrite E. Qed.
Lemma hour_numbers data l : hour_match (map TInt data) (TList (map TInt l)) = Ok (is_in (map TInt data) (map TInt l)).
Proof. reflexivity. Qed.

(** Without ranges the caller's list stays as it is. *)
Lemma no_ranges_found codes first ss i : (forall s, In s ss -> is_range s = false) -> find_ranges codes first i (map TStr ss) = Ok ([], []).
Proof.
  revert i. induction ss as [|s ss IH]; intros i H; cbn; auto.
  rewrite has_char_range, (H s) by now left. apply IH. intros x Hx. apply H. now right.
Qed.
Lemma unchanged data ss codes first : (forall s, In s ss -> is_range s = false) ->
  fst (time_match data (TList (map TStr ss)) codes first) = TList (map TStr ss).
Proof.
  intros H. destruct ss as [|s ss]; [reflexivity|]. unfold time_match. cbn [map].
  pose proof (no_ranges_found codes first (s :: ss) 0 H) as F. cbn [map] in F. rewrite F. reflexivity.
Qed.
