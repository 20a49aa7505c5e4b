(** Proofs about renaming and unit conversion of data frames (C51, C52). *)
From Coq Require Import String Ascii List ZArith QArith Qcanon Reals Bool Lia Permutation.
From Verif Require Import Base Units TimeModel Core Filters Frame Spec_Frame FrameFilter FrameSelect.
Import ListNotations.
Local Open Scope list_scope.

(** ** Duplicates *)
Lemma mval_same_iff a b : mval_same a b = true <-> a = b \/ (missing a /\ missing b).
Proof.
  unfold missing. destruct a, b; cbn; try (split; [auto|reflexivity]); try (split; [discriminate|intros [E|([E|E] & [E'|E'])]; discriminate]).
  - rewrite String.eqb_eq. split; [intros ->; auto|intros [[= ->]|([E|E] & _)]; [reflexivity|discriminate|discriminate]].
  - destruct (Qc_eq_dec q q0) as [->|N]; [split; auto|]. split; [discriminate|intros [[= E]|([E|E] & _)]; [contradiction|discriminate|discriminate]].
Qed.
Lemma row_same_iff : forall a b, row_same a b = true <-> same_meta a b.
Proof.
  unfold same_meta. induction a as [|x a IH]; intros [|y b]; cbn; try (split; [discriminate|intros H; inversion H]); [split; constructor|].
  rewrite andb_true_iff, mval_same_iff, IH. split; [intros (A & B); now constructor|intros H; inversion H; auto].
Qed.
Lemma has_dup_iff rows : has_dup rows = false <-> unique_rows rows.
Proof.
  induction rows as [|r rows IH]; cbn.
  - split; auto. intros _ [|i] j a b H; discriminate.
  - rewrite orb_false_iff, IH. split.
    + intros (E & U) [|i] [|j] a b A B S; auto; cbn in A, B.
      * exfalso. injection A as <-. apply nth_error_In in B. assert (existsb (row_same r) rows = true); [|congruence].
        apply existsb_exists. exists b. split; auto. now apply row_same_iff.
      * exfalso. injection B as <-. apply nth_error_In in A. assert (existsb (row_same r) rows = true); [|congruence].
        apply existsb_exists. exists a. split; auto. apply row_same_iff. clear - S. induction S as [|x y a b P S I]; constructor; auto.
        destruct P as [->|(P & Q)]; auto.
      * f_equal. eapply U; eauto.
    + intros U. split.
      * destruct (existsb (row_same r) rows) eqn:E; auto. apply existsb_exists in E as (b & B & S). apply row_same_iff in S.
        apply In_nth_error in B as (j & B). specialize (U 0%nat (Datatypes.S j) r b eq_refl B S). discriminate.
      * intros i j a b A B S. specialize (U (Datatypes.S i) (Datatypes.S j) a b A B S). now injection U.
Qed.

(** ** Cells *)
Lemma map_cell_length cols c g row : length row = length cols -> length (map_cell cols c g row) = length cols.
Proof. intros L. unfold map_cell. rewrite map_length, combine_length. lia. Qed.
Lemma map_cell_nth cols c g : forall row i c' v, length row = length cols -> nth_error cols i = Some c' -> nth_error row i = Some v ->
  nth_error (map_cell cols c g row) i = Some (if String.eqb c c' then g v else v).
Proof.
  unfold map_cell. induction cols as [|c0 cols IH]; intros [|v0 row] [|i] c' v L C V; try discriminate.
  - injection C as <-. injection V as <-. reflexivity.
  - cbn in *. apply IH; auto.
Qed.
Lemma map_cell_in cols c g : forall row c' w, In (c', w) (combine cols (map_cell cols c g row)) <->
  exists v, In (c', v) (combine cols row) /\ w = if String.eqb c c' then g v else v.
Proof.
  unfold map_cell. induction cols as [|c0 cols IH]; intros [|v0 row] c' w; cbn; try (split; [easy|intros (v & [] & _)]).
  rewrite IH. split.
  - intros [[= <- <-]|(v & I & E)]; [exists v0; auto|eauto].
  - intros (v & [[= <- <-]|I] & ->); [now left|eauto].
Qed.

(** ** [rename] *)
Lemma map_column_aligned c g f : aligned f -> aligned (map_column c g f).
Proof.
  intros [L U V R' C Q]. split; cbn [map_column fr_data fr_meta fr_cols fr_times]; auto.
  - rewrite L, map_map. reflexivity.
  - rewrite Forall_forall in *. intros r Hr. apply in_map_iff in Hr as (r0 & <- & Hr). cbn [snd]. apply map_cell_length. auto.
Qed.
Definition step_rows (cols : list string) (c : string) (g : mval -> mval) (rows : list (list mval)) := map (map_cell cols c g) rows.
Lemma same_map_cell cols c g : (forall x y, x = y \/ (missing x /\ missing y) -> g x = g y \/ (missing (g x) /\ missing (g y))) ->
  forall a b, same_meta a b -> same_meta (map_cell cols c g a) (map_cell cols c g b).
Proof.
  intros G. unfold same_meta, map_cell. induction cols as [|c0 cols IH]; intros a b H; [constructor|]. destruct H as [|x y a b P H]; [constructor|].
  cbn [combine map fst snd]. constructor; [|now apply IH]. destruct (String.eqb c c0); auto.
Qed.
Lemma replace_same m x y : x = y \/ (missing x /\ missing y) -> replace_value m x = replace_value m y \/ (missing (replace_value m x) /\ missing (replace_value m y)).
Proof. intros [->|([->| ->] & [->| ->])]; cbn; auto; right; unfold missing; auto. Qed.

Definition replace_rows (cols : list string) (mapping : list (string * list (string * string))) (rows : list (list mval)) : list (list mval) :=
  fold_left (fun rows p => step_rows cols (fst p) (replace_value (snd p)) rows) mapping rows.
Lemma unique_back cols c m rows : unique_rows (step_rows cols c (replace_value m) rows) -> unique_rows rows.
Proof.
  intros U i j a b A B S. apply (U i j (map_cell cols c (replace_value m) a) (map_cell cols c (replace_value m) b));
    [now apply map_nth_error|now apply map_nth_error|]. apply same_map_cell; auto. intros x y. apply replace_same.
Qed.
Lemma unique_back_all cols mapping : forall rows, unique_rows (replace_rows cols mapping rows) -> unique_rows rows.
Proof. induction mapping as [|[c m] mapping IH]; intros rows U; auto. cbn in U. apply IH in U. eapply unique_back; eauto. Qed.

Lemma rename_cases : forall mapping f f' r, rename mapping f = (f', r) ->
  (r = Ok tt /\ incl (map fst mapping) (fr_cols f) /\ fr_times f' = fr_times f /\ fr_data f' = fr_data f /\ fr_cols f' = fr_cols f /\
     map fst (fr_meta f') = map fst (fr_meta f) /\ map snd (fr_meta f') = replace_rows (fr_cols f) mapping (map snd (fr_meta f)) /\
     (mapping <> [] -> unique_rows (map snd (fr_meta f')))) \/
  (r = Err EValueError /\ (~ incl (map fst mapping) (fr_cols f) \/
     mapping <> [] /\ ~ unique_rows (replace_rows (fr_cols f) mapping (map snd (fr_meta f))))).
Proof.
  induction mapping as [|[c m] mapping IH]; intros f f' r H; cbn [rename] in H.
  - injection H as <- <-. left. repeat (split; [auto; intros x []|]). congruence.
  - destruct (mem c (fr_cols f)) eqn:E.
    + destruct (meta_dup (map_column c (replace_value m) f)) eqn:Du.
      * injection H as <- <-. right. split; auto. right. split; [discriminate|]. intros U. unfold meta_dup in Du.
        assert (X : has_dup (map snd (fr_meta (map_column c (replace_value m) f))) = false); [|congruence]. apply has_dup_iff.
        cbn in U. apply unique_back_all in U. cbn. rewrite map_map. unfold step_rows in U. rewrite map_map in U. exact U.
      * assert (EM : map snd (fr_meta (map_column c (replace_value m) f)) = step_rows (fr_cols f) c (replace_value m) (map snd (fr_meta f))).
        { cbn. unfold step_rows. now rewrite !map_map. }
        apply IH in H as [(-> & I & T & D & C & L & M & U)|(-> & H)]; [left|right]; split; auto.
        -- rewrite EM in M. cbn [map_column fr_cols fr_times fr_data] in *. split; [intros x [<-|X]; [now apply mem_in|auto]|].
           repeat (split; auto). rewrite L. cbn. now rewrite map_map. intros _.
           destruct mapping as [|p mapping]; [|apply U; discriminate]. rewrite M. cbn. rewrite <- EM. now apply has_dup_iff.
        -- cbn [map_column fr_cols] in H. rewrite EM in H. destruct H as [H|(_ & H)].
           ++ left. intros I. apply H. intros x X. apply I. now right.
           ++ right. split; [discriminate|exact H].
    + injection H as <- <-. right. split; auto. left. intros I. assert (X : mem c (fr_cols f) = true) by (apply mem_in, I; now left). congruence.
Qed.

Lemma replace_value_iff m v w : NoDup (map fst m) -> replaced m v w <-> w = replace_value m v.
Proof.
  intros N. assert (LK : forall s s', In (s, s') m <-> alookup s m = Some s').
  { intros s s'. induction m as [|[a b] m IH]; cbn; [split; [easy|discriminate]|]. inversion N as [|? ? A B]; subst.
    destruct (String.eqb_spec s a) as [->|E].
    - split; [intros [[= ->]|I]; auto|intros [= ->]; auto]. exfalso. apply A. apply in_map_iff. exists (a, s'). auto.
    - rewrite <- IH by auto. split; [intros [[= -> ->]|I]; [easy|auto]|auto]. }
  unfold replaced. destruct v as [s| | |]; cbn.
  - destruct (alookup s m) as [s'|] eqn:E.
    + split; [intros [(a & b & [= <-] & I & ->)|(-> & H)]|intros ->; left; exists s, s'; repeat split; now apply LK].
      * apply LK in I. congruence.
      * exfalso. apply (H s s' eq_refl). now apply LK.
    + split; [intros [(a & b & [= <-] & I & ->)|(-> & H)]; auto; apply LK in I; congruence|].
      intros ->. right. split; auto. intros a b [= <-] I. apply LK in I. congruence.
  - split; [intros [(a & b & [=] & _)|(-> & _)]; auto|intros ->; right; split; auto; discriminate].
  - split; [intros [(a & b & [=] & _)|(-> & _)]; auto|intros ->; right; split; auto; discriminate].
  - split; [intros [(a & b & [=] & _)|(-> & _)]; auto|intros ->; right; split; auto; discriminate].
Qed.

(** The replaced rows are those of the specification, and the only ones. *)
Definition new_value (mapping : list (string * list (string * string))) (c : string) (v : mval) : mval :=
  match alookup c mapping with Some m => replace_value m v | None => v end.
Lemma renamed_iff mapping c v w : NoDup (map fst mapping) -> (forall p, In p mapping -> NoDup (map fst (snd p))) ->
  renamed mapping c v w <-> w = new_value mapping c v.
Proof.
  intros N D. unfold renamed, new_value. assert (LK : forall m, In (c, m) mapping <-> alookup c mapping = Some m).
  { intros m. clear D. induction mapping as [|[a b] mp IH]; cbn; [split; [easy|discriminate]|]. inversion N as [|? ? A B]; subst.
    destruct (String.eqb_spec c a) as [->|E].
    - split; [intros [[= ->]|I]; auto|intros [= ->]; auto]. exfalso. apply A. apply in_map_iff. exists (a, m). auto.
    - rewrite <- IH by auto. split; [intros [[= -> ->]|I]; [easy|auto]|auto]. }
  destruct (alookup c mapping) as [m|] eqn:E.
  - assert (I : In (c, m) mapping) by now apply LK. split.
    + intros [(m' & I' & H)|(-> & H)]; [|exfalso; apply H; apply in_map_iff; exists (c, m); auto].
      apply LK in I' as [= <-]. apply replace_value_iff in H; auto. apply (D (c, m) I).
    + intros ->. left. exists m. split; auto. apply replace_value_iff; auto. apply (D (c, m) I).
  - split; [intros [(m' & I' & H)|(-> & _)]; auto; apply LK in I'; discriminate|].
    intros ->. right. split; auto. intros H. apply in_map_iff in H as ([a b] & <- & H). cbn in *. apply LK in H. discriminate.
Qed.
Lemma step_nth cols c g row i c' v : length row = length cols -> nth_error cols i = Some c' -> nth_error row i = Some v ->
  nth_error (map_cell cols c g row) i = Some (if String.eqb c c' then g v else v).
Proof. apply map_cell_nth. Qed.
Lemma replace_row_nth cols : forall mapping row i c v, NoDup (map fst mapping) -> length row = length cols ->
  nth_error cols i = Some c -> nth_error row i = Some v ->
  let row' := fold_left (fun row p => map_cell cols (fst p) (replace_value (snd p)) row) mapping row in
  length row' = length cols /\ nth_error row' i = Some (new_value mapping c v).
Proof.
  induction mapping as [|[a m] mapping IH]; intros row i c v N L C V; cbn [fold_left fst snd]; [auto|].
  inversion N as [|? ? A B]; subst. pose proof (map_cell_nth cols a (replace_value m) row i c v L C V) as H.
  destruct (IH (map_cell cols a (replace_value m) row) i c _ B (map_cell_length _ _ _ _ L) C H) as (L' & H'). cbv zeta. split; auto.
  rewrite H'. f_equal. unfold new_value. cbn [alookup]. destruct (String.eqb_spec a c) as [->|E].
  - rewrite String.eqb_refl. replace (alookup c mapping) with (@None (list (string * string))); auto. symmetry. now apply alookup_none.
  - destruct (String.eqb_spec c a); [congruence|reflexivity].
Qed.
Lemma replace_rows_map cols mapping : forall rows,
  replace_rows cols mapping rows = map (fun row => fold_left (fun row p => map_cell cols (fst p) (replace_value (snd p)) row) mapping row) rows.
Proof.
  unfold replace_rows. induction mapping as [|p mapping IH]; intros rows; cbn [fold_left]; [now rewrite map_id|].
  rewrite IH. unfold step_rows. now rewrite map_map.
Qed.
Lemma fold_row_length cols mapping : forall row, length row = length cols ->
  length (fold_left (fun row p => map_cell cols (fst p) (replace_value (snd p)) row) mapping row) = length cols.
Proof. induction mapping as [|p mapping IH]; intros row L; cbn [fold_left]; auto. apply IH. now apply map_cell_length. Qed.
Lemma nth_error_ext {A} (a b : list A) : (forall i, nth_error a i = nth_error b i) -> a = b.
Proof.
  revert b. induction a as [|x a IH]; intros [|y b] H; auto; try (specialize (H 0%nat); discriminate).
  f_equal; [specialize (H 0%nat); now injection H|apply IH; intros i; exact (H (Datatypes.S i))].
Qed.
Lemma renamed_rows_iff cols mapping rows rows' : NoDup (map fst mapping) -> (forall p, In p mapping -> NoDup (map fst (snd p))) ->
  Forall (fun r => length r = length cols) rows ->
  (renamed_rows mapping cols rows rows' <-> rows' = replace_rows cols mapping rows).
Proof.
  intros N D L. rewrite replace_rows_map. unfold renamed_rows. revert rows'. induction L as [|r rows Lr L IH]; intros rows'; cbn [map].
  - split; [intros H; now inversion H|intros ->; constructor].
  - set (r' := fold_left (fun row p => map_cell cols (fst p) (replace_value (snd p)) row) mapping r).
    assert (X : forall r0, length r0 = length r /\ (forall i c v w, nth_error cols i = Some c -> nth_error r i = Some v -> nth_error r0 i = Some w -> renamed mapping c v w)
                <-> r0 = r').
    { intros r0. split.
      - intros (L0 & H). apply nth_error_ext. intros i.
        destruct (nth_error cols i) as [c|] eqn:C.
        + destruct (nth_error r i) as [v|] eqn:V.
          * destruct (replace_row_nth cols mapping r i c v N Lr C V) as (_ & E). fold r' in E. cbv zeta in E. rewrite E.
            destruct (nth_error r0 i) as [w|] eqn:W; [|apply nth_error_None in W; assert (nth_error r i <> None) by congruence; apply nth_error_Some in H0; lia].
            f_equal. apply renamed_iff; auto. eapply H; eauto.
          * apply nth_error_None in V. assert (nth_error cols i <> None) by congruence. apply nth_error_Some in H0. lia.
        + apply nth_error_None in C. rewrite !(proj2 (nth_error_None _ i)); auto; [|lia]. unfold r'. rewrite fold_row_length; auto.
      - intros ->. split; [unfold r'; rewrite fold_row_length; auto|]. intros i c v w C V W. apply renamed_iff; auto.
        destruct (replace_row_nth cols mapping r i c v N Lr C V) as (_ & E). fold r' in E. cbv zeta in E. congruence. }
    split.
    + intros H. inversion H as [|? r0 ? rows0 P Q]; subst. f_equal; [now apply X|now apply IH].
    + intros ->. constructor; [now apply X|now apply IH].
Qed.

(** ** [convert_unit] *)
Lemma insert_perm s l : Permutation (s :: l) (insert_string s l).
Proof. induction l as [|x l IH]; cbn; [constructor; constructor|]. destruct (String.leb s x); [apply Permutation_refl|]. eapply perm_trans; [apply perm_swap|]. now constructor. Qed.
Lemma sort_perm l : Permutation l (sort_strings l).
Proof. induction l as [|s l IH]; cbn; [constructor|]. eapply perm_trans; [|apply insert_perm]. now constructor. Qed.
Lemma NoDup_app_intro {A} (a b : list A) : NoDup a -> NoDup b -> (forall x, In x a -> ~ In x b) -> NoDup (a ++ b).
Proof.
  intros N M D. induction N as [|x a I N IH]; cbn; auto. constructor; [|apply IH; intros y Y; apply D; now right].
  rewrite in_app_iff. intros [H|H]; [auto|]. apply (D x); auto. now left.
Qed.
Lemma sorted_perm cols : NoDup cols -> incl required_cols cols -> Permutation cols (sorted_cols cols).
Proof.
  intros N I. unfold sorted_cols. eapply perm_trans; [|apply Permutation_app_head, sort_perm].
  apply NoDup_Permutation; auto.
  - apply NoDup_app_intro.
    + repeat constructor; cbn; intuition discriminate.
    + now apply NoDup_filter.
    + intros c A B. apply filter_In in B as (_ & B). apply negb_true_iff in B. apply mem_in in A. congruence.
  - intros c. rewrite in_app_iff, filter_In. split.
    + intros C. destruct (mem c required_cols) eqn:E; [left; now apply mem_in|right; auto].
    + intros [C|(C & _)]; auto.
Qed.

Lemma combine_map_in {A B} (h : A -> B) l c w : In (c, w) (combine l (map h l)) <-> In c l /\ w = h c.
Proof. induction l as [|a l IH]; cbn; [tauto|]. rewrite IH. split; [intros [[= <- <-]|(I & ->)]; auto|intros ([<-|I] & ->); auto]. Qed.
Lemma sort_meta_aligned f : aligned f -> aligned (sort_meta_cols f).
Proof.
  intros [L U V R' C Q]. pose proof (sorted_perm (fr_cols f) C Q) as P. split; cbn [sort_meta_cols fr_data fr_meta fr_times fr_cols]; auto.
  - rewrite L, map_map. reflexivity.
  - apply Forall_forall. intros r Hr. apply in_map_iff in Hr as (r0 & <- & _). cbn. now rewrite map_length.
  - eapply Permutation_NoDup; eauto.
  - intros c Hc. apply (Permutation_in c P). auto.
Qed.
Lemma cell_iff cols row c v : NoDup cols -> length row = length cols -> (In (c, v) (combine cols row) <-> In c cols /\ v = cell cols row c).
Proof.
  intros N L. split.
  - intros H. split; [eapply in_combine_l; eauto|]. symmetry. now apply in_cell.
  - intros (I & ->). now apply cell_in.
Qed.
Lemma row_length f l row : aligned f -> In (l, row) (fr_meta f) -> length row = length (fr_cols f).
Proof. intros [_ _ _ R' _ _] H. rewrite Forall_forall in R'. exact (R' _ H). Qed.
Lemma sort_meta_of f l c v : aligned f -> (meta_of (sort_meta_cols f) l c v <-> meta_of f l c v).
Proof.
  intros AL. pose proof (sorted_perm (fr_cols f) (al_cols _ AL) (al_required _ AL)) as P. unfold meta_of. cbn [sort_meta_cols fr_meta fr_cols]. split.
  - intros (row & I & H). apply in_map_iff in I as ([l' row0] & E & I). apply pair_equal_spec in E as (<- & <-). cbn [fst snd] in *. exists row0. split; auto.
    apply combine_map_in in H as (H & ->). apply cell_iff; [apply AL|eapply row_length; eauto|]. split; auto. eapply Permutation_in; [apply Permutation_sym|]; eauto.
  - intros (row & I & H). exists (map (cell (fr_cols f) row) (sorted_cols (fr_cols f))). split; [apply in_map_iff; now exists (l, row)|].
    apply combine_map_in. apply cell_iff in H as (H & ->); [|apply AL|eapply row_length; eauto]. split; auto. eapply Permutation_in; eauto.
Qed.

Definition ctx_value (ctx : option string) : mval := match ctx with Some c => MStr c | None => MNone end.
Lemma with_context_ok f : aligned f -> aligned (with_context f) /\ fr_times (with_context f) = fr_times f /\ fr_data (with_context f) = fr_data f /\
  Permutation (fr_cols (with_context f)) (if mem "unit_context" (fr_cols f) then fr_cols f else "unit_context"%string :: fr_cols f) /\
  map fst (fr_meta (with_context f)) = map fst (fr_meta f) /\
  forall l c v, meta_of (with_context f) l c v <->
    meta_of f l c v \/ (~ In "unit_context"%string (fr_cols f) /\ c = "unit_context"%string /\ v = MNone /\ In l (map fst (fr_meta f))).
Proof.
  intros AL. unfold with_context. destruct (mem "unit_context" (fr_cols f)) eqn:E.
  - split; auto. split; auto. split; auto. split; auto. split; auto. intros l c v. split; auto. intros [H|(N & _)]; auto. exfalso. apply N. now apply mem_in.
  - set (f1 := mkFrame (fr_times f) (fr_data f) (fr_cols f ++ ["unit_context"%string]) (map (fun r => (fst r, snd r ++ [MNone])) (fr_meta f))).
    assert (NI : ~ In "unit_context"%string (fr_cols f)) by (intros H; apply mem_in in H; congruence).
    assert (A1 : aligned f1).
    { destruct AL as [L U V R' C Q]. split; cbn [f1 fr_data fr_meta fr_times fr_cols]; auto.
      - rewrite L, map_map. reflexivity.
      - rewrite Forall_forall in *. intros r Hr. apply in_map_iff in Hr as (r0 & <- & Hr). cbn [snd]. rewrite !app_length, (R' r0 Hr). reflexivity.
      - apply NoDup_app_intro; auto; [repeat constructor; intros []|]. intros x X [<-|[]]. contradiction.
      - intros c Hc. apply in_or_app. left. auto. }
    split; [now apply sort_meta_aligned|]. split; auto. split; auto. split.
    { cbn [sort_meta_cols fr_cols]. eapply perm_trans; [apply Permutation_sym, sorted_perm; apply A1|]. cbn [f1 fr_cols]. apply Permutation_sym, Permutation_cons_append. }
    split; [cbn; rewrite !map_map; reflexivity|]. intros l c v. rewrite sort_meta_of by auto. unfold meta_of at 1. cbn [f1 fr_meta fr_cols]. split.
    + intros (row & I & H). apply in_map_iff in I as ([l' row0] & [= <- <-] & I). cbn [fst snd] in *.
      assert (L0 : length (fr_cols f) = length row0) by (symmetry; eapply row_length; eauto).
      assert (EC : combine (fr_cols f ++ ["unit_context"%string]) (row0 ++ [MNone]) = combine (fr_cols f) row0 ++ [("unit_context"%string, MNone)]).
      { clear - L0. revert row0 L0. induction (fr_cols f) as [|a cs IH]; intros [|b row0] L0; try discriminate; cbn; auto. f_equal. apply IH. now injection L0. }
      rewrite EC in H. apply in_app_or in H as [H|[[= <- <-]|[]]]; [left; exists row0; auto|right]. repeat split; auto. apply in_map_iff. now exists (l', row0).
    + intros H. assert (EX : exists row0, In (l, row0) (fr_meta f) /\ (In (c, v) (combine (fr_cols f) row0) \/ (c, v) = ("unit_context"%string, MNone))).
      { destruct H as [(row0 & I & H)|(_ & -> & -> & I)]; [eauto|]. apply in_map_iff in I as ([l' row0] & <- & I). eauto. }
      destruct EX as (row0 & I & X). exists (row0 ++ [MNone]). split; [apply in_map_iff; now exists (l, row0)|].
      assert (L0 : length (fr_cols f) = length row0) by (symmetry; eapply row_length; eauto).
      assert (EC : combine (fr_cols f ++ ["unit_context"%string]) (row0 ++ [MNone]) = combine (fr_cols f) row0 ++ [("unit_context"%string, MNone)]).
      { clear - L0. revert row0 L0. induction (fr_cols f) as [|a cs IH]; intros [|b row0] L0; try discriminate; cbn; auto. f_equal. apply IH. now injection L0. }
      rewrite EC. apply in_or_app. destruct X as [X|X]; [now left|right; left; congruence].
Qed.

Definition set_row (cols : list string) (unit : string) (ctx : option string) (row : list mval) : list mval :=
  map_cell cols "unit_context" (fun _ => ctx_value ctx) (map_cell cols "unit" (fun _ => MStr unit) row).
Lemma has_label_iff l ls : has_label l ls = true <-> In l ls.
Proof. unfold has_label. rewrite existsb_exists. split; [intros (x & X & E); apply Z.eqb_eq in E; now subst|intros H; exists l; split; auto; apply Z.eqb_refl]. Qed.

Lemma convert_groups_ok mk unit ctx g : forall us f f', NoDup us ->
  (forall l u u', In l (group_labels g u) -> In l (group_labels g u') -> u = u') ->
  convert_groups mk unit ctx g us f = (f', Ok tt) ->
  fr_times f' = fr_times f /\ fr_cols f' = fr_cols f /\ map fst (fr_data f') = map fst (fr_data f) /\ map fst (fr_meta f') = map fst (fr_meta f) /\
  (forall l vs, In (l, vs) (fr_data f) ->
     (forall u, In u us -> In l (group_labels g u) -> exists conv, mk u = Ok conv /\ In (l, map conv vs) (fr_data f')) /\
     ((forall u, In u us -> ~ In l (group_labels g u)) -> In (l, vs) (fr_data f'))) /\
  (forall l row, In (l, row) (fr_meta f) ->
     (forall u, In u us -> In l (group_labels g u) -> In (l, set_row (fr_cols f) unit ctx row) (fr_meta f')) /\
     ((forall u, In u us -> ~ In l (group_labels g u)) -> In (l, row) (fr_meta f'))).
Proof.
  induction us as [|u us IH]; intros f f' N DJ H; cbn [convert_groups] in H.
  - injection H as <-. do 4 (split; [reflexivity|]). split; intros l x I; (split; [intros u []|intros _; exact I]).
  - destruct (mk u) as [conv|e] eqn:MK; [|discriminate]. inversion N as [|? ? NU N']; subst.
    destruct (IH _ f' N' DJ H) as (T & C & LD & LM & HD & HM). cbn [convert_labels fr_times fr_cols fr_data fr_meta] in *.
    split; auto. split; auto. split; [rewrite LD, map_map; apply map_ext; intros c; now destruct (has_label _ _)|].
    split; [rewrite LM, map_map; apply map_ext; intros c; now destruct (has_label _ _)|]. split.
    + intros l vs I. destruct (has_label l (group_labels g u)) eqn:E.
      * assert (I' : In (l, map conv vs) (map (fun c => if has_label (fst c) (group_labels g u) then (fst c, map conv (snd c)) else c) (fr_data f)))
          by (apply in_map_iff; exists (l, vs); cbn [fst snd]; now rewrite E).
        apply has_label_iff in E. destruct (HD _ _ I') as (_ & H2). split.
        -- intros u' [<-|U'] I2; [|exfalso; apply NU; now rewrite (DJ l u u' E I2)].
           exists conv. split; auto. apply H2. intros u' U' I3. apply NU. now rewrite (DJ l u u' E I3).
        -- intros NN. exfalso. apply (NN u); auto. now left.
      * assert (I' : In (l, vs) (map (fun c => if has_label (fst c) (group_labels g u) then (fst c, map conv (snd c)) else c) (fr_data f)))
          by (apply in_map_iff; exists (l, vs); cbn [fst snd]; now rewrite E).
        destruct (HD _ _ I') as (H1 & H2). split.
        -- intros u' [<-|U'] I2; [apply has_label_iff in I2; congruence|eauto].
        -- intros NN. apply H2. intros u' U'. apply NN. now right.
    + intros l row I.
      match type of HM with forall l row, In (l, row) ?m -> _ => set (m' := m) in * end.
      destruct (has_label l (group_labels g u)) eqn:E.
      * assert (I' : In (l, set_row (fr_cols f) unit ctx row) m') by (apply in_map_iff; exists (l, row); cbn [fst snd]; now rewrite E).
        apply has_label_iff in E. destruct (HM _ _ I') as (_ & H2). split.
        -- intros _ _ _. apply H2. intros u' U' I3. apply NU. now rewrite (DJ l u u' E I3).
        -- intros NN. exfalso. apply (NN u); auto. now left.
      * assert (I' : In (l, row) m') by (apply in_map_iff; exists (l, row); cbn [fst snd]; now rewrite E).
        destruct (HM _ _ I') as (H1 & H2). split.
        -- intros u' [<-|U'] I2; [apply has_label_iff in I2; congruence|eauto].
        -- intros NN. apply H2. intros u' U'. apply NN. now right.
Qed.
Lemma convert_groups_accepts mk unit ctx g : forall us f, snd (convert_groups mk unit ctx g us f) = Ok tt <-> forall u, In u us -> exists conv, mk u = Ok conv.
Proof.
  induction us as [|u us IH]; intros f; cbn [convert_groups]; [split; [intros _ u []|reflexivity]|]. destruct (mk u) as [conv|e] eqn:E; cbn [snd].
  - rewrite IH. split; [intros H u' [<-|I]; eauto|intros H u' I; apply H; now right].
  - split; [discriminate|]. intros H. destruct (H u (or_introl eq_refl)) as (c & C). congruence.
Qed.

(** Which timeseries are left by a filter. *)
Lemma masked_valued w : forall times v, existsb is_some (masked w times v) = true <->
  exists i t x, nth_error times i = Some t /\ nth_error v i = Some (Some x) /\ w t = true.
Proof.
  unfold masked. induction times as [|t times IH]; intros v.
  - cbn. split; [discriminate|]. intros ([|i] & ? & ? & H & _); discriminate.
  - destruct v as [|y v]; [cbn; split; [discriminate|]; intros ([|i] & ? & ? & _ & H & _); discriminate|].
    cbn [combine map existsb fst snd]. rewrite orb_true_iff, IH. split.
    + intros [H|(i & t' & x & A & B & C)]; [|exists (Datatypes.S i), t', x; auto].
      destruct (w t) eqn:W; [|discriminate]. destruct y as [x|]; [|discriminate]. exists 0%nat, t, x. auto.
    + intros ([|i] & t' & x & A & B & C); [left|right; exists i, t', x; auto]. injection A as <-. injection B as ->. now rewrite C.
Qed.
Lemma kept_labels keep q p times cols z l row : In (l, row) (fr_meta (kept keep q p times cols z)) <->
  exists vs, In (l, vs, row) z /\ exists i t x, nth_error times i = Some t /\ nth_error vs i = Some (Some x) /\ Bool.eqb keep (q t && p row) = true.
Proof.
  unfold kept, of_series. cbn [fr_meta]. rewrite map_map. rewrite in_map_iff. split.
  - intros (x & E & X). apply filter_In in X as (X & V). apply in_map_iff in X as (y & <- & Y). destruct y as [[l0 vs] row0].
    cbn in E. injection E as <- <-. exists vs. split; auto. apply masked_valued in V. exact V.
  - intros (vs & Z' & M). exists (keep_series keep times q p (l, vs, row)). split; [reflexivity|]. apply filter_In. split; [now apply in_map|].
    apply masked_valued. exact M.
Qed.
Lemma filter_selects keep rx hn fl f g : aligned f -> fr_filter keep rx hn fl f = Ok g -> exists (test : list mval -> Z -> bool),
  aligned g /\ fr_cols g = fr_cols f /\
  forall l row, In (l, row) (fr_meta g) <-> In (l, row) (fr_meta f) /\
    exists vs i t x, In (l, vs) (fr_data f) /\ nth_error (fr_times f) i = Some t /\ nth_error vs i = Some (Some x) /\ test row t = true.
Proof.
  intros AL H. destruct (filter_ok _ _ _ _ _ _ H) as (N & M & p & q & A).
  pose proof (apply_result rx hn fl f p q A f (within_refl f N) M) as R0.
  destruct (filter_acts_on rx hn fl f p q A keep f (within_refl f N) M AL) as (g' & Hg & ALg & Cg & _). rewrite H in Hg. injection Hg as <-.
  exists (fun row t => Bool.eqb keep (q t && p row)). split; auto. split; auto.
  destruct (aligned_series f AL) as (z & E). set (times := fr_times f) in *. set (cols := fr_cols f) in *. clearbody times cols. subst f.
  assert (ND : NoDup (map s_label z)) by (rewrite <- labels_data; apply AL).
  rewrite (filter_kept keep rx hn fl times cols z q p ND R0) in H. injection H as <-.
  intros l row. rewrite kept_labels. cbn [of_series fr_meta fr_data]. split.
  - intros (vs & Z' & i & t & x & T & V & W). split; [apply in_map_iff; now exists (l, vs, row)|]. exists vs, i, t, x. split; auto. apply in_map_iff. now exists (l, vs, row).
  - intros (I & vs & i & t & x & J & T & V & W). apply in_map_iff in I as ([[l1 vs1] row1] & E1 & I). cbn in E1. injection E1 as -> ->.
    apply in_map_iff in J as ([[l2 vs2] row2] & E2 & J). cbn in E2. injection E2 as -> ->.
    assert ((l, vs1, row) = (l, vs, row2)) as [= -> <-]; [|exists vs; split; auto; exists i, t, x; auto].
    revert ND I J. clear. intros ND I J. induction z as [|a z IH]; [easy|]. cbn in ND. inversion ND as [|? ? A B]; subst.
    destruct I as [->|I], J as [J|J]; auto.
    + exfalso. apply A. change (s_label (l, vs1, row)) with (s_label (l, vs, row2)). now apply in_map.
    + exfalso. apply A. subst a. change (s_label (l, vs, row2)) with (s_label (l, vs1, row)). now apply in_map.
Qed.

Lemma units_ok g us : units_of g = Ok us -> NoDup us /\
  (forall u, In u us <-> exists r, In r (fr_meta g) /\ cell (fr_cols g) (snd r) "unit" = MStr u) /\
  forall r q, In r (fr_meta g) -> cell (fr_cols g) (snd r) "unit" <> MNum q.
Proof.
  unfold units_of, column. intros H. apply rbind_ok in H as (ss & H & E). injection E as <-.
  assert (HH : (forall u, In u (concat ss) <-> exists r, In r (fr_meta g) /\ cell (fr_cols g) (snd r) "unit" = MStr u) /\
    forall r q, In r (fr_meta g) -> cell (fr_cols g) (snd r) "unit" <> MNum q).
  { revert ss H. induction (fr_meta g) as [|r m IH]; intros ss H; cbn [map rmap] in H.
    - injection H as <-. cbn. split; [intros u; split; [easy|intros (r & [] & _)]|intros r q []].
    - destruct (match cell (fr_cols g) (snd r) "unit" with MStr s => Ok [s] | MNum _ => Err EInvalid | _ => Ok [] end) as [a|e] eqn:C; [|discriminate].
      destruct (rmap _ (map _ m)) as [ss'|e]; [|discriminate]. injection H as <-. destruct (IH ss' eq_refl) as (H1 & H2). split.
      + intros u. cbn [concat]. rewrite in_app_iff, H1. split.
        * intros [I|(r' & R' & E)]; [|exists r'; split; auto; now right]. exists r. split; [now left|].
          revert C. destruct (cell (fr_cols g) (snd r) "unit"); intros [= <-]; cbn in I; try easy. destruct I as [->|[]]. reflexivity.
        * intros (r' & [<-|R'] & E); [left|right; eauto]. rewrite E in C. injection C as <-. now left.
      + intros r' q [<-|R'] E; [rewrite E in C; discriminate|now apply (H2 r' q)]. }
  destruct HH as (H1 & H2). split; [|split; auto].
  - eapply Permutation_NoDup; [apply sort_perm|]. apply NoDup_nodup.
  - intros u. rewrite <- H1. rewrite <- (nodup_In string_dec (concat ss)). split; apply Permutation_in; [apply Permutation_sym|]; apply sort_perm.
Qed.
Lemma group_in g u l : In l (group_labels g u) <-> exists row, In (l, row) (fr_meta g) /\ cell (fr_cols g) row "unit" = MStr u.
Proof.
  unfold group_labels. rewrite in_map_iff. split.
  - intros ([l' row] & <- & I). apply filter_In in I as (I & H). exists row. split; auto. cbn [fst snd] in *. destruct (cell _ _ _); try discriminate.
    cbn in H. apply String.eqb_eq in H. now subst.
  - intros (row & I & H). exists (l, row). split; auto. apply filter_In. split; auto. cbn [snd]. rewrite H. cbn. apply String.eqb_refl.
Qed.
Lemma meta_unique f l r r' : aligned f -> In (l, r) (fr_meta f) -> In (l, r') (fr_meta f) -> r = r'.
Proof.
  intros [L U _ _ _ _] I J. rewrite L in U. clear L. induction (fr_meta f) as [|[a b] m IH]; [easy|]. cbn in U. inversion U as [|? ? A B]; subst.
  destruct I as [I|I], J as [J|J]; auto; [congruence| |]; exfalso; apply A; apply in_map_iff; eexists; (split; [|eassumption]); cbn; congruence.
Qed.

(** The timeseries [l] is selected: one of its values that are present passes the filters. *)
Lemma convert_ok mk unit ctx keep rx hn fl f f' : aligned f -> convert_unit mk unit ctx keep rx hn fl f = (f', Ok tt) ->
  exists g, fr_filter keep rx hn fl (with_context f) = Ok g /\ aligned f' /\ fr_times f' = fr_times f /\
    map fst (fr_data f') = map fst (fr_data f) /\ fr_cols f' = fr_cols (with_context f) /\
    forall l vs, In (l, vs) (fr_data f) ->
      (forall u, In l (map fst (fr_meta g)) -> meta_of f l "unit" (MStr u) ->
        exists conv, mk u = Ok conv /\ In (l, map conv vs) (fr_data f') /\ meta_of f' l "unit" (MStr unit) /\ meta_of f' l "unit_context" (ctx_value ctx) /\
          forall c v, c <> "unit"%string -> c <> "unit_context"%string -> meta_of f l c v -> meta_of f' l c v) /\
      (~ In l (map fst (fr_meta g)) \/ (forall u, ~ meta_of f l "unit" (MStr u)) ->
        In (l, vs) (fr_data f') /\ forall c v, meta_of (with_context f) l c v -> meta_of f' l c v).
Proof.
  intros AL H. destruct (with_context_ok f AL) as (AL0 & T0 & D0 & C0 & L0 & M0). unfold convert_unit in H. set (f0 := with_context f) in *.
  destruct (fr_filter keep rx hn fl f0) as [g|e] eqn:FG; [|discriminate]. destruct (units_of g) as [us|e] eqn:UG; [|discriminate].
  destruct (filter_selects _ _ _ _ _ _ AL0 FG) as (test & ALg & Cg & SG). destruct (units_ok g us UG) as (NU & HU & _).
  assert (DJ : forall l u u', In l (group_labels g u) -> In l (group_labels g u') -> u = u').
  { intros l u u' A B. apply group_in in A as (r & A & EA). apply group_in in B as (r' & B & EB). rewrite (meta_unique g l r r' ALg A B) in EA. congruence. }
  destruct (convert_groups_ok mk unit ctx g us f0 f' NU DJ H) as (T & C & LD & LM & HD & HM).
  assert (UC : In "unit_context"%string (fr_cols f0)).
  { eapply Permutation_in; [apply Permutation_sym; exact C0|]. destruct (mem "unit_context" (fr_cols f)) eqn:E; [now apply mem_in|now left]. }
  assert (UU : In "unit"%string (fr_cols f0)) by (apply (al_required _ AL0); cbn; tauto).
  assert (AL' : aligned f').
  { destruct AL0 as [L U V R' Cn Q]. split.
    - rewrite LD, LM. exact L.
    - now rewrite LD.
    - apply Forall_forall. intros [l vs] I. assert (K : In l (map fst (fr_data f0))) by (rewrite <- LD; apply in_map_iff; now exists (l, vs)).
      apply in_map_iff in K as ([l0 vs0] & E & K). cbn in E. subst l0. rewrite Forall_forall in V. pose proof (V _ K) as VL. cbn [snd] in *.
      assert (UN : forall a b, In (l, a) (fr_data f') -> In (l, b) (fr_data f') -> a = b).
      { rewrite <- LD in U. clear - U. intros a b A B. induction (fr_data f') as [|[x y] d IH]; [easy|]. cbn in U. inversion U as [|? ? P Q]; subst.
        destruct A as [A|A], B as [B|B]; auto; [congruence| |]; exfalso; apply P; apply in_map_iff; eexists; (split; [|eassumption]); cbn; congruence. }
      rewrite T. destruct (HD _ _ K) as (H1 & H2). destruct (in_dec Z.eq_dec l (concat (map (group_labels g) us))) as [I0|I0].
      + apply in_concat in I0 as (ls & I1 & I2). apply in_map_iff in I1 as (u & <- & I1). destruct (H1 u I1 I2) as (conv & _ & J).
        rewrite (UN _ _ I J), map_length. exact VL.
      + rewrite (UN _ _ I (H2 (fun u U0 J => I0 (proj2 (in_concat _ _) (ex_intro _ _ (conj (in_map _ _ _ U0) J)))))). exact VL.
    - apply Forall_forall. intros [l row] I. assert (K : In l (map fst (fr_meta f0))) by (rewrite <- LM; apply in_map_iff; now exists (l, row)).
      apply in_map_iff in K as ([l0 row0] & E & K). cbn in E. subst l0. rewrite Forall_forall in R'. pose proof (R' _ K) as RL. cbn [snd] in *.
      assert (UN : forall a b, In (l, a) (fr_meta f') -> In (l, b) (fr_meta f') -> a = b).
      { rewrite L, <- LM in U. clear - U. intros a b A B. induction (fr_meta f') as [|[x y] d IH]; [easy|]. cbn in U. inversion U as [|? ? P Q]; subst.
        destruct A as [A|A], B as [B|B]; auto; [congruence| |]; exfalso; apply P; apply in_map_iff; eexists; (split; [|eassumption]); cbn; congruence. }
      rewrite C. destruct (HM _ _ K) as (H1 & H2). destruct (in_dec Z.eq_dec l (concat (map (group_labels g) us))) as [I0|I0].
      + apply in_concat in I0 as (ls & I1 & I2). apply in_map_iff in I1 as (u & <- & I1). pose proof (H1 u I1 I2) as J.
        rewrite (UN _ _ I J). unfold set_row. rewrite map_cell_length; auto. now apply map_cell_length.
      + rewrite (UN _ _ I (H2 (fun u U0 J => I0 (proj2 (in_concat _ _) (ex_intro _ _ (conj (in_map _ _ _ U0) J)))))). exact RL.
    - now rewrite C.
    - now rewrite C. }
  exists g. split; auto. split; auto. split; [congruence|]. split; [congruence|]. split; auto.
  intros l vs I. rewrite <- D0 in I. destruct (HD l vs I) as (H1 & H2).
  assert (K : exists row0, In (l, row0) (fr_meta f0)).
  { assert (X : In l (map fst (fr_meta f0))) by (rewrite <- (al_labels _ AL0); apply in_map_iff; now exists (l, vs)).
    apply in_map_iff in X as ([l0 row0] & E & X). cbn in E. subst l0. eauto. }
  destruct K as (row0 & K). destruct (HM l row0 K) as (M1 & M2).
  assert (NC : NoDup (fr_cols f0)) by apply AL0. pose proof (row_length f0 l row0 AL0 K) as RL.
  assert (MU : forall u, meta_of f l "unit" (MStr u) <-> cell (fr_cols f0) row0 "unit" = MStr u).
  { intros u. split.
    - intros MM. assert (MF : meta_of f0 l "unit" (MStr u)) by (apply M0; now left). destruct MF as (row & R1 & R2).
      rewrite (meta_unique f0 l row row0 AL0 R1 K) in R2. now apply in_cell.
    - intros E. assert (MF : meta_of f0 l "unit" (MStr u)) by (exists row0; split; auto; apply cell_iff; auto).
      apply M0 in MF as [MF|(_ & X & _)]; [exact MF|discriminate]. }
  split.
  - intros u SEL MM. apply MU in MM.
    assert (G : In l (group_labels g u)).
    { apply in_map_iff in SEL as ([l0 row] & E & SEL). cbn in E. subst l0. apply group_in. exists row. split; auto. rewrite Cg.
      pose proof (proj1 (proj1 (SG l row) SEL)) as X. now rewrite (meta_unique f0 l row row0 AL0 X K). }
    assert (U1 : In u us).
    { apply HU. apply group_in in G as (row & R1 & R2). exists (l, row). auto. }
    destruct (H1 u U1 G) as (conv & MK & J). exists conv. split; auto. split; auto. pose proof (M1 u U1 G) as J2.
    assert (CC : forall c v, In (c, v) (combine (fr_cols f0) row0) -> c <> "unit"%string -> c <> "unit_context"%string ->
       In (c, v) (combine (fr_cols f0) (set_row (fr_cols f0) unit ctx row0))).
    { intros c v CV N1 N2. unfold set_row. apply map_cell_in. exists v. split; [apply map_cell_in; exists v; split; auto|];
        destruct (String.eqb_spec "unit" c); destruct (String.eqb_spec "unit_context" c); congruence. }
    split; [|split].
    + exists (set_row (fr_cols f0) unit ctx row0). split; auto. rewrite C. unfold set_row. apply map_cell_in. exists (MStr unit). split; [|reflexivity].
      apply map_cell_in. exists (cell (fr_cols f0) row0 "unit"). split; [apply cell_iff; auto|reflexivity].
    + exists (set_row (fr_cols f0) unit ctx row0). split; auto. rewrite C. unfold set_row. apply map_cell_in.
      exists (cell (fr_cols f0) row0 "unit_context"). split; [|reflexivity]. apply map_cell_in. exists (cell (fr_cols f0) row0 "unit_context").
      split; [apply cell_iff; auto|reflexivity].
    + intros c v N1 N2 MM2. assert (MF : meta_of f0 l c v) by (apply M0; now left). destruct MF as (row & R1 & R2).
      rewrite (meta_unique f0 l row row0 AL0 R1 K) in R2. exists (set_row (fr_cols f0) unit ctx row0). split; auto. rewrite C. now apply CC.
  - intros NS. assert (NG : forall u, In u us -> ~ In l (group_labels g u)).
    { intros u _ G. apply group_in in G as (row & R1 & R2). destruct NS as [NS|NS]; [apply NS; apply in_map_iff; now exists (l, row)|].
      apply (NS u). apply MU. rewrite Cg in R2. pose proof (proj1 (proj1 (SG l row) R1)) as X. now rewrite (meta_unique f0 l row row0 AL0 X K) in R2. }
    split; [auto|]. intros c v (row & R1 & R2). exists row. rewrite C. split; auto. rewrite (meta_unique f0 l row row0 AL0 R1 K). auto.
Qed.
