(** Lemmas on frames built from long tables (C69). *)
From Coq Require Import String Ascii List ZArith QArith Qcanon Reals Bool Lia Permutation Sorted Lra.
From Verif Require Import Base Calendar Core Filters Frame Spec_Frame FrameFilter FrameSelect FrameEdit FrameAppend Spec_Append AppendProps FrameWide WideProps FrameFormat Spec_Format FormatProps.
From Verif Require Import Spec_Time TimeProps.
Import ListNotations.
Local Open Scope string_scope.
Local Open Scope list_scope.

Lemma complete_solid k : complete k <-> Forall solid k.
Proof. unfold complete, missing, solid. split; apply Forall_impl; intros v H; [split; intros ->; apply H; auto|intros [->| ->]; destruct H; congruence]. Qed.
Lemma cells_own C : forall row, NoDup C -> length row = length C -> map (cell C row) C = row.
Proof.
  induction C as [|c C IH]; intros [|v r] N L; try discriminate; auto. injection L as L. apply NoDup_cons_iff in N as (A & N).
  cbn [map cell]. rewrite String.eqb_refl. f_equal. etransitivity; [|apply IH; auto]. apply map_ext_in. intros c' I. destruct (String.eqb_spec c' c) as [->|]; [contradiction|reflexivity].
Qed.
Lemma cell_map cols (h : string -> mval) c : In c cols -> cell cols (map h cols) c = h c.
Proof. induction cols as [|c' cols IH]; intros I; [easy|]. cbn [map cell]. destruct (String.eqb_spec c c') as [->|N]; auto. apply IH. destruct I; congruence. Qed.

(** Sorting the metadata columns changes no point. *)
Lemma sort_meta_values C f k t : aligned f -> NoDup (fr_times f) -> incl C (fr_cols f) -> values_at C (points (sort_meta_cols f)) k t = values_at C (points f) k t.
Proof.
  intros AL NT IC. destruct (aligned_series f AL) as (z & Z). set (cols := fr_cols f) in *. set (times := fr_times f) in *.
  assert (AL' : aligned (of_series times cols z)) by (rewrite <- Z; exact AL). pose proof (al_unique _ AL') as U. cbn [of_series fr_data] in U. rewrite labels_data in U.
  pose proof (aligned_lengths _ _ _ AL') as LN.
  assert (P : Permutation cols (sorted_cols cols)) by (apply sorted_perm; apply AL).
  set (g := fun x : series => (fst x, map (cell cols (snd x)) (sorted_cols cols)) : series).
  assert (S : sort_meta_cols f = of_series times (sorted_cols cols) (map g z)).
  { etransitivity; [exact (f_equal sort_meta_cols Z)|]. unfold sort_meta_cols, of_series. cbn [fr_cols fr_times fr_data fr_meta]. f_equal; rewrite !map_map; reflexivity. }
  assert (L' : map s_label (map g z) = map s_label z) by (rewrite map_map; reflexivity).
  rewrite S. rewrite points_series by (rewrite L'; exact U). etransitivity; [|rewrite Z; rewrite points_series by exact U; reflexivity].
  rewrite !values_flat, flat_map_map. apply flat_map_ext_in. intros x X. destruct (LN x X) as (LV & LR). unfold spoints, g. cbn [fst snd].
  rewrite !values_series by auto. rewrite !extend_cells; auto.
  - assert (E : map (cell (sorted_cols cols) (map (cell cols (snd x)) (sorted_cols cols))) C = map (cell cols (snd x)) C); [|now rewrite E].
    apply map_ext_in. intros c I. apply cell_map. eapply Permutation_in; [exact P|]. now apply IC.
  - now rewrite map_length.
  - intros c I. eapply Permutation_in; [exact P|]. now apply IC.
Qed.

Definition kept (rows : list long_row) : list long_row :=
  filter (fun r => is_some (snd r)) (filter (fun r => negb (existsb is_missing (fst (fst r)))) rows).
Definition row_given (k : list mval) (t : Z) (r : long_row) : list R :=
  match snd r with Some x => if row_dec (fst (fst r)) k then (if Z.eqb (snd (fst r)) t then [x] else []) else [] | None => [] end.
Lemma kept_in rows r : In r (kept rows) <-> In r rows /\ Forall solid (fst (fst r)) /\ exists x, snd r = Some x.
Proof.
  unfold kept. rewrite !filter_In, negb_true_iff, missing_solid. destruct r as [[k t] [x|]]; cbn.
  - split; [intros ((A & B) & _); eauto|intros (A & B & _); auto].
  - split; [intros (_ & H); discriminate H|intros (_ & _ & y & H); discriminate H].
Qed.
Lemma kept_given rows k t : Forall solid k -> flat_map (row_given k t) (kept rows) = flat_map (row_given k t) rows.
Proof.
  intros K. unfold kept in *. induction rows as [|[[k' t'] [x|]] rows IH]; auto; cbn [filter flat_map fst snd].
  - destruct (existsb is_missing k') eqn:M; cbn [negb filter is_some snd flat_map].
    + etransitivity; [exact IH|]. unfold row_given at 2. cbn [fst snd]. destruct (row_dec k' k) as [E|]; auto. rewrite E in M. apply missing_solid in K. congruence.
    + f_equal. exact IH.
  - destruct (existsb is_missing k') eqn:M; cbn [negb filter is_some snd flat_map]; exact IH.
Qed.
Lemma point_values rows k t : Forall (fun r : long_row => Forall solid (fst (fst r)) /\ exists x, snd r = Some x) rows -> Forall solid k ->
  present (map snd (filter (at_point k t) rows)) = flat_map (row_given k t) rows.
Proof.
  intros F K. induction F as [|r rows (S & x & X) F IH]; auto. cbn [filter flat_map]. unfold at_point at 1, row_given at 1. rewrite row_same_fun by auto. rewrite X.
  destruct (row_dec k (fst (fst r))) as [E|E], (row_dec (fst (fst r)) k) as [E'|E']; try congruence; cbn [andb]; [|exact IH].
  rewrite Z.eqb_sym. destruct (Z.eqb _ t); [|exact IH]. cbn [map present app]. rewrite X. f_equal. exact IH.
Qed.
Lemma pivot_values C rows : NoDup C -> incl required_cols C -> Forall (fun r : long_row => length (fst (fst r)) = length C) rows ->
  let g := pivot C rows in
  aligned g /\ StronglySorted Z.lt (fr_times g) /\ (forall t, In t (fr_times g) <-> exists r, In r (kept rows) /\ snd (fst r) = t) /\
  NoDup (map snd (fr_meta g)) /\ (fr_meta g = [] <-> kept rows = []) /\
  forall k t, values_at C (points g) k t = if existsb is_missing k then [] else match flat_map (row_given k t) rows with [] => [] | xs => [mean xs] end.
Proof.
  intros NC RC LR g. set (rs := kept rows).
  assert (SR : Forall (fun r : long_row => Forall solid (fst (fst r)) /\ exists x, snd r = Some x) rs) by (apply Forall_forall; intros r I; now apply kept_in in I).
  assert (SK : Forall (Forall solid) (map (fun r : long_row => fst (fst r)) rs)) by (apply Forall_map; eapply Forall_impl; [|exact SR]; now intros r (A & _)).
  set (keys := distinct_keys (map (fun r : long_row => fst (fst r)) rs)).
  assert (KI : forall k, In k keys <-> In k (map (fun r : long_row => fst (fst r)) rs)) by (intros k; now apply distinct_in).
  assert (KN : NoDup keys) by (now apply distinct_nodup).
  assert (KL : forall k, In k keys -> length k = length C /\ Forall solid k).
  { intros k I. apply KI, in_map_iff in I as (r & <- & I). rewrite Forall_forall in SR, LR. split; [|now apply SR]. apply LR. now apply kept_in in I. }
  set (times := sort_times (nodup Z.eq_dec (map (fun r : long_row => snd (fst r)) rs))).
  assert (TS : StronglySorted Z.lt times) by (apply sort_times_sorted, NoDup_nodup).
  assert (TI : forall t, In t times <-> exists r, In r rs /\ snd (fst r) = t).
  { intros t. unfold times. rewrite sort_times_in, nodup_In, in_map_iff. split; intros (r & A & B); eauto. }
  set (F := fun k t => mean_num (map snd (filter (at_point k t) rs))).
  assert (LL : length (map Z.of_nat (seq 0 (length keys))) = length keys) by (now rewrite map_length, seq_length).
  set (z := map (fun p : BinNums.Z * list mval => (fst p, map (F (snd p)) times, snd p)) (combine (map Z.of_nat (seq 0 (length keys))) keys)).
  assert (GI : g = of_series times C z).
  { change g with (mkFrame times (combine (map Z.of_nat (seq 0 (length keys))) (map (fun k => map (F k) times) keys)) C (combine (map Z.of_nat (seq 0 (length keys))) keys)).
    unfold of_series, z, s_data, s_meta. rewrite !map_map. cbn [fst snd]. f_equal.
    - clearbody F. generalize (map Z.of_nat (seq 0 (length keys))). generalize keys. clear. intros keys ls. revert ls. induction keys as [|k keys IH]; intros [|l ls]; idtac; [reflexivity..|]; cbn [map combine]; f_equal; apply IH.
    - generalize (map Z.of_nat (seq 0 (length keys))). generalize keys. clear. intros keys ls. revert ls. induction keys as [|k keys IH]; intros [|l ls]; idtac; [reflexivity..|]; cbn [map combine]; f_equal; apply IH. }
  assert (LB : map s_label z = map Z.of_nat (seq 0 (length keys))).
  { unfold z. rewrite map_map. unfold s_label. cbn [fst]. rewrite <- (combine_fst (map Z.of_nat (seq 0 (length keys))) keys) at 2 by exact LL. reflexivity. }
  assert (UN : NoDup (map s_label z)) by (rewrite LB; apply labels_nodup).
  assert (ZI : forall x, In x z -> In (snd x) keys /\ snd (fst x) = map (F (snd x)) times).
  { intros x I. apply in_map_iff in I as ([l k] & <- & I). split; [eapply in_combine_r; eauto|reflexivity]. }
  split; [|split; [|split; [|split; [|split]]]].
  - rewrite GI. split; cbn [of_series fr_data fr_meta fr_times fr_cols]; auto.
    + now rewrite labels_data, labels_meta.
    + now rewrite labels_data.
    + apply Forall_map, Forall_forall. intros x X. unfold s_data. cbn [snd]. rewrite (proj2 (ZI x X)). apply map_length.
    + apply Forall_map, Forall_forall. intros x X. unfold s_meta. cbn [snd]. apply KL. now apply ZI.
  - rewrite GI. exact TS.
  - rewrite GI. exact TI.
  - rewrite GI. cbn [of_series fr_meta]. rewrite map_map. assert (E : map (fun x => snd (s_meta x)) z = keys); [|rewrite E; exact KN].
    unfold z. rewrite map_map. cbn. apply combine_snd. exact LL.
  - rewrite GI. cbn [of_series fr_meta]. fold rs. split.
    + intros E. apply map_eq_nil in E. destruct rs as [|r rs0]; auto. exfalso. apply (f_equal (map s_label)) in E. rewrite LB in E. apply (f_equal (@length _)) in E. rewrite LL in E.
      unfold keys in E. cbn in E. discriminate.
    + intros E. unfold z, keys. rewrite E. reflexivity.
  - intros k t. rewrite GI, points_series by exact UN. rewrite values_flat.
    transitivity (flat_map (fun key => if row_dec key k then olist (F key t) else []) keys).
    + unfold z. rewrite flat_map_map. rewrite <- (flat_map_snd _ (map Z.of_nat (seq 0 (length keys))) keys LL). apply flat_map_ext_in. intros [l key] P. apply in_combine_r in P.
      destruct (KL key P) as (L1 & S1). unfold spoints. cbn [fst snd]. rewrite values_series; [|now apply sorted_nodup|apply map_length].
      rewrite extend_cells by (auto using incl_refl). rewrite cells_own, plain_solid by auto. destruct (row_dec key k); auto. f_equal. apply value_map. intros NT. unfold F, mean_num. rewrite point_values by auto.
      assert (E : flat_map (row_given key t) rs = []); [|now rewrite E]. clear -NT TI. assert (Q : forall r, In r rs -> row_given key t r = []).
      { intros r I. unfold row_given. destruct (snd r); auto. destruct (row_dec _ key); auto. destruct (Z.eqb_spec (snd (fst r)) t) as [E|]; auto. exfalso. apply NT, TI. eauto. }
      clear NT TI. induction rs as [|r rs IH]; auto. cbn [flat_map]. rewrite (Q r) by (now left). apply IH. intros r' I. apply Q. now right.
    + rewrite (keys_one keys k (fun key => olist (F key t)) KN). destruct (existsb is_missing k) eqn:M.
      * destruct (in_dec row_dec k keys) as [I|I]; auto. apply KL in I as (_ & I). apply missing_solid in I. congruence.
      * apply missing_solid in M. rewrite <- kept_given by auto. fold rs. destruct (in_dec row_dec k keys) as [I|I].
        -- unfold F, mean_num. rewrite point_values by auto. destruct (flat_map (row_given k t) rs) as [|x xs]; reflexivity.
        -- assert (E : flat_map (row_given k t) rs = []); [|now rewrite E]. assert (Q : forall r, In r rs -> fst (fst r) <> k) by (intros r J <-; apply I, KI, in_map_iff; eauto).
           clear -Q. induction rs as [|r rs IH]; auto. cbn [flat_map]. rewrite IH by (intros r' J; apply Q; now right). unfold row_given. destruct (snd r); auto. destruct (row_dec _ k) as [E|]; auto. exfalso. apply (Q r); auto. now left.
Qed.

(** ** Long tables *)
Definition as_row (by_year : bool) (r : point_row) : long_row := (fst (fst r), instant np_year_seconds by_year (snd (fst r)), snd r).
Lemma has_text_app s a b : has_text s (a ++ b) = has_text s a || has_text s b.
Proof. unfold has_text. apply existsb_app. Qed.
Lemma has_text_lower s (h : string -> list tcell) l : has_text s (map (fun c => (LText (lower c), h c)) l) = mem s (map lower l).
Proof. unfold has_text, mem. induction l as [|c l IH]; auto. cbn [map existsb]. f_equal. exact IH. Qed.
Lemma mem_false s l : ~ In s l -> mem s l = false.
Proof. intros N. destruct (mem s l) eqn:E; auto. apply mem_in in E. contradiction. Qed.
Lemma NoDup_inj_label (l : list string) : NoDup l -> NoDup (map LText l).
Proof. induction 1 as [|c l A N IH]; cbn; constructor; auto. intros I. apply in_map_iff in I as (c' & [= ->] & I). contradiction. Qed.
Lemma long_is is_time read by_year names rows : long_names names -> Forall (fun r => length (fst (fst r)) = length names) rows ->
  format_data is_time read (long_table by_year names rows) =
  let f := pivot (map lower names) (map (as_row by_year) rows) in match fr_meta f with [] => Err EInvalid | _ => Ok (sort_meta_cols f) end.
Proof.
  intros (NC & RC & NN) LR. set (T := if by_year then "year" else "time").
  assert (NT : T <> "value") by (unfold T; destruct by_year; discriminate).
  assert (TN : ~ In T (map lower names)) by (intros I; apply NN in I; unfold T in I; destruct by_year; intuition congruence).
  assert (VN : ~ In "value" (map lower names)) by (intros I; apply NN in I; intuition congruence).
  assert (LT : lower T = T) by (unfold T; destruct by_year; reflexivity).
  set (tcol := (LText T, map (fun r : point_row => if by_year then TYear (snd (fst r)) else TTime (snd (fst r))) rows)).
  set (vcol := (LText "value", map (fun r : point_row => TVal (snd r)) rows)).
  set (mcol := fun c => (LText (lower c), map (fun r : point_row => TMeta (cell names (fst (fst r)) c)) rows)).
  set (cols := map mcol names ++ [tcol; vcol]).
  assert (CE : map (fun c => (text_lower (fst c), snd c)) (tb_columns (long_table by_year names rows)) = cols).
  { unfold long_table, cols. cbn [tb_columns]. rewrite map_app, map_map. f_equal. cbn [map fst snd text_lower]. unfold tcol, vcol. fold T. now rewrite LT. }
  assert (HT : forall s, has_text s cols = mem s (map lower names) || (String.eqb s T || (String.eqb s "value" || false))).
  { intros s. unfold cols. rewrite has_text_app. f_equal. unfold mcol. apply (has_text_lower s (fun c => map (fun r : point_row => TMeta (cell names (fst (fst r)) c)) rows)). }
  unfold format_data. rewrite CE. cbn [long_table tb_index tb_rows existsb map app].
  assert (RQ : forallb (fun c => has_text c cols) required_cols = true).
  { apply forallb_forall. intros c I. rewrite HT. apply RC, mem_in in I. now rewrite I. }
  rewrite RQ. rewrite (HT "value"). rewrite String.eqb_refl. rewrite (mem_false "value") by auto. destruct (String.eqb_spec "value" T) as [E|_]; [congruence|]. cbn [orb].
  unfold format_long. assert (D : label_dup (map fst cols) = false).
  { apply label_dup_nodup. unfold cols. rewrite map_app, map_map. unfold mcol. cbn [fst map tcol vcol]. change (fun x => LText (lower x)) with (fun x => LText (lower x)). rewrite <- (map_map lower LText).
    change [LText T; LText "value"] with (map LText [T; "value"]). rewrite <- map_app. apply NoDup_inj_label. apply NoDup_app_intro; auto.
    - repeat constructor; cbn; intuition congruence.
    - intros c I [<-|[<-|[]]]; contradiction. }
  rewrite D. assert (YT : has_text "year" cols = by_year /\ has_text "time" cols = negb by_year).
  { rewrite !HT. rewrite !mem_false by (intros I; apply NN in I; intuition congruence). unfold T. destruct by_year; split; reflexivity. }
  destruct YT as (Y & TM). rewrite Y, TM. replace (Bool.eqb by_year (negb by_year)) with false by (now destruct by_year). fold T.
  set (get := fun s => concat (map snd (filter (fun c : label * list tcell => label_eqb (fst c) (LText s)) cols))).
  assert (NM : forall s, ~ In s (map lower names) -> filter (fun c : label * list tcell => label_eqb (fst c) (LText s)) (map mcol names) = []).
  { intros s NS. apply filter_no. intros a I. apply in_map_iff in I as (c & <- & I). unfold mcol. cbn [fst label_eqb]. destruct (String.eqb_spec (lower c) s) as [<-|]; auto. exfalso. apply NS. now apply in_map. }
  assert (GT : get T = snd tcol).
  { unfold get, cols. rewrite filter_app, NM by auto. unfold tcol, vcol. cbn [app filter fst label_eqb]. rewrite String.eqb_refl. destruct (String.eqb_spec "value" T); [congruence|]. cbn [map concat snd]. apply app_nil_r. }
  assert (GV : get "value" = snd vcol).
  { unfold get, cols. rewrite filter_app, NM by auto. unfold tcol, vcol. cbn [app filter fst label_eqb]. rewrite String.eqb_refl. destruct (String.eqb_spec T "value"); [congruence|]. cbn [map concat snd]. apply app_nil_r. }
  cbv zeta. fold T. change (concat (map snd (filter (fun c : label * list tcell => label_eqb (fst c) (LText T)) cols))) with (get T).
  change (concat (map snd (filter (fun c : label * list tcell => label_eqb (fst c) (LText "value")) cols))) with (get "value"). rewrite GT, GV. unfold tcol, vcol. cbn [snd].
  rewrite rmap_map. rewrite (rmap_total _ (fun r : point_row => instant np_year_seconds by_year (snd (fst r)))) by (intros r _; destruct by_year; reflexivity). cbn [rbind].
  rewrite rmap_map. rewrite (rmap_total _ (fun r : point_row => snd r)) by reflexivity. cbn [rbind].
  assert (FK : filter (fun c : label * list tcell => negb (label_eqb (fst c) (LText T)) && negb (label_eqb (fst c) (LText "value"))) cols = map mcol names).
  { unfold cols. rewrite filter_app. unfold tcol, vcol. cbn [filter fst label_eqb]. rewrite !String.eqb_refl. rewrite andb_false_r. cbn [negb andb]. rewrite app_nil_r. apply filter_all.
    intros a I. apply in_map_iff in I as (c & <- & I). unfold mcol. cbn [fst label_eqb]. destruct (String.eqb_spec (lower c) T) as [E|_]; [exfalso; apply TN; rewrite <- E; now apply in_map|].
    destruct (String.eqb_spec (lower c) "value") as [E|_]; [exfalso; apply VN; rewrite <- E; now apply in_map|reflexivity]. }
  rewrite FK. unfold meta_columns. rewrite rmap_map.
  rewrite (rmap_total _ (fun c => (lower c, map (fun r : point_row => cell names (fst (fst r)) c) rows))).
  2: { intros c I. unfold mcol. cbn [fst snd]. rewrite rmap_map. rewrite (rmap_total _ (fun r : point_row => cell names (fst (fst r)) c)) by reflexivity. reflexivity. }
  cbn [rbind]. rewrite map_map. cbn [fst].
  assert (RE : map (fun i => (map (fun c : string * list mval => nth i (snd c) MNaN) (map (fun c => (lower c, map (fun r : point_row => cell names (fst (fst r)) c) rows)) names),
     nth i (map (fun r : point_row => instant np_year_seconds by_year (snd (fst r))) rows) 0%Z, nth i (map (fun r : point_row => snd r) rows) None)) (seq 0 (length rows)) = map (as_row by_year) rows).
  { transitivity (map (as_row by_year) (map (fun i => nth i rows (@nil mval, 0%Z, None)) (seq 0 (length rows)))); [|f_equal; apply nth_map_seq]. rewrite map_map. apply map_ext_in. intros i I. apply in_seq in I as (_ & I). cbn in I. unfold as_row. f_equal; [f_equal|].
    - rewrite map_map. cbn [snd]. etransitivity; [|apply (cells_own names)].
      + apply map_ext. intros c. now rewrite (nth_map_at _ _ (@nil mval, 0%Z, @None R)) by exact I.
      + eapply NoDup_map_inv; exact NC.
      + rewrite Forall_forall in LR. apply LR, nth_In. exact I.
    - now rewrite (nth_map_at _ _ (@nil mval, 0%Z, @None R)) by exact I.
    - now rewrite (nth_map_at _ _ (@nil mval, 0%Z, @None R)) by exact I. }
  exact (f_equal (fun rs => match fr_meta (pivot (map lower names) rs) with [] => Err EInvalid | _ => Ok (sort_meta_cols (pivot (map lower names) rs)) end) RE).
Qed.

Lemma as_row_given by_year rows k t : flat_map (row_given k t) (map (as_row by_year) rows) = given np_year_seconds by_year rows k t.
Proof. unfold given. rewrite flat_map_map. apply flat_map_ext. intros [[k' t'] [x|]]; reflexivity. Qed.
Lemma long_np is_time read by_year names rows g : long_names names -> Forall (fun r => length (fst (fst r)) = length names) rows ->
  format_data is_time read (long_table by_year names rows) = Ok g ->
  aligned g /\ (forall c, In c (fr_cols g) <-> In c (map lower names)) /\ StronglySorted Z.lt (fr_times g) /\
  (forall t, In t (fr_times g) <-> exists k t' x, In (k, t', Some x) rows /\ complete k /\ instant np_year_seconds by_year t' = t) /\
  (forall k t, complete k -> values_at (map lower names) (points g) k t = match given np_year_seconds by_year rows k t with [] => [] | xs => [mean xs] end) /\
  (forall k t, ~ complete k -> values_at (map lower names) (points g) k t = []).
Proof.
  intros LN LR. rewrite long_is by auto. cbv zeta. destruct LN as (NC & RC & _).
  assert (LR' : Forall (fun r : long_row => length (fst (fst r)) = length (map lower names)) (map (as_row by_year) rows)).
  { apply Forall_map. eapply Forall_impl; [|exact LR]. intros r H. rewrite map_length. exact H. }
  destruct (pivot_values (map lower names) (map (as_row by_year) rows) NC RC LR') as (AL & TS & TI & _ & _ & V). set (f := pivot _ _) in *.
  assert (FC : fr_cols f = map lower names) by reflexivity. clearbody f. destruct (fr_meta f) as [|m ms] eqn:M; [discriminate|]. intros [= <-].
  pose proof (sorted_perm (fr_cols f) (al_cols _ AL) (al_required _ AL)) as P.
  split; [now apply sort_meta_aligned|]. split; [|split; [exact TS|split; [|split]]].
  - intros c. rewrite <- FC. cbn [sort_meta_cols fr_cols]. split; apply Permutation_in; [apply Permutation_sym|]; exact P.
  - intros t. cbn [sort_meta_cols fr_times]. rewrite TI. split.
    + intros (r & I & E). apply kept_in in I as (I & S & x & X). apply in_map_iff in I as ([[k t'] v] & <- & I). cbn in *. subst v. exists k, t', x. split; auto. split; auto. now apply complete_solid.
    + intros (k & t' & x & I & S & E). exists (as_row by_year (k, t', Some x)). split; [|exact E]. apply kept_in. split; [now apply in_map|]. split; [now apply complete_solid|]. now exists x.
  - intros k t K. rewrite sort_meta_values; auto; [|now apply sorted_nodup|rewrite FC; apply incl_refl]. rewrite V. apply complete_solid, missing_solid in K. rewrite K. now rewrite as_row_given.
  - intros k t K. rewrite sort_meta_values; auto; [|now apply sorted_nodup|rewrite FC; apply incl_refl]. rewrite V. destruct (existsb is_missing k) eqn:E; auto. exfalso. now apply K, complete_solid, missing_solid.
Qed.
Lemma given_ext cal cal' by_year rows k t : (forall y, cal y = cal' y) -> given cal by_year rows k t = given cal' by_year rows k t.
Proof. intros E. unfold given. apply flat_map_ext. intros r. unfold instant. now rewrite E. Qed.
Lemma long_ok cal is_time read by_year names rows g : calendar cal -> long_names names -> Forall (fun r => length (fst (fst r)) = length names) rows ->
  format_data is_time read (long_table by_year names rows) = Ok g ->
  aligned g /\ (forall c, In c (fr_cols g) <-> In c (map lower names)) /\ StronglySorted Z.lt (fr_times g) /\
  (forall t, In t (fr_times g) <-> exists k t' x, In (k, t', Some x) rows /\ complete k /\ instant cal by_year t' = t) /\
  (forall k t, complete k -> values_at (map lower names) (points g) k t = match given cal by_year rows k t with [] => [] | xs => [mean xs] end) /\
  (forall k t, ~ complete k -> values_at (map lower names) (points g) k t = []).
Proof.
  intros CA LN LR H. destruct (long_np is_time read by_year names rows g LN LR H) as (A & B & C & T & V & N). pose proof (calendar_eq cal CA) as E.
  split; [exact A|]. split; [exact B|]. split; [exact C|]. split; [|split; [|exact N]].
  - intros t. rewrite T. unfold instant. split; intros (k & t' & x & P); exists k, t', x; [rewrite E|rewrite <- E]; exact P.
  - intros k t K. rewrite (V k t K). now rewrite (given_ext cal np_year_seconds by_year rows k t E).
Qed.

Lemma long_accepts is_time read by_year names rows : long_names names -> Forall (fun r => length (fst (fst r)) = length names) rows ->
  (exists k t x, In (k, t, Some x) rows /\ complete k) -> exists g, format_data is_time read (long_table by_year names rows) = Ok g.
Proof.
  intros LN LR (k & t & x & I & K). rewrite long_is by auto. cbv zeta. destruct LN as (NC & RC & _).
  assert (LR' : Forall (fun r : long_row => length (fst (fst r)) = length (map lower names)) (map (as_row by_year) rows)).
  { apply Forall_map. eapply Forall_impl; [|exact LR]. intros r H. rewrite map_length. exact H. }
  destruct (pivot_values (map lower names) (map (as_row by_year) rows) NC RC LR') as (_ & _ & _ & _ & E & _). destruct (fr_meta _) as [|m ms] eqn:M; [|eauto]. exfalso.
  assert (J : In (as_row by_year (k, t, Some x)) (kept (map (as_row by_year) rows))) by (apply kept_in; split; [now apply in_map|split; [now apply complete_solid|now exists x]]).
  rewrite (proj1 E eq_refl) in J. easy.
Qed.
