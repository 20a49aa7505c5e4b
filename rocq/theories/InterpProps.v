(** Lemmas on interpolating data frames (C53). *)
From Coq Require Import String Ascii List ZArith QArith Qcanon Reals Bool Lia Permutation Sorted.
From Verif Require Import Base Units TimeModel Core Filters Civil Offsets ParameterType Spec_Time TimeProps Frame Spec_Frame FrameFilter FrameSelect FrameEdit FrameAppend AppendProps FrameInterp Spec_Interp.
Import ListNotations.
Local Open Scope string_scope.
Local Open Scope list_scope.

Lemma with_type_ok f : aligned f -> aligned (with_type f) /\ fr_times (with_type f) = fr_times f /\ fr_data (with_type f) = fr_data f /\
  Permutation (fr_cols (with_type f)) (if mem "parameter_type" (fr_cols f) then fr_cols f else "parameter_type"%string :: fr_cols f) /\
  map fst (fr_meta (with_type f)) = map fst (fr_meta f) /\
  forall l c v, meta_of (with_type f) l c v <->
    meta_of f l c v \/ (~ In "parameter_type"%string (fr_cols f) /\ c = "parameter_type"%string /\ v = MNone /\ In l (map fst (fr_meta f))).
Proof.
  intros AL. unfold with_type. destruct (mem "parameter_type" (fr_cols f)) eqn:E.
  - split; auto. split; auto. split; auto. split; auto. split; auto. intros l c v. split; auto. intros [H|(N & _)]; auto. exfalso. apply N. now apply mem_in.
  - set (f1 := mkFrame (fr_times f) (fr_data f) (fr_cols f ++ ["parameter_type"%string]) (map (fun r => (fst r, snd r ++ [MNone])) (fr_meta f))).
    assert (NI : ~ In "parameter_type"%string (fr_cols f)) by (intros H; apply mem_in in H; congruence).
    assert (A1 : aligned f1).
    { destruct AL as [L U V R' C Q]. split; cbn [f1 fr_data fr_meta fr_times fr_cols]; auto.
      - rewrite L, map_map. reflexivity.
      - rewrite Forall_forall in *. intros r Hr. apply in_map_iff in Hr as (r0 & <- & Hr). cbn [snd]. rewrite !app_length, (R' r0 Hr). reflexivity.
      - apply NoDup_app_intro; auto; [repeat constructor; intros []|]. intros x X [<-|[]]. contradiction.
      - intros c Hc. apply in_or_app. left. auto. }
    split; [now apply sort_meta_aligned|]. split; auto. split; auto. split.
    { cbn [sort_meta_cols fr_cols]. eapply perm_trans; [apply Permutation_sym, sorted_perm; apply A1|]. cbn [f1 fr_cols]. apply Permutation_sym, Permutation_cons_append. }
    split; [cbn; rewrite !map_map; reflexivity|]. intros l c v. rewrite sort_meta_of by auto. unfold meta_of at 1. cbn [f1 fr_meta fr_cols]. split.
    + intros (row & I & H). apply in_map_iff in I as ([l' row0] & [= <- <-] & I). cbn [fst snd] in *.
      assert (L0 : length (fr_cols f) = length row0) by (symmetry; eapply row_length; eauto).
      assert (EC : combine (fr_cols f ++ ["parameter_type"%string]) (row0 ++ [MNone]) = combine (fr_cols f) row0 ++ [("parameter_type"%string, MNone)]).
      { clear - L0. revert row0 L0. induction (fr_cols f) as [|a cs IH]; intros [|b row0] L0; try discriminate; cbn; auto. f_equal. apply IH. now injection L0. }
      rewrite EC in H. apply in_app_or in H as [H|[[= <- <-]|[]]]; [left; exists row0; auto|right]. repeat split; auto. apply in_map_iff. now exists (l', row0).
    + intros H. assert (EX : exists row0, In (l, row0) (fr_meta f) /\ (In (c, v) (combine (fr_cols f) row0) \/ (c, v) = ("parameter_type"%string, MNone))).
      { destruct H as [(row0 & I & H)|(_ & -> & -> & I)]; [eauto|]. apply in_map_iff in I as ([l' row0] & <- & I). eauto. }
      destruct EX as (row0 & I & X). exists (row0 ++ [MNone]). split; [apply in_map_iff; now exists (l, row0)|].
      assert (L0 : length (fr_cols f) = length row0) by (symmetry; eapply row_length; eauto).
      assert (EC : combine (fr_cols f ++ ["parameter_type"%string]) (row0 ++ [MNone]) = combine (fr_cols f) row0 ++ [("parameter_type"%string, MNone)]).
      { clear - L0. revert row0 L0. induction (fr_cols f) as [|a cs IH]; intros [|b row0] L0; try discriminate; cbn; auto. f_equal. apply IH. now injection L0. }
      rewrite EC. apply in_or_app. destruct X as [X|X]; [now left|right; left; congruence].
Qed.

Lemma types_ok g us : type_keys g = Ok us -> NoDup us /\
  (forall u, In u us <-> exists r, In r (fr_meta g) /\ cell (fr_cols g) (snd r) "parameter_type" = MStr u) /\
  forall r q, In r (fr_meta g) -> cell (fr_cols g) (snd r) "parameter_type" <> MNum q.
Proof.
  unfold type_keys, column. intros H. apply rbind_ok in H as (ss & H & E). injection E as <-.
  assert (HH : (forall u, In u (concat ss) <-> exists r, In r (fr_meta g) /\ cell (fr_cols g) (snd r) "parameter_type" = MStr u) /\
    forall r q, In r (fr_meta g) -> cell (fr_cols g) (snd r) "parameter_type" <> MNum q).
  { revert ss H. induction (fr_meta g) as [|r m IH]; intros ss H; cbn [map rmap] in H.
    - injection H as <-. cbn. split; [intros u; split; [easy|intros (r & [] & _)]|intros r q []].
    - destruct (match cell (fr_cols g) (snd r) "parameter_type" with MStr s => Ok [s] | MNum _ => Err EInvalid | _ => Ok [] end) as [a|e] eqn:C; [|discriminate].
      destruct (rmap _ (map _ m)) as [ss'|e]; [|discriminate]. injection H as <-. destruct (IH ss' eq_refl) as (H1 & H2). split.
      + intros u. cbn [concat]. rewrite in_app_iff, H1. split.
        * intros [I|(r' & R' & E)]; [|exists r'; split; auto; now right]. exists r. split; [now left|].
          revert C. destruct (cell (fr_cols g) (snd r) "parameter_type"); intros [= <-]; cbn in I; try easy. destruct I as [->|[]]. reflexivity.
        * intros (r' & [<-|R'] & E); [left|right; eauto]. rewrite E in C. injection C as <-. now left.
      + intros r' q [<-|R'] E; [rewrite E in C; discriminate|now apply (H2 r' q)]. }
  destruct HH as (H1 & H2). split; [|split; auto].
  - eapply Permutation_NoDup; [apply sort_perm|]. apply NoDup_nodup.
  - intros u. rewrite <- H1. rewrite <- (nodup_In string_dec (concat ss)). split; apply Permutation_in; [apply Permutation_sym|]; apply sort_perm.
Qed.

(** ** Guessing *)
Lemma guess_ok env shared f f0 : aligned f -> guess_all env shared f = Ok f0 ->
  fr_times f0 = fr_times f /\ fr_data f0 = fr_data f /\ fr_cols f0 = fr_cols f /\ map fst (fr_meta f0) = map fst (fr_meta f) /\ aligned f0 /\
  (forall l row, In (l, row) (fr_meta f) -> exists g, guess_row env (fr_cols f) row = Ok g /\
     In (l, match g with Some ty => if shared then map_cell (fr_cols f) "parameter_type" (fun _ => MStr ty) row else row | None => row end) (fr_meta f0)).
Proof.
  intros AL H. unfold guess_all in H. apply rbind_ok in H as (m & H & E). injection E as <-. cbn [fr_times fr_data fr_cols fr_meta].
  assert (HH : map fst m = map fst (fr_meta f) /\ (forall l row, In (l, row) (fr_meta f) -> exists g, guess_row env (fr_cols f) row = Ok g /\
     In (l, match g with Some ty => if shared then map_cell (fr_cols f) "parameter_type" (fun _ => MStr ty) row else row | None => row end) m) /\
     (Forall (fun r => length (snd r) = length (fr_cols f)) (fr_meta f) -> Forall (fun r => length (snd r) = length (fr_cols f)) m)).
  { clear AL. revert m H. induction (fr_meta f) as [|[l0 row0] ms IH]; intros m H.
    - cbn in H. injection H as <-. split; auto. split; auto. intros l row [].
    - apply rmap_ok_cons in H as (b & bs & -> & H & HS). apply rbind_ok in H as (g & G & E). injection E as <-. cbn [fst snd] in *.
      destruct (IH bs HS) as (A & B & C). cbn [map fst]. split; [now f_equal|]. split.
      + intros l row [[= <- <-]|I]; [exists g; split; auto; now left|]. destruct (B l row I) as (g' & G' & I'). exists g'. split; auto. now right.
      + intros F. inversion F as [|? ? X Y]; subst. constructor; auto. cbn [snd] in *. destruct g as [ty|]; auto. destruct shared; auto. now apply map_cell_length. }
  destruct HH as (A & B & C). repeat split; auto; cbn [fr_times fr_data fr_cols fr_meta]; try apply AL.
  - rewrite A. apply AL.
  - apply C, AL.
Qed.

(** ** The loop *)
Lemma labels_in f ty l : In l (type_labels f ty) <-> exists row, In (l, row) (fr_meta f) /\ cell (fr_cols f) row "parameter_type" = MStr ty.
Proof.
  unfold type_labels. rewrite in_map_iff. split.
  - intros ([l' row] & <- & I). apply filter_In in I as (I & S). exists row. split; auto. cbn [fst snd] in *. destruct (cell _ _ _); try discriminate. cbn in S. apply String.eqb_eq in S. now subst.
  - intros (row & I & E). exists (l, row). split; auto. apply filter_In. split; auto. cbn [snd]. rewrite E. cbn. apply String.eqb_refl.
Qed.
Lemma labels_disjoint f a b l : aligned f -> In l (type_labels f a) -> In l (type_labels f b) -> a = b.
Proof. intros AL I J. apply labels_in in I as (r & I & E). apply labels_in in J as (r' & J & E'). pose proof (meta_unique f l r r' AL I J). subst. congruence. Qed.

Lemma extended_closed t t' : extended t = Ok t' -> t' = closed t /\ (length t' = length t + 1)%nat.
Proof.
  unfold extended, closed. destruct (rev t) as [|b [|a l]]; try discriminate. intros [= <-]. split; [do 2 f_equal; lia|]. now rewrite app_length.
Qed.
Lemma all_present_ok vs xs : all_present vs = Ok xs <-> vs = map Some xs.
Proof.
  revert xs. induction vs as [|[x|] vs IH]; intros xs; cbn.
  - split; [intros [= <-]; reflexivity|]. destruct xs; [reflexivity|discriminate].
  - rewrite rbind_ok. split.
    + intros (ys & H & [= <-]). apply IH in H. now rewrite H.
    + destruct xs as [|y ys]; intros H; [discriminate|]. cbn in H. injection H as -> H. exists ys. split; auto. now apply IH.
  - split; [discriminate|]. destruct xs; discriminate.
Qed.
Lemma regridded_length p ex s xs t w : regridded p ex s xs t w -> length w = value_count p t /\ timeseries p.
Proof. intros H. destruct (result_length p ex s xs t w (or_introl H)) as ((L & _) & T). auto. Qed.

Definition converted (p : ptype) (ex : extrapolation) (s t : list Z) (vs c : list num) : Prop :=
  exists xs w, vs = map Some xs /\ regridded p ex (grid p s) xs (grid p t) w /\ length w = length t /\ c = map Some w.

(** One pass of the loop. *)
Lemma step_ok f0 ex n ty types targets data meta d m : interp_groups f0 ex n (ty :: types) targets data meta = Ok (d, m) ->
  exists p targets' new, from_timeseries_type (AStr ty) = Ok p /\ grid p targets = targets' /\
    (p = AVERAGE_TIMESERIES -> length targets' = Datatypes.S (length targets)) /\
    (forall l vs, In (l, vs) (fr_data f0) -> In l (type_labels f0 ty) -> exists xs w, vs = map Some xs /\
       regridded p ex (grid p (fr_times f0)) xs targets' w /\ length w = n /\ In (l, map Some w) new) /\
    (forall l w, In (l, w) new -> In l (type_labels f0 ty) /\ exists vs xs w', In (l, vs) (fr_data f0) /\ vs = map Some xs /\
       regridded p ex (grid p (fr_times f0)) xs targets' w' /\ length w' = n /\ w = map Some w') /\
    interp_groups f0 ex n types targets'
      (map (fun col => match find (fun x => Z.eqb (fst x) (fst col)) new with Some x => x | None => col end) data)
      (map (fun r => if has_label (fst r) (type_labels f0 ty)
                     then (fst r, map_cell (fr_cols f0) "parameter_type" (fun _ => MStr (type_name p)) (snd r)) else r) meta) = Ok (d, m).
Proof.
  intros H. cbn [interp_groups] in H. apply rbind_ok in H as (p & P & H). apply rbind_ok in H as ([tgt src] & G & H).
  apply rbind_ok in H as (c & C & H). apply rbind_ok in H as (new & N & H).
  assert (GR : tgt = grid p targets /\ src = grid p (fr_times f0) /\ (p = AVERAGE_TIMESERIES -> length tgt = Datatypes.S (length targets))).
  { destruct p; try (injection G as <- <-; split; auto; split; auto; discriminate). apply rbind_ok in G as (t1 & G1 & G). apply rbind_ok in G as (t2 & G2 & G). injection G as <- <-.
    apply extended_closed in G1 as (-> & L). apply extended_closed in G2 as (-> & _). cbn [grid]. split; auto. split; auto. intros _. rewrite L. lia. }
  destruct GR as (-> & -> & GL). exists p, (grid p targets). eexists. split; [exact P|]. split; [reflexivity|]. split; [exact GL|].
  split; [|split; [|exact H]].
  - intros l vs I J. clear H. revert new N. induction (fr_data f0) as [|[l0 v0] ds IH]; intros new N; [easy|].
    apply rmap_ok_cons in N as (b & bs & -> & B & BS). cbn [fst snd] in B. destruct I as [[= -> ->]|I].
    + rewrite (proj2 (has_label_iff _ _) J) in B. apply rbind_ok in B as (w & W & E). injection E as <-.
      unfold interp_column in W. apply rbind_ok in W as (xs & X & W). apply rbind_ok in W as (w' & W' & E). destruct (Nat.eqb_spec (length w') n) as [L|]; [|discriminate]. injection E as <-.
      apply all_present_ok in X. exists xs, w'. split; auto. split; [exists c; auto|]. split; auto. cbn [flat_map app]. now left.
    + destruct (IH I bs BS) as (xs & w & A1 & A2 & A3 & A4). exists xs, w. repeat split; auto. cbn [flat_map]. apply in_or_app. now right.
  - intros l w I. clear H. revert new N I. induction (fr_data f0) as [|[l0 v0] ds IH]; intros new N I; [cbn in N; injection N as <-; destruct I|].
    apply rmap_ok_cons in N as (b & bs & -> & B & BS). cbn [fst snd] in B. cbn [flat_map] in I. apply in_app_or in I as [I|I].
    + destruct b as [[l1 w1]|]; [|destruct I]. destruct I as [[= -> ->]|[]]. destruct (has_label l0 (type_labels f0 ty)) eqn:HL; [|discriminate].
      apply rbind_ok in B as (w0 & W & E). injection E as -> ->. split; [now apply has_label_iff|].
      unfold interp_column in W. apply rbind_ok in W as (xs & X & W). apply rbind_ok in W as (w' & W' & E). destruct (Nat.eqb_spec (length w') n) as [L|]; [|discriminate]. injection E as <-.
      apply all_present_ok in X. exists v0, xs, w'. split; [now left|]. split; auto. split; [exists c; auto|]. auto.
    + destruct (IH bs BS I) as (A & vs & xs & w' & A1 & A2). split; auto. exists vs, xs, w'. split; auto. now right.
Qed.

Lemma value_count_grid p t : timeseries p -> (p = AVERAGE_TIMESERIES -> length (grid p t) = Datatypes.S (length t)) -> value_count p (grid p t) = length t.
Proof. intros [->| ->] H; cbn [value_count]; [rewrite H by auto; lia|reflexivity]. Qed.

(** Groups have a timeseries. *)
Definition inhabited_types (f0 : frame) (types : list string) : Prop := forall ty, In ty types -> exists l vs, In (l, vs) (fr_data f0) /\ In l (type_labels f0 ty).
Lemma types_inhabited f0 types : aligned f0 -> type_keys f0 = Ok types -> inhabited_types f0 types.
Proof.
  intros AL T ty I. apply types_ok in T as (_ & T & _). apply T in I as ([l row] & I & E). cbn [snd] in E. exists l. assert (In l (map fst (fr_data f0))) as J by (rewrite (al_labels _ AL); now apply (in_map fst) in I).
  apply in_map_iff in J as ([l' vs] & <- & J). exists vs. split; auto. apply labels_in. eauto.
Qed.
(** Once the target times were extended, no further group succeeds. *)
Lemma stuck f0 ex n types targets data meta r : inhabited_types f0 types -> length targets <> n -> interp_groups f0 ex n types targets data meta = Ok r -> types = [].
Proof.
  destruct types as [|ty types]; auto. intros IH L H. exfalso. destruct r as [d m]. apply step_ok in H as (p & t' & new & P & G & GL & A & _).
  destruct (IH ty (or_introl eq_refl)) as (l & vs & I & J). destruct (A l vs I J) as (xs & w & _ & RG & LW & _). apply regridded_length in RG as (LL & T).
  subst t'. rewrite value_count_grid in LL by auto. congruence.
Qed.

Lemma loop_ok f0 ex : aligned f0 -> forall types targets data meta d m, inhabited_types f0 types -> NoDup types ->
  interp_groups f0 ex (length targets) types targets data meta = Ok (d, m) ->
  map fst d = map fst data /\ map fst m = map fst meta /\
  (forall l c, In (l, c) d -> (exists ty p vs, In ty types /\ In l (type_labels f0 ty) /\ from_timeseries_type (AStr ty) = Ok p /\ In (l, vs) (fr_data f0) /\
      converted p ex (fr_times f0) targets vs c) \/
    ((forall ty, In ty types -> ~ In l (type_labels f0 ty)) /\ In (l, c) data)) /\
  (forall l r', In (l, r') m -> (exists ty p r, In ty types /\ In l (type_labels f0 ty) /\ from_timeseries_type (AStr ty) = Ok p /\ In (l, r) meta /\
      r' = map_cell (fr_cols f0) "parameter_type" (fun _ => MStr (type_name p)) r) \/
    ((forall ty, In ty types -> ~ In l (type_labels f0 ty)) /\ In (l, r') meta)).
Proof.
  intros AL. induction types as [|ty types IH]; intros targets data meta d m INH ND H.
  - cbn in H. injection H as <- <-. split; [reflexivity|]. split; [reflexivity|]. split; intros l c I; right; (split; [intros ty []|exact I]).
  - apply step_ok in H as (p & t' & new & P & G & GL & A & B & H).
    assert (INH' : inhabited_types f0 types) by (intros ty' I; apply INH; now right). apply NoDup_cons_iff in ND as (NI & ND'). subst t'.
    assert (TT : timeseries p) by (destruct (INH ty (or_introl eq_refl)) as (l & vs & I & J); destruct (A l vs I J) as (xs & w & _ & RG & _); apply regridded_length in RG; apply RG).
    match type of H with interp_groups _ _ _ _ _ ?a ?b = _ => set (data1 := a) in H; set (meta1 := b) in H end.
    assert (D1 : map fst data1 = map fst data).
    { unfold data1. rewrite map_map. apply map_ext. intros col. destruct (find _ new) as [x|] eqn:F; auto. apply find_some in F as (_ & F). now apply Z.eqb_eq in F. }
    assert (M1 : map fst meta1 = map fst meta) by (unfold meta1; rewrite map_map; apply map_ext; intros r; destruct (has_label _ _); reflexivity).
    assert (D2 : forall l c, In (l, c) data1 -> (In l (type_labels f0 ty) /\ exists vs, In (l, vs) (fr_data f0) /\ converted p ex (fr_times f0) targets vs c) \/ (~ In l (type_labels f0 ty) /\ In (l, c) data)).
    { intros l c I. unfold data1 in I. apply in_map_iff in I as ([l0 c0] & E & I). cbn [fst] in E. destruct (find _ new) as [[l1 w1]|] eqn:F.
      - apply find_some in F as (F & _). injection E as -> ->. destruct (B l c F) as (J & vs & xs & w & I1 & -> & RG & LW & ->). left. split; auto. exists (map Some xs). split; auto. exists xs, w. auto.
      - injection E as -> ->. right. split; auto. intros J. assert (K : In l (map fst (fr_data f0))).
        { rewrite (al_labels _ AL). apply labels_in in J as (row & J & _). now apply (in_map fst) in J. }
        apply in_map_iff in K as ([l' vs] & <- & K). destruct (A l' vs K J) as (xs & w & _ & _ & _ & X). pose proof (find_none _ _ F _ X) as Y. cbn in Y. rewrite Z.eqb_refl in Y. discriminate. }
    assert (M2 : forall l r', In (l, r') meta1 -> (In l (type_labels f0 ty) /\ exists r, In (l, r) meta /\ r' = map_cell (fr_cols f0) "parameter_type" (fun _ => MStr (type_name p)) r) \/ (~ In l (type_labels f0 ty) /\ In (l, r') meta)).
    { intros l r' I. unfold meta1 in I. apply in_map_iff in I as ([l0 r0] & E & I). cbn [fst snd] in E. destruct (has_label l0 (type_labels f0 ty)) eqn:HL.
      - apply pair_equal_spec in E as (<- & <-). left. split; [now apply has_label_iff|]. eauto.
      - injection E as <- <-. right. split; auto. intros J. apply has_label_iff in J. congruence. }
    assert (RES : map fst d = map fst data1 /\ map fst m = map fst meta1 /\
       (forall l c, In (l, c) d -> (exists ty p vs, In ty types /\ In l (type_labels f0 ty) /\ from_timeseries_type (AStr ty) = Ok p /\ In (l, vs) (fr_data f0) /\
          converted p ex (fr_times f0) targets vs c) \/ ((forall ty, In ty types -> ~ In l (type_labels f0 ty)) /\ In (l, c) data1)) /\
       (forall l r', In (l, r') m -> (exists ty p r, In ty types /\ In l (type_labels f0 ty) /\ from_timeseries_type (AStr ty) = Ok p /\ In (l, r) meta1 /\
          r' = map_cell (fr_cols f0) "parameter_type" (fun _ => MStr (type_name p)) r) \/ ((forall ty, In ty types -> ~ In l (type_labels f0 ty)) /\ In (l, r') meta1))).
    { destruct TT as [TT|TT].
      - assert (types = []) as ->.
        { eapply stuck; [exact INH'| |exact H]. rewrite GL by auto. lia. }
        cbn in H. apply (f_equal (fun r => match r with Ok x => x | Err _ => (d, m) end)) in H. apply pair_equal_spec in H as (<- & <-). split; [reflexivity|]. split; [reflexivity|]. split; intros l c I; right; (split; [intros ty' []|exact I]).
      - subst p. cbn [grid] in H. apply IH; auto. }
    destruct RES as (R1 & R2 & R3 & R4). rewrite D1 in R1. rewrite M1 in R2. split; auto. split; auto. split.
    + intros l c I. destruct (R3 l c I) as [(ty' & p' & vs & X1 & X2)|(X1 & X2)]; [left; exists ty', p', vs; split; auto; now right|].
      apply D2 in X2 as [(J & vs & J1 & J2)|(J1 & J2)]; [left; exists ty, p, vs; repeat split; auto; now left|].
      right. split; auto. intros ty' [<-|J]; auto.
    + intros l r' I. destruct (R4 l r' I) as [(ty' & p' & r & X1 & X2 & X3 & X4 & X5)|(X1 & X2)].
      * left. exists ty', p', r. split; [now right|]. repeat split; auto. apply M2 in X4 as [(J & _)|(_ & J)]; auto.
        exfalso. apply NI. now rewrite (labels_disjoint f0 ty ty' l AL J X2).
      * apply M2 in X2 as [(J & r & J1 & J2)|(J1 & J2)]; [left; exists ty, p, r; repeat split; auto; now left|]. right. split; auto. intros ty' [<-|J]; auto.
Qed.

(** ** The result *)
Lemma data_unique {A} (d : list (Z * A)) l a b : NoDup (map fst d) -> In (l, a) d -> In (l, b) d -> a = b.
Proof.
  intros U I J. induction d as [|[k x] d IH]; [easy|]. cbn in U. apply NoDup_cons_iff in U as (N & U).
  destruct I as [I|I], J as [J|J]; auto; [congruence| |]; exfalso; apply N; apply in_map_iff; eexists; (split; [|eassumption]); cbn; congruence.
Qed.
Lemma named_from s p : named_type s p <-> from_timeseries_type (AStr s) = Ok p.
Proof.
  unfold named_type, from_timeseries_type. destruct (String.eqb_spec (lower s) "average") as [E|E].
  - rewrite E. split; [intros [(_ & ->)|(X & _)]; [reflexivity|discriminate]|intros [= <-]; auto].
  - destruct (String.eqb_spec (lower s) "point") as [E'|E'].
    + rewrite E'. split; [intros [(X & _)|(_ & ->)]; [discriminate|reflexivity]|intros [= <-]; auto].
    + split; [intros [(X & _)|(X & _)]; contradiction|discriminate].
Qed.
Lemma named_text p : timeseries p -> named_type (type_text p) p.
Proof. intros [->| ->]; [left|right]; split; reflexivity. Qed.
Lemma type_col f : aligned f -> In "parameter_type" (fr_cols (with_type f)).
Proof.
  intros AL. destruct (with_type_ok f AL) as (_ & _ & _ & P & _). apply (Permutation_in _ (Permutation_sym P)). destruct (mem "parameter_type" (fr_cols f)) eqn:E; [now apply mem_in|now left].
Qed.
Lemma cell_meta f l c v : aligned f -> meta_of f l c v -> exists row, In (l, row) (fr_meta f) /\ cell (fr_cols f) row c = v /\ In c (fr_cols f).
Proof. intros AL (row & I & H). exists row. split; auto. apply cell_iff in H as (H & ->); auto; [apply AL|eapply row_length; eauto]. Qed.
Lemma meta_cell f l c row : aligned f -> In (l, row) (fr_meta f) -> In c (fr_cols f) -> meta_of f l c (cell (fr_cols f) row c).
Proof. intros AL I C. exists row. split; auto. apply cell_iff; auto; [apply AL|eapply row_length; eauto]. Qed.
Lemma cell_map_cell cols c g row : NoDup cols -> length row = length cols -> In c cols -> cell cols (map_cell cols c g row) c = g (cell cols row c).
Proof.
  intros N L I. apply in_cell; auto. apply map_cell_in. exists (cell cols row c). split; [|now rewrite String.eqb_refl]. now apply cell_in.
Qed.

(** The metadata after guessing. *)
Lemma typed env shared f f0 l p : aligned f -> guess_all env shared (with_type f) = Ok f0 -> type_known env f l p ->
  (shared = false -> exists s, meta_of f l "parameter_type" (MStr s)) ->
  exists ty, In l (type_labels f0 ty) /\ from_timeseries_type (AStr ty) = Ok p /\
    (meta_of f l "parameter_type" (MStr ty) \/ ty = type_text p).
Proof.
  intros AL G T SH. destruct (with_type_ok f AL) as (A1 & _ & _ & PC & ML & M1). destruct (guess_ok _ _ _ _ A1 G) as (_ & _ & C0 & _ & A0 & M0).
  assert (NE : forall s, meta_of f l "parameter_type" (MStr s) -> meta_of f l "parameter_type" MNone -> False).
  { intros s X Y. apply cell_meta in X as (r & R1 & R2 & _); auto. apply cell_meta in Y as (r' & R1' & R2' & _); auto. rewrite (meta_unique f l r r' AL R1 R1') in R2. congruence. }
  assert (NC : forall s, meta_of f l "parameter_type" (MStr s) -> In "parameter_type" (fr_cols f)) by (intros s X; apply cell_meta in X as (_ & _ & _ & X); auto).
  destruct T as [(s & S & N)|(E & TP & v & u & q & V & U & GS & Q)].
  - assert (S1 : meta_of (with_type f) l "parameter_type" (MStr s)) by (apply M1; auto). apply cell_meta in S1 as (row & I & CE & _); auto.
    destruct (M0 l row I) as (g & GR & J). unfold guess_row in GR. rewrite CE in GR. injection GR as <-. exists s. split; [|split; [now apply named_from|auto]].
    apply labels_in. exists row. split; auto. now rewrite C0.
  - assert (shared = true) as ->.
    { destruct shared; auto. destruct (SH eq_refl) as (s & S). exfalso. destruct E as [E|E]; [exact (NE s S E)|exact (E (NC s S))]. }
    assert (S1 : meta_of (with_type f) l "parameter_type" MNone).
    { destruct E as [E|E]; apply M1; auto. right. repeat split; auto. destruct V as (r & V & _). now apply (in_map fst) in V. }
    apply cell_meta in S1 as (row & I & CE & PI); auto.
    assert (V1 : meta_of (with_type f) l "variable" (MStr v)) by (apply M1; auto). assert (U1 : meta_of (with_type f) l "unit" (MStr u)) by (apply M1; auto).
    apply cell_meta in V1 as (rv & Iv & CV & _); auto. apply cell_meta in U1 as (ru & Iu & CU & _); auto. rewrite (meta_unique _ l rv row A1 Iv I) in CV. rewrite (meta_unique _ l ru row A1 Iu I) in CU.
    destruct (M0 l row I) as (g & GR & J). unfold guess_row in GR. rewrite CE, CV, CU, GS in GR. cbn [rbind] in GR. injection GR as <-.
    assert (TQ : type_name q = type_text p).
    { destruct TP as [->| ->]; [rewrite (proj2 Q eq_refl); reflexivity|]. destruct q; try reflexivity. discriminate (proj1 Q eq_refl). }
    exists (type_text p). split; [|split; [apply named_from, named_text; exact TP|auto]]. apply labels_in. eexists. split; [exact J|]. rewrite C0. rewrite cell_map_cell; auto; [now rewrite TQ|apply A1|eapply row_length; eauto].
Qed.

Lemma interp_converts env shared targets ex f g : aligned f -> interpolate env shared targets ex f = Ok g ->
  aligned g /\ fr_times g = targets /\ map fst (fr_data g) = map fst (fr_data f) /\
  (forall c, In c (fr_cols g) <-> In c (fr_cols f) \/ c = "parameter_type") /\
  (forall l c v, c <> "parameter_type" -> (meta_of g l c v <-> meta_of f l c v)) /\
  (forall l vs p, In (l, vs) (fr_data f) -> type_known env f l p -> (shared = false -> exists s, meta_of f l "parameter_type" (MStr s)) ->
    exists xs w, vs = map Some xs /\ regridded p ex (grid p (fr_times f)) xs (grid p targets) w /\ length w = length targets /\
      In (l, map Some w) (fr_data g) /\ meta_of g l "parameter_type" (MStr (type_text p))) /\
  (forall l c, In (l, c) (fr_data g) -> meta_of f l "parameter_type" MNaN \/ (shared = false /\ (meta_of f l "parameter_type" MNone \/ ~ In "parameter_type" (fr_cols f))) ->
    c = repeat None (length targets)).
Proof.
  intros AL H. unfold interpolate in H. apply rbind_ok in H as (f0 & G & H). apply rbind_ok in H as (types & TK & H). apply rbind_ok in H as ([d m] & LP & H). injection H as <-.
  destruct (with_type_ok f AL) as (A1 & T1 & DD1 & PC & ML & M1). destruct (guess_ok _ _ _ _ A1 G) as (T0 & DD0 & C0 & ML0 & A0 & M0).
  pose proof (types_ok _ _ TK) as (TN & TI & TNUM). pose proof (types_inhabited f0 types A0 TK) as INH.
  destruct (loop_ok f0 ex A0 types targets _ _ d m INH TN LP) as (L1 & L2 & L3 & L4). cbn [fst snd] in *.
  assert (LD : map fst d = map fst (fr_data f)) by (rewrite L1, map_map; cbn [fst]; now rewrite DD0, DD1).
  assert (PT : In "parameter_type" (fr_cols f0)) by (rewrite C0; now apply type_col).
  assert (AG : aligned (mkFrame targets d (fr_cols f0) m)).
  { split; cbn [fr_data fr_meta fr_times fr_cols].
    - rewrite LD, L2, ML0, ML. apply AL.
    - rewrite LD. apply AL.
    - apply Forall_forall. intros [l c] I. cbn [snd]. destruct (L3 l c I) as [(ty & p & vs & _ & _ & _ & _ & xs & w & _ & _ & LW & ->)|(_ & J)]; [now rewrite map_length|].
      apply in_map_iff in J as (col & [= _ <-] & _). apply repeat_length.
    - apply Forall_forall. intros [l r] I. cbn [snd]. destruct (L4 l r I) as [(ty & p & r0 & _ & _ & _ & J & ->)|(_ & J)]; [apply map_cell_length|]; eapply row_length; eauto.
    - apply A0.
    - apply A0. }
  split; [exact AG|]. split; [reflexivity|]. split; [exact LD|]. split; [|split; [|split]].
  - intros c. cbn [fr_cols]. rewrite C0. split.
    + intros I. apply (Permutation_in _ PC) in I. destruct (mem "parameter_type" (fr_cols f)); auto. destruct I as [<-|I]; auto.
    + intros [I| ->]; [|now apply type_col]. apply (Permutation_in _ (Permutation_sym PC)). destruct (mem "parameter_type" (fr_cols f)); auto. now right.
  - intros l c v NP.
    assert (ROW : forall r, In (l, r) m -> exists r1, In (l, r1) (fr_meta (with_type f)) /\ forall w, In (c, w) (combine (fr_cols f0) r) <-> In (c, w) (combine (fr_cols f0) r1)).
    { intros r I. assert (R0 : exists r0, In (l, r0) (fr_meta f0) /\ forall w, In (c, w) (combine (fr_cols f0) r) <-> In (c, w) (combine (fr_cols f0) r0)).
      { destruct (L4 l r I) as [(ty & p & r0 & _ & _ & _ & J & ->)|(_ & J)]; [|exists r; split; [auto|tauto]]. exists r0. split; auto. intros w. rewrite map_cell_in. split.
        - intros (v' & V & ->). destruct (String.eqb_spec "parameter_type" c); [congruence|auto].
        - intros V. exists w. split; auto. destruct (String.eqb_spec "parameter_type" c); [congruence|auto]. }
      destruct R0 as (r0 & R0 & R1). assert (K : In l (map fst (fr_meta (with_type f)))) by (rewrite <- ML0; now apply (in_map fst) in R0).
      apply in_map_iff in K as ([l' r1] & <- & K). cbn [fst] in *. exists r1. split; auto. intros w. rewrite R1. destruct (M0 l' r1 K) as (gg & _ & J). rewrite (meta_unique f0 _ _ _ A0 R0 J).
      destruct gg as [ty|]; [|tauto]. destruct shared; [|tauto]. rewrite C0. rewrite map_cell_in. split.
      - intros (v' & V & ->). destruct (String.eqb_spec "parameter_type" c); [congruence|auto].
      - intros V. exists w. split; auto. destruct (String.eqb_spec "parameter_type" c); [congruence|auto]. }
    transitivity (meta_of (with_type f) l c v).
    + unfold meta_of. cbn [fr_meta fr_cols]. split.
      * intros (r & I & V). destruct (ROW r I) as (r1 & I1 & E). exists r1. split; auto. apply E in V. now rewrite C0 in V.
      * intros (r1 & I1 & V). assert (K : In l (map fst m)) by (rewrite L2, ML0; now apply (in_map fst) in I1). apply in_map_iff in K as ([l' r] & <- & K). cbn [fst] in *.
        destruct (ROW r K) as (r1' & I1' & E). rewrite (meta_unique _ _ _ _ A1 I1' I1) in E. exists r. split; auto. apply E. now rewrite C0.
    + rewrite M1. split; [intros [X|(_ & X & _)]; [auto|contradiction]|auto].
  - intros l vs p I TY SH. cbn [fr_data]. destruct (typed env shared f f0 l p AL G TY SH) as (ty & TL & FT & _).
    assert (TIN : In ty types) by (apply TI; apply labels_in in TL as (row & R1 & R2); exists (l, row); auto).
    assert (K : In l (map fst d)) by (rewrite LD; now apply (in_map fst) in I). apply in_map_iff in K as ([l' c] & E & K). cbn [fst] in E. subst l'.
    assert (KM : In l (map fst m)) by (rewrite L2, ML0, ML, <- (al_labels _ AL); now apply (in_map fst) in I). apply in_map_iff in KM as ([l' r] & E & KM). cbn [fst] in E. subst l'.
    destruct (L3 l c K) as [(ty' & p' & vs' & _ & TL' & FT' & I' & xs & w & -> & RG & LW & ->)|(X & _)]; [|exfalso; exact (X ty TIN TL)].
    rewrite (labels_disjoint f0 ty' ty l A0 TL' TL) in FT'. assert (p' = p) by congruence. subst p'.
    rewrite DD0, DD1 in I'. rewrite (data_unique _ _ _ _ (al_unique _ AL) I I'). exists xs, w. rewrite T0, T1 in RG. split; auto. split; auto. split; auto. split; auto.
    destruct (L4 l r KM) as [(ty2 & p2 & r0 & _ & TL2 & FT2 & J & ->)|(X & _)]; [|exfalso; exact (X ty TIN TL)].
    rewrite (labels_disjoint f0 ty2 ty l A0 TL2 TL) in FT2. assert (p2 = p) by congruence. subst p2.
    eexists. split; [exact KM|]. cbn [fr_cols]. apply map_cell_in. exists (cell (fr_cols f0) r0 "parameter_type"). split; [|reflexivity].
    apply cell_in; auto; [apply A0|eapply row_length; eauto].
  - intros l c I NT. cbn [fr_data] in I. destruct (L3 l c I) as [(ty' & p' & vs' & _ & TL' & _)|(_ & J)].
    + exfalso. apply labels_in in TL' as (row & R1 & R2).
      assert (K : In l (map fst (fr_meta (with_type f)))) by (rewrite <- ML0; now apply (in_map fst) in R1). apply in_map_iff in K as ([l' r1] & E & K). cbn [fst] in E. subst l'.
      destruct (M0 l r1 K) as (gg & GR & J). rewrite (meta_unique f0 _ _ _ A0 R1 J) in R2.
      destruct NT as [NT|(-> & NT)].
      * assert (X : meta_of (with_type f) l "parameter_type" MNaN) by (apply M1; auto). apply cell_meta in X as (r2 & R3 & R4 & _); auto. rewrite (meta_unique _ _ _ _ A1 R3 K) in R4.
        unfold guess_row in GR. rewrite R4 in GR. injection GR as <-. rewrite C0 in R2. congruence.
      * assert (X : meta_of (with_type f) l "parameter_type" MNone).
        { apply M1. destruct NT as [NT|NT]; auto. right. repeat split; auto. rewrite <- ML. now apply (in_map fst) in K. }
        apply cell_meta in X as (r2 & R3 & R4 & _); auto. rewrite (meta_unique _ _ _ _ A1 R3 K) in R4. destruct gg; rewrite C0 in R2; congruence.
    + apply in_map_iff in J as (col & [= _ <-] & _). reflexivity.
Qed.

(** ** Mixed frames *)
Lemma mixed_loop f0 ex n : forall types targets data meta r, inhabited_types f0 types -> length targets = n ->
  StronglySorted (fun a b => String.leb a b = true) types -> In "average" types -> In "point" types -> interp_groups f0 ex n types targets data meta = Ok r -> False.
Proof.
  induction types as [|ty types IH]; intros targets data meta [d m] INH L S A P H; [easy|]. apply step_ok in H as (p & t' & new & FT & G & GL & B & _ & H).
  assert (INH' : inhabited_types f0 types) by (intros ty' I; apply INH; now right). inversion S as [|? ? S1 S2]; subst.
  assert (TT : timeseries p) by (destruct (INH ty (or_introl eq_refl)) as (l & vs & I & J); destruct (B l vs I J) as (xs & w & _ & RG & _); apply regridded_length in RG; apply RG).
  destruct TT as [->| ->].
  - assert (types = []) as -> by (eapply stuck; [exact INH'| |exact H]; rewrite GL by auto; lia).
    destruct A as [->|[]]. destruct P as [P|[]]. discriminate.
  - destruct A as [->|A]; [discriminate FT|]. destruct P as [->|P].
    + rewrite Forall_forall in S2. specialize (S2 _ A). discriminate S2.
    + eapply IH; [exact INH'| |exact S1|exact A|exact P|exact H]. reflexivity.
Qed.
Lemma interp_mixed env shared targets ex f g l l' : aligned f ->
  type_known env f l AVERAGE_TIMESERIES -> type_known env f l' POINT_TIMESERIES ->
  (forall k s, meta_of f k "parameter_type" (MStr s) -> s = "average" \/ s = "point") ->
  (shared = false -> (exists s, meta_of f l "parameter_type" (MStr s)) /\ exists s, meta_of f l' "parameter_type" (MStr s)) ->
  interpolate env shared targets ex f <> Ok g.
Proof.
  intros AL TA TP SP SH H. unfold interpolate in H. apply rbind_ok in H as (f0 & G & H). apply rbind_ok in H as (types & TK & H). apply rbind_ok in H as ([d m] & LP & _).
  destruct (with_type_ok f AL) as (A1 & _). destruct (guess_ok _ _ _ _ A1 G) as (_ & _ & _ & _ & A0 & _).
  pose proof (types_ok _ _ TK) as (_ & TI & _). pose proof (types_inhabited f0 types A0 TK) as INH.
  destruct (typed env shared f f0 l _ AL G TA) as (ty & TL & FT & TE); [intros E; now destruct (SH E)|].
  destruct (typed env shared f f0 l' _ AL G TP) as (ty' & TL' & FT' & TE'); [intros E; now destruct (SH E)|].
  assert (ty = "average") as -> by (destruct TE as [TE| ->]; [destruct (SP _ _ TE) as [->| ->]; [reflexivity|discriminate FT]|reflexivity]).
  assert (ty' = "point") as -> by (destruct TE' as [TE'| ->]; [destruct (SP _ _ TE') as [->| ->]; [discriminate FT'|reflexivity]|reflexivity]).
  assert (forall ty l, In l (type_labels f0 ty) -> In ty types) as TIN by (intros ty0 l0 X; apply TI; apply labels_in in X as (row & R1 & R2); exists (l0, row); auto).
  eapply mixed_loop; [exact INH|reflexivity| |exact (TIN _ _ TL)|exact (TIN _ _ TL')|exact LP].
  unfold type_keys in TK. apply rbind_ok in TK as (ls & _ & E). injection E as <-. apply sort_sorted.
Qed.

(** ** Success *)
Lemma rmap_all' {A B} (f : A -> res B) l : (forall a, In a l -> exists b, f a = Ok b) -> exists bs, rmap f l = Ok bs.
Proof. apply rmap_all. Qed.
Lemma interp_accepts env targets ex f p : aligned f -> timeseries p ->
  (forall l, In l (map fst (fr_data f)) -> type_known env f l p) -> (forall l s, meta_of f l "parameter_type" (MStr s) -> s = type_text p) ->
  (p = AVERAGE_TIMESERIES -> 2 <= length targets /\ 2 <= length (fr_times f))%nat ->
  (forall l vs, In (l, vs) (fr_data f) -> exists xs w, vs = map Some xs /\ regridded p ex (grid p (fr_times f)) xs (grid p targets) w) ->
  exists g, interpolate env true targets ex f = Ok g.
Proof.
  intros AL TP TY SP LN CV. destruct (with_type_ok f AL) as (A1 & T1 & DD1 & PC & ML & M1).
  assert (GA : exists f0, guess_all env true (with_type f) = Ok f0).
  { unfold guess_all. assert (X : exists ms, rmap (fun r => rbind (guess_row env (fr_cols (with_type f)) (snd r)) (fun g =>
      Ok (fst r, match g with Some ty => if true then map_cell (fr_cols (with_type f)) "parameter_type" (fun _ => MStr ty) (snd r) else snd r | None => snd r end))) (fr_meta (with_type f)) = Ok ms).
    { apply rmap_all'. intros [l row] I. cbn [fst snd]. assert (exists g, guess_row env (fr_cols (with_type f)) row = Ok g) as (gg & GG); [|rewrite GG; cbn [rbind]; eauto].
      assert (IL : In l (map fst (fr_data f))) by (rewrite (al_labels _ AL), <- ML; now apply (in_map fst) in I).
      unfold guess_row. destruct (TY l IL) as [(s & S & _)|(E & _ & v & u & q & V & U & GS & _)].
      - assert (S1 : meta_of (with_type f) l "parameter_type" (MStr s)) by (apply M1; auto). apply cell_meta in S1 as (r & R1 & R2 & _); auto. rewrite (meta_unique _ l r row A1 R1 I) in R2. rewrite R2. eauto.
      - assert (S1 : meta_of (with_type f) l "parameter_type" MNone) by (destruct E as [E|E]; apply M1; auto; right; repeat split; auto; rewrite <- (al_labels _ AL); auto).
        apply cell_meta in S1 as (r & R1 & R2 & _); auto. rewrite (meta_unique _ l r row A1 R1 I) in R2.
        assert (V1 : meta_of (with_type f) l "variable" (MStr v)) by (apply M1; auto). assert (U1 : meta_of (with_type f) l "unit" (MStr u)) by (apply M1; auto).
        apply cell_meta in V1 as (rv & Iv & CVV & _); auto. apply cell_meta in U1 as (ru & Iu & CU & _); auto. rewrite (meta_unique _ l rv row A1 Iv I) in CVV. rewrite (meta_unique _ l ru row A1 Iu I) in CU.
        rewrite R2, CVV, CU, GS. cbn [rbind]. eauto. }
    destruct X as (ms & X). rewrite X. cbn [rbind]. eauto. }
  destruct GA as (f0 & G). destruct (guess_ok _ _ _ _ A1 G) as (T0 & DD0 & C0 & ML0 & A0 & M0).
  assert (ROWS : forall l row, In (l, row) (fr_meta f0) -> cell (fr_cols f0) row "parameter_type" = MStr (type_text p)).
  { intros l row I. assert (IL : In l (map fst (fr_data f))) by (rewrite (al_labels _ AL), <- ML, <- ML0; now apply (in_map fst) in I).
    destruct (typed env true f f0 l p AL G (TY l IL)) as (ty & TL & FT & TE); [discriminate|]. apply labels_in in TL as (r & R1 & R2). rewrite (meta_unique _ l r row A0 R1 I) in R2. rewrite R2.
    destruct TE as [TE| ->]; [|reflexivity]. now rewrite (SP _ _ TE). }
  assert (TK : exists types, type_keys f0 = Ok types /\ (types = [] \/ types = [type_text p])).
  { unfold type_keys, column. assert (X : rmap (fun v => match v with MStr s => Ok [s] | MNum _ => Err EInvalid | _ => Ok [] end) (map (fun r => cell (fr_cols f0) (snd r) "parameter_type") (fr_meta f0)) = Ok (map (fun _ => [type_text p]) (fr_meta f0))).
    { clear -ROWS. revert ROWS. generalize (fr_meta f0). induction l as [|[l0 r0] ms IH]; intros ROWS; [reflexivity|]. cbn [map rmap snd]. rewrite (ROWS l0 r0) by (now left). rewrite IH by (intros l row I; apply (ROWS l row); now right). reflexivity. }
    rewrite X. cbn [rbind]. eexists. split; [reflexivity|]. clear. assert (Y : forall x, In x (sort_strings (nodup string_dec (concat (map (fun _ : Z * list mval => [type_text p]) (fr_meta f0))))) -> x = type_text p).
    { intros x I. apply (Permutation_in _ (Permutation_sym (sort_perm _))) in I. apply nodup_In in I. apply in_concat in I as (y & I & J). apply in_map_iff in I as (_ & <- & _). destruct J as [<-|[]]. reflexivity. }
    assert (N : NoDup (sort_strings (nodup string_dec (concat (map (fun _ : Z * list mval => [type_text p]) (fr_meta f0)))))) by (eapply Permutation_NoDup; [apply sort_perm|apply NoDup_nodup]).
    destruct (sort_strings _) as [|a [|b l]]; auto.
    - right. f_equal. apply Y. now left.
    - exfalso. apply NoDup_cons_iff in N as (N & _). apply N. left. rewrite (Y a), (Y b); auto; [right; now left|now left]. }
  destruct TK as (types & TK & TS). unfold interpolate. rewrite G. cbn [rbind]. rewrite TK. cbn [rbind].
  destruct TS as [->| ->]; [cbn; eauto|]. cbn [interp_groups]. rewrite (proj1 (named_from _ _) (named_text p TP)). cbn [rbind].
  assert (GG : match p with AVERAGE_TIMESERIES => rbind (extended targets) (fun tgt => rbind (extended (fr_times f0)) (fun src => Ok (tgt, src))) | _ => Ok (targets, fr_times f0) end = Ok (grid p targets, grid p (fr_times f0))).
  { destruct TP as [->| ->]; [|reflexivity]. destruct (LN eq_refl) as (LA & LB). rewrite T0, T1.
    assert (EX : forall t, (2 <= length t)%nat -> extended t = Ok (closed t)).
    { intros t L. rewrite <- rev_length in L. unfold extended, closed. destruct (rev t) as [|b [|a r]]; cbn in L; try lia. do 3 f_equal. lia. }
    rewrite !EX by auto. reflexivity. }
  rewrite GG. cbn [rbind]. rewrite T0, T1.
  destruct (fr_data f0) as [|[l0 v0] ds] eqn:DE.
  { exfalso. destruct (types_inhabited f0 _ A0 TK (type_text p) (or_introl eq_refl)) as (l & vs & I & _). rewrite DE in I. destruct I. }
  rewrite <- DE. assert (D : fr_data f0 = fr_data f) by (rewrite DE; congruence).
  destruct (CV l0 v0) as (xs0 & w0 & _ & (c & C & _)); [rewrite <- D, DE; now left|]. rewrite C. cbn [rbind].
  assert (X : exists new, rmap (fun col => if has_label (fst col) (type_labels f0 (type_text p)) then rbind (interp_column c (length targets) (snd col)) (fun w => Ok (Some (fst col, w))) else Ok None) (fr_data f0) = Ok new).
  { apply rmap_all'. intros [l vs] I. cbn [fst snd]. destruct (has_label _ _); [|eauto]. rewrite D in I. destruct (CV l vs I) as (xs & w & -> & RG). pose proof (regridded_length _ _ _ _ _ _ RG) as (LW & _).
    destruct RG as (c' & C' & W). assert (c' = c) by congruence. subst c'. unfold interp_column. rewrite (proj2 (all_present_ok _ _) eq_refl). cbn [rbind]. rewrite W. cbn [rbind].
    rewrite LW, value_count_grid; auto; [rewrite Nat.eqb_refl; cbn; eauto|]. intros E. subst p. cbn [grid]. destruct (LN eq_refl) as (L & _). rewrite <- rev_length in L. unfold closed. destruct (rev targets) as [|b [|a r]]; cbn in L; try lia. rewrite app_length. cbn. lia. }
  destruct X as (new & X). rewrite X. cbn [rbind]. eauto.
Qed.

(** ** Increasing times *)
Lemma closed_increasing t : increasing t -> increasing (closed t).
Proof.
  unfold closed. intros S. destruct (rev t) as [|b [|a r]] eqn:E; auto. assert (T : t = rev r ++ [a; b]) by (rewrite <- (rev_involutive t), E; cbn; now rewrite <- app_assoc).
  subst t. clear E. unfold increasing in *. revert S. generalize (rev r) as l. clear. induction l as [|x l IH]; intros S.
  - cbn [app] in *. inversion S as [|? ? S1 S2]; subst. inversion S2; subst. repeat (constructor; try lia).
  - cbn [app] in *. apply StronglySorted_inv in S as (S1 & S2). constructor; [apply IH; auto|]. rewrite Forall_forall in *. intros y Y. apply in_app_or in Y as [Y|[<-|[]]]; [auto|].
    assert (In b (l ++ [a; b])) as B by (apply in_or_app; right; right; now left). assert (a < b)%Z.
    { clear -S1. induction l as [|z l IH]; cbn in S1; apply StronglySorted_inv in S1 as (X & Y); [inversion Y; subst; auto|auto]. }
    specialize (S2 b B). lia.
Qed.
Lemma closed_hd t : (2 <= length t)%nat -> closed t = t ++ [2 * last t 0 - last (removelast t) 0]%Z.
Proof.
  intros L. unfold closed. rewrite <- rev_length in L. destruct (rev t) as [|b [|a r]] eqn:E; cbn in L; try lia. assert (T : t = rev r ++ [a; b]) by (rewrite <- (rev_involutive t), E; cbn; now rewrite <- app_assoc).
  rewrite T. clear. assert (E1 : last (rev r ++ [a; b]) 0%Z = b) by (change [a; b] with ([a] ++ [b]); rewrite app_assoc; apply last_last).
  assert (E2 : last (removelast (rev r ++ [a; b])) 0%Z = a) by (change [a; b] with ([a] ++ [b]); rewrite app_assoc, removelast_last; apply last_last). rewrite E1, E2. reflexivity.
Qed.
Lemma closed_length t : (2 <= length t)%nat -> length (closed t) = Datatypes.S (length t).
Proof. intros L. rewrite closed_hd by auto. rewrite app_length. cbn. lia. Qed.
Lemma interp_succeeds env targets ex f p t0 t1 rest : aligned f -> timeseries p ->
  (forall l, In l (map fst (fr_data f)) -> type_known env f l p) -> (forall l s, meta_of f l "parameter_type" (MStr s) -> s = type_text p) ->
  increasing (fr_times f) -> increasing targets -> (3 <= length (fr_times f))%nat -> targets = t0 :: t1 :: rest -> (hd 0 (fr_times f) <= t1)%Z -> ex <> XNONE ->
  (forall l vs, In (l, vs) (fr_data f) -> ~ In None vs) ->
  exists g, interpolate env true targets ex f = Ok g.
Proof.
  intros AL TP TY SP IS IT L3 ET HD NX NN. assert (L2 : (2 <= length targets)%nat) by (rewrite ET; cbn; lia).
  apply (interp_accepts env targets ex f p AL TP TY SP); [intros _; split; lia|]. intros l vs I.
  assert (VL : length vs = length (fr_times f)) by (pose proof (al_values _ AL) as V; rewrite Forall_forall in V; exact (V _ I)).
  assert (X : exists xs, vs = map Some xs).
  { specialize (NN l vs I). clear -NN. induction vs as [|[x|] vs IH]; [exists []; reflexivity| |exfalso; apply NN; now left]. destruct IH as (xs & ->); [intros H; apply NN; now right|]. exists (x :: xs). reflexivity. }
  destruct X as (xs & ->). rewrite map_length in VL. exists xs.
  assert (GI : forall t, increasing t -> increasing (grid p t)) by (intros t H; destruct TP as [->| ->]; [now apply closed_increasing|auto]).
  assert (BL : belongs p (grid p (fr_times f)) xs).
  { split; [rewrite value_count_grid; auto; intros ->; cbn; apply closed_length; lia|]. destruct TP as [->| ->]; cbn [grid]; [rewrite closed_hd by lia; destruct (fr_times f); discriminate|destruct (fr_times f); [cbn in L3; lia|discriminate]]. }
  assert (C : exists c, timeseries_converter (grid p (fr_times f)) (grid p targets) p ex = Ok c).
  { assert (E1 : exists r, grid p (fr_times f) = hd 0%Z (fr_times f) :: r).
    { destruct (fr_times f) as [|s0 ss] eqn:E; [cbn in L3; lia|]. destruct TP as [->| ->]; cbn [grid hd]; [rewrite closed_hd by lia|]; cbn; eauto. }
    assert (E2 : exists r, grid p targets = t0 :: t1 :: r) by (destruct TP as [->| ->]; cbn [grid]; [rewrite closed_hd by lia|]; rewrite ET; cbn; eauto).
    destruct E1 as (r1 & ->). destruct E2 as (r2 & ->). unfold timeseries_converter. destruct (Z.gtb_spec (hd 0%Z (fr_times f)) t1); [lia|eauto]. }
  destruct C as (c & C).
  destruct (others_succeed p ex (grid p (fr_times f)) xs (grid p targets) (tconvert_from c xs)) as (w & W); auto.
  - rewrite VL. exact L3.
  - destruct TP as [->| ->]; cbn [grid]; [rewrite closed_length by lia; lia|lia].
  - left. eauto.
  - exists w. split; auto. exists c. auto.
Qed.
