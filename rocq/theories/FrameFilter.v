(** Proofs about filters of data frames (C48, C49). *)
From Coq Require Import String Ascii List ZArith QArith Qcanon Reals Bool Lia Permutation.
From Verif Require Import Base Regex Units TimeModel Core Filters Civil Frame Spec_Frame.
Import ListNotations.
Local Open Scope list_scope.

(** ** Matching is done value by value *)
Lemma rbind_ok {A B} (m : res A) (f : A -> res B) b : rbind m f = Ok b <-> exists a, m = Ok a /\ f a = Ok b.
Proof. destruct m as [a|e]; cbn; split; [eauto|intros (a' & [= <-] & H); exact H|discriminate|intros (a & H & _); discriminate]. Qed.

Lemma match_value_cons c c' col _col v l rx sep bs :
  match_value (c :: col) (c' :: _col) v l rx sep = Ok bs <->
  exists b bs', bs = b :: bs' /\ match_value [c] [c'] v l rx sep = Ok [b] /\ match_value col _col v l rx sep = Ok bs'.
Proof.
  assert (N : forall v', (forall s, v' <> MStr s) -> Ok (map (same_number v') (c :: col)) = Ok bs <->
    exists b bs', bs = b :: bs' /\ Ok (map (same_number v') [c]) = Ok [b] /\ Ok (map (same_number v') col) = Ok bs').
  { intros v' _. cbn [map]. split; [intros [= <-]; eauto|intros (b & bs' & -> & [= <-] & [= <-]); reflexivity]. }
  destruct v as [s| | |]; cbn [match_value]; try (apply N; discriminate).
  destruct (re_compile _) as [r|]; [|split; [discriminate|intros (? & ? & _ & H & _); discriminate]].
  cbn [rmap]. destruct (str_of c') as [x|e]; [|cbn [rbind]; split; [discriminate|intros (? & ? & _ & H & _); discriminate]].
  destruct (rmap str_of _col) as [xs|e]; [|cbn [rbind]; split; [discriminate|intros (? & ? & _ & _ & H); discriminate]].
  cbn [rbind]. destruct l as [l|].
  - unfold find_depth. destruct (level_test l) as [test|e]; cbn [rbind map andb_list].
    + split; [intros [= <-]; eauto|intros (b & bs' & -> & [= <-] & [= <-]); reflexivity].
    + split; [discriminate|intros (? & ? & _ & H & _); discriminate].
  - cbn [map]. split; [intros [= <-]; eauto|intros (b & bs' & -> & [= <-] & [= <-]); reflexivity].
Qed.
Lemma match_values_cons vs c c' col _col l rx sep : forall m ms bs,
  match_values (c :: col) (c' :: _col) vs l rx sep (m :: ms) = Ok bs <->
  exists b bs', bs = b :: bs' /\ match_values [c] [c'] vs l rx sep [m] = Ok [b] /\ match_values col _col vs l rx sep ms = Ok bs'.
Proof.
  induction vs as [|v vs IH]; intros m ms bs; cbn [match_values].
  - split; [intros [= <-]; eauto|intros (b & bs' & -> & [= <-] & [= <-]); reflexivity].
  - rewrite rbind_ok. split.
    + intros (a & H & K). apply match_value_cons in H as (b & bs' & -> & H1 & H2). cbn [orb_list] in K.
      apply IH in K as (b2 & bs2 & -> & K1 & K2). exists b2, bs2. split; auto. rewrite H1, H2. cbn [rbind orb_list]. auto.
    + intros (b & bs' & -> & H & K). apply rbind_ok in H as (a1 & H1 & H2). apply rbind_ok in K as (a2 & K1 & K2).
      assert (L : exists b1, a1 = [b1]).
      { clear - H1. destruct v; cbn [match_value] in H1; try (injection H1 as <-; cbn; eauto).
        destruct (re_compile _); [|discriminate]. cbn [rmap] in H1. destruct (str_of c'); [|discriminate]. cbn [rbind] in H1.
        destruct l; [|injection H1 as <-; cbn; eauto]. apply rbind_ok in H1 as (d & D & H1). injection H1 as <-.
        unfold find_depth in D. apply rbind_ok in D as (t & _ & D). injection D as <-. cbn. eauto. }
      destruct L as (b1 & ->). exists (b1 :: a2). split; [apply match_value_cons; eauto|]. cbn [orb_list] in *. apply IH. eauto.
Qed.
Lemma pattern_match_cons c col vs l rx hn sep bs :
  pattern_match (c :: col) vs l rx hn sep = Ok bs <->
  exists b bs', bs = b :: bs' /\ pattern_match [c] vs l rx hn sep = Ok [b] /\ pattern_match col vs l rx hn sep = Ok bs'.
Proof.
  unfold pattern_match. set (nan1 m := match m with MNaN => Ok (MStr "") | MNone => Err ETypeError | _ => Ok m end).
  assert (E : exists g : mval -> res mval, forall col, replace_nan hn col = rmap g col).
  { destruct hn; [exists nan1; reflexivity|]. exists (fun m => Ok m). intros cl. cbn. induction cl as [|a cl IH]; cbn; auto. rewrite <- IH. reflexivity. }
  destruct E as (g & E). rewrite !E. cbn [rmap map]. destruct (g c) as [c'|e].
  2:{ cbn [rbind]. split; [discriminate|intros (? & ? & _ & H & _); discriminate]. }
  destruct (rmap g col) as [_col|e]; cbn [rbind].
  - apply match_values_cons.
  - split; [discriminate|intros (? & ? & _ & _ & H); discriminate].
Qed.

(** The test for a single value. *)
Definition pm1 (vs : list mval) (l : option level) (rx hn : bool) (sep : ascii) (v : mval) : bool :=
  match pattern_match [v] vs l rx hn sep with Ok (b :: _) => b | _ => false end.
Lemma pm_nil col vs l rx hn sep bs : pattern_match col vs l rx hn sep = Ok bs -> pattern_match [] vs l rx hn sep = Ok [].
Proof.
  intros H. assert (N : exists b, pattern_match [] vs l rx hn sep = Ok b).
  { revert bs H. induction col as [|c col IH]; intros bs H; [eauto|]. apply pattern_match_cons in H as (b & bs' & _ & _ & H). eauto. }
  clear H. destruct N as (b & N). rewrite N. f_equal. revert N. unfold pattern_match. destruct hn; cbn [replace_nan rmap rbind map].
  all: assert (G : forall m, match_values [] [] vs l rx sep m = Ok b -> m = [] -> b = []);
    [|intros N; apply (G [] N eq_refl)].
  all: induction vs as [|v vs IH]; intros m M Z; cbn in M; [congruence|]; apply rbind_ok in M as (a & A & M);
    apply IH in M; auto; subst m; destruct a; reflexivity.
Qed.
Lemma pm_pointwise col vs l rx hn sep bs : pattern_match col vs l rx hn sep = Ok bs ->
  forall col', (forall v, In v col' -> In v col) -> pattern_match col' vs l rx hn sep = Ok (map (pm1 vs l rx hn sep) col').
Proof.
  intros H col' I. assert (S : forall v, In v col -> pattern_match [v] vs l rx hn sep = Ok [pm1 vs l rx hn sep v]).
  { clear I col'. revert bs H. induction col as [|c col IH]; intros bs H v [].
    - subst c. apply pattern_match_cons in H as (b & _ & _ & H & _). unfold pm1. now rewrite H.
    - apply pattern_match_cons in H as (b & bs' & _ & _ & H). eauto. }
  induction col' as [|c col' IH]; cbn [map]; [now apply (pm_nil col vs l rx hn sep bs)|].
  apply pattern_match_cons. exists (pm1 vs l rx hn sep c), (map (pm1 vs l rx hn sep) col').
  split; auto. split; [apply S, I; now left|]. apply IH. intros v V. apply I. now right.
Qed.
Lemma pm_ok col vs l rx hn sep bs : pattern_match col vs l rx hn sep = Ok bs -> bs = map (pm1 vs l rx hn sep) col.
Proof. intros H. pose proof (pm_pointwise col vs l rx hn sep bs H col (fun v V => V)) as K. rewrite H in K. now injection K. Qed.

(** ** So is matching of times *)
Lemma is_in_map (g : Z -> tval) items ts : is_in (map g ts) items = map (fun t => existsb (tval_eqb (g t)) items) ts.
Proof. unfold is_in. apply map_map. Qed.

(** [r ts] is computed time by time once it succeeds. *)
Definition timewise (r : list Z -> res (list bool)) : Prop := forall ts m, ts <> [] -> r ts = Ok m ->
  exists q, forall ts', ts' <> [] -> r ts' = Ok (map q ts').
Lemma timewise_const e : timewise (fun _ => Err e).
Proof. intros ts m _ H. discriminate. Qed.
Lemma timewise_in (g : Z -> tval) items : timewise (fun ts => Ok (is_in (map g ts) items)).
Proof. intros ts m _ _. exists (fun t => existsb (tval_eqb (g t)) items). intros ts' _. now rewrite is_in_map. Qed.
Lemma timewise_ext r r' : (forall ts, ts <> [] -> r ts = r' ts) -> timewise r -> timewise r'.
Proof. intros E T ts m N H. rewrite <- E in H by auto. destruct (T ts m N H) as (q & Q). exists q. intros ts' N'. rewrite <- E by auto. auto. Qed.

Lemma years_timewise (g : Z -> tval) v : timewise (fun ts => years_match (map g ts) v).
Proof.
  destruct v as [[z|s|t|q|]|vs]; cbn [years_match].
  - apply timewise_in.
  - destruct s as [|c s]; [|apply timewise_const].
    apply (timewise_ext (fun _ => Err ETypeError)); [|apply timewise_const]. intros [|t ts] N; [now destruct N|reflexivity].
  - apply timewise_const.
  - apply timewise_const.
  - apply timewise_const.
  - destruct (forallb is_int vs); [apply timewise_in|apply timewise_const].
Qed.
Lemma hours_timewise (g : Z -> tval) v : timewise (fun ts => hour_match (map g ts) v).
Proof.
  destruct v as [[z|s|t|q|]|vs]; cbn [hour_match]; try apply timewise_in;
    (apply (timewise_ext (fun _ => Err ETypeError)); [|apply timewise_const]; intros [|? ts] N; [now destruct N|reflexivity]).
Qed.
Lemma datetimes_timewise (g : Z -> tval) v : timewise (fun ts => datetime_match (map g ts) v).
Proof.
  destruct v as [[z|s|t|q|]|vs]; cbn [datetime_match]; try apply timewise_in; try apply timewise_const.
  destruct (existsb is_int vs); [apply timewise_const|apply timewise_in].
Qed.
Lemma names_timewise (g : Z -> tval) v codes first : timewise (fun ts => snd (time_match (map g ts) v codes first)).
Proof.
  unfold time_match. destruct v as [[z|s|t|q|]|vs]; cbn [snd].
  - apply timewise_in.
  - destruct (find_ranges codes first 0 [TStr s]) as [[d a]|e]; [|apply timewise_const].
    destruct (delete_all d [TStr s]) as [l' [u|e]]; cbn [snd]; [|apply timewise_const].
    destruct (conv_strs codes first l'); [apply timewise_in|apply timewise_const].
  - apply timewise_const.
  - apply timewise_const.
  - apply timewise_const.
  - destruct vs as [|[z|s|t|q|] vs]; cbn [snd]; try apply timewise_const; try apply timewise_in.
    destruct (find_ranges codes first 0 (TStr s :: vs)) as [[d a]|e]; [|apply timewise_const].
    destruct (delete_all d (TStr s :: vs)) as [l' [u|e]]; cbn [snd]; [|apply timewise_const].
    destruct (conv_strs codes first l'); [apply timewise_in|apply timewise_const].
Qed.
Lemma timed_timewise (h : Z -> Z) (match_ : list tval -> targ -> res (list bool)) v :
  timewise (fun ts => match_ (map (fun t => TInt (h t)) ts) v) ->
  timewise (fun ts => rbind (vectorized h ts) (fun ds => match_ (map TInt ds) v)).
Proof.
  intros T. apply (timewise_ext (fun ts => match_ (map (fun t => TInt (h t)) ts) v)); auto. intros [|t ts] N; [now destruct N|].
  cbn [vectorized rbind]. change (TInt (h t) :: map (fun t0 => TInt (h t0)) ts) with (map (fun t0 => TInt (h t0)) (t :: ts)).
  now rewrite map_map.
Qed.

(** ** The effect of filters as tests of rows and times *)
Lemma map_ne {A B} (f : A -> B) l : l <> [] -> map f l <> [].
Proof. destruct l; [auto|discriminate]. Qed.
Lemma andb_map {A} (f g : A -> bool) l : andb_list (map f l) (map g l) = map (fun x => f x && g x) l.
Proof. induction l as [|a l IH]; cbn; [reflexivity|]. now rewrite IH. Qed.

(** The frames on which a filter that succeeded acts in the same way. *)
Definition within (f f' : frame) : Prop := fr_cols f' = fr_cols f /\ fr_times f' <> [] /\ incl (fr_meta f') (fr_meta f).
Definition acts (step : frame -> mask * mask -> res (mask * mask)) (f : frame) (p : list mval -> bool) (q : Z -> bool) : Prop :=
  forall f' (q1 : Z -> bool) (p1 : Z * list mval -> bool), within f f' ->
    step f' (Some (map q1 (fr_times f')), Some (map p1 (fr_meta f'))) =
    Ok (Some (map (fun t => q1 t && q t) (fr_times f')), Some (map (fun r => p1 r && p (snd r)) (fr_meta f'))).
Lemma within_refl f : fr_times f <> [] -> within f f.
Proof. intros N. split; auto. split; auto. apply incl_refl. Qed.
Lemma within_trans f g h : within f g -> within g h -> within f h.
Proof. intros (A & _ & B) (C & D & E). split; [congruence|]. split; auto. eapply incl_tran; eauto. Qed.

Lemma mask_true_l {A} (q : A -> bool) l : Some (map q l) = Some (map (fun t => q t && true) l).
Proof. f_equal. apply map_ext. intros a. now rewrite andb_true_r. Qed.

Lemma acts_meta f col vs l rx hn (q0 : Z -> bool) (p0 : Z * list mval -> bool) k :
  rbind (pattern_match (column f col) vs l rx hn separator) (fun m =>
    rbind (and_mask (Some (map p0 (fr_meta f))) m) (fun km => Ok (Some (map q0 (fr_times f)), km))) = Ok k ->
  acts (fun f' keep => rbind (pattern_match (column f' col) vs l rx hn separator) (fun m =>
    rbind (and_mask (snd keep) m) (fun km => Ok (fst keep, km)))) f
    (fun row => pm1 vs l rx hn separator (cell (fr_cols f) row col)) (fun _ => true).
Proof.
  intros H f' q1 p1 (EC & _ & I). apply rbind_ok in H as (m & H & _).
  rewrite (pm_pointwise _ _ _ _ _ _ _ H (column f' col)).
  - cbn [rbind and_mask snd fst]. unfold column. rewrite map_map, andb_map. rewrite EC, <- mask_true_l. reflexivity.
  - intros v V. unfold column in *. apply in_map_iff in V as (r & <- & V). apply in_map_iff. exists r. split; [now rewrite EC|auto].
Qed.
Lemma acts_times f (r : list Z -> res (list bool)) (q0 : Z -> bool) (p0 : Z * list mval -> bool) k : timewise r -> fr_times f <> [] ->
  rbind (r (fr_times f)) (fun m => rbind (and_mask (Some (map q0 (fr_times f))) m) (fun kt => Ok (kt, Some (map p0 (fr_meta f))))) = Ok k ->
  exists q, acts (fun f' keep => rbind (r (fr_times f')) (fun m => rbind (and_mask (fst keep) m) (fun kt => Ok (kt, snd keep)))) f (fun _ => true) q.
Proof.
  intros T N H. apply rbind_ok in H as (m & H & _). destruct (T _ _ N H) as (q & Q). exists q.
  intros f' q1 p1 (_ & N' & _). rewrite (Q _ N'). cbn [rbind and_mask fst snd]. rewrite andb_map.
  rewrite (mask_true_l p1). reflexivity.
Qed.
Lemma acts_ext s s' f p q : (forall f' k, within f f' -> s f' k = s' f' k) -> acts s f p q -> acts s' f p q.
Proof. intros E A f' q1 p1 W. rewrite <- E by auto. now apply A. Qed.
Lemma acts_none f : acts (fun _ keep => Ok keep) f (fun _ => true) (fun _ => true).
Proof. intros f' q1 p1 _. now rewrite <- !mask_true_l. Qed.

Lemma filter_acts rx hn fl f (q0 : Z -> bool) (p0 : Z * list mval -> bool) c k : fr_times f <> [] ->
  apply_filter rx hn fl f (Some (map q0 (fr_times f)), Some (map p0 (fr_meta f))) c = Ok k ->
  exists p q, acts (fun f' keep => apply_filter rx hn fl f' keep c) f p q.
Proof.
  intros N. destruct c as [col values]. unfold apply_filter.
  destruct (String.eqb col "variable") eqn:E1.
  { destruct (alookup "level" fl) as [la|].
    - destruct (level_of la) as [l|e]; cbn [rbind]; [|discriminate]. intros H.
      eexists _, _. eapply acts_ext; [|eapply (acts_meta f col (values_of values) (Some l) rx hn q0 p0 k H)].
      intros f' [kt km] _. reflexivity.
    - intros H. eexists _, _. eapply acts_ext; [|eapply (acts_meta f col (values_of values) None rx hn q0 p0 k H)].
      intros f' [kt km] _. reflexivity. }
  destruct (mem col (fr_cols f)) eqn:E2.
  { intros H. eexists _, _. eapply acts_ext; [|eapply (acts_meta f col (values_of values) None rx hn q0 p0 k H)].
    intros f' [kt km] (EC & _). now rewrite EC, E2. }
  assert (NC : forall f', within f f' -> mem col (fr_cols f') = false) by (intros f' (-> & _); exact E2).
  assert (TT : forall r, timewise r ->
    rbind (r (fr_times f)) (fun m => rbind (and_mask (Some (map q0 (fr_times f))) m) (fun kt => Ok (kt, Some (map p0 (fr_meta f))))) = Ok k ->
    exists p q, acts (fun f' keep => rbind (r (fr_times f')) (fun m => rbind (and_mask (fst keep) m) (fun kt => Ok (kt, snd keep)))) f p q).
  { intros r T H. destruct (acts_times f r q0 p0 k T N H) as (q & Q). eauto. }
  destruct (String.eqb col "year") eqn:E3.
  { intros H. destruct (TT (fun ts => rbind (years ts) (fun ds => years_match (map TInt ds) (targ_of values)))) as (p & q & A); auto.
    { apply timed_timewise. apply years_timewise. }
    exists p, q. eapply acts_ext; [|exact A]. intros f' [kt km] W. now rewrite (NC f' W). }
  destruct (String.eqb col "month") eqn:E4.
  { intros H. destruct (TT (fun ts => rbind (months ts) (fun ds => snd (month_match (map TInt ds) (targ_of values))))) as (p & q & A); auto.
    { apply timed_timewise with (match_ := fun ds v => snd (month_match ds v)). apply names_timewise. }
    exists p, q. eapply acts_ext; [|exact A]. intros f' [kt km] W. now rewrite (NC f' W). }
  destruct (String.eqb col "day") eqn:E5.
  { intros H. destruct (TT (fun ts => fr_day_match (mkFrame ts [] [] []) values)) as (p & q & A); auto.
    { unfold fr_day_match. cbn [fr_times]. destruct (match values with One (PStr _) => _ | _ => _ end) as [[|]|e]; cbn [rbind].
      - apply timed_timewise with (match_ := fun ds v => snd (day_match ds v)). apply names_timewise.
      - apply timed_timewise with (match_ := fun ds v => snd (day_match ds v)). apply names_timewise.
      - apply timewise_const. }
    exists p, q. eapply acts_ext; [|exact A]. intros f' [kt km] W. now rewrite (NC f' W). }
  destruct (String.eqb col "hour") eqn:E6.
  { intros H. destruct (TT (fun ts => rbind (hours ts) (fun ds => hour_match (map TInt ds) (targ_of values)))) as (p & q & A); auto.
    { apply timed_timewise. apply hours_timewise. }
    exists p, q. eapply acts_ext; [|exact A]. intros f' [kt km] W. now rewrite (NC f' W). }
  destruct (String.eqb col "time") eqn:E7.
  { intros H. destruct (TT (fun ts => datetime_match (map TDate ts) (targ_of values))) as (p & q & A); auto.
    { apply datetimes_timewise. }
    exists p, q. eapply acts_ext; [|exact A]. intros f' [kt km] W. now rewrite (NC f' W). }
  destruct (String.eqb col "level") eqn:E8; [|discriminate].
  destruct (mem "variable" (map fst fl)) eqn:E9.
  { intros _. exists (fun _ => true), (fun _ => true). eapply acts_ext; [|apply acts_none]. intros f' [kt km] W. now rewrite (NC f' W). }
  destruct (level_of values) as [l|e]; cbn [rbind]; [|discriminate]. intros H.
  eexists _, _. eapply acts_ext; [|eapply (acts_meta f "variable" [MStr "*"] (Some l) rx hn q0 p0 k H)].
  intros f' [kt km] W. now rewrite (NC f' W).
Qed.

Lemma loop_acts rx hn fl f : fr_times f <> [] -> forall l (q0 : Z -> bool) (p0 : Z * list mval -> bool) k,
  apply_filters_loop rx hn fl f (Some (map q0 (fr_times f)), Some (map p0 (fr_meta f))) l = Ok k ->
  exists p q, acts (fun f' keep => apply_filters_loop rx hn fl f' keep l) f p q.
Proof.
  intros N. induction l as [|c l IH]; intros q0 p0 k H.
  - exists (fun _ => true), (fun _ => true). apply acts_none.
  - cbn [apply_filters_loop] in H. apply rbind_ok in H as (k1 & H & K). destruct (filter_acts rx hn fl f q0 p0 c k1 N H) as (p & q & A).
    pose proof (A f q0 p0 (within_refl f N)) as H'. cbn beta in H'. rewrite H in H'. injection H' as ->.
    destruct (IH (fun t => q0 t && q t) (fun r => p0 r && p (snd r)) k K) as (p' & q' & A').
    exists (fun r => p r && p' r), (fun t => q t && q' t). intros f' q1 p1 W. cbn [apply_filters_loop].
    rewrite (A f' q1 p1 W). cbn [rbind]. rewrite (A' f' (fun t => q1 t && q t) (fun r => p1 r && p (snd r)) W).
    do 2 f_equal; f_equal; apply map_ext; intros a; now rewrite andb_assoc.
Qed.
Lemma all_true_map {A} (l : list A) : l <> [] -> all_true l = Some (map (fun _ => true) l).
Proof. destruct l; [congruence|reflexivity]. Qed.

(** [apply_filters] on a frame that is not empty. *)
Lemma apply_acts rx hn fl f k : fr_times f <> [] -> fr_meta f <> [] -> apply_filters rx hn fl f = Ok k ->
  exists p q, acts (fun f' keep => apply_filters_loop rx hn fl f' keep fl) f p q.
Proof. intros N M H. unfold apply_filters in H. rewrite !all_true_map in H by auto. eapply loop_acts; eauto. Qed.
Lemma apply_result rx hn fl f p q : acts (fun f' keep => apply_filters_loop rx hn fl f' keep fl) f p q ->
  forall f', within f f' -> fr_meta f' <> [] ->
  apply_filters rx hn fl f' = Ok (Some (map q (fr_times f')), Some (map (fun r => p (snd r)) (fr_meta f'))).
Proof.
  intros A f' W M. unfold apply_filters. rewrite !all_true_map by (auto; apply W).
  exact (A f' (fun _ => true) (fun _ => true) W).
Qed.

(** Empty frames are refused. *)
Lemma loop_none_l rx hn fl f : forall l km k, apply_filters_loop rx hn fl f (None, km) l = Ok k -> fst k = None.
Proof.
  induction l as [|c l IH]; intros km k H; cbn [apply_filters_loop] in H; [injection H as <-; reflexivity|].
  apply rbind_ok in H as (k1 & H & K). assert (E : fst k1 = None).
  { clear K IH. unfold apply_filter in H. destruct c as [col values].
    cbv beta iota zeta in H.
    repeat match type of H with context [if ?b then _ else _] => destruct b end;
      repeat match type of H with context [match alookup ?a ?b with _ => _ end] => destruct (alookup a b) end;
      try discriminate; try (injection H as <-; reflexivity);
      repeat match type of H with rbind ?m _ = Ok _ => let E := fresh in destruct m eqn:E; cbn [rbind] in H; [|discriminate] end;
      cbn [and_mask] in *; try discriminate; try (injection H as <-; reflexivity). }
  destruct k1 as [kt km1]. cbn in E. subst kt. eapply IH; eauto.
Qed.
Lemma loop_none_r rx hn fl f : forall l kt k, apply_filters_loop rx hn fl f (kt, None) l = Ok k -> snd k = None.
Proof.
  induction l as [|c l IH]; intros kt k H; cbn [apply_filters_loop] in H; [injection H as <-; reflexivity|].
  apply rbind_ok in H as (k1 & H & K). assert (E : snd k1 = None).
  { clear K IH. unfold apply_filter in H. destruct c as [col values].
    cbv beta iota zeta in H.
    repeat match type of H with context [if ?b then _ else _] => destruct b end;
      repeat match type of H with context [match alookup ?a ?b with _ => _ end] => destruct (alookup a b) end;
      try discriminate; try (injection H as <-; reflexivity);
      repeat match type of H with rbind ?m _ = Ok _ => let E := fresh in destruct m eqn:E; cbn [rbind] in H; [|discriminate] end;
      cbn [and_mask] in *; try discriminate; try (injection H as <-; reflexivity). }
  destruct k1 as [kt1 km]. cbn in E. subst km. eapply IH; eauto.
Qed.
Lemma filter_empty keep rx hn fl f : fr_times f = [] \/ fr_meta f = [] -> forall g, fr_filter keep rx hn fl f <> Ok g.
Proof.
  intros E g H. unfold fr_filter in H. apply rbind_ok in H as ([kt km] & H & K). unfold apply_filters in H. destruct E as [E|E]; rewrite E in H.
  - apply loop_none_l in H. cbn in H. subst kt. discriminate.
  - apply loop_none_r in H. cbn in H. subst km. destruct kt; discriminate.
Qed.

(** ** What filtering does to the points *)

(** A frame whose data and metadata are aligned is a list of timeseries with their metadata. *)
Definition series := (Z * list num * list mval)%type.
Definition s_data (x : series) : Z * list num := fst x.
Definition s_meta (x : series) : Z * list mval := (fst (fst x), snd x).
Definition s_label (x : series) : Z := fst (fst x).
Definition of_series (times : list Z) (cols : list string) (z : list series) : frame :=
  mkFrame times (map s_data z) cols (map s_meta z).
Lemma aligned_series f : aligned f -> exists z, f = of_series (fr_times f) (fr_cols f) z.
Proof.
  intros [L _ _ _ _ _]. destruct f as [ts d cs m]. unfold of_series. cbn [fr_data fr_meta fr_times fr_cols] in *.
  assert (E : exists z, d = map s_data z /\ m = map s_meta z).
  { revert m L. induction d as [|[l v] d IH]; intros [|[l' r] m] L; cbn in L; try discriminate; [exists []; auto|].
    injection L as <- L. destruct (IH m L) as (z & -> & ->). exists ((l, v, r) :: z). auto. }
  destruct E as (z & -> & ->). eauto.
Qed.

Lemma labels_data z : map fst (map s_data z) = map s_label z.
Proof. rewrite map_map. reflexivity. Qed.
Lemma labels_meta z : map fst (map s_meta z) = map s_label z.
Proof. rewrite map_map. reflexivity. Qed.
Lemma zlookup_series z x : NoDup (map s_label z) -> In x z -> zlookup (s_label x) (map s_meta z) = Some (snd x).
Proof.
  induction z as [|y z IH]; intros N []; cbn [map zlookup s_meta].
  - subst y. fold (s_label x). now rewrite Z.eqb_refl.
  - inversion N as [|? ? A B]; subst. fold (s_label y). destruct (Z.eqb_spec (s_label x) (s_label y)) as [E|E].
    + exfalso. apply A. rewrite <- E. now apply in_map.
    + now apply IH.
Qed.
Lemma flat_map_ext_in {A B} (f g : A -> list B) l : (forall a, In a l -> f a = g a) -> flat_map f l = flat_map g l.
Proof. induction l as [|a l IH]; intros H; cbn; [reflexivity|]. rewrite (H a), IH; auto; [intros b B'; apply H; now right|now left]. Qed.
Lemma flat_map_map {A B C} (f : B -> list C) (g : A -> B) l : flat_map f (map g l) = flat_map (fun x => f (g x)) l.
Proof. induction l as [|a l IH]; cbn; [reflexivity|]. now rewrite IH. Qed.
Definition spoints (times : list Z) (cols : list string) (x : series) : list point :=
  series_points (combine cols (snd x)) times (snd (fst x)).
Lemma points_series times cols z : NoDup (map s_label z) -> points (of_series times cols z) = flat_map (spoints times cols) z.
Proof.
  intros N. unfold points, of_series. cbn [fr_data fr_meta fr_times fr_cols]. rewrite flat_map_map.
  apply flat_map_ext_in. intros x X. change (fst (s_data x)) with (s_label x). now rewrite (zlookup_series z x N X).
Qed.

(** Masking the values. *)
Definition masked (w : Z -> bool) (times : list Z) (v : list num) : list num :=
  map (fun p => if w (fst p) then snd p else None) (combine times v).
Lemma masked_length w times v : length v = length times -> length (masked w times v) = length times.
Proof. intros L. unfold masked. rewrite map_length, combine_length. lia. Qed.
Lemma masked_points k w : forall times v,
  series_points k times (masked w times v) = filter (fun p => w (snd (fst p))) (series_points k times v).
Proof.
  induction times as [|t times IH]; intros v; [reflexivity|]. destruct v as [|x v]; [reflexivity|].
  unfold masked. cbn [combine map fst snd]. fold (masked w times v). destruct x as [x|].
  - cbn [series_points filter snd fst]. destruct (w t) eqn:W; [cbn [series_points]; f_equal; apply IH|cbn [series_points]; apply IH].
  - replace (if w t then None else None) with (@None R) by (now destruct (w t)). cbn [series_points]. apply IH.
Qed.
Lemma no_value_points k times : forall v, existsb is_some v = false -> series_points k times v = [].
Proof. induction times as [|t times IH]; intros [|[x|] v] H; cbn in H |- *; try discriminate; auto. Qed.
Lemma select_points k : forall times v used, length v = length times -> length used = length times ->
  (forall i x, nth_error v i = Some (Some x) -> nth_error used i = Some true) ->
  series_points k (select used times) (select used v) = series_points k times v.
Proof.
  induction times as [|t times IH]; intros [|x v] [|u used] L1 L2 H; try discriminate; [reflexivity|].
  injection L1 as L1. injection L2 as L2. assert (H' : forall i x, nth_error v i = Some (Some x) -> nth_error used i = Some true)
    by (intros i y I; exact (H (S i) y I)). specialize (IH v used L1 L2 H').
  unfold select in *. cbn [combine filter fst]. destruct u.
  - cbn [map snd series_points]. destruct x as [x|]; [f_equal; exact IH|exact IH].
  - destruct x as [x|]; [specialize (H 0%nat x eq_refl); discriminate|]. cbn [series_points]. exact IH.
Qed.
Lemma select_length {A B} (used : list bool) (a : list A) (b : list B) : length a = length b -> length (select used a) = length (select used b).
Proof.
  unfold select. rewrite !map_length. revert a b. induction used as [|u used IH]; intros [|x a] [|y b] L; try discriminate; auto.
  injection L as L. cbn [combine filter fst]. destruct u; cbn [length]; auto.
Qed.

Definition keep_series (keep : bool) (times : list Z) (q : Z -> bool) (p : list mval -> bool) (x : series) : series :=
  (s_label x, masked (fun t => Bool.eqb keep (q t && p (snd x))) times (snd (fst x)), snd x).
Definition valued (x : series) : bool := existsb is_some (snd (fst x)).

Lemma masked_combine keep (q : Z -> bool) b : forall times (v : list num),
  map (fun p => if Bool.eqb keep (fst p && b) then snd p else None) (combine (map q times) v) = masked (fun t => Bool.eqb keep (q t && b)) times v.
Proof. unfold masked. induction times as [|t times IH]; intros [|y v]; cbn [map combine]; auto. rewrite IH. reflexivity. Qed.
Lemma where_series keep q p times z :
  where_idx keep (map q times) (map (fun r => p (snd r)) (map s_meta z)) (map s_data z) = map s_data (map (keep_series keep times q p) z).
Proof.
  unfold where_idx. induction z as [|x z IH]; [reflexivity|]. cbn [map combine]. rewrite IH. f_equal.
  unfold s_data, keep_series. cbn [fst snd]. rewrite masked_combine. reflexivity.
Qed.
Lemma filter_map_comm {A B} (f : A -> B) p l : filter p (map f l) = map f (filter (fun x => p (f x)) l).
Proof. induction l as [|a l IH]; cbn; [reflexivity|]. destruct (p (f a)); cbn; now rewrite IH. Qed.
Lemma existsb_label l z : existsb (fun c : Z * list num => Z.eqb l (fst c)) (map s_data z) = true <-> In l (map s_label z).
Proof.
  rewrite existsb_exists, in_map_iff. split.
  - intros (c & C & E). apply in_map_iff in C as (x & <- & X). apply Z.eqb_eq in E. exists x. auto.
  - intros (x & E & X). exists (s_data x). split; [now apply in_map|]. apply Z.eqb_eq. now rewrite <- E.
Qed.
Lemma filter_ext_in' {A} (f g : A -> bool) l : (forall a, In a l -> f a = g a) -> filter f l = filter g l.
Proof. apply filter_ext_in. Qed.

(** The frame that [filter] returns. *)
Definition kept (keep : bool) (q : Z -> bool) (p : list mval -> bool) (times : list Z) (cols : list string) (z : list series) : frame :=
  let z1 := filter valued (map (keep_series keep times q p) z) in
  let used := used_times (length times) (map s_data z1) in
  of_series (select used times) cols (map (fun x => (s_label x, select used (snd (fst x)), snd x)) z1).

Lemma filter_kept keep rx hn fl times cols z q p : NoDup (map s_label z) ->
  apply_filters rx hn fl (of_series times cols z) = Ok (Some (map q times), Some (map (fun r => p (snd r)) (map s_meta z))) ->
  fr_filter keep rx hn fl (of_series times cols z) = Ok (kept keep q p times cols z).
Proof.
  intros N H. unfold fr_filter. rewrite H. cbn [rbind]. change (fr_data (of_series times cols z)) with (map s_data z).
  change (fr_meta (of_series times cols z)) with (map s_meta z). change (fr_times (of_series times cols z)) with times.
  change (fr_cols (of_series times cols z)) with cols.
  rewrite where_series. set (z0 := map (keep_series keep times q p) z).
  assert (L0 : map s_label z0 = map s_label z) by (unfold z0; rewrite map_map; reflexivity).
  assert (M0 : map s_meta z0 = map s_meta z) by (unfold z0; rewrite map_map; reflexivity).
  rewrite <- M0. rewrite filter_map_comm.
  assert (EV : filter (fun x => has_value (s_data x)) z0 = filter valued z0) by reflexivity. rewrite EV.
  assert (F : forallb (fun r : Z * list mval => existsb (fun c : Z * list num => Z.eqb (fst r) (fst c)) (map s_data z0)) (map s_meta z0) = true).
  { apply forallb_forall. intros r R'. apply in_map_iff in R' as (x & <- & X). apply existsb_label. change (fst (s_meta x)) with (s_label x). now apply in_map. }
  rewrite F. rewrite <- L0 in N.
  assert (G : filter (fun r : Z * list mval => existsb (fun c : Z * list num => Z.eqb (fst r) (fst c)) (map s_data (filter valued z0))) (map s_meta z0)
              = map s_meta (filter valued z0)).
  { rewrite filter_map_comm. f_equal. apply filter_ext_in. intros x X. change (fst (s_meta x)) with (s_label x).
    destruct (valued x) eqn:V.
    - apply existsb_label. apply in_map. apply filter_In. auto.
    - destruct (existsb _ _) eqn:E; [|reflexivity]. apply existsb_label in E. apply in_map_iff in E as (y & EY & Y). apply filter_In in Y as (Y & VY).
      assert (x = y); [|congruence]. revert EY. clear - N X Y. intros E. induction z0 as [|a z0 IH]; [easy|]. cbn in N. inversion N as [|? ? A B]; subst.
      destruct X as [->|X], Y as [->|Y]; auto; exfalso; apply A; [rewrite <- E|rewrite E]; now apply in_map. }
  rewrite G, !map_length, Nat.eqb_refl. unfold kept. fold z0. unfold of_series. rewrite !map_map. reflexivity.
Qed.

Lemma used_length n d : length (used_times n d) = n.
Proof. unfold used_times. now rewrite map_length, seq_length. Qed.
Lemma used_here n z x i r : In x z -> (i < n)%nat -> nth_error (snd (fst x)) i = Some (Some r) -> nth_error (used_times n (map s_data z)) i = Some true.
Proof.
  intros X I H. unfold used_times. rewrite nth_error_map, nth_error_nth' with (d := 0%nat) by (now rewrite seq_length).
  rewrite seq_nth by auto. cbn [option_map]. f_equal. apply existsb_exists. exists (s_data x). split; [now apply in_map|].
  change (0 + i)%nat with i. pose proof (nth_error_nth _ _ None H) as E. unfold s_data, num in *. now rewrite E.
Qed.

Lemma map_snd_combine {A B} (a : list A) (b : list B) : length a = length b -> map snd (combine a b) = b.
Proof. revert b. induction a as [|x a IH]; intros [|y b] L; try discriminate; cbn; [reflexivity|]. now rewrite IH by now injection L. Qed.

(** The points kept are those that the filters select. *)
Lemma kept_points keep q p times cols z : NoDup (map s_label z) ->
  (forall x, In x z -> length (snd (fst x)) = length times /\ length (snd x) = length cols) ->
  points (kept keep q p times cols z) =
  filter (fun pt => Bool.eqb keep (q (snd (fst pt)) && p (map snd (fst (fst pt))))) (points (of_series times cols z)).
Proof.
  intros N W. unfold kept. set (z0 := map (keep_series keep times q p) z).
  assert (L0 : map s_label z0 = map s_label z) by (unfold z0; rewrite map_map; reflexivity).
  assert (N1 : NoDup (map s_label (filter valued z0))).
  { rewrite <- L0 in N. clear - N. induction z0 as [|a z0 IH]; [constructor|]. cbn in N |- *. inversion N as [|? ? A B]; subst.
    destruct (valued a); cbn; [constructor; auto|auto]. intros H. apply A. apply in_map_iff in H as (x & E & X). apply filter_In in X as (X & _).
    rewrite <- E. now apply in_map. }
  set (used := used_times (length times) (map s_data (filter valued z0))).
  rewrite points_series by (rewrite map_map; exact N1). rewrite flat_map_map. rewrite (points_series times cols z N).
  transitivity (flat_map (spoints times cols) (filter valued z0)).
  { apply flat_map_ext_in. intros x X. unfold spoints. cbn [fst snd]. apply select_points.
    - apply filter_In in X as (X & _). apply in_map_iff in X as (y & <- & Y). unfold keep_series. cbn [fst snd]. apply masked_length, W, Y.
    - apply used_length.
    - intros i r H. apply (used_here _ _ x i r X); auto.
      assert (I : (i < length (snd (fst x)))%nat) by (apply nth_error_Some; unfold num in *; rewrite H; discriminate).
      apply filter_In in X as (X & _). apply in_map_iff in X as (y & E & Y). rewrite <- E in I. unfold keep_series in I. cbn [fst snd] in I.
      now rewrite masked_length in I by apply W, Y. }
  transitivity (flat_map (spoints times cols) z0).
  { clear. induction z0 as [|x z0 IH]; [reflexivity|]. cbn [filter flat_map]. destruct (valued x) eqn:V; cbn [flat_map]; rewrite IH; auto.
    unfold spoints at 2. now rewrite (no_value_points _ _ _ V). }
  unfold z0. rewrite flat_map_map. clear - W. induction z as [|x z IH]; [reflexivity|]. cbn [flat_map]. rewrite filter_app, IH by (intros; apply W; now right).
  f_equal. unfold spoints, keep_series. cbn [fst snd]. rewrite masked_points.
  assert (LR : length cols = length (snd x)) by (symmetry; apply W; now left).
  clear W IH. generalize (snd (fst x)) as v. induction times as [|t times IHt]; intros [|[y|] v]; cbn [series_points filter fst snd]; auto.
  rewrite (map_snd_combine cols (snd x) LR). destruct (Bool.eqb _ _); [f_equal|]; apply IHt.
Qed.

Lemma kept_aligned keep q p times cols z : aligned (of_series times cols z) -> aligned (kept keep q p times cols z).
Proof.
  intros [L U V R' C Q]. unfold of_series, kept in *. cbn [fr_data fr_meta fr_times fr_cols] in *.
  set (z0 := map (keep_series keep times q p) z). assert (L0 : map s_label z0 = map s_label z) by (unfold z0; rewrite map_map; reflexivity).
  split; unfold of_series; cbn [fr_data fr_meta fr_times fr_cols]; auto.
  - now rewrite labels_data, labels_meta.
  - rewrite labels_data in *. rewrite map_map. change (NoDup (map s_label (filter valued z0))). rewrite <- L0 in U. clear - U. induction z0 as [|a z0 IH]; [constructor|]. cbn in U |- *. inversion U as [|? ? A B]; subst.
    destruct (valued a); cbn; [constructor; auto|auto]. intros H. apply A. apply in_map_iff in H as (x & E & X). apply filter_In in X as (X & _).
    change (s_label x = s_label a) in E. rewrite <- E. now apply in_map.
  - apply Forall_forall. intros c Hc. rewrite map_map in Hc. apply in_map_iff in Hc as (x & <- & X). cbn [s_data fst snd].
    apply select_length. apply filter_In in X as (X & _). apply in_map_iff in X as (y & <- & Y). unfold keep_series. cbn [fst snd].
    apply masked_length. rewrite Forall_forall in V. apply (V (s_data y)). now apply in_map.
  - apply Forall_forall. intros r Hr. rewrite map_map in Hr. apply in_map_iff in Hr as (x & <- & X). cbn [s_meta fst snd].
    apply filter_In in X as (X & _). apply in_map_iff in X as (y & <- & Y). unfold keep_series. cbn [fst snd].
    rewrite Forall_forall in R'. apply (R' (s_meta y)). now apply in_map.
Qed.

(** Whether a point is selected by a test of its metadata and its time. *)
Definition sel (p : list mval -> bool) (q : Z -> bool) (pt : point) : bool := q (snd (fst pt)) && p (map snd (fst (fst pt))).

Lemma aligned_lengths times cols z : aligned (of_series times cols z) ->
  forall x, In x z -> length (snd (fst x)) = length times /\ length (snd x) = length cols.
Proof.
  intros [_ _ V R' _ _] x X. cbn [of_series fr_data fr_meta fr_times fr_cols] in *. rewrite Forall_forall in V, R'.
  split; [apply (V (s_data x))|apply (R' (s_meta x))]; now apply in_map.
Qed.
Lemma filter_acts_on rx hn fl f p q : acts (fun f' keep => apply_filters_loop rx hn fl f' keep fl) f p q ->
  forall keep f', within f f' -> fr_meta f' <> [] -> aligned f' ->
  exists g, fr_filter keep rx hn fl f' = Ok g /\ aligned g /\ fr_cols g = fr_cols f' /\ incl (fr_meta g) (fr_meta f') /\
    points g = filter (fun pt => Bool.eqb keep (sel p q pt)) (points f').
Proof.
  intros A keep f' W M AL. destruct (aligned_series f' AL) as (z & E).
  pose proof (apply_result rx hn fl f p q A f' W M) as H. set (times := fr_times f') in *. set (cols := fr_cols f') in *. clearbody times cols. subst f'.
  cbn [of_series fr_data fr_meta fr_times fr_cols] in H, M.
  assert (N : NoDup (map s_label z)) by (rewrite <- labels_data; apply AL).
  exists (kept keep q p times cols z). split; [now apply filter_kept|]. split; [now apply kept_aligned|]. split; [reflexivity|].
  split; [|apply kept_points; auto; now apply aligned_lengths].
  unfold kept, of_series. cbn [fr_meta]. intros r Hr. rewrite map_map in Hr. apply in_map_iff in Hr as (x & <- & X).
  apply filter_In in X as (X & _). apply in_map_iff in X as (y & <- & Y). change (In (s_meta y) (map s_meta z)). now apply in_map.
Qed.
Lemma filter_ok keep rx hn fl f g : fr_filter keep rx hn fl f = Ok g ->
  fr_times f <> [] /\ fr_meta f <> [] /\ exists p q, acts (fun f' keep => apply_filters_loop rx hn fl f' keep fl) f p q.
Proof.
  intros H. assert (N : fr_times f <> []) by (intros E; exact (filter_empty keep rx hn fl f (or_introl E) g H)).
  assert (M : fr_meta f <> []) by (intros E; exact (filter_empty keep rx hn fl f (or_intror E) g H)).
  split; auto. split; auto. unfold fr_filter in H. apply rbind_ok in H as (k & H & _). now apply (apply_acts rx hn fl f k).
Qed.

Lemma partition keep rx hn fl f g : aligned f -> fr_filter keep rx hn fl f = Ok g ->
  exists p q a b, fr_filter true rx hn fl f = Ok a /\ fr_filter false rx hn fl f = Ok b /\
    aligned a /\ aligned b /\ fr_cols a = fr_cols f /\ fr_cols b = fr_cols f /\
    points a = filter (sel p q) (points f) /\ points b = filter (fun pt => negb (sel p q pt)) (points f).
Proof.
  intros AL H. destruct (filter_ok _ _ _ _ _ _ H) as (N & M & p & q & A).
  destruct (filter_acts_on rx hn fl f p q A true f (within_refl f N) M AL) as (a & Ha & Aa & Ca & _ & Pa).
  destruct (filter_acts_on rx hn fl f p q A false f (within_refl f N) M AL) as (b & Hb & Ab & Cb & _ & Pb).
  exists p, q, a, b. split; auto. split; auto. split; auto. split; auto. split; auto. split; auto. split.
  - rewrite Pa. apply filter_ext. intros pt. now destruct (sel p q pt).
  - rewrite Pb. apply filter_ext. intros pt. now destruct (sel p q pt).
Qed.
Lemma filter_partition {A} (s : A -> bool) l : Permutation l (filter s l ++ filter (fun x => negb (s x)) l).
Proof.
  induction l as [|a l IH]; cbn; [constructor|]. destruct (s a); cbn; [now constructor|].
  now apply Permutation_cons_app.
Qed.

(** ** Composition *)
Lemma within_filter f g : points g <> [] -> fr_cols g = fr_cols f -> incl (fr_meta g) (fr_meta f) -> within f g /\ fr_meta g <> [].
Proof.
  intros P C I. assert (T : fr_times g <> [] /\ fr_meta g <> []).
  { split; intros E; apply P; unfold points; rewrite E.
    - clear. induction (fr_data g) as [|c d IH]; cbn [flat_map]; [reflexivity|]. rewrite IH. destruct (zlookup _ _); reflexivity.
    - clear. induction (fr_data g) as [|c d IH]; cbn; [reflexivity|]. exact IH. }
  split; [|apply T]. split; auto. split; [apply T|auto].
Qed.
Lemma filter_filter {A} (s1 s2 : A -> bool) l : filter s2 (filter s1 l) = filter (fun x => s1 x && s2 x) l.
Proof. induction l as [|a l IH]; cbn; [reflexivity|]. destruct (s1 a); cbn; [destruct (s2 a); now rewrite IH|exact IH]. Qed.

Lemma idempotent keep rx hn fl f g : aligned f -> fr_filter keep rx hn fl f = Ok g -> points g <> [] ->
  exists g', fr_filter keep rx hn fl g = Ok g' /\ points g' = points g.
Proof.
  intros AL H P. destruct (filter_ok _ _ _ _ _ _ H) as (N & M & p & q & A).
  destruct (filter_acts_on rx hn fl f p q A keep f (within_refl f N) M AL) as (a & Ha & Aa & Ca & Ia & Pa).
  rewrite H in Ha. injection Ha as <-. destruct (within_filter f g P Ca Ia) as (W & Mg).
  destruct (filter_acts_on rx hn fl f p q A keep g W Mg Aa) as (g' & Hg & _ & _ & _ & Pg). exists g'. split; auto.
  rewrite Pg, Pa, filter_filter. apply filter_ext. intros pt. now destruct (Bool.eqb _ _).
Qed.

Lemma apply_filter_fl rx hn fl fl' f k c :
  (fst c = "variable"%string -> alookup "level" fl = alookup "level" fl') ->
  (fst c = "level"%string -> mem "variable" (map fst fl) = mem "variable" (map fst fl')) ->
  apply_filter rx hn fl f k c = apply_filter rx hn fl' f k c.
Proof.
  intros H1 H2. destruct k as [kt km], c as [col values]. cbn [fst] in *. unfold apply_filter.
  destruct (String.eqb_spec col "variable") as [E|E]; [now rewrite (H1 E)|].
  destruct (mem col (fr_cols f)); auto.
  destruct (String.eqb col "year"); auto. destruct (String.eqb col "month"); auto. destruct (String.eqb col "day"); auto.
  destruct (String.eqb col "hour"); auto. destruct (String.eqb col "time"); auto.
  destruct (String.eqb_spec col "level") as [E'|E']; [|reflexivity]. now rewrite (H2 E').
Qed.
Lemma loop_fl rx hn fl fl' f : forall l k,
  (In "variable"%string (map fst l) -> alookup "level" fl = alookup "level" fl') ->
  (In "level"%string (map fst l) -> mem "variable" (map fst fl) = mem "variable" (map fst fl')) ->
  apply_filters_loop rx hn fl f k l = apply_filters_loop rx hn fl' f k l.
Proof.
  induction l as [|c l IH]; intros k H1 H2; cbn [apply_filters_loop]; [reflexivity|]. cbn [map In] in H1, H2.
  rewrite (apply_filter_fl rx hn fl fl' f k c) by auto. destruct (apply_filter rx hn fl' f k c); cbn [rbind]; auto.
Qed.
Lemma loop_app rx hn fl f : forall a b k,
  apply_filters_loop rx hn fl f k (a ++ b) = rbind (apply_filters_loop rx hn fl f k a) (fun k => apply_filters_loop rx hn fl f k b).
Proof. induction a as [|c a IH]; intros b k; cbn [app apply_filters_loop rbind]; [reflexivity|]. destruct (apply_filter rx hn fl f k c); cbn [rbind]; auto. Qed.
Lemma alookup_app {A} c (a b : list (string * A)) : alookup c (a ++ b) = match alookup c a with Some x => Some x | None => alookup c b end.
Proof. induction a as [|[c' x] a IH]; cbn; [reflexivity|]. destruct (String.eqb c c'); auto. Qed.
Lemma alookup_none {A} c (a : list (string * A)) : ~ In c (map fst a) -> alookup c a = None.
Proof. induction a as [|[c' x] a IH]; cbn; intros H; [reflexivity|]. destruct (String.eqb_spec c c') as [->|]; [exfalso; auto|auto]. Qed.
Lemma mem_in c l : mem c l = true <-> In c l.
Proof. unfold mem. rewrite existsb_exists. split; [intros (x & X & E); apply String.eqb_eq in E; now subst|intros H; exists c; split; [auto|apply String.eqb_refl]]. Qed.
Lemma mem_eq c l l' : (In c l <-> In c l') -> mem c l = mem c l'.
Proof. intros H. destruct (mem c l) eqn:E, (mem c l') eqn:E'; auto; [apply mem_in, H, mem_in in E|apply mem_in, H, mem_in in E']; congruence. Qed.

Lemma compose rx hn a b f h : aligned f -> separable a b -> fr_filter true rx hn (a ++ b) f = Ok h ->
  exists g, fr_filter true rx hn a f = Ok g /\
    (points g <> [] -> exists g', fr_filter true rx hn b g = Ok g' /\ points g' = points h) /\
    (points g = [] -> points h = []).
Proof.
  intros AL (_ & S1 & S2) H. destruct (filter_ok _ _ _ _ _ _ H) as (N & M & p & q & A).
  destruct (filter_acts_on rx hn _ f p q A true f (within_refl f N) M AL) as (h' & Hh & _ & _ & _ & Ph). rewrite H in Hh. injection Hh as <-.
  assert (La : forall f' k, apply_filters_loop rx hn (a ++ b) f' k a = apply_filters_loop rx hn a f' k a).
  { intros f' k. apply loop_fl.
    - intros V. rewrite alookup_app, (alookup_none "level" b) by tauto. destruct (alookup "level" a); auto.
    - intros L. apply mem_eq. rewrite map_app, in_app_iff. tauto. }
  assert (Lb : forall f' k, apply_filters_loop rx hn (a ++ b) f' k b = apply_filters_loop rx hn b f' k b).
  { intros f' k. apply loop_fl.
    - intros V. rewrite alookup_app, (alookup_none "level" a) by tauto. reflexivity.
    - intros L. apply mem_eq. rewrite map_app, in_app_iff. tauto. }
  pose proof (A f (fun _ => true) (fun _ => true) (within_refl f N)) as R0. cbn beta in R0. rewrite loop_app, La in R0.
  apply rbind_ok in R0 as (k & Ka & Kb). rewrite Lb in Kb.
  destruct (loop_acts rx hn a f N a _ _ k Ka) as (p1 & q1 & A1).
  pose proof (A1 f (fun _ => true) (fun _ => true) (within_refl f N)) as R1. cbn beta in R1. unfold mask in *. rewrite Ka in R1. injection R1 as ->.
  destruct (loop_acts rx hn b f N b (fun t => true && q1 t) (fun r => true && p1 (snd r)) _ Kb) as (p2 & q2 & A2).
  assert (EQ : forall t, In t (fr_times f) -> q t = q1 t && q2 t).
  { pose proof (A2 f (fun t => true && q1 t) (fun r => true && p1 (snd r)) (within_refl f N)) as R2. cbn beta in R2.
    pose proof (eq_trans (eq_sym Kb) R2) as R3. clear R2. injection R3 as R2 _. intros t T. exact (proj1 map_ext_in_iff R2 t T). }
  assert (EP : forall r, In r (fr_meta f) -> p (snd r) = p1 (snd r) && p2 (snd r)).
  { pose proof (A2 f (fun t => true && q1 t) (fun r => true && p1 (snd r)) (within_refl f N)) as R2. cbn beta in R2.
    pose proof (eq_trans (eq_sym Kb) R2) as R3. clear R2. injection R3 as _ R2. intros r T. exact (proj1 map_ext_in_iff R2 r T). }
  destruct (filter_acts_on rx hn a f p1 q1 A1 true f (within_refl f N) M AL) as (g & Hg & ALg & Cg & Ig & Pg).
  assert (PP : points h = filter (fun pt => Bool.eqb true (sel p2 q2 pt)) (points g)).
  { rewrite Pg, Ph, filter_filter. apply filter_ext_in. intros pt I. cbn [Bool.eqb].
    assert (T : In (snd (fst pt)) (fr_times f) /\ exists r, In r (fr_meta f) /\ map snd (fst (fst pt)) = snd r).
    { destruct (aligned_series f AL) as (z & E). pose proof (aligned_lengths (fr_times f) (fr_cols f) z) as LL. rewrite <- E in LL. specialize (LL AL).
      rewrite E in I. rewrite points_series in I by (rewrite <- labels_data; rewrite E in AL; apply AL).
      apply in_flat_map in I as (x & X & I). specialize (LL x X). unfold spoints in I.
      assert (IP : In (snd (fst pt)) (fr_times f) /\ fst (fst pt) = combine (fr_cols f) (snd x)).
      { revert I. generalize (fr_times f) as ts, (snd (fst x)) as v. induction ts as [|t ts IH]; intros [|[y|] v] I; cbn in I; try easy.
        - destruct I as [<-|I]; [cbn; auto|]. destruct (IH v I). split; auto. now right.
        - destruct (IH v I). split; auto. now right. }
      split; [apply IP|]. exists (s_meta x). split; [rewrite E; cbn; now apply in_map|]. rewrite (proj2 IP). apply map_snd_combine. symmetry. apply LL. }
    destruct T as (T & r & Hr & Er). unfold sel. rewrite (EQ _ T), Er, (EP _ Hr).
    destruct (q1 _), (q2 _), (p1 _), (p2 _); reflexivity. }
  exists g. split; auto. split.
  - intros P. destruct (within_filter f g P Cg Ig) as (W & Mg).
    destruct (filter_acts_on rx hn b f p2 q2 A2 true g W Mg ALg) as (g' & Hg' & _ & _ & _ & Pg'). exists g'. split; auto. congruence.
  - intros P. rewrite PP, P. reflexivity.
Qed.
