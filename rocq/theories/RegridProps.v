(** Interpolating data frames to their own times, and to more times and back.  (For C96.) *)
From Coq Require Import String Ascii List ZArith QArith Qcanon Reals Bool Lia Sorted.
From Verif Require Import Base ListFacts Units TimeModel TimeFacts TimeLin TimeConv TimeConv2 TimeConv TimeProps Core Filters ParameterType Spec_Time Frame Spec_Frame FrameEdit FrameInterp Spec_Interp InterpProps ConvertProps.
Import ListNotations.
Local Open Scope string_scope.
Local Open Scope list_scope.

Definition one_type (env : uenv) (f : frame) (p : ptype) : Prop :=
  (forall l, In l (map fst (fr_data f)) -> type_known env f l p) /\ (forall l s, meta_of f l "parameter_type" (MStr s) -> s = type_text p).

Lemma present vs : ~ In None vs -> exists xs : list R, vs = map Some xs.
Proof.
  intros NN. induction vs as [|[x|] vs IH]; [exists []; reflexivity| |exfalso; apply NN; now left]. destruct IH as (xs & ->); [intros H; apply NN; now right|]. exists (x :: xs). reflexivity.
Qed.
Lemma grid_up p t : timeseries p -> increasing t -> increasing (grid p t).
Proof. intros [->| ->] H; [now apply closed_increasing|exact H]. Qed.
Lemma grid_hd p t : timeseries p -> (2 <= length t)%nat -> hd 0%Z (grid p t) = hd 0%Z t.
Proof. intros [->| ->] L; cbn [grid]; [rewrite closed_hd by lia|reflexivity]. destruct t; [cbn in L; lia|reflexivity]. Qed.
Lemma grid_length p t : timeseries p -> (2 <= length t)%nat -> (length t <= length (grid p t))%nat.
Proof. intros [->| ->] L; cbn [grid]; [rewrite closed_length by lia; lia|lia]. Qed.
Lemma grid_belongs p t xs : timeseries p -> (2 <= length t)%nat -> length xs = length t -> belongs p (grid p t) xs.
Proof.
  intros TP L E. split; [rewrite value_count_grid; auto; intros ->; cbn; apply closed_length; lia|].
  pose proof (grid_length p t TP L) as G. intros K. rewrite K in G. cbn in G. lia.
Qed.
Lemma grid_incl p s t : timeseries p -> (2 <= length s)%nat -> (2 <= length t)%nat -> incl s t -> last (grid p s) 0%Z = last (grid p t) 0%Z -> incl (grid p s) (grid p t).
Proof.
  intros [->| ->] Ls Lt I E; cbn [grid] in *; [|exact I]. pose proof (closed_hd s Ls) as A. pose proof (closed_hd t Lt) as B. rewrite A, B in *.
  rewrite !last_last in E. intros x X. apply in_app_iff in X as [X|[<-|[]]]; apply in_or_app; [left; now apply I|right; left; now symmetry].
Qed.
Lemma values_length f l vs : aligned f -> In (l, vs) (fr_data f) -> length vs = length (fr_times f).
Proof. intros AL I. pose proof (al_values _ AL) as V. rewrite Forall_forall in V. exact (V _ I). Qed.
Lemma in_labels {A} (d : list (Z * A)) l : In l (map fst d) -> exists x, In (l, x) d.
Proof. intros I. apply in_map_iff in I as ([l0 x] & E & I). cbn in E. subst l0. eauto. Qed.

Lemma same_times env ex f p : aligned f -> timeseries p -> one_type env f p -> increasing (fr_times f) -> (3 <= length (fr_times f))%nat ->
  (forall l vs, In (l, vs) (fr_data f) -> ~ In None vs) ->
  exists g, interpolate env true (fr_times f) ex f = Ok g /\ fr_times g = fr_times f /\ fr_data g = fr_data f /\
    forall l c v, c <> "parameter_type" -> (meta_of g l c v <-> meta_of f l c v).
Proof.
  intros AL TP (TY & SP) IT L3 NN.
  assert (SG : forall l vs, In (l, vs) (fr_data f) -> exists xs, vs = map Some xs /\ regridded p ex (grid p (fr_times f)) xs (grid p (fr_times f)) xs).
  { intros l vs I. destruct (present vs (NN l vs I)) as (xs & ->). exists xs. split; [reflexivity|]. pose proof (values_length f l _ AL I) as VL. rewrite map_length in VL.
    destruct (same_grid p ex (grid p (fr_times f)) xs TP) as (c & C & F & _); [now apply grid_up|apply grid_belongs; auto; lia|lia|]. exists c. auto. }
  destruct (interp_accepts env (fr_times f) ex f p AL TP TY SP) as (g & H); [intros _; lia|intros l vs I; destruct (SG l vs I) as (xs & E & K); exists xs, xs; auto|].
  exists g. split; [exact H|]. destruct (interp_converts env true (fr_times f) ex f g AL H) as (X1 & X2 & X3 & _ & X5 & X6 & _).
  split; [exact X2|]. split; [|exact X5]. apply alike_data; [now symmetry|apply AL|]. intros l vs I.
  destruct (X6 l vs p I) as (xs & w & E & (c & C & F) & _ & J & _); [apply TY; apply in_map_iff; now exists (l, vs)|discriminate|].
  destruct (SG l vs I) as (xs' & E' & (c' & C' & F')). assert (xs' = xs) by (rewrite E in E'; clear -E'; revert xs' E'; induction xs as [|x xs IH]; intros [|y ys] E'; try discriminate; [reflexivity|injection E' as -> E'; f_equal; auto]).
  subst xs'. rewrite C in C'. injection C' as <-. rewrite F in F'. injection F' as ->. now rewrite E.
Qed.

Lemma incr_nodup t : increasing t -> NoDup t.
Proof.
  intros H. induction H as [|a l H IH F]; constructor; auto. intros I. rewrite Forall_forall in F. specialize (F a I). lia.
Qed.
Lemma some_inj (a b : list R) : map Some a = map Some b -> a = b.
Proof. revert b. induction a as [|x xs IH]; intros [|y ys] E'; try discriminate; [reflexivity|injection E' as -> E'; f_equal; auto]. Qed.

Lemma one_type_after env targets ex f g p : aligned f -> timeseries p -> one_type env f p -> interpolate env true targets ex f = Ok g -> one_type env g p.
Proof.
  intros AL TP (TY & SP) H. destruct (interp_converts env true targets ex f g AL H) as (X1 & X2 & X3 & _ & X5 & X6 & _).
  assert (K : forall l, In l (map fst (fr_data g)) -> meta_of g l "parameter_type" (MStr (type_text p))).
  { intros l I. rewrite X3 in I. destruct (in_labels _ _ I) as (vs & J). destruct (X6 l vs p J) as (xs & w & _ & _ & _ & _ & M); [now apply TY|discriminate|exact M]. }
  split.
  - intros l I. left. exists (type_text p). split; [now apply K|now apply named_text].
  - intros l s M. assert (I : In l (map fst (fr_data g))).
    { destruct M as (row & M & _). rewrite (al_labels _ X1). apply in_map_iff. now exists (l, row). }
    pose proof (meta_fun g l _ _ _ X1 M (K l I)) as E. now injection E.
Qed.

Lemma more_times env ex f p targets : aligned f -> timeseries p -> one_type env f p ->
  increasing (fr_times f) -> (3 <= length (fr_times f))%nat -> (forall l vs, In (l, vs) (fr_data f) -> ~ In None vs) ->
  increasing targets -> incl (fr_times f) targets -> hd 0%Z targets = hd 0%Z (fr_times f) -> last (grid p targets) 0%Z = last (grid p (fr_times f)) 0%Z ->
  exists g h, interpolate env true targets ex f = Ok g /\ interpolate env true (fr_times f) ex g = Ok h /\ fr_times g = targets /\
    fr_times h = fr_times f /\ fr_data h = fr_data f /\ forall l c v, c <> "parameter_type" -> (meta_of h l c v <-> meta_of f l c v).
Proof.
  intros AL TP OT IT L3 NN IG IN HD LT. pose proof OT as (TY & SP).
  assert (LG : (length (fr_times f) <= length targets)%nat) by (apply NoDup_incl_length; [now apply incr_nodup|exact IN]).
  assert (RF : forall l vs, In (l, vs) (fr_data f) -> exists xs w, vs = map Some xs /\ regridded p ex (grid p (fr_times f)) xs (grid p targets) w /\ regridded p ex (grid p targets) w (grid p (fr_times f)) xs).
  { intros l vs I. destruct (present vs (NN l vs I)) as (xs & ->). exists xs. pose proof (values_length f l _ AL I) as VL. rewrite map_length in VL.
    destruct (refine p ex (grid p (fr_times f)) (grid p targets) xs TP) as (c & w & C & F & T).
    - now apply grid_up.
    - now apply grid_up.
    - apply grid_belongs; auto; lia.
    - lia.
    - rewrite !grid_hd by (auto; lia). now symmetry.
    - now symmetry.
    - apply grid_incl; auto; lia.
    - exists w. split; [reflexivity|]. split; [exists c; auto|]. exists (mkTconv (grid p targets) (grid p (fr_times f)) p ex). split.
      + apply make_converter_start; [now apply grid_up| | |].
        * pose proof (grid_length p targets TP ltac:(lia)) as G. intros K. rewrite K in G. cbn in G. lia.
        * pose proof (grid_length p (fr_times f) TP ltac:(lia)) as G. lia.
        * rewrite !grid_hd by (auto; lia). lia.
      + apply converter_eq in C as (-> & _). exact T. }
  destruct (interp_accepts env targets ex f p AL TP TY SP) as (g & H); [intros _; lia|intros l vs I; destruct (RF l vs I) as (xs & w & E & K & _); exists xs, w; auto|].
  destruct (interp_converts env true targets ex f g AL H) as (A1 & A2 & A3 & _ & A5 & A6 & _).
  pose proof (one_type_after env targets ex f g p AL TP OT H) as OT'. pose proof OT' as (TY' & SP').
  assert (GV : forall l vs, In (l, vs) (fr_data f) -> exists xs w, vs = map Some xs /\ In (l, map Some w) (fr_data g) /\ regridded p ex (grid p targets) w (grid p (fr_times f)) xs).
  { intros l vs I. destruct (A6 l vs p I) as (xs & w & E & (c & C & F) & _ & J & _); [apply TY; apply in_map_iff; now exists (l, vs)|discriminate|].
    destruct (RF l vs I) as (xs' & w' & E' & (c' & C' & F') & B). rewrite E in E'. apply some_inj in E'. subst xs'. rewrite C in C'. injection C' as <-. rewrite F in F'. injection F' as <-.
    exists xs, w. auto. }
  assert (SPLIT : forall l ws, In (l, ws) (fr_data g) -> exists xs w, In (l, map Some xs) (fr_data f) /\ ws = map Some w /\ regridded p ex (grid p targets) w (grid p (fr_times f)) xs).
  { intros l ws I. destruct (in_labels (fr_data f) l) as (vs & J); [rewrite <- A3; apply in_map_iff; now exists (l, ws)|]. destruct (GV l vs J) as (xs & w & -> & K & B).
    exists xs, w. split; [exact J|]. split; [exact (data_fun g l ws _ A1 I K)|exact B]. }
  destruct (interp_accepts env (fr_times f) ex g p A1 TP TY' SP') as (h & H'); [intros _; rewrite A2; lia| |].
  { intros l ws I. destruct (SPLIT l ws I) as (xs & w & _ & E & B). exists w, xs. split; [exact E|]. rewrite A2. exact B. }
  destruct (interp_converts env true (fr_times f) ex g h A1 H') as (B1 & B2 & B3 & _ & B5 & B6 & _).
  exists g, h. split; [exact H|]. split; [exact H'|]. split; [exact A2|]. split; [exact B2|]. split; [|intros l c v N; rewrite B5 by exact N; now apply A5].
  apply alike_data; [congruence|apply AL|]. intros l vs I. destruct (GV l vs I) as (xs & w & -> & J & (c & C & F)).
  destruct (B6 l _ p J) as (w' & xs' & E & (c' & C' & F') & _ & K & _); [apply TY'; apply in_map_iff; eexists; split; [|exact J]; reflexivity|discriminate|].
  apply some_inj in E. subst w'. rewrite A2, C in C'. injection C' as <-. rewrite F in F'. injection F' as <-. exact K.
Qed.

(** Averages: without extrapolation there is no way back if the last period became shorter. *)
Lemma shorter env ex f g targets times : aligned f -> interpolate env true targets ex f = Ok g -> fr_data f <> [] ->
  (forall l, In l (map fst (fr_data f)) -> type_known env f l AVERAGE_TIMESERIES) -> increasing targets -> (3 <= length targets)%nat ->
  increasing times -> (2 <= length times)%nat -> (last (closed targets) 0 < last (closed times) 0)%Z -> forall h, interpolate env true times XNONE g <> Ok h.
Proof.
  intros AL H ND TY IG L3 IT LT LL h K. destruct (interp_converts env true targets ex f g AL H) as (A1 & A2 & A3 & _ & A5 & A6 & _).
  destruct (fr_data f) as [|[l vs] d] eqn:E; [congruence|]. destruct (A6 l vs AVERAGE_TIMESERIES) as (xs & w & _ & _ & LW & J & M); [now left|apply TY; now left|discriminate|].
  assert (T : type_known env g l AVERAGE_TIMESERIES) by (left; exists "average"; split; [exact M|left; split; reflexivity]).
  destruct (interp_converts env true times XNONE g h A1 K) as (_ & _ & _ & _ & _ & B6 & _). destruct (B6 l _ _ J T) as (w' & xs' & EW & (c & C & F) & _); [discriminate|].
  apply some_inj in EW. subst w'. apply converter_eq in C as (-> & _). unfold tconvert_from in F. cbn [tc_type tc_extra tc_source tc_target grid] in F. rewrite A2 in F.
  pose proof (grid_belongs AVERAGE_TIMESERIES targets w (or_introl eq_refl) ltac:(lia) LW) as B.
  rewrite (convert_bad AVERAGE_TIMESERIES XNONE _ _ w (IZR (last (closed times) 0%Z))) in F; [discriminate|now left|apply belongs_fits; [now left|exact B]|lia| | | |reflexivity| |].
  - apply incr_IZR. now apply closed_increasing.
  - apply incr_IZR. now apply closed_increasing.
  - rewrite map_length, closed_length by lia. lia.
  - apply in_map. rewrite closed_hd by lia. rewrite last_last. apply in_or_app. right. now left.
  - rewrite last_IZR by (apply B). intros (_ & X). apply le_IZR in X. lia.
Qed.
