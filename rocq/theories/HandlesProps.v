(** C87 and C88: slices of [view.values] are windows on it; an assignment to many positions is the same
    as assignments to one position after the other. *)
From Coq Require Import String List Arith ZArith Bool Reals Sorted Lia.
From Verif Require Import Base ListFacts Units TimeModel Core CoreEvo CoreTree CoreNames CoreInv CoreStep Spec_Core CoreReq
  CoreP1 CoreP2 ConvShape Versions Spec_Apart Handles Spec_Handles HandlesSlices.
Import ListNotations.

Section P.
Variable env : uenv.
Notation wf := (wf env).

(** View [v] is a timeseries view of the user with an array of length [n]. *)
Definition live (s : state) (v n : nat) : Prop := wf s /\ exists w d, nth_error (st_views s) v = Some w /\
  v_public w = true /\ v_kind w = KTimeseries /\ v_data w = Some d /\ length (a_val d) = n.
Definition fits (s : state) (h : handle) (v : nat) (w : option (list nat)) : Prop :=
  h_view h = v /\ exists n, live s v n /\
  match w with
  | Some ps => h = HShared v ps /\ Forall (fun j => j < n) ps
  | None => exists b xs, h = HCopy v b xs
  end.

Lemma put_len ps : forall zs d, length (put_all d ps zs) = length d.
Proof. induction ps; intros [|z zs] d; simpl; auto. now rewrite IHps, upd_length. Qed.

Lemma live_evo s s' v n : live s v n -> wf s' -> evo s s' -> live s' v n.
Proof.
  intros (W & w & d & V & Pb & Ki & Da & L) W' Ev. split; auto.
  destruct (ev_views _ _ Ev _ _ V) as (w' & V' & Ve).
  destruct (v_data w') as [d'|] eqn:D'; [|exfalso; apply (ve_data _ _ Ve); congruence].
  exists w', d'. rewrite (ve_public _ _ Ve), (ve_kind _ _ Ve). repeat split; auto.
  destruct (wf_views _ _ W _ _ V) as (q & _ & I). destruct (wf_views _ _ W' _ _ V') as (q' & _ & I').
  pose proof (vi_len _ _ _ _ _ I _ Da) as A. pose proof (vi_len _ _ _ _ _ I' _ D') as B.
  rewrite (ve_tconv _ _ Ve) in B. lia.
Qed.
Lemma fits_evo s s' h v w : fits s h v w -> wf s' -> evo s s' -> fits s' h v w.
Proof.
  intros (Hv & n & L & R) W E. split; auto. exists n. split; [eapply live_evo; eauto|auto].
Qed.
Lemma live_unique s v n m : live s v n -> live s v m -> n = m.
Proof. intros (_ & w & d & V & _ & _ & D & L) (_ & w' & d' & V' & _ & _ & D' & L'). congruence. Qed.

Lemma get_live s v n s1 r : live s v n -> ts_get s v = (s1, r) ->
  wf s1 /\ evo s s1 /\ forall xs, r = Ok xs -> length xs = n /\ exists d, cache s1 v = Ok d /\ a_val d = xs.
Proof.
  intros (W & w & d & V & Pb & Ki & Da & L) G.
  pose proof (wf_ts_get _ _ _ _ _ _ W V Ki G) as [W1 _]. pose proof (rd_ts_get _ _ _ _ G) as Rd.
  assert (Ev : evo s s1) by now apply rd_evo. split; auto. split; auto. intros xs ->.
  destruct (wf_views _ _ W _ _ V) as (q & Q & I).
  destruct (ts_get_cached _ _ _ _ _ _ V Q G) as (v' & V' & _ & _ & d' & D' & X & _).
  assert (L' : live s1 v n) by (apply (live_evo s); auto; split; auto; exists w, d; auto).
  destruct L' as (_ & w1 & d1 & V1 & _ & _ & D1 & L1). rewrite V' in V1. inversion V1; subst w1. rewrite D' in D1. inversion D1; subst d1.
  split; [congruence|]. exists d'. unfold cache. rewrite V', D'. auto.
Qed.
Lemma live_cache s v n : live s v n -> exists d, cache s v = Ok d /\ length (a_val d) = n.
Proof. intros (_ & w & d & V & _ & _ & D & L). exists d. unfold cache. rewrite V, D. auto. Qed.

(** The three ways to change the state *)
Lemma write_live s v n s1 r w d' : live s v n -> nth_error (st_views s) v = Some w ->
  length (a_val d') = n -> ts_write (set_view s v (v_set_data w d')) v = (s1, r) -> wf s1 /\ evo s s1.
Proof.
  intros (W & w0 & d & V & Pb & Ki & Da & L) V' L' H. rewrite V in V'. inversion V'; subst w0.
  destruct (wf_views _ _ W _ _ V) as (q & Q & I). split.
  - eapply wf_ts_write; [| | | |exact H].
    + eapply wf_set_data; eauto.
      * apply (vi_data _ _ _ _ _ I). congruence.
      * rewrite L', <- L. eapply vi_len; eauto.
    + eapply set_view_nth; eauto.
    + auto.
    + auto.
  - eapply evo_trans; [|eapply evo_ts_write; eauto]. eapply evo_set_view; eauto. apply vevo_data.
Qed.
Lemma write_plain s v n s1 r : live s v n -> ts_write s v = (s1, r) -> wf s1 /\ evo s s1.
Proof.
  intros (W & w & d & V & Pb & Ki & Da & L) H. split; [eapply wf_ts_write; eauto|eapply evo_ts_write; eauto].
Qed.

Lemma list_fits s h v w s1 r : fits s h v w -> h_list s h = (s1, r) -> wf s1 /\ evo s s1.
Proof.
  intros (Hv & n & L & _) H. unfold h_list, h_read in H. rewrite Hv in H.
  destruct (live_cache _ _ _ L) as (d & C & _). rewrite C in H.
  destruct (ts_get s v) as [s2 [xs|e]] eqn:G; destruct (get_live _ _ _ _ _ L G) as (W & E & _); inversion H; subst; auto.
Qed.
Lemma item_fits s h v w s1 r i : fits s h v w -> h_item s h i = (s1, r) -> wf s1 /\ evo s s1.
Proof.
  intros F H. unfold h_item in H. destruct (h_list s h) as [s2 [xs|e]] eqn:G; inversion H; subst; eapply list_fits; eauto.
Qed.
Lemma select_fits s h v w s1 r x : fits s h v w -> h_select s h x = (s1, r) -> wf s1 /\ evo s s1.
Proof.
  intros F H. unfold h_select in H. destruct (h_list s h) as [s2 [xs|e]] eqn:G; inversion H; subst; eapply list_fits; eauto.
Qed.
Lemma put_fits s h v w sel y s1 h1 r : fits s h v w -> h_put s h sel y = (s1, h1, r) -> wf s1 /\ evo s s1 /\ fits s1 h1 v w.
Proof.
  intros F H. assert (Same : (s, h) = (s1, h1) -> wf s1 /\ evo s s1 /\ fits s1 h1 v w).
  { intros E. inversion E; subst. assert (W : wf s1) by (destruct F as (_ & n & (W & _) & _); auto). split; auto. split; auto with evo. }
  pose proof F as (Hv & n & L & R). unfold h_put in H. destruct h as [v0 ps|v0 b xs]; simpl in Hv; subst v0.
  - destruct (sel (length ps)) as [js|]; [|inversion H; subst; auto].
    pose proof L as (W & w0 & d & V & Pb & Ki & Da & Le). rewrite V, Da in H.
    destruct (to_store _ _ _) as [zs|]; [|inversion H; subst; auto].
    destruct (ts_write _ v) as [s2 r2] eqn:T. inversion H; subst.
    apply write_live with (n := length (a_val d)) in T; auto; [|simpl; apply put_len].
    destruct T as (W1 & E1). split; auto. split; auto. eapply fits_evo; eauto.
  - destruct (sel (length xs)) as [js|]; [|inversion H; subst; auto].
    destruct (to_store _ _ _) as [zs|]; [|inversion H; subst; auto].
    destruct (ts_write s v) as [s2 r2] eqn:T. inversion H; subst. destruct (write_plain _ _ _ _ _ L T) as (W1 & E1).
    split; auto. split; auto. split; auto. exists n. split; [eapply live_evo; eauto|].
    destruct w as [ps|]; [destruct R; discriminate|]. eauto.
Qed.
Lemma iadd_fits s h v w x s1 h1 r : fits s h v w -> h_iadd s h x = (s1, h1, r) -> wf s1 /\ evo s s1 /\ fits s1 h1 v w.
Proof.
  intros F H. unfold h_iadd in H. destruct (h_list s h) as [s2 [xs|e]] eqn:G; destruct (list_fits _ _ _ _ _ _ F G) as (W & E).
  - assert (F2 : fits s2 h v w) by (eapply fits_evo; eauto). destruct (h_int s2 h).
    + inversion H; subst; auto.
    + destruct (put_fits _ _ _ _ _ _ _ _ _ F2 H) as (W1 & E1 & F1). split; auto. split; [eapply evo_trans; eauto|auto].
  - inversion H; subst. split; auto. split; auto. eapply fits_evo; eauto.
Qed.
Lemma after_fits s h v w o : fits s h v w -> wf (fst (after_h o s h)) /\ evo s (fst (after_h o s h)) /\
  fits (fst (after_h o s h)) (snd (after_h o s h)) v w.
Proof.
  intros F. assert (K : forall s1, wf s1 /\ evo s s1 -> wf s1 /\ evo s s1 /\ fits s1 h v w).
  { intros s1 (W & E). split; auto. split; auto. eapply fits_evo; eauto. }
  destruct o; cbn [after_h fst snd].
  - destruct (h_list s h) eqn:G. apply K. eapply list_fits; eauto.
  - destruct (h_item s h i) eqn:G. apply K. eapply item_fits; eauto.
  - destruct (h_select s h x) eqn:G. apply K. eapply select_fits; eauto.
  - destruct (h_assign s h x y) as [[s1 h1] r] eqn:G. eapply put_fits; eauto.
  - destruct (h_set s h i x) as [[s1 h1] r] eqn:G. eapply put_fits; eauto.
  - destruct (h_iadd s h x) as [[s1 h1] r] eqn:G. eapply iadd_fits; eauto.
Qed.

Lemma pick_ok d ps : Forall (fun j => j < length d) ps -> pick d ps = Ok (map (fun j => nth j d None) ps).
Proof.
  unfold pick. induction 1 as [|j ps Hj _ IH]; simpl; auto.
  rewrite (nth_error_nth' d None Hj). now rewrite IH.
Qed.

(** What a window shows *)
Lemma list_window s v ps n : live s v n -> Forall (fun j => j < n) ps ->
  h_list s (HShared v ps) =
  (fst (ts_get s v), match snd (ts_get s v) with Ok ys => Ok (map (fun j => nth j ys None) ps) | Err e => Err e end).
Proof.
  intros L F. unfold h_list, h_read. simpl h_view. destruct (live_cache _ _ _ L) as (d & C & _). rewrite C.
  destruct (ts_get s v) as [s2 [xs|e]] eqn:G; destruct (get_live _ _ _ _ _ L G) as (W & E & H); simpl; auto.
  destruct (H xs eq_refl) as (Lx & d' & C' & Dx). rewrite C', Dx. rewrite pick_ok; auto. now rewrite Lx.
Qed.

Lemma values_eq s v : values s v = (fst (ts_get s v),
  match snd (ts_get s v) with Ok xs => Ok (HShared v (seq 0 (length xs))) | Err e => Err e end).
Proof. unfold values. destruct (ts_get s v) as [s1 [xs|e]]; auto. Qed.
Lemma answer_get s v : live s v (length (match cache s v with Ok d => a_val d | Err _ => [] end)) ->
  step env (OGetValues v) s = lift VArr (ts_get s v).
Proof. intros (_ & w & d & V & Pb & Ki & _). cbn [step]. unfold with_view. now rewrite V, Pb, Ki. Qed.
Lemma seq_lt n : Forall (fun j => j < n) (seq 0 n).
Proof. apply Forall_forall. intros j I. apply in_seq in I. lia. Qed.

Lemma values_fits s v xs s1 h : wf s -> answer env (OGetValues v) s = Ok (VArr xs) -> values s v = (s1, Ok h) ->
  fits s1 h v (Some (seq 0 (length xs))).
Proof.
  intros W A H. unfold answer in A. cbn [step] in A. unfold with_view in A.
  destruct (nth_error (st_views s) v) as [w|] eqn:V; [|discriminate]. destruct (v_public w) eqn:Pb; [|discriminate].
  destruct (v_kind w) eqn:Ki; try discriminate. unfold values in H.
  destruct (ts_get s v) as [s2 [ys|e]] eqn:G; [|discriminate]. inversion A; subst ys. inversion H; subst s2 h.
  pose proof (wf_ts_get _ _ _ _ _ _ W V Ki G) as [W1 _]. destruct (wf_views _ _ W _ _ V) as (q & Q & I).
  destruct (ts_get_cached _ _ _ _ _ _ V Q G) as (v' & V' & Vr & _ & d' & D' & X & _).
  split; auto. exists (length xs). split; [|split; [auto|apply seq_lt]].
  split; auto. exists v', d'. rewrite (vr_public _ _ Vr), (vr_kind _ _ Vr). subst xs. auto.
Qed.

Lemma pos_lt ps n js : Forall (fun j => j < n) ps -> Forall (fun j => j < length ps) js ->
  Forall (fun j => j < n) (map (fun j => nth j ps 0) js).
Proof.
  intros F. induction 1; simpl; constructor; auto. rewrite Forall_forall in F. apply F. now apply nth_In.
Qed.
Lemma held_fits s h v w : held env s h v w -> wf s /\ fits s h v w.
Proof.
  induction 1 as [s v s1 h xs Re A H|s h2 v2 w2 v s1 h xs _ (W & _) A H|s h v ps a b c s1 h' js _ (W & F) H Sl
    |s h v w x s1 h' _ (W & F) H N|s h v w o _ (W & F)|s h v w h2 v2 w2 o _ (W & F) _ (_ & F2)|s h v w o _ (W & F)].
  - assert (W : wf s) by (eapply reachable_wf; eauto). pose proof (values_fits _ _ _ _ _ W A H) as F. split; auto.
    destruct F as (_ & n & (W1 & _) & _). auto.
  - pose proof (values_fits _ _ _ _ _ W A H) as F. split; auto. destruct F as (_ & n & (W1 & _) & _). auto.
  - destruct (select_fits _ _ _ _ _ _ _ F H) as (W1 & E1). split; auto.
    destruct F as (Hv & n & L & -> & Fa). unfold h_select in H. rewrite (list_window _ _ _ _ L Fa) in H.
    destruct (ts_get s v) as [s2 [ys|e]]; simpl in H; [|discriminate]. rewrite map_length in H.
    inversion H as [[Hs Hp]]; subst s2. change (sliced (length ps) a b c js) with (selected (length ps) (SSlice a b c) js) in Sl.
    pose proof Sl as Sl'. apply positions_iff in Sl. simpl positions in Sl. rewrite Sl in Hp. inversion Hp; subst h'.
    split; auto. exists n. split; [eapply live_evo; eauto|]. split; auto. apply pos_lt; auto.
    apply Forall_forall. intros j. now apply (selected_lt _ _ _ _ Sl').
  - destruct (select_fits _ _ _ _ _ _ _ F H) as (W1 & E1). split; auto. pose proof F as (Hv & n & L & R).
    unfold h_select in H. destruct (h_list s h) as [s2 [xs|e]]; [|discriminate]. inversion H as [[Hs Hp]]; subst s2.
    destruct (positions _ _) as [ps|]; [|discriminate]. split; [|exists n; split; [eapply live_evo; eauto|]].
    + destruct x; [destruct h|..]; try (destruct (pick xs ps); inversion Hp; subst; auto). inversion Hp; subst; auto.
    + destruct x as [a b c|l|m]; try (destruct (pick xs ps); inversion Hp; subst; eauto; fail).
      destruct h; [|destruct (pick xs ps); inversion Hp; subst; eauto].
      destruct N as [->|N]; [destruct R as (? & ? & R); discriminate|]. exfalso. eapply N; eauto.
  - assert (W1 : wf (after env o s)) by (apply wf_after; auto). split; auto. eapply fits_evo; eauto. apply (evo_step env o s _ _ (surjective_pairing _)).
  - destruct (after_fits _ _ _ _ o F2) as (W1 & E1 & _). split; auto. eapply fits_evo; eauto.
  - destruct (after_fits _ _ _ _ o F) as (W1 & E1 & F1). auto.
Qed.

(** C87 *)
Lemma step_view (f : view -> state * res val) s v n : live s v n ->
  exists w, nth_error (st_views s) v = Some w /\ v_data w <> None /\ with_view s v KTimeseries f = f w.
Proof.
  intros (_ & w & d & V & Pb & Ki & D & _). exists w. split; auto. split; [congruence|]. unfold with_view. now rewrite V, Pb, Ki.
Qed.
Lemma step_get s v n : live s v n -> step env (OGetValues v) s = lift VArr (ts_get s v).
Proof. intros L. destruct (step_view (fun _ => lift VArr (ts_get s v)) _ _ _ L) as (w & _ & _ & E). exact E. Qed.

Lemma C87_list s h v ps : held env s h v (Some ps) ->
  fst (h_list s h) = after env (OGetValues v) s /\
  (forall ys, answer env (OGetValues v) s = Ok (VArr ys) ->
     snd (h_list s h) = Ok (map (fun j => nth j ys None) ps) /\ Forall (fun j => j < length ys) ps) /\
  (forall e, answer env (OGetValues v) s = Err e -> snd (h_list s h) = Err e).
Proof.
  intros H. destruct (held_fits _ _ _ _ H) as (W & Hv & n & L & -> & F).
  unfold answer, after. rewrite (list_window _ _ _ _ L F), (step_get _ _ _ L).
  destruct (ts_get s v) as [s1 [xs|e]] eqn:G; simpl; (split; [reflexivity|split]).
  - intros ys E. inversion E; subst. split; auto. destruct (get_live _ _ _ _ _ L G) as (_ & _ & X). destruct (X _ eq_refl) as (-> & _). auto.
  - discriminate.
  - discriminate.
  - intros e' E; inversion E; auto.
Qed.

Lemma C87_item s h v ps i k : held env s h v (Some ps) -> index (length ps) i k ->
  fst (h_item s h i) = after env (OHandleGet v (Z.of_nat (nth k ps 0))) s /\
  outcome VNum (snd (h_item s h i)) = answer env (OHandleGet v (Z.of_nat (nth k ps 0))) s.
Proof.
  intros H Ix. destruct (held_fits _ _ _ _ H) as (W & Hv & n & L & -> & F).
  unfold answer, after, h_item. rewrite (list_window _ _ _ _ L F). cbn [step].
  match goal with |- context [with_view s v KTimeseries ?f] => destruct (step_view f _ _ _ L) as (w & V & D & ->) end.
  destruct (v_data w) as [d|]; [|contradiction].
  destruct (ts_get s v) as [s1 [ys|e]] eqn:G; simpl; auto. rewrite map_length, (proj2 (index_iff _ _ _) Ix).
  destruct (get_live _ _ _ _ _ L G) as (_ & _ & X). destruct (X _ eq_refl) as (Ly & _).
  destruct Ix as (_ & Lk). rewrite nth_error_map, (nth_error_nth' ps 0 Lk). simpl.
  assert (Lj : nth k ps 0 < length ys) by (rewrite Ly; rewrite Forall_forall in F; apply F, nth_In; auto).
  assert (P : pyindex (length ys) (Z.of_nat (nth k ps 0)) = Some (nth k ps 0)).
  { apply index_iff. split; auto. unfold from_end. destruct (Z.ltb_spec (Z.of_nat (nth k ps 0)) 0); lia. }
  rewrite P, (nth_error_nth' ys None Lj). auto.
Qed.
Lemma C87_no_item s h v ps i ys : held env s h v (Some ps) -> (forall k, ~ index (length ps) i k) ->
  answer env (OGetValues v) s = Ok (VArr ys) -> snd (h_item s h i) = Err EIndexError.
Proof.
  intros H N A. destruct (C87_list _ _ _ _ H) as (_ & X & _). destruct (X _ A) as (Y & _).
  unfold h_item. destruct (h_list s h) as [s1 r]. simpl in Y. subst r. simpl. rewrite map_length.
  destruct (pyindex (length ps) i) as [k|] eqn:P; auto. apply index_iff in P. exfalso. eapply N; eauto.
Qed.

Lemma pyindex_nat m j : j < m -> pyindex m (Z.of_nat j) = Some j.
Proof. intros H. apply index_iff. split; auto. unfold from_end. destruct (Z.ltb_spec (Z.of_nat j) 0); lia. Qed.
Lemma C87_set s h v ps i k x : held env s h v (Some ps) -> index (length ps) i k ->
  fst (fst (h_set s h i x)) = after env (OHandleSet v (Z.of_nat (nth k ps 0)) x) s /\
  snd (fst (h_set s h i x)) = h /\
  outcome (fun _ => VUnit) (snd (h_set s h i x)) = answer env (OHandleSet v (Z.of_nat (nth k ps 0)) x) s.
Proof.
  intros H Ix. destruct (held_fits _ _ _ _ H) as (W & Hv & n & L & -> & F).
  unfold answer, after, h_set, h_put. rewrite (proj2 (index_iff _ _ _) Ix). cbn [step].
  match goal with |- context [with_view s v KTimeseries ?f] => destruct (step_view f _ _ _ L) as (w & V & D & ->) end.
  unfold handle_set. rewrite V. destruct L as (_ & w0 & d & V0 & _ & _ & D0 & Ln). rewrite V in V0. inversion V0; subst w0. rewrite D0.
  destruct Ix as (_ & Lk). rewrite pyindex_nat by (rewrite Ln; rewrite Forall_forall in F; apply F, nth_In; auto).
  simpl. destruct (cast_item (a_int d) x) as [y|e]; simpl; auto.
  destruct (ts_write _ v) as [s1 [u|e]]; simpl; auto.
Qed.
Lemma C87_no_set s h v ps i x : held env s h v (Some ps) -> (forall k, ~ index (length ps) i k) ->
  h_set s h i x = (s, h, Err EIndexError).
Proof.
  intros H N. destruct (held_fits _ _ _ _ H) as (W & Hv & n & L & -> & F). unfold h_set, h_put.
  destruct (pyindex (length ps) i) as [k|] eqn:P; auto. apply index_iff in P. exfalso. eapply N; eauto.
Qed.

Lemma all_sliced n : positions n (SSlice None None None) = Ok (seq 0 n).
Proof.
  apply positions_iff. simpl. left. split; [reflexivity|]. split.
  - rewrite <- (map_id (seq 0 n)). apply seq_map_sorted. auto.
  - intros j. rewrite in_seq. simpl. rewrite Z.sub_0_r. unfold slice_step. split; [|lia]. intros. repeat split; try lia. exists (Z.of_nat j). lia.
Qed.
Lemma C87_iadd s h v ps x ys : held env s h v (Some ps) -> answer env (OGetValues v) s = Ok (VArr ys) ->
  h_iadd s h x = if h_int (after env (OGetValues v) s) h then (after env (OGetValues v) s, h, Err ETypeError)
    else h_assign (after env (OGetValues v) s) h (SSlice None None None) (Many (map (fun j => nadd (nth j ys None) (Some x)) ps)).
Proof.
  intros H A. destruct (C87_list _ _ _ _ H) as (E & X & _). destruct (X _ A) as (Y & _).
  unfold h_iadd. destruct (h_list s h) as [s1 r]. simpl in E, Y. subst s1 r. destruct (h_int _ h); auto.
  unfold h_assign. rewrite map_map. unfold h_put. destruct h; now rewrite all_sliced.
Qed.

(** C88 *)
Lemma F2_len {A B} (R : A -> B -> Prop) l m : Forall2 R l m -> length l = length m.
Proof. induction 1; simpl; auto. Qed.
Lemma store_casts b n y zs zs' : stored_at n y zs -> to_store b n y = Ok zs' ->
  Forall2 (fun z z' => cast_item b z = Ok z') zs zs'.
Proof.
  assert (Rp : forall x z k, cast_item b x = Ok z -> Forall2 (fun z z' => cast_item b z = Ok z') (repeat x k) (repeat z k)).
  { induction k; simpl; constructor; auto. }
  assert (Rm : forall xs zs, rmap (fun x => match cast_item b x with Ok z => Ok z | Err _ => Err EInvalid end) xs = Ok zs ->
     Forall2 (fun z z' => cast_item b z = Ok z') xs zs).
  { induction xs as [|x xs IH]; cbn [rmap]; intros us H; [inversion H; constructor|].
    destruct (cast_item b x) eqn:C; [|discriminate]. destruct (rmap _ xs) as [l|]; [|discriminate]. inversion H; subst. constructor; auto. }
  destruct y as [x|xs]; unfold to_store; simpl stored_at.
  - intros -> H. destruct (cast_item b x) eqn:C; [|discriminate]. inversion H; subst. auto.
  - destruct (rmap _ xs) as [us|] eqn:R; [|discriminate]. apply Rm in R. intros St H.
    destruct R as [|x z xs us C R]; [destruct St as (-> & _); simpl in H|].
    + destruct n; inversion H; constructor.
    + destruct R as [|x' z' xs us C' R].
      * subst zs. inversion H; subst. auto.
      * destruct St as (-> & _). destruct (_ =? n); inversion H; subst. repeat constructor; auto.
Qed.
Lemma casts_store b n y zs zs' : stored_at n y zs -> 0 < n -> Forall2 (fun z z' => cast_item b z = Ok z') zs zs' -> to_store b n y = Ok zs'.
Proof.
  assert (Rm : forall xs zs, Forall2 (fun z z' => cast_item b z = Ok z') xs zs ->
    rmap (fun x => match cast_item b x with Ok z => Ok z | Err _ => Err EInvalid end) xs = Ok zs).
  { induction 1; cbn [rmap]; auto. now rewrite H, IHForall2. }
  assert (Rp : forall x k zs', Forall2 (fun z z' => cast_item b z = Ok z') (repeat x (S k)) zs' -> exists z, cast_item b x = Ok z /\ zs' = repeat z (S k)).
  { induction k; intros us F; inversion F as [|? z ? l C Fl]; subst.
    - exists z. split; auto. inversion Fl; auto.
    - destruct (IHk _ Fl) as (z' & C' & ->). exists z. split; auto. simpl. f_equal. congruence. }
  intros St N F. destruct n as [|n]; [lia|]. destruct y as [x|xs]; unfold to_store; simpl stored_at in St.
  - subst zs. destruct (Rp _ _ _ F) as (z & C & ->). now rewrite C.
  - destruct xs as [|x [|x' xs]].
    + destruct St as (_ & E). discriminate.
    + subst zs. destruct (Rp _ _ _ F) as (z & C & ->). simpl. now rewrite C.
    + destruct St as (-> & Le). rewrite (Rm _ _ F). pose proof (F2_len _ _ _ F) as Lf.
      destruct zs' as [|z [|z' zs']]; simpl in Lf; try lia.
      rewrite <- Le. replace (_ =? _) with true; auto. symmetry. apply Nat.eqb_eq. simpl in *. lia.
Qed.
Lemma stored_len n y zs : stored_at n y zs -> length zs = n.
Proof.
  destruct y as [x|[|x [|x' xs]]]; simpl; try (intros ->; apply repeat_length); intros (-> & H); auto.
Qed.

(** The states after [m] single assignments *)
Section Items.
Variables (s : state) (v : nat) (w : view) (q : param).
Hypothesis V : nth_error (st_views s) v = Some w.
Hypothesis Q : nth_error (st_params s) (v_param w) = Some q.
Hypothesis Pb : v_public w = true.
Hypothesis Ki : v_kind w = KTimeseries.
Hypothesis Un : v_locked w = false.

Definition pm (m : nat) (xs : list num) : param :=
  mkParam (p_name q) (p_parent q) (p_region q) (p_children q) (p_read q) (p_written q) (p_type q) (p_unit q)
    (p_time q) (Some (PArr xs)) (m + p_version q).
Definition vm (m : nat) (d : arr) : view :=
  mkView (v_public w) (v_kind w) (v_param w) (v_unit w) (v_uconv w) (v_tconv w) (v_children w) (v_writable w)
    (Some d) (v_locked w) (Some (m + p_version q)).
Definition st (m : nat) (d : arr) (xs : list num) : state :=
  mkState (st_regions s) (upd (st_params s) (v_param w) (pm m xs)) (upd (st_views s) v (vm m d)).

Lemma st_view m d xs : nth_error (st_views (st m d xs)) v = Some (vm m d).
Proof. simpl. apply nth_upd_eq. eapply nth_lt; eauto. Qed.
Lemma st_param m d xs : nth_error (st_params (st m d xs)) (v_param w) = Some (pm m xs).
Proof. simpl. apply nth_upd_eq. eapply nth_lt; eauto. Qed.

Lemma first_write d : ts_write (set_view s v (v_set_data w d)) v =
  match to_param w (a_val d) with Ok xs => (st 1 d xs, Ok tt) | Err e => (set_view s v (v_set_data w d), Err e) end.
Proof.
  unfold ts_write. rewrite (set_view_nth _ _ _ _ V). cbn [v_locked v_set_data v_data v_param]. rewrite Un.
  change (st_params (set_view s v (v_set_data w d))) with (st_params s). rewrite Q.
  change (to_param (v_set_data w d)) with (to_param w). destruct (to_param w (a_val d)); auto.
  f_equal. unfold st, set_view, set_param. simpl. rewrite upd_upd. reflexivity.
Qed.
Lemma next_write m d0 xs0 d : ts_write (set_view (st m d0 xs0) v (v_set_data (vm m d0) d)) v =
  match to_param w (a_val d) with Ok xs => (st (S m) d xs, Ok tt)
  | Err e => (set_view (st m d0 xs0) v (v_set_data (vm m d0) d), Err e) end.
Proof.
  unfold ts_write. rewrite (set_view_nth _ _ _ _ (st_view m d0 xs0)). cbn [v_locked v_set_data v_data v_param vm]. rewrite Un.
  change (st_params (set_view (st m d0 xs0) v _)) with (st_params (st m d0 xs0)). rewrite st_param.
  match goal with |- context [to_param ?x (a_val d)] => change (to_param x) with (to_param w) end.
  destruct (to_param w (a_val d)); auto.
  f_equal. unfold st, set_view, set_param. simpl. rewrite !upd_upd. reflexivity.
Qed.

Lemma item_first d j z z' : v_data w = Some d -> j < length (a_val d) -> cast_item (a_int d) z = Ok z' ->
  step env (OHandleSet v (Z.of_nat j) z) s =
  match to_param w (upd (a_val d) j z') with
  | Ok xs => (st 1 (mkArr (a_int d) (upd (a_val d) j z')) xs, Ok VUnit)
  | Err e => (set_view s v (v_set_data w (mkArr (a_int d) (upd (a_val d) j z'))), Err e) end.
Proof.
  intros D L C. cbn [step]. unfold with_view, handle_set. rewrite V, Pb, Ki, D, pyindex_nat, C, first_write by auto. simpl.
  destruct (to_param w _); auto.
Qed.
Lemma item_next m d xs0 j z z' : j < length (a_val d) -> cast_item (a_int d) z = Ok z' ->
  step env (OHandleSet v (Z.of_nat j) z) (st m d xs0) =
  match to_param w (upd (a_val d) j z') with
  | Ok xs => (st (S m) (mkArr (a_int d) (upd (a_val d) j z')) xs, Ok VUnit)
  | Err e => (set_view (st m d xs0) v (v_set_data (vm m d) (mkArr (a_int d) (upd (a_val d) j z'))), Err e) end.
Proof.
  intros L C. cbn [step]. unfold with_view, handle_set. rewrite st_view. cbn [v_public v_kind v_data vm]. rewrite Pb, Ki, pyindex_nat, C, next_write by auto. simpl.
  destruct (to_param w _); auto.
Qed.

Lemma to_param_len d d' xs : length d = length d' -> to_param w d = Ok xs -> exists xs', to_param w d' = Ok xs'.
Proof.
  intros L H. pose proof (to_param_both w d d' L) as B. rewrite H in B. destruct (to_param w d'); simpl in B; eauto. contradiction.
Qed.
Lemma items_next ps : forall zs zs' m d xs0, length ps = length zs -> Forall (fun j => j < length (a_val d)) ps ->
  Forall2 (fun z z' => cast_item (a_int d) z = Ok z') zs zs' -> to_param w (a_val d) = Ok xs0 ->
  exists xs, to_param w (put_all (a_val d) ps zs') = Ok xs /\
    answers env (one_by_one v ps zs) (st m d xs0) = repeat (Ok VUnit) (length ps) /\
    after_all env (one_by_one v ps zs) (st m d xs0) = st (length ps + m) (mkArr (a_int d) (put_all (a_val d) ps zs')) xs.
Proof.
  induction ps as [|j ps IH]; intros zs zs' m d xs0 L F C T.
  - exists xs0. destruct d; simpl in *. auto.
  - destruct zs as [|z zs]; [discriminate|]. inversion C as [|? z' ? us Cz Cs]; subst. inversion F; subst.
    destruct (to_param_len (a_val d) (upd (a_val d) j z') xs0) as (xs1 & T1); [now rewrite upd_length|auto|].
    pose proof (item_next m d xs0 j z z' H1 Cz) as St. rewrite T1 in St.
    destruct (IH zs us (S m) (mkArr (a_int d) (upd (a_val d) j z')) xs1) as (xs & T2 & An & Af); auto.
    { simpl. rewrite upd_length. auto. }
    exists xs. split; [exact T2|]. cbn [one_by_one combine map fst snd answers repeat length after_all fold_left] in *.
    unfold answer at 1, after at 1, after_all, after at 2. cbn [fold_left]. rewrite St. cbn [fst snd]. split.
    + f_equal. exact An.
    + unfold after_all in Af. unfold one_by_one in Af. rewrite Nat.add_succ_r in Af. exact Af.
Qed.
Lemma items_all ps zs zs' d : v_data w = Some d -> ps <> [] -> length ps = length zs -> Forall (fun j => j < length (a_val d)) ps ->
  Forall2 (fun z z' => cast_item (a_int d) z = Ok z') zs zs' -> forall xs0, to_param w (put_all (a_val d) ps zs') = Ok xs0 ->
  answers env (one_by_one v ps zs) s = repeat (Ok VUnit) (length ps) /\
  after_all env (one_by_one v ps zs) s = st (length ps) (mkArr (a_int d) (put_all (a_val d) ps zs')) xs0.
Proof.
  intros D N L F C xs0 T. destruct ps as [|j ps]; [contradiction|]. destruct zs as [|z zs]; [discriminate|].
  inversion C as [|? z' ? us Cz Cs]; subst. inversion F; subst.
  destruct (to_param_len (put_all (a_val d) (j :: ps) (z' :: us)) (upd (a_val d) j z') xs0) as (xs1 & T1); [now rewrite put_len, upd_length|auto|].
  pose proof (item_first d j z z' D H1 Cz) as St. rewrite T1 in St.
  destruct (items_next ps zs us 1 (mkArr (a_int d) (upd (a_val d) j z')) xs1) as (xs & T2 & An & Af); auto.
  { simpl. rewrite upd_length. auto. }
  simpl in T2. simpl in T. rewrite T in T2. inversion T2; subst xs.
  cbn [one_by_one combine map fst snd answers repeat length after_all fold_left] in *.
  unfold answer at 1, after at 1, after_all, after at 2. cbn [fold_left]. rewrite St. cbn [fst snd]. split.
  - f_equal. exact An.
  - unfold after_all, one_by_one in Af. rewrite Nat.add_1_r in Af. exact Af.
Qed.
Lemma items_fail ps zs zs' d : v_data w = Some d -> ps <> [] -> length ps = length zs -> Forall (fun j => j < length (a_val d)) ps ->
  Forall2 (fun z z' => cast_item (a_int d) z = Ok z') zs zs' -> forall e, to_param w (put_all (a_val d) ps zs') = Err e ->
  answers env (one_by_one v ps zs) s <> repeat (Ok VUnit) (length ps).
Proof.
  intros D N L F C e T. destruct ps as [|j ps]; [contradiction|]. destruct zs as [|z zs]; [discriminate|].
  inversion C as [|? z' ? us Cz Cs]; subst. inversion F; subst.
  pose proof (item_first d j z z' D H1 Cz) as St.
  destruct (to_param w (upd (a_val d) j z')) as [xs1|e1] eqn:T1.
  - destruct (to_param_len (upd (a_val d) j z') (put_all (a_val d) (j :: ps) (z' :: us)) xs1) as (xs2 & T2); auto; [now rewrite put_len, upd_length|].
    congruence.
  - cbn [one_by_one combine map fst snd answers repeat length]. unfold answer at 1. rewrite St. simpl. congruence.
Qed.
End Items.

(** States that differ in versions only *)
Lemma raised_answers Pp Kk Dd h : forall s, high Pp Kk s -> answers env h (E Pp Kk Dd s) = answers env h s.
Proof.
  induction h as [|o h IH]; intros s H; auto. cbn [answers]. unfold answer, after. rewrite (E_step _ _ _ env s o H). unfold Em. cbn [fst snd].
  f_equal. apply IH. eapply high_evo; [apply (evo_step env o s _ _ (surjective_pairing _))|auto].
Qed.
Lemma list_ext {A} (l : list A) : forall m, length l = length m -> (forall i, nth_error l i = nth_error m i) -> l = m.
Proof.
  induction l as [|a l IH]; intros [|b m] L H; try discriminate; auto.
  pose proof (H 0) as H0. simpl in H0. inversion H0; subst. f_equal. apply IH; auto. intros i. apply (H (S i)).
Qed.
Lemma st_raised s v w q d xs n : wf s -> nth_error (st_views s) v = Some w -> nth_error (st_params s) (v_param w) = Some q ->
  st s v w q (S n) d xs = E (v_param w) (p_version q) n (st s v w q 1 d xs).
Proof.
  intros W V Q. unfold st, E. simpl. f_equal.
  - apply list_ext; [now rewrite bumps_len, !upd_length|]. intros i. rewrite bumps_nth. simpl plus.
    destruct (Nat.eq_dec i (v_param w)) as [->|N].
    + rewrite !nth_upd_eq by (eapply nth_lt; eauto). simpl. unfold bp, pm. simpl. rewrite Nat.eqb_refl. f_equal. f_equal. unfold fv.
      destruct (Nat.ltb_spec (p_version q) (S (p_version q))); lia.
    + rewrite !nth_upd_neq by auto. destruct (nth_error (st_params s) i) as [p|]; simpl; auto. f_equal. unfold bp.
      destruct (Nat.eqb_spec i (v_param w)); [contradiction|]. destruct p; auto.
  - apply list_ext; [now rewrite map_length, !upd_length|]. intros i. rewrite nth_error_map.
    destruct (Nat.eq_dec i v) as [->|N].
    + rewrite !nth_upd_eq by (eapply nth_lt; eauto). simpl. unfold ev, vm. simpl. rewrite Nat.eqb_refl. do 3 f_equal. unfold fv.
      destruct (Nat.ltb_spec (p_version q) (S (p_version q))); lia.
    + rewrite !nth_upd_neq by auto. destruct (nth_error (st_views s) i) as [u|] eqn:U; simpl; auto. f_equal. unfold ev.
      destruct (wf_views _ _ W _ _ U) as (q' & Q' & I). pose proof (vi_version _ _ _ _ _ I) as Ve.
      destruct u as [a1 a2 up a4 a5 a6 a7 a8 a9 a10 uv]. simpl in *. f_equal. destruct uv as [k|]; simpl; auto.
      destruct (Nat.eqb_spec up (v_param w)) as [->|]; auto. rewrite Q in Q'. inversion Q'; subst q'. specialize (Ve k eq_refl).
      unfold fv. destruct (Nat.ltb_spec (p_version q) k); auto; lia.
Qed.

(** A locked view keeps everything to itself. *)
Lemma items_locked v w ps : v_public w = true -> v_kind w = KTimeseries -> v_locked w = true ->
  forall zs zs' d s, nth_error (st_views s) v = Some (v_set_data w d) -> length ps = length zs -> Forall (fun j => j < length (a_val d)) ps ->
  Forall2 (fun z z' => cast_item (a_int d) z = Ok z') zs zs' ->
  answers env (one_by_one v ps zs) s = repeat (Ok VUnit) (length ps) /\
  after_all env (one_by_one v ps zs) s = set_view s v (v_set_data w (mkArr (a_int d) (put_all (a_val d) ps zs'))).
Proof.
  intros Pb Ki Lo. induction ps as [|j ps IH]; intros zs zs' d s V L F C.
  - split; auto. simpl. destruct d; simpl. unfold set_view. rewrite upd_same by auto. destruct s; auto.
  - destruct zs as [|z zs]; [discriminate|]. inversion C as [|? z' ? us Cz Cs]; subst. inversion F; subst.
    assert (St : step env (OHandleSet v (Z.of_nat j) z) s = (set_view s v (v_set_data w (mkArr (a_int d) (upd (a_val d) j z'))), Ok VUnit)).
    { cbn [step]. unfold with_view, handle_set. rewrite V. cbn [v_public v_kind v_set_data v_data]. rewrite Pb, Ki, pyindex_nat, Cz by auto.
      unfold ts_write. rewrite (set_view_nth _ _ _ _ V). cbn [v_locked v_set_data]. rewrite Lo. reflexivity. }
    destruct (IH zs us (mkArr (a_int d) (upd (a_val d) j z')) (set_view s v (v_set_data w (mkArr (a_int d) (upd (a_val d) j z'))))) as (An & Af); auto.
    { eapply set_view_nth; eauto. }
    { simpl. rewrite upd_length. auto. }
    cbn [one_by_one combine map fst snd answers repeat length after_all fold_left] in *.
    unfold answer at 1, after at 1, after_all, after at 2. cbn [fold_left]. rewrite St. cbn [fst snd]. split.
    + f_equal. exact An.
    + unfold after_all, one_by_one in Af. rewrite Af. unfold set_view. simpl. rewrite upd_upd. auto.
Qed.

(** If all single assignments succeed, all numbers can be stored. *)
Lemma items_cast v b : forall ps zs s w d, nth_error (st_views s) v = Some w -> v_public w = true -> v_kind w = KTimeseries ->
  v_data w = Some d -> a_int d = b -> length ps = length zs ->
  answers env (one_by_one v ps zs) s = repeat (Ok VUnit) (length ps) ->
  exists zs', Forall2 (fun z z' => cast_item b z = Ok z') zs zs'.
Proof.
  induction ps as [|j ps IH]; intros zs s w d V Pb Ki D B L A; destruct zs as [|z zs]; try discriminate; [exists []; constructor|].
  cbn [one_by_one combine map fst snd answers repeat length] in A. injection A as A1 A2. unfold after in A2. fold (one_by_one v ps zs) in A2. unfold answer in A1.
  assert (X : exists z' w' d', cast_item b z = Ok z' /\ nth_error (st_views (fst (step env (OHandleSet v (Z.of_nat j) z) s))) v = Some w' /\
    v_public w' = true /\ v_kind w' = KTimeseries /\ v_data w' = Some d' /\ a_int d' = b).
  { cbn [step] in A1 |- *. unfold with_view, handle_set in *. rewrite V, Pb, Ki, D in *. destruct (pyindex _ _) as [j'|]; [|discriminate].
    rewrite B in *. destruct (cast_item b z) as [z'|] eqn:C; [|discriminate]. exists z'.
    set (dd := mkArr b (upd (a_val d) j' z')) in *.
    unfold ts_write in *. rewrite (set_view_nth _ _ _ _ V) in *. cbn [v_locked v_set_data v_data v_param] in *.
    destruct (v_locked w).
    - exists (v_set_data w dd), dd. simpl fst. rewrite (set_view_nth _ _ _ _ V). auto 6.
    - change (st_params (set_view s v (v_set_data w dd))) with (st_params s) in *.
      destruct (nth_error (st_params s) (v_param w)) as [q|]; [|discriminate]. destruct (to_param _ _) as [xs|]; [|discriminate].
      exists (v_set_version (v_set_data w dd) (S (p_version q))), dd. simpl. rewrite nth_upd_eq; [auto 6|].
      rewrite upd_length. eapply nth_lt; eauto. }
  destruct X as (z' & w' & d' & C & V' & Pb' & Ki' & D' & B'). simpl in L.
  destruct (IH zs _ w' d' V' Pb' Ki' D' B' ltac:(lia) A2) as (us & F). exists (z' :: us). constructor; auto.
Qed.

Lemma C88_proof s h v ps x js y zs : held env s h v (Some ps) -> selected (length ps) x js -> js <> [] ->
  stored_at (length js) y zs ->
  let steps := one_by_one v (map (fun j => nth j ps 0) js) zs in
  (snd (h_assign s h x y) = Ok tt <-> answers env steps s = repeat (Ok VUnit) (length js)) /\
  (snd (h_assign s h x y) = Ok tt ->
     snd (fst (h_assign s h x y)) = h /\ indistinguishable env (fst (fst (h_assign s h x y))) (after_all env steps s)).
Proof.
  intros H Sl N Sa steps. destruct (held_fits _ _ _ _ H) as (W & Hv & n & L & -> & F).
  assert (Fp : Forall (fun j => j < n) (map (fun j => nth j ps 0) js)).
  { apply pos_lt; auto. apply Forall_forall. intros j. now apply (selected_lt _ _ _ _ Sl). }
  apply positions_iff in Sl. set (pos := map (fun j => nth j ps 0) js) in *.
  assert (Lp : length pos = length js) by apply map_length.
  assert (Np : pos <> []) by (destruct js; [contradiction|discriminate]).
  pose proof (stored_len _ _ _ Sa) as Lz.
  destruct L as (_ & w & d & V & Pb & Ki & D & Ln). subst n.
  destruct (wf_views _ _ W _ _ V) as (q & Q & I).
  unfold h_assign, h_put. rewrite Sl, V, D. fold pos. rewrite <- Lp.
  destruct (to_store (a_int d) (length pos) y) as [zs'|e] eqn:T.
  - rewrite Lp in T. pose proof (store_casts _ _ _ _ _ Sa T) as C.
    destruct (v_locked w) eqn:Lo.
    + unfold ts_write. rewrite (set_view_nth _ _ _ _ V). cbn [v_locked v_set_data]. rewrite Lo. cbn [fst snd].
      destruct (items_locked v w pos Pb Ki Lo zs zs' d s) as (An & Af); auto; [|congruence|].
      { rewrite V. f_equal. destruct w; simpl in *. now rewrite D. }
      split; [split; auto|]. intros _. split; auto. intros h. unfold steps. now rewrite Af.
    + rewrite (first_write s v w q V Q Lo). cbn [a_val a_int].
      destruct (to_param w (put_all (a_val d) pos zs')) as [xs|e] eqn:Tp; cbn [fst snd].
      * destruct (items_all s v w q V Q Pb Ki Lo pos zs zs' d D Np ltac:(congruence) Fp C xs Tp) as (An & Af).
        split; [split; auto|]. intros _. split; auto. unfold steps. rewrite Af. intros h.
        destruct (length pos) as [|k] eqn:Lk; [destruct pos; [contradiction|discriminate]|].
        rewrite (st_raised s v w q _ xs k W V Q). rewrite raised_answers; auto.
        exists (pm q 1 xs). split; [apply st_param; auto|]. simpl. lia.
      * split; [|discriminate]. split; [discriminate|]. intros A. exfalso.
        eapply (items_fail s v w q V Q Pb Ki Lo pos zs zs' d); eauto. congruence.
  - cbn [fst snd]. split; [|discriminate]. split; [discriminate|]. intros A. exfalso.
    destruct (items_cast v (a_int d) pos zs s w d V Pb Ki D eq_refl ltac:(congruence) A) as (zs' & C).
    rewrite Lp in T. rewrite (casts_store _ _ _ _ zs' Sa) in T; [discriminate| |auto].
    destruct js; [contradiction|simpl; lia].
Qed.
Lemma C88_refused s h v ps x y : held env s h v (Some ps) ->
  (forall js, selected (length ps) x js -> forall zs, ~ stored_at (length js) y zs) ->
  exists e, h_assign s h x y = (s, h, Err e).
Proof.
  intros H N. destruct (held_fits _ _ _ _ H) as (W & Hv & n & L & -> & F). unfold h_assign, h_put.
  destruct (positions (length ps) x) as [js|e] eqn:P; [|eauto].
  destruct L as (_ & w & d & V & Pb & Ki & D & Ln). rewrite V, D.
  destruct (to_store (a_int d) (length js) y) as [zs'|e] eqn:T; [|eauto]. exfalso.
  apply positions_iff in P. specialize (N _ P). destruct y as [z|xs].
  - apply (N (repeat z (length js))). reflexivity.
  - unfold to_store in T. destruct (rmap _ xs) as [us|] eqn:R; [|discriminate].
    assert (Lu : length us = length xs).
    { clear - R. revert us R. induction xs; cbn [rmap]; intros us R; [inversion R; auto|]. destruct (cast_item _ _); [|discriminate].
      destruct (rmap _ xs); inversion R; subst. simpl. f_equal. auto. }
    destruct xs as [|x1 [|x2 xs]].
    + destruct us; [|discriminate]. destruct js; [|discriminate]. apply (N []). simpl. auto.
    + apply (N (repeat x1 (length js))). reflexivity.
    + destruct us as [|u1 [|u2 us]]; try discriminate. destruct (Nat.eqb_spec (length (u1 :: u2 :: us)) (length js)); [|discriminate].
      apply (N (x1 :: x2 :: xs)). simpl. split; auto. simpl in *. lia.
Qed.
End P.
