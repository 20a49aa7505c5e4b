(** Proofs about [ParameterType.v] (C62). *)
From Coq Require Import String Ascii List ZArith Bool Lia Arith.
From Verif Require Import Base Units TimeModel Regex ParameterType Spec_Filters Spec_Guess FiltersProps.
Import ListNotations.
Local Open Scope string_scope.
Local Open Scope list_scope.

(** A match of [r] on all of [s]: whether anything is found. *)
Definition some_rest (r : re) (n : nat) (s : string) : Prop := exists x, In x (rests r n s).

Lemma match_rest r s : re_match r s = true <-> some_rest r (String.length s) s.
Proof.
  unfold re_match, some_rest. destruct (rests r (String.length s) s) as [|x l]; split; intros H; auto; try discriminate.
  - destruct H as (? & []).
  - exists x. now left.
Qed.
Lemma rest_eps n s : some_rest REps n s <-> True.
Proof. split; auto. intros _. exists s. now left. Qed.
Lemma rest_seq a b n s : some_rest (RSeq a b) n s <-> exists s', In s' (rests a n s) /\ some_rest b n s'.
Proof.
  unfold some_rest. cbn. setoid_rewrite in_flat_map. split.
  - intros (x & s' & H1 & H2). eauto.
  - intros (s' & H1 & x & H2). eauto.
Qed.
Lemma rest_alt a b n s : some_rest (RAlt a b) n s <-> some_rest a n s \/ some_rest b n s.
Proof.
  unfold some_rest. cbn [rests]. setoid_rewrite in_app_iff. split; [intros (x & [H|H]); eauto|intros [(x & H)|(x & H)]; eauto].
Qed.
Lemma rest_chr c r n s : some_rest (RSeq (RChr c) r) n s <-> exists s', s = String c s' /\ some_rest r n s'.
Proof.
  rewrite rest_seq. split.
  - intros (s' & H & R). destruct s as [|d s]; [destruct H|]. unfold RChr in H. cbn [rests xorb] in H. rewrite in_chr in H.
    destruct (Ascii.eqb_spec d c); [|destruct H]. destruct H as [<-|[]]. subst. eauto.
  - intros (s' & -> & R). exists s'. split; auto. unfold RChr. cbn [rests xorb]. rewrite in_chr, Ascii.eqb_refl. now left.
Qed.
Lemma rest_any r n s : some_rest (RSeq (repeat_re RAny 0 None) r) n s <->
  exists u s', s = (u ++ s')%string /\ one_line u /\ some_rest r n s'.
Proof.
  rewrite rest_seq. setoid_rewrite rests_any_star. split.
  - intros (s' & (u & -> & U) & R). eauto.
  - intros (u & s' & -> & U & R). eauto.
Qed.
Lemma rest_bol r n s : some_rest (RSeq RBol r) n s <-> String.length s = n /\ some_rest r n s.
Proof.
  rewrite rest_seq. cbn [rests]. split.
  - intros (s' & H & R). destruct (Nat.eqb_spec (String.length s) n); [|destruct H]. destruct H as [<-|[]]. auto.
  - intros (-> & R). rewrite Nat.eqb_refl. exists s. split; auto. now left.
Qed.
Lemma rest_assoc a b c n s : some_rest (RSeq (RSeq a b) c) n s <-> some_rest (RSeq a (RSeq b c)) n s.
Proof.
  rewrite !rest_seq. setoid_rewrite rest_seq. cbn [rests]. setoid_rewrite in_flat_map. split.
  - intros (s' & (x & H1 & H2) & R). eauto.
  - intros (x & H1 & s' & H2 & R). eauto.
Qed.
Lemma rest_seq_alt a b c n s : some_rest (RSeq (RAlt a b) c) n s <-> some_rest (RSeq a c) n s \/ some_rest (RSeq b c) n s.
Proof.
  rewrite !rest_seq. cbn [rests]. setoid_rewrite in_app_iff. split.
  - intros (s' & [H|H] & R); eauto.
  - intros [(s' & H & R)|(s' & H & R)]; eauto.
Qed.
Lemma rest_seq_eps c n s : some_rest (RSeq REps c) n s <-> some_rest c n s.
Proof.
  rewrite rest_seq. cbn [rests]. split.
  - intros (s' & [<-|[]] & R). auto.
  - intros R. exists s. split; auto. now left.
Qed.
Lemma rest_opt g r n s : some_rest (RSeq (repeat_re g 0 (Some 1)) r) n s <-> some_rest r n s \/ some_rest (RSeq g r) n s.
Proof.
  unfold repeat_re. cbn [times up_to Nat.sub]. rewrite rest_assoc, rest_seq_eps, rest_seq_alt, rest_seq_eps, rest_assoc.
  apply or_iff_compat_l. rewrite !rest_seq. now setoid_rewrite rest_seq_eps.
Qed.

(** A literal text. *)
Fixpoint lit (w : string) (r : re) : re := match w with "" => r | String c w' => RSeq (RChr c) (lit w' r) end.
Lemma rest_lit w r n s : some_rest (lit w r) n s <-> exists s', s = (w ++ s')%string /\ some_rest r n s'.
Proof.
  revert s. induction w as [|c w IH]; intros s; cbn [lit String.append].
  - split; [eauto|]. intros (s' & -> & R). auto.
  - rewrite rest_chr. setoid_rewrite IH. split.
    + intros (s' & -> & s'' & -> & R). eauto.
    + intros (s' & -> & R). eauto.
Qed.

Lemma rest_seq_lit w a r n s : some_rest (RSeq (lit w a) r) n s <-> exists s', s = (w ++ s')%string /\ some_rest (RSeq a r) n s'.
Proof.
  revert s. induction w as [|c w IH]; intros s; cbn [lit String.append].
  - split; [eauto|]. intros (s' & -> & R). auto.
  - rewrite rest_assoc, rest_chr. setoid_rewrite IH. split.
    + intros (s' & -> & s'' & -> & R). eauto.
    + intros (s' & -> & R). eauto.
Qed.

(** [w] starts the text. *)
Lemma prefix_iff w s : String.prefix w s = true <-> exists s', s = (w ++ s')%string.
Proof.
  revert s. induction w as [|c w IH]; intros s; cbn [String.prefix String.append].
  - destruct s; split; eauto.
  - destruct s as [|d s]; [split; [discriminate|]; intros (x & E); discriminate|].
    cbn [String.prefix]. destruct (ascii_dec c d).
    + subst. rewrite IH. split; intros (s' & E); exists s'; congruence.
    + split; [discriminate|]. intros (? & E). congruence.
Qed.

Lemma contains_any w r s n : one_line s -> (forall s', some_rest r n s' <-> True) ->
  some_rest (RSeq (repeat_re RAny 0 None) (lit w r)) n s <-> contains s w.
Proof.
  intros L T. rewrite rest_any. setoid_rewrite rest_lit. setoid_rewrite T. split.
  - intros (u & s' & -> & _ & s'' & -> & _). exists u, s''. reflexivity.
  - intros (a & b & ->). exists a, (w ++ b)%string. split; auto. split; eauto.
    intros O. apply L. apply occ_app. auto.
Qed.

Lemma match_or (p : string) (r : re) (s : string) (P : Prop) : re_compile p = Some r ->
  (some_rest r (String.length s) s <-> P) ->
  ((match compiled_match p s with Some b => b | None => false end) = true <-> P).
Proof. intros C E. unfold compiled_match. rewrite C. now rewrite match_rest. Qed.

Lemma m_bol w s : re_compile ("^" ++ w) = Some (RSeq RBol (lit w REps)) ->
  (match compiled_match ("^" ++ w) s with Some b => b | None => false end) = String.prefix w s.
Proof.
  intros C. apply eq_true_iff_eq. rewrite (match_or _ _ s _ C) by reflexivity.
  rewrite rest_bol, rest_lit, prefix_iff. setoid_rewrite rest_eps.
  split; [intros (_ & s' & E & _); eauto|intros (s' & E); eauto].
Qed.
Lemma m_lit w s : re_compile w = Some (lit w REps) ->
  (match compiled_match w s with Some b => b | None => false end) = String.prefix w s.
Proof.
  intros C. apply eq_true_iff_eq. rewrite (match_or _ _ s _ C) by reflexivity.
  rewrite rest_lit, prefix_iff. setoid_rewrite rest_eps.
  split; [intros (s' & E & _); eauto|intros (s' & E); eauto].
Qed.

Lemma one_line_left u x : one_line (u ++ x) -> one_line u.
Proof. intros L O. apply L. apply occ_app. auto. Qed.

Lemma m_emis s : one_line s -> (match compiled_match ".*_(GWP)?EMIS" s with Some b => b | None => false end) = true <->
  contains s "_EMIS" \/ contains s "_GWPEMIS".
Proof.
  intros L. rewrite (match_or ".*_(GWP)?EMIS" (RSeq (repeat_re RAny 0 None) (RSeq (RChr "_") (RSeq (repeat_re (lit "GWP" REps) 0 (Some 1)) (lit "EMIS" REps)))) s _ eq_refl) by reflexivity.
  rewrite rest_any. setoid_rewrite rest_chr. setoid_rewrite rest_opt. setoid_rewrite rest_seq_lit.
  setoid_rewrite rest_seq_eps. setoid_rewrite rest_lit. setoid_rewrite rest_eps. unfold contains. cbn [String.append]. split.
  - intros (u & s' & -> & U & x & -> & [(y & -> & _)|(y & -> & z & -> & _)]); [left|right]; eauto.
  - intros [(u & x & ->)|(u & x & ->)]; exists u; eexists; (split; [reflexivity|]); (split; [now apply one_line_left in L|]);
      (eexists; split; [reflexivity|]); [left; eauto|right].
    eexists. split; [reflexivity|]. eauto.
Qed.

Lemma m_rf s : one_line s -> (match compiled_match ".*_(PEFF|EFF|S)?RF" s with Some b => b | None => false end) = true <->
  contains s "_RF" \/ contains s "_PEFFRF" \/ contains s "_EFFRF" \/ contains s "_SRF".
Proof.
  intros L. rewrite (match_or ".*_(PEFF|EFF|S)?RF" (RSeq (repeat_re RAny 0 None) (RSeq (RChr "_")
    (RSeq (repeat_re (RAlt (lit "PEFF" REps) (RAlt (lit "EFF" REps) (lit "S" REps))) 0 (Some 1)) (lit "RF" REps)))) s _ eq_refl) by reflexivity.
  rewrite rest_any. setoid_rewrite rest_chr. setoid_rewrite rest_opt. setoid_rewrite rest_seq_alt. setoid_rewrite rest_seq_alt.
  setoid_rewrite rest_seq_lit. setoid_rewrite rest_seq_eps. setoid_rewrite rest_lit. setoid_rewrite rest_eps. unfold contains. cbn [String.append]. split.
  - intros (u & s' & -> & U & x & -> & [(y & -> & _)|[(y & -> & z & -> & _)|[(y & -> & z & -> & _)|(y & -> & z & -> & _)]]]);
      [left|right; left|right; right; left|right; right; right]; eauto.
  - intros [(u & x & ->)|[(u & x & ->)|[(u & x & ->)|(u & x & ->)]]];
      exists u; eexists; (split; [reflexivity|]); (split; [now apply one_line_left in L|]); (eexists; split; [reflexivity|]);
      [left; eauto|right; left|right; right; left|right; right; right]; eexists; (split; [reflexivity|]); eauto.
Qed.

Lemma m_flux s : one_line s -> (match compiled_match ".*Flux" s with Some b => b | None => false end) = true <-> contains s "Flux".
Proof.
  intros L. rewrite (match_or ".*Flux" (RSeq (repeat_re RAny 0 None) (lit "Flux" REps)) s _ eq_refl) by reflexivity.
  apply contains_any; auto. intros; apply rest_eps.
Qed.

Lemma guess_name_eq v : one_line v -> (average_name v /\ guess_by_name parameter_matches v = AVERAGE_TIMESERIES) \/
  (~ average_name v /\ guess_by_name parameter_matches v = POINT_TIMESERIES).
Proof.
  intros L. unfold parameter_matches. cbn [guess_by_name].
  pose proof (m_emis v L) as M1. pose proof (m_flux v L) as M2. pose proof (m_rf v L) as M3.
  pose proof (m_bol "Emissions" v eq_refl) as M4. pose proof (m_bol "Radiative Forcing" v eq_refl) as M5.
  pose proof (m_lit "HEATUPTAKE_EBALANCE_TOTAL" v eq_refl) as M6. cbn [String.append] in M4, M5.
  assert (A : average_name v <-> String.prefix "Emissions" v = true \/ (contains v "_EMIS" \/ contains v "_GWPEMIS") \/ contains v "Flux" \/
    (contains v "_RF" \/ contains v "_PEFFRF" \/ contains v "_EFFRF" \/ contains v "_SRF") \/
    String.prefix "Radiative Forcing" v = true \/ String.prefix "HEATUPTAKE_EBALANCE_TOTAL" v = true).
  { unfold average_name. split.
    - intros [H|[H|[H|(w & Hw & H)]]]; auto 8. cbn in Hw. destruct Hw as [<-|[<-|[<-|[<-|[<-|[<-|[<-|[]]]]]]]]; auto 12.
    - intros [H|[[H|H]|[H|[[H|[H|[H|H]]]|[H|H]]]]]; auto; do 3 right; eexists; (split; [|exact H]); cbn; tauto. }
  rewrite A, <- M1, <- M2, <- M3, <- M4, <- M5, <- M6. clear.
  repeat match goal with |- context [if ?b then AVERAGE_TIMESERIES else _] => destruct b; [left; split; [auto 8|reflexivity]|] end.
  right. split; [intros H; repeat destruct H as [H|H]; discriminate|].
  repeat match goal with |- context [if ?b then _ else _] => destruct b; auto end.
Qed.

Lemma guess_missing env v u : one_line v -> no_unit env u ->
  exists t, guess_parameter_type env v u = Ok t /\ (t = AVERAGE_TIMESERIES <-> average_name v) /\ (t = POINT_TIMESERIES <-> ~ average_name v).
Proof.
  intros L U. exists (guess_by_name parameter_matches v). split.
  - unfold guess_parameter_type. destruct U as [->|[->|(w & -> & N & E)]]; auto. destruct w as [|c w]; auto.
    rewrite E. replace (is_number (String c w)) with false; auto.
    symmetry. apply not_true_iff_false. intros I. apply N. split; [discriminate|].
    unfold is_number in I. rewrite forallb_forall in I. intros d D. specialize (I d D).
    destruct (digit d) as [k|] eqn:Dg; [|discriminate]. clear - Dg. 
    destruct d as [[] [] [] [] [] [] [] []]; try discriminate Dg; cbn; tauto.
  - destruct (guess_name_eq v L) as [[A ->]|[A ->]]; split; split; auto; try discriminate; try tauto.
Qed.
Lemma guess_known env v u d : u <> "" -> ~ number u -> env u = Some d ->
  exists t, guess_parameter_type env v (Some u) = Ok t /\
    (t = AVERAGE_TIMESERIES <-> involves_time d) /\ (t = POINT_TIMESERIES <-> ~ involves_time d).
Proof.
  intros U N E. unfold guess_parameter_type. destruct u as [|c w]; [easy|]. rewrite E.
  replace (is_number (String c w)) with false.
  2: { symmetry. apply not_true_iff_false. intros I. apply N. split; [discriminate|].
    unfold is_number in I. rewrite forallb_forall in I. intros e D. specialize (I e D).
    destruct (digit e) as [k|] eqn:Dg; [|discriminate]. clear - Dg. 
    destruct e as [[] [] [] [] [] [] [] []]; try discriminate Dg; cbn; tauto. }
  destruct (existsb (fun p => fst p =? "time")%string (u_dim d)) eqn:X.
  - exists AVERAGE_TIMESERIES. split; auto. apply existsb_exists in X as ([n k] & X & Y). apply String.eqb_eq in Y. cbn in Y. subst.
    assert (involves_time d) by (exists k; auto). split; split; auto; try discriminate; try tauto.
  - exists POINT_TIMESERIES. split; auto.
    assert (~ involves_time d). { intros (k & H). rewrite <- not_true_iff_false in X. apply X. apply existsb_exists. exists ("time", k). auto. }
    split; split; auto; try discriminate; try tauto.
Qed.
Lemma guess_number env v u : number u -> guess_parameter_type env v (Some u) = Err EAttributeError.
Proof.
  intros [U D]. unfold guess_parameter_type. destruct u as [|c w]; [easy|].
  replace (is_number (String c w)) with true; auto. symmetry. unfold is_number. apply forallb_forall. intros e E.
  specialize (D e E). cbn in D. repeat destruct D as [<-|D]; try reflexivity; destruct D.
Qed.
