(** Proofs about [Memory.v]. *)
From Coq Require Import String List ZArith Reals Bool Arith Lia.
From Verif Require Import Base Units TimeModel Core Memory Spec_Memory ListFacts.
Import ListNotations.
Local Open Scope string_scope.
Local Open Scope list_scope.

(** Array [r] exists (there are [k]) and is not one of [D]. *)
Definition okr (D : nat -> Prop) (k r : nat) : Prop := r < k /\ ~ D r.
Definition oko D k (o : option nat) : Prop := forall r, o = Some r -> okr D k r.
Definition okp D k (q : mparam) : Prop := oko D k (mp_time q) /\ oko D k (mp_data q).
Definition okv D k (w : mview) : Prop := oko D k (mv_source w) /\ oko D k (mv_target w) /\ oko D k (mv_data w).

Lemma okr_mono D k k' r : okr D k r -> k <= k' -> okr D k' r.
Proof. intros [A B] L. split; auto. lia. Qed.
Lemma oko_mono D k k' o : oko D k o -> k <= k' -> oko D k' o.
Proof. intros H L r E. apply (okr_mono D k); auto. Qed.
Lemma okp_mono D k k' q : okp D k q -> k <= k' -> okp D k' q.
Proof. intros [A B] L. split; eapply oko_mono; eauto. Qed.
Lemma okv_mono D k k' q : okv D k q -> k <= k' -> okv D k' q.
Proof. intros (A & B & C) L. split; [|split]; eapply oko_mono; eauto. Qed.
Lemma oko_none D k : oko D k None.
Proof. intros r; discriminate. Qed.
Lemma oko_some D k r : okr D k r -> oko D k (Some r).
Proof. intros H r' [= <-]; auto. Qed.
Global Hint Resolve oko_none oko_some : mm.

(** Two memories that differ in the content of the arrays [X] only; no array of [D] belongs to a
    parameter or view. *)
Record agree (D X : nat -> Prop) (s s' : mem) : Prop := {
  ag_params : m_params s = m_params s';
  ag_views : m_views s = m_views s';
  ag_caller : m_caller s = m_caller s';
  ag_len : length (m_heap s) = length (m_heap s');
  ag_heap : forall r, ~ X r -> nth_error (m_heap s) r = nth_error (m_heap s') r;
  ag_dom : forall r, D r -> r < length (m_heap s);
  ag_c : forall r, In r (m_caller s) -> r < length (m_heap s);
  ag_p : forall p q, nth_error (m_params s) p = Some q -> okp D (length (m_heap s)) q;
  ag_v : forall v w, nth_error (m_views s) v = Some w -> okv D (length (m_heap s)) w }.

Section Relational.
Variables D X : nat -> Prop.
Hypothesis XD : forall r, X r -> D r.

Definition resp {A} (k : nat) (x : MM A) (Q : nat -> A -> Prop) : Prop :=
  forall s s', agree D X s s' -> k <= length (m_heap s) ->
  exists t t' o, x s = (t, o) /\ x s' = (t', o) /\ agree D X t t' /\
    length (m_heap s) <= length (m_heap t) /\
    (forall a, o = Ok a -> Q (length (m_heap t)) a).

Lemma resp_bind {A B} k (x : MM A) (f : A -> MM B) Q Q' :
  resp k x Q -> (forall k' a, k <= k' -> Q k' a -> resp k' (f a) Q') -> resp k (mbind x f) Q'.
Proof.
  intros Hx Hf s s' AG L.
  destruct (Hx s s' AG L) as (t & t' & o & E & E' & AG' & M & HQ).
  unfold mbind. rewrite E, E'. destruct o as [a|e].
  - destruct (Hf (length (m_heap t)) a) with (s := t) (s' := t') as (u & u' & o' & F & F' & AG2 & M2 & HQ2);
      auto; [lia|].
    exists u, u', o'. split; [auto|split; [auto|split; [auto|split; [lia|auto]]]].
  - exists t, t', (Err e). split; [auto|split; [auto|split; [auto|split; [auto|]]]]. discriminate.
Qed.
Lemma resp_weaken {A} k (x : MM A) (Q Q' : nat -> A -> Prop) :
  resp k x Q -> (forall k' a, k <= k' -> Q k' a -> Q' k' a) -> resp k x Q'.
Proof.
  intros H W s s' AG L. destruct (H s s' AG L) as (t & t' & o & E & E' & AG' & M & HQ).
  exists t, t', o. repeat (split; [assumption|]). intros a Ea. apply W; auto. lia.
Qed.
Lemma resp_ret {A} k (a : A) (Q : nat -> A -> Prop) : (forall k', k <= k' -> Q k' a) -> resp k (mret a) Q.
Proof.
  intros H s s' AG L. exists s, s', (Ok a). split; [reflexivity|split; [reflexivity|split; [auto|split; [auto|]]]].
  intros a' [= <-]. auto.
Qed.
Lemma resp_lift {A} k (r : res A) (Q : nat -> A -> Prop) :
  (forall a k', r = Ok a -> k <= k' -> Q k' a) -> resp k (mlift r) Q.
Proof.
  intros H s s' AG L. exists s, s', r. split; [reflexivity|split; [reflexivity|split; [auto|split; [auto|]]]].
  intros a E. apply H; auto.
Qed.
Lemma resp_raise {A} k e (Q : nat -> A -> Prop) : resp k (mraise e) Q.
Proof.
  intros s s' AG L. exists s, s', (Err e). split; [reflexivity|split; [reflexivity|split; [auto|split; [auto|]]]].
  discriminate.
Qed.

Lemma resp_get_param k p : resp k (get_param p) (fun k' q => okp D k' q).
Proof.
  intros s s' AG L. unfold get_param. rewrite <- (ag_params _ _ _ _ AG).
  eexists s, s', _. split; [reflexivity|split; [reflexivity|split; [auto|split; [auto|]]]].
  intros a. destruct nth_error eqn:E; [|discriminate]. intros [= <-]. eapply ag_p; eauto.
Qed.
Lemma resp_get_view k p : resp k (get_view p) (fun k' q => okv D k' q).
Proof.
  intros s s' AG L. unfold get_view. rewrite <- (ag_views _ _ _ _ AG).
  eexists s, s', _. split; [reflexivity|split; [reflexivity|split; [auto|split; [auto|]]]].
  intros a. destruct nth_error eqn:E; [|discriminate]. intros [= <-]. eapply ag_v; eauto.
Qed.
Lemma resp_put_param k p q : okp D k q -> resp k (put_param p q) (fun _ _ => True).
Proof.
  intros O s s' AG L. unfold put_param.
  eexists _, _, _. split; [reflexivity|split; [reflexivity|split; [|split; [simpl; auto|auto]]]].
  destruct AG. constructor; simpl; auto; try congruence.
  intros p' q' E. rewrite nth_upd in E. destruct (p =? p')%nat.
  - destruct nth_error; [|discriminate]. injection E as <-. eapply okp_mono; eauto.
  - eauto.
Qed.
Lemma resp_put_view k p q : okv D k q -> resp k (put_view p q) (fun _ _ => True).
Proof.
  intros O s s' AG L. unfold put_view.
  eexists _, _, _. split; [reflexivity|split; [reflexivity|split; [|split; [simpl; auto|auto]]]].
  destruct AG. constructor; simpl; auto; try congruence.
  intros p' q' E. rewrite nth_upd in E. destruct (p =? p')%nat.
  - destruct nth_error; [|discriminate]. injection E as <-. eapply okv_mono; eauto.
  - eauto.
Qed.
Lemma resp_add_view k w : okv D k w -> resp k (add_view w) (fun _ _ => True).
Proof.
  intros O s s' AG L. unfold add_view. rewrite <- (ag_views _ _ _ _ AG).
  eexists _, _, _. split; [reflexivity|split; [reflexivity|split; [|split; [simpl; auto|auto]]]].
  destruct AG. constructor; simpl; auto; try congruence.
  intros p' q' E. apply nth_app_inv in E as [E|[_ ->]]; [eauto|eapply okv_mono; eauto].
Qed.
Lemma resp_new_array k c : resp k (new_array c) (fun k' r => okr D k' r).
Proof.
  intros s s' AG L. unfold new_array. rewrite <- (ag_len _ _ _ _ AG).
  eexists _, _, _. split; [reflexivity|split; [reflexivity|split; [|split]]].
  - destruct AG. constructor; simpl; auto.
    + rewrite !app_length. simpl. lia.
    + intros r N. destruct (lt_dec r (length (m_heap s))).
      * rewrite !nth_error_app1 by lia. auto.
      * rewrite !nth_error_app2 by lia. f_equal. lia.
    + intros r d. rewrite app_length. specialize (ag_dom0 r d). lia.
    + intros r I. rewrite app_length. specialize (ag_c0 r I). lia.
    + intros p q E. eapply okp_mono; [eauto|]. rewrite app_length; lia.
    + intros p q E. eapply okv_mono; [eauto|]. rewrite app_length; lia.
  - simpl. rewrite app_length. lia.
  - intros a [= <-]. simpl. rewrite app_length. simpl. split; [lia|].
    intros d. apply (ag_dom _ _ _ _ AG) in d. lia.
Qed.
Lemma resp_content k r : ~ X r -> resp k (content r) (fun _ _ => True).
Proof.
  intros N s s' AG L. unfold content. rewrite <- (ag_heap _ _ _ _ AG) by auto.
  eexists s, s', _. split; [reflexivity|split; [reflexivity|split; [auto|split; auto]]].
Qed.
Lemma resp_overwrite k r c : resp k (overwrite r c) (fun _ _ => True).
Proof.
  intros s s' AG L. unfold overwrite.
  eexists _, _, _. split; [reflexivity|split; [reflexivity|split; [|split]]]; simpl; rewrite ?upd_length; auto.
  destruct AG. constructor; simpl; rewrite ?upd_length; auto.
  intros r' N'. rewrite !nth_upd. rewrite ag_heap0 by auto. reflexivity.
Qed.
Lemma resp_give k r : r < k -> resp k (give r) (fun _ _ => True).
Proof.
  intros O s s' AG L. unfold give.
  eexists _, _, _. split; [reflexivity|split; [reflexivity|split; [|split; [simpl; auto|auto]]]].
  destruct AG. constructor; simpl; auto; try congruence.
  intros r' [<-|I]; auto. lia.
Qed.
(** The caller's arrays exist. *)
Lemma resp_has k r : resp k (has r) (fun k' _ => r < k').
Proof.
  intros s s' AG L. unfold has. rewrite <- (ag_caller _ _ _ _ AG).
  eexists s, s', _. split; [reflexivity|split; [reflexivity|split; [auto|split; auto]]].
  intros a. destruct existsb eqn:E; [|discriminate]. intros _.
  apply existsb_exists in E as (x & I & E). apply Nat.eqb_eq in E as <-. eapply ag_c; eauto.
Qed.

Lemma resp_numbers_c k r : ~ X r -> resp k (numbers r) (fun _ _ => True).
Proof.
  intros O. eapply resp_bind; [apply resp_content; auto|]. intros k' [a|l] L _.
  - apply resp_ret; auto.
  - apply resp_raise.
Qed.
Lemma resp_numbers k r : okr D k r -> resp k (numbers r) (fun _ _ => True).
Proof. intros [_ O]. apply resp_numbers_c. auto. Qed.
Lemma resp_times_c k r : ~ X r -> resp k (times r) (fun _ _ => True).
Proof.
  intros O. eapply resp_bind; [apply resp_content; auto|]. intros k' [a|l] L _.
  - apply resp_raise.
  - apply resp_ret; auto.
Qed.
Lemma resp_times k r : okr D k r -> resp k (times r) (fun _ _ => True).
Proof. intros [_ O]. apply resp_times_c. auto. Qed.
Lemma resp_attribute k o : oko D k o -> resp k (attribute o) (fun k' r => okr D k' r).
Proof.
  intros O. destruct o as [r|]; [|apply resp_raise]. apply resp_ret. intros k' L.
  eapply okr_mono; eauto.
Qed.

Variable leaves : nat -> list nat.
Variable units : nat -> string -> res uconv.
Ltac mono := eauto using okr_mono, oko_mono, okp_mono, okv_mono with mm.
Ltac nx := eapply resp_bind.

Lemma okp_frame k q t r wr ver : okp D k q -> okp D k (mkMP t (mp_time q) (mp_data q) r wr ver).
Proof. intros [A B]. split; auto. Qed.

Lemma resp_attempt_read k p t o : (forall r, o = Some r -> ~ X r) -> resp k (m_attempt_read leaves p t o) (fun _ _ => True).
Proof.
  intros O. unfold m_attempt_read. nx; [apply resp_get_param|]. intros k1 q L1 Q1.
  destruct (mp_type q) as [t'|].
  - destruct ptype_eqb; [|apply resp_raise]. apply resp_put_param. apply okp_frame; auto.
  - nx; [apply resp_put_param, okp_frame; auto|]. intros k2 _ L2 _.
    assert (TS : resp k2 match o with
      | None => mraise ETypeError
      | Some r =>
        mbind (times r) (fun l =>
        let n := series_length t (length l) in
        if (n <? 0)%Z then mraise EValueError
        else
          mbind (new_array (Nums (mkArr false (repeat None (Z.to_nat n))))) (fun data =>
          mbind (new_array (Times l)) (fun time =>
          put_param p (mkMP (Some t) (Some time) (Some data) true (mp_written q) (mp_version q)))))
      end (fun _ _ => True)).
    { destruct o as [r|]; [|apply resp_raise].
      nx; [apply resp_times_c; auto|]. intros k3 l L3 _. cbv zeta.
      destruct Z.ltb; [apply resp_raise|].
      nx; [apply resp_new_array|]. intros k4 d L4 Q4. nx; [apply resp_new_array|]. intros k5 d' L5 Q5.
      apply resp_put_param. split; simpl; apply oko_some; mono. }
    destruct t; auto.
    + apply resp_raise.
    + destruct (kids leaves p); [apply resp_raise|]. apply resp_put_param.
      destruct Q1. split; simpl; mono.
Qed.

Lemma resp_attempt_write k p t o : (forall r, o = Some r -> ~ X r) -> resp k (m_attempt_write leaves p t o) (fun _ _ => True).
Proof.
  intros O. unfold m_attempt_write. destruct kids; [apply resp_raise|].
  nx; [apply resp_attempt_read; auto|]. intros k1 _ L1 _. nx; [apply resp_get_param|]. intros k2 q L2 Q2.
  apply resp_put_param, okp_frame; auto.
Qed.

Lemma resp_leaf_view k u r t ex p : ~ X r ->
  resp k (m_leaf_view units u r t ex p) (fun k' w => okv D k' w).
Proof.
  intros O. unfold m_leaf_view. nx; [apply resp_get_param|]. intros k1 q L1 Q1.
  nx; [apply resp_lift with (Q := fun _ _ => True); auto|]. intros k2 uc L2 _.
  destruct (mp_time q) as [rt|] eqn:Et; [|apply resp_raise].
  nx; [apply resp_times; destruct Q1 as [Q1 _]; apply (okr_mono D k1); auto|]. intros k3 from L3 _.
  nx; [apply resp_times_c; auto|]. intros k4 to L4 _.
  nx; [apply resp_lift with (Q := fun _ _ => True); auto|]. intros k5 _ L5 _.
  nx; [apply resp_new_array|]. intros k6 a L6 Q6. nx; [apply resp_new_array|]. intros k7 b L7 Q7.
  apply resp_ret. intros k8 L8. split; [|split]; simpl; mono.
Qed.
Lemma resp_leaf_views u t ex ps k r : ~ X r ->
  resp k (m_leaf_views units u r t ex ps) (fun k' ws => Forall (okv D k') ws).
Proof.
  revert k. induction ps as [|p ps IH]; intros k O; simpl.
  - apply resp_ret; auto.
  - nx; [apply resp_leaf_view; auto|]. intros k1 w L1 Q1.
    nx; [apply IH; auto|]. intros k2 ws L2 Q2. apply resp_ret. intros k3 L3.
    constructor; [eapply okv_mono; [exact Q1|lia]|]. eapply Forall_impl; [|exact Q2]. intros w' O'. eapply okv_mono; [exact O'|lia].
Qed.
Lemma resp_add_views ws k : Forall (okv D k) ws -> resp k (add_views ws) (fun _ _ => True).
Proof.
  revert k. induction ws as [|w ws IH]; intros k O; simpl.
  - apply resp_ret; auto.
  - inversion_clear O. nx; [apply resp_add_view; auto|]. intros k1 v L1 _. nx.
    + apply IH. eapply Forall_impl; [|eassumption]. intros w' O'. eapply okv_mono; [exact O'|lia].
    + intros k2 vs L2 _. apply resp_ret; auto.
Qed.
Lemma resp_timeseries k p u r t ex : ~ X r ->
  resp k (m_timeseries leaves units p u r t ex) (fun _ _ => True).
Proof.
  intros O. unfold m_timeseries. nx; [apply resp_attempt_read; congruence|]. intros k1 _ L1 _.
  nx; [apply resp_leaf_view; auto|]. intros k2 w L2 Q2.
  destruct kids.
  - destruct Q2 as (Qs & Qt & Qd). nx; [apply (resp_attribute _ _ Qt)|]. intros k3 target L3 Q3.
    nx; [apply resp_leaf_views; destruct Q3; auto|]. intros k4 ws L4 Q4.
    nx; [apply resp_add_views; exact Q4|]. intros k5 vs L5 _.
    apply resp_add_view. split; [|split]; simpl; auto with mm; apply (oko_mono D k2); auto; lia.
  - destruct Q2 as (Qs & Qt & Qd). apply resp_add_view. split; [|split]; simpl; mono.
Qed.

Lemma resp_converter k w : okv D k w -> resp k (converter w) (fun _ _ => True).
Proof.
  intros (A & B & C). unfold converter.
  nx; [apply resp_attribute; eauto|]. intros k1 r L1 Q1.
  nx; [apply resp_times; eauto|]. intros k2 from L2 _.
  nx; [apply resp_attribute; eapply oko_mono; eauto; lia|]. intros k3 r' L3 Q3.
  nx; [apply resp_times; eauto|]. intros k4 to L4 _. apply resp_ret; auto.
Qed.

Lemma resp_own_values k w : okv D k w -> resp k (own_values w) (fun _ _ => True).
Proof.
  intros O. unfold own_values. nx; [apply resp_get_param|]. intros k1 q L1 Q1.
  destruct mp_written; [|apply resp_raise]. destruct (mp_data q) as [r|] eqn:E; [|apply resp_raise].
  nx; [apply resp_numbers; destruct Q1; auto|]. intros k2 d L2 _.
  nx; [apply resp_converter; apply (okv_mono D k); auto; lia|]. intros k3 c L3 _. apply resp_lift; auto.
Qed.

Lemma okv_data k w r : okv D k w -> okr D k r -> okv D k (set_data w r).
Proof. intros (A & B & C) O. split; [|split]; simpl; auto with mm. Qed.
Lemma okv_same k w w' : okv D k w -> mv_source w' = mv_source w -> mv_target w' = mv_target w ->
  mv_data w' = mv_data w -> okv D k w'.
Proof. intros (A & B & C) E1 E2 E3. unfold okv. rewrite E1, E2, E3. auto. Qed.

Lemma resp_read_view k get v :
  (forall k' w, okv D k' w -> resp k' (get w) (fun _ _ => True)) ->
  resp k (read_view get v) (fun _ _ => True).
Proof.
  intros G. unfold read_view. nx; [apply resp_get_view|]. intros k1 w L1 Q1.
  nx; [apply resp_get_param|]. intros k2 q L2 _.
  destruct (mv_data w) as [r|] eqn:E.
  - assert (Or : okr D k1 r) by (apply Q1; auto).
    nx; [apply resp_numbers; mono|]. intros k3 d L3 _.
    destruct (mv_version w) as [n|]; [|apply resp_raise].
    destruct Nat.eqb; [apply resp_ret; auto|].
    nx; [apply G; apply (okv_mono D k1); auto; lia|]. intros k4 xs L4 _.
    destruct (a_int d); [apply resp_raise|].
    nx; [apply resp_overwrite|]. intros k5 _ L5 _.
    nx; [apply resp_put_view|intros; apply resp_ret; auto].
    apply okv_same with (w := w); auto. apply (okv_mono D k1); auto. lia.
  - nx; [apply G; mono|]. intros k3 xs L3 _. nx; [apply resp_new_array|]. intros k4 r L4 Q4.
    nx; [apply resp_put_view|intros; apply resp_ret; auto].
    apply okv_same with (w := set_data w r); auto. apply okv_data; auto.
    apply (okv_mono D k1); auto. lia.
Qed.

Lemma resp_leaf_read k v : resp k (leaf_read leaves v) (fun _ _ => True).
Proof.
  apply resp_read_view. intros k' w O. destruct kids; [apply resp_raise|apply resp_own_values; auto].
Qed.
Lemma resp_sum_reads cs k acc : resp k (sum_reads leaves cs acc) (fun _ _ => True).
Proof.
  revert k acc. induction cs as [|c cs IH]; intros k acc; simpl.
  - destruct acc; [apply resp_ret; auto|apply resp_raise].
  - nx; [apply resp_leaf_read|]. intros k1 xs L1 _. destruct acc; [|apply IH].
    nx; [apply resp_lift with (Q := fun _ _ => True); auto|]. intros k2 a' L2 _. apply IH.
Qed.
Lemma resp_get k v : resp k (m_get leaves v) (fun _ _ => True).
Proof.
  apply resp_read_view. intros k' w O. unfold m_get_values. destruct kids; [|apply resp_own_values; auto].
  destruct mv_children; [apply resp_sum_reads|apply resp_raise].
Qed.

Lemma resp_write k v : resp k (m_write v) (fun _ _ => True).
Proof.
  unfold m_write. nx; [apply resp_get_view|]. intros k1 w L1 Q1.
  destruct mv_locked; [apply resp_ret; auto|].
  destruct (mv_data w) as [r|] eqn:E; [|apply resp_raise].
  nx; [apply resp_numbers; apply Q1; auto|]. intros k2 d L2 _.
  nx; [apply resp_get_param|]. intros k3 q L3 [Q3 Q3'].
  nx; [apply resp_converter; apply (okv_mono D k1); auto; lia|]. intros k4 c L4 _.
  nx; [apply resp_lift with (Q := fun _ _ => True); auto|]. intros k5 xs L5 _.
  nx; [apply resp_new_array|]. intros k6 r' L6 Q6.
  nx; [apply resp_put_param; split; simpl; auto with mm; apply (oko_mono D k3); auto; lia|].
  intros k7 _ L7 _. apply resp_put_view. apply okv_same with (w := w); auto.
  apply (okv_mono D k1); auto. lia.
Qed.

Lemma resp_check_write k v : resp k (m_check_write leaves v) (fun _ _ => True).
Proof.
  unfold m_check_write. nx; [apply resp_get_view|]. intros k1 w L1 Q1.
  destruct mv_writable; [apply resp_ret; auto|].
  nx; [apply resp_attempt_write; intros r Er; destruct Q1 as (_ & Qt & _); apply Qt in Er as [_ Er]; auto|]. intros k2 _ L2 _.
  apply resp_put_view. apply okv_same with (w := w); auto. mono.
Qed.

Lemma resp_set k v r : ~ X r -> resp k (m_set leaves v r) (fun _ _ => True).
Proof.
  intros O. unfold m_set. nx; [apply resp_numbers_c; auto|]. intros k1 a L1 _.
  nx; [apply resp_check_write|]. intros k2 _ L2 _.
  nx; [apply resp_get_view|]. intros k3 w L3 Q3.
  nx; [apply resp_converter; auto|]. intros k4 c L4 _.
  destruct Z.eqb; [|apply resp_raise].
  destruct (mv_data w) as [d|] eqn:E.
  - assert (Od : okr D k3 d) by (apply Q3; auto).
    nx; [apply resp_numbers; mono|]. intros k5 old L5 _.
    destruct (a_int old && negb (a_int a)); [apply resp_raise|].
    nx; [apply resp_overwrite|]. intros k6 _ L6 _. apply resp_write.
  - nx; [apply resp_new_array|]. intros k5 r' L5 Q5.
    nx; [apply resp_put_view, okv_data; auto; apply (okv_mono D k3); auto; lia|].
    intros k6 _ L6 _. apply resp_write.
Qed.

Lemma resp_set_item k v i x : resp k (m_set_item leaves v i x) (fun _ _ => True).
Proof.
  unfold m_set_item. nx; [apply resp_get|]. intros k1 _ L1 _.
  nx; [apply resp_get_view|]. intros k2 w L2 Q2.
  destruct (mv_data w) as [r|] eqn:E; [|apply resp_raise].
  assert (Or : okr D k2 r) by (apply Q2; auto).
  nx; [apply resp_numbers; auto|]. intros k3 d L3 _.
  destruct pyindex; [|apply resp_raise].
  nx; [apply resp_lift with (Q := fun _ _ => True); auto|]. intros k4 y L4 _.
  nx; [apply resp_overwrite|]. intros k5 _ L5 _. apply resp_write.
Qed.
Lemma resp_iadd k v x : resp k (m_iadd leaves v x) (fun _ _ => True).
Proof.
  unfold m_iadd. nx; [apply resp_get|]. intros k1 _ L1 _.
  nx; [apply resp_get_view|]. intros k2 w L2 Q2.
  nx; [apply resp_attribute; apply Q2|]. intros k3 r L3 Q3.
  nx; [apply resp_numbers; auto|]. intros k4 d L4 _.
  destruct (a_int d); [apply resp_raise|].
  nx; [apply resp_overwrite|]. intros k5 _ L5 _.
  nx; [apply resp_write|]. intros k6 _ L6 _. apply resp_set. destruct Q3; auto.
Qed.
Lemma resp_lock k v : resp k (m_lock v) (fun _ _ => True).
Proof.
  unfold m_lock. nx; [apply resp_get_view|]. intros k1 w L1 Q1. apply resp_put_view.
  apply okv_same with (w := w); auto.
Qed.
Lemma resp_unlock k v : resp k (m_unlock v) (fun _ _ => True).
Proof.
  unfold m_unlock. nx; [apply resp_get_view|]. intros k1 w L1 Q1.
  nx; [apply resp_put_view; apply okv_same with (w := w); auto|]. intros k2 _ L2 _. apply resp_write.
Qed.
Lemma resp_asarray k v : resp k (m_asarray leaves v) (fun _ _ => True).
Proof.
  unfold m_asarray. nx; [apply resp_get|]. intros k1 _ L1 _.
  nx; [apply resp_get_view|]. intros k2 w L2 Q2.
  nx; [apply resp_attribute; apply Q2|]. intros k3 r L3 Q3.
  nx; [apply resp_give; apply Q3|]. intros; apply resp_ret; auto.
Qed.
Lemma resp_compute k v f : resp k (m_compute leaves v f) (fun _ _ => True).
Proof.
  unfold m_compute. nx; [apply resp_get|]. intros k1 xs L1 _.
  nx; [apply resp_new_array|]. intros k2 r L2 Q2.
  nx; [apply resp_give; apply Q2|]. intros; apply resp_ret; auto.
Qed.
Lemma resp_generic k p : resp k (m_generic leaves p) (fun _ _ => True).
Proof.
  unfold m_generic. nx; [apply resp_attempt_read; congruence|]. intros k1 _ L1 _.
  apply resp_add_view. split; [|split]; simpl; auto with mm.
Qed.
Lemma resp_get_generic k v : resp k (m_get_generic v) (fun _ _ => True).
Proof.
  unfold m_get_generic. nx; [apply resp_get_view|]. intros k1 w L1 Q1.
  nx; [apply resp_get_param|]. intros k2 q L2 [_ Q2].
  destruct mp_written; [|apply resp_raise]. destruct (mp_data q) as [r|] eqn:E; [|apply resp_raise].
  nx; [apply resp_give; apply (Q2 r); auto|]. intros; apply resp_ret; auto.
Qed.
Lemma resp_set_generic k v r : okr D k r -> resp k (m_set_generic leaves v r) (fun _ _ => True).
Proof.
  intros O. unfold m_set_generic. nx; [apply resp_get_view|]. intros k1 w L1 Q1.
  nx; [instantiate (1 := fun _ _ => True); destruct (mv_writable w)|].
  - apply resp_ret; auto.
  - nx; [apply resp_attempt_write; congruence|]. intros k2 _ L2 _. apply resp_put_view.
    apply okv_same with (w := w); auto. mono.
  - intros k2 _ L2 _. nx; [apply resp_get_param|]. intros k3 q L3 [Q3 _].
    apply resp_put_param. split; simpl; auto. apply oko_some. apply (okr_mono D k); auto. lia.
Qed.

Lemma resp_as_val {A} k (g : A -> mval) x : resp k x (fun _ _ => True) -> resp k (as_val g x) (fun _ _ => True).
Proof. intros H. nx; [exact H|]. intros; apply resp_ret; auto. Qed.
Lemma resp_on_view k v b x : (forall k', k <= k' -> resp k' x (fun _ _ => True)) ->
  resp k (on_view v b x) (fun _ _ => True).
Proof.
  intros H. nx; [apply resp_get_view|]. intros k1 w L1 Q1. destruct (_ && _); [auto|apply resp_raise].
Qed.

Lemma resp_step k o :
  (forall r, X r -> ~ takes o r) -> (forall v r, o = MSetGeneric v r -> ~ D r) ->
  (forall r, X r -> writes_to o <> Some r) ->
  resp k (mstep leaves units o) (fun _ _ => True).
Proof.
  intros N G W. destruct o; simpl.
  - nx; [apply resp_new_array|]. intros k1 r L1 Q1. nx; [apply resp_give; apply Q1|]. intros; apply resp_ret; auto.
  - apply resp_as_val. unfold m_write_item. nx; [apply resp_has|]. intros k1 z0 L1 Q1. cbv beta in Q1.
    nx; [apply resp_numbers_c; intros d; apply (W r d); reflexivity|]. intros k2 a L2 _. destruct pyindex; [|apply resp_raise].
    nx; [apply resp_lift with (Q := fun _ _ => True); auto|]. intros k3 y L3 _.
    apply resp_overwrite.
  - apply resp_as_val. unfold m_write_time. nx; [apply resp_has|]. intros k1 z0 L1 Q1. cbv beta in Q1.
    nx; [apply resp_times_c; intros d; apply (W r d); reflexivity|]. intros k2 a L2 _. destruct pyindex; [|apply resp_raise].
    apply resp_overwrite.
  - nx; [apply resp_has|]. intros k1 z0 L1 Q1. cbv beta in Q1. apply resp_as_val, resp_content.
    intros d; apply (N r d); reflexivity.
  - nx; [apply resp_has|]. intros k1 z0 L1 Q1. cbv beta in Q1. apply resp_as_val, resp_timeseries.
    intros d; apply (N _ d); reflexivity.
  - apply resp_on_view. intros. apply resp_as_val, resp_get.
  - nx; [apply resp_has|]. intros k1 z0 L1 Q1. cbv beta in Q1. apply resp_on_view. intros. apply resp_as_val, resp_set.
    intros d; apply (N _ d); reflexivity.
  - apply resp_on_view. intros. apply resp_as_val, resp_set_item.
  - apply resp_on_view. intros. apply resp_as_val, resp_iadd.
  - apply resp_on_view. intros. apply resp_as_val, resp_lock.
  - apply resp_on_view. intros. apply resp_as_val, resp_unlock.
  - apply resp_on_view. intros. apply resp_as_val, resp_asarray.
  - apply resp_on_view. intros. apply resp_as_val, resp_compute.
  - apply resp_as_val, resp_generic.
  - apply resp_on_view. intros. apply resp_as_val, resp_get_generic.
  - nx; [apply resp_has|]. intros k1 z0 L1 Q1. cbv beta in Q1. apply resp_on_view. intros. apply resp_as_val, resp_set_generic.
    split; [lia|]. apply (G v r); reflexivity.
Qed.

End Relational.

Section History.
Variable leaves : nat -> list nat.
Variable units : nat -> string -> res uconv.
Notation step := (mstep leaves units).
Notation run := (mrun leaves units).

Lemma run_app m h1 h2 : run m (h1 ++ h2) = run (run m h1) h2.
Proof. unfold mrun. apply fold_left_app. Qed.

(** Two runs from memories that agree. *)
Lemma agree_step (D X : nat -> Prop) o s s' : (forall r, X r -> D r) ->
  (forall r, X r -> ~ takes o r) -> (forall v r, o = MSetGeneric v r -> ~ D r) ->
  (forall r, X r -> writes_to o <> Some r) -> agree D X s s' ->
  agree D X (fst (step o s)) (fst (step o s')) /\ snd (step o s) = snd (step o s').
Proof.
  intros XD T G W AG.
  destruct (resp_step D X XD leaves units 0 o T G W s s' AG ltac:(lia)) as (t & t' & a & E & E' & AG' & _).
  rewrite E, E'. auto.
Qed.
(** A direct write to one of [X] changes nothing else. *)
Lemma agree_write (D X : nat -> Prop) o r s : X r -> writes_to o = Some r -> agree D X s s -> agree D X s (fst (step o s)).
Proof.
  intros I W AG.
  assert (H : forall t, m_params t = m_params s -> m_views t = m_views s -> m_caller t = m_caller s ->
    length (m_heap t) = length (m_heap s) ->
    (forall r', r' <> r -> nth_error (m_heap t) r' = nth_error (m_heap s) r') -> agree D X s t).
  { intros t P V C L H. destruct AG. constructor; auto.
    intros r' N. symmetry. apply H. intros ->. auto. }
  destruct o; try discriminate; injection W as ->; simpl.
  - unfold nothing, as_val, m_write_item, mbind, has, numbers, mbind, content, mlift, mret, mraise, overwrite.
    destruct existsb; [|apply H; auto]. destruct (nth_error (m_heap s) r) as [[a|l]|]; simpl; try (apply H; auto; fail).
    destruct pyindex; simpl; [|apply H; auto].
    destruct cast_item; simpl; [|apply H; auto]. apply H; simpl; auto.
    + apply upd_length.
    + intros r' N. apply nth_upd_neq. auto.
  - unfold nothing, as_val, m_write_time, mbind, has, times, mbind, content, mlift, mret, mraise, overwrite.
    destruct existsb; [|apply H; auto]. destruct (nth_error (m_heap s) r) as [[a|l]|]; simpl; try (apply H; auto; fail).
    destruct pyindex; simpl; [|apply H; auto]. apply H; simpl; auto.
    + apply upd_length.
    + intros r' N. apply nth_upd_neq. auto.
Qed.

Lemma agree_refl D s : agree D (fun _ => False) s s -> forall X, agree D X s s.
Proof. intros [] X. constructor; auto. Qed.
Lemma agree_trans D X s t u : agree D X s t -> agree D X t u -> agree D X s u.
Proof.
  intros [] []. constructor; auto; try congruence.
  intros r N. rewrite ag_heap0, ag_heap1; auto.
Qed.
Lemma agree_sym D X s t : agree D X s t -> agree D X t s.
Proof.
  intros []. constructor; auto; try congruence.
  - intros r N. symmetry. auto.
  - rewrite <- ag_len0; auto.
  - rewrite <- ag_len0, <- ag_caller0; auto.
  - rewrite <- ag_len0, <- ag_params0; auto.
  - rewrite <- ag_len0, <- ag_views0; auto.
Qed.
Lemma agree_left D X s t : agree D X s t -> agree D X s s.
Proof. intros H. eapply agree_trans; [exact H|apply agree_sym, H]. Qed.

(** All memories are well-formed. *)
Definition wf (s : mem) : Prop := agree (fun _ => False) (fun _ => False) s s.
Lemma wf_start n : wf (mstart n).
Proof.
  constructor; simpl; auto; try contradiction.
  - intros p q E. apply nth_error_In, repeat_spec in E as ->. split; apply oko_none.
  - intros v w E. destruct v; discriminate.
Qed.
Lemma wf_step o s : wf s -> wf (fst (step o s)).
Proof. intros W. apply agree_step; auto. Qed.
Lemma wf_run h s : wf s -> wf (run s h).
Proof. revert s. induction h as [|o h IH]; intros s W; simpl; auto. apply IH, wf_step; auto. Qed.

(** [r] is an array of no parameter and no view. *)
Definition own (r : nat) (s : mem) : Prop := agree (eq r) (fun _ => False) s s.
Lemma own_step o s r : own r s -> (forall v, o <> MSetGeneric v r) -> own r (fst (step o s)).
Proof.
  intros W N. apply agree_step; auto; try contradiction. intros v r' -> <-. apply (N v). reflexivity.
Qed.
Lemma own_run h s r : own r s -> never_generic h r -> own r (run s h).
Proof.
  revert s. induction h as [|o h IH]; intros s W N; simpl; auto. apply IH.
  - apply own_step; auto. intros v ->. apply (N v). left; auto.
  - intros v I. apply (N v). right; auto.
Qed.
Lemma own_new s c : wf s -> own (length (m_heap s)) (mkMem (m_heap s ++ [c]) (m_params s) (m_views s) (length (m_heap s) :: m_caller s)).
Proof.
  intros []. constructor; simpl; auto; rewrite app_length; simpl.
  - intros r <-. lia.
  - intros r [<-|I]; [lia|]. apply ag_c0 in I. lia.
  - intros p q E. apply ag_p0 in E as [A B]. split; intros r Er.
    + apply A in Er as [L _]. split; lia.
    + apply B in Er as [L _]. split; lia.
  - intros p q E. apply ag_v0 in E as (A & B & C). split; [|split]; intros r Er.
    + apply A in Er as [L _]. split; lia.
    + apply B in Er as [L _]. split; lia.
    + apply C in Er as [L _]. split; lia.
Qed.
Lemma own_made o s r : wf s -> ((exists c, o = MNew c) \/ (exists v f, o = MCompute v f)) ->
  snd (step o s) = Ok (MRef r) -> own r (fst (step o s)).
Proof.
  intros W [[c ->]|(v & f & ->)].
  - simpl. unfold mbind, new_array, give, mret. simpl. intros [= <-]. apply own_new. auto.
  - simpl. unfold on_view, as_val, m_compute, mbind, get_view.
    destruct nth_error as [w|]; [|discriminate]. destruct (_ && _); [|discriminate].
    pose proof (resp_get _ _ (fun r (H : False) => H) leaves 0 v s s W ltac:(lia)) as (t & t' & a & E & E' & AG & _).
    rewrite E. destruct a as [xs|e]; [|discriminate]. simpl. intros [= <-]. apply own_new.
    eapply agree_left; exact AG.
Qed.
Lemma made_own n h r : made_by_caller leaves units n h r -> never_generic h r -> own r (run (mstart n) h).
Proof.
  intros (h1 & o & h2 & -> & O & E) N. rewrite run_app. change (own r (run (fst (step o (run (mstart n) h1))) h2)).
  apply own_run.
  - apply own_made; auto. apply wf_run, wf_start.
  - intros v I. apply (N v). apply in_or_app. right. right. auto.
Qed.

Lemma own_all (D : list nat) s : wf s -> (forall r, In r D -> own r s) ->
  agree (fun r => In r D) (fun r => In r D) s s.
Proof.
  intros W H. destruct W. constructor; auto.
  - intros r I. apply (ag_dom _ _ _ _ (H r I)); auto.
  - intros p q E. apply ag_p0 in E as P. destruct P as [A B]. split; intros r Er.
    + split; [apply A; auto|]. intros I. destruct (ag_p _ _ _ _ (H r I) p q E) as [A' B'].
      apply A' in Er as [_ F]. apply F; auto.
    + split; [apply B; auto|]. intros I. destruct (ag_p _ _ _ _ (H r I) p q E) as [A' B'].
      apply B' in Er as [_ F]. apply F; auto.
  - intros p q E. apply ag_v0 in E as P. destruct P as (A & B & C). split; [|split]; intros r Er.
    + split; [apply A; auto|]. intros I. destruct (ag_v _ _ _ _ (H r I) p q E) as (A' & B' & C').
      apply A' in Er as [_ F]. apply F; auto.
    + split; [apply B; auto|]. intros I. destruct (ag_v _ _ _ _ (H r I) p q E) as (A' & B' & C').
      apply B' in Er as [_ F]. apply F; auto.
    + split; [apply C; auto|]. intros I. destruct (ag_v _ _ _ _ (H r I) p q E) as (A' & B' & C').
      apply C' in Er as [_ F]. apply F; auto.
Qed.

Lemma writes_one_of_spec D o : writes_one_of D o = true <-> exists r, writes_to o = Some r /\ In r D.
Proof.
  unfold writes_one_of. destruct (writes_to o) as [r|].
  - rewrite existsb_exists. split.
    + intros (x & I & E). apply Nat.eqb_eq in E as <-. eauto.
    + intros (x & [= <-] & I). exists r. split; auto. apply Nat.eqb_refl.
  - split; [discriminate|]. intros (r & E & _). discriminate.
Qed.

Lemma answers_agree D h2 : forall s s',
  agree (fun r => In r D) (fun r => In r D) s s' ->
  (forall o r, In o h2 -> In r D -> ~ takes o r) ->
  filter (fun oa => negb (writes_one_of D (fst oa))) (answers leaves units s h2) =
  answers leaves units s' (filter (fun o => negb (writes_one_of D o)) h2).
Proof.
  induction h2 as [|o h IH]; intros s s' AG T; simpl; auto.
  assert (T' : forall o r, In o h -> In r D -> ~ takes o r) by (intros; apply T; simpl; auto).
  destruct (writes_one_of D o) eqn:W; simpl.
  - apply IH; auto. apply writes_one_of_spec in W as (r & W & I).
    eapply agree_trans; [|exact AG]. apply agree_sym. eapply agree_write; eauto.
    eapply agree_left; eauto.
  - destruct (agree_step (fun r => In r D) (fun r => In r D) o s s') as [A B]; auto.
    + intros r I. apply T; simpl; auto.
    + intros v r -> I. apply (T (MSetGeneric v r) r); simpl; auto.
    + intros r I E. assert (writes_one_of D o = true) by (apply writes_one_of_spec; eauto). congruence.
    + rewrite B. f_equal. apply IH; auto.
Qed.

Theorem arrays_not_shared n h1 h2 D :
  (forall r, In r D -> made_by_caller leaves units n h1 r /\ never_generic h1 r) ->
  (forall o r, In o h2 -> In r D -> ~ takes o r) ->
  filter (fun oa => negb (writes_one_of D (fst oa))) (answers leaves units (run (mstart n) h1) h2) =
  answers leaves units (run (mstart n) h1) (filter (fun o => negb (writes_one_of D o)) h2).
Proof.
  intros M T. apply answers_agree; auto. apply own_all.
  - apply wf_run, wf_start.
  - intros r I. destruct (M r I). apply made_own; auto.
Qed.
End History.
