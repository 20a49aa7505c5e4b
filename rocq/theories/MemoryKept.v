(** The caller never has an array of a timeseries parameter (proof for C61).  Every array has a
    colour: [true] if it is kept by a timeseries parameter or by the converter of a view, [false]
    if the caller may have it. *)
From Coq Require Import String List ZArith Reals Bool Arith Lia.
From Verif Require Import Base Units TimeModel Core Memory Spec_Memory ListFacts.
Import ListNotations.
Local Open Scope string_scope.
Local Open Scope list_scope.

Record ghost := mkG { g_col : list bool; g_ty : list (option ptype); g_gen : list bool }.
Definition col (g : ghost) (b : bool) (r : nat) : Prop := nth_error (g_col g) r = Some b.
Definition colo g b (o : option nat) : Prop := forall r, o = Some r -> col g b r.
Definition ty (g : ghost) (p : nat) (t : ptype) : Prop := nth_error (g_ty g) p = Some (Some t).
Definition le (g g' : ghost) : Prop :=
  (forall r b, col g b r -> col g' b r) /\ (forall p t, ty g p t -> ty g' p t) /\
  (forall v b, nth_error (g_gen g) v = Some b -> nth_error (g_gen g') v = Some b).

Lemma le_refl g : le g g.
Proof. split; [|split]; auto. Qed.
Lemma le_trans a b c : le a b -> le b c -> le a c.
Proof. intros (A & B & C) (A' & B' & C'). split; [|split]; auto. Qed.
Lemma colo_le g g' b o : colo g b o -> le g g' -> colo g' b o.
Proof. intros H (L & _) r E. auto. Qed.
Lemma colo_none g b : colo g b None.
Proof. intros r; discriminate. Qed.
Lemma colo_some g b r : col g b r -> colo g b (Some r).
Proof. intros H r' [= <-]; auto. Qed.
Local Hint Resolve le_refl colo_none colo_some : mm.

Definition okq (g : ghost) (q : mparam) : Prop :=
  match mp_type q with
  | None => mp_time q = None /\ mp_data q = None
  | Some GENERIC => mp_time q = None /\ colo g false (mp_data q)
  | Some _ => colo g true (mp_time q) /\ colo g true (mp_data q)
  end.
Definition okw (g : ghost) (w : mview) : Prop :=
  colo g true (mv_source w) /\ colo g true (mv_target w) /\ colo g false (mv_data w) /\
  if mv_generic w then ty g (mv_param w) GENERIC
  else exists t, ty g (mv_param w) t /\ t <> GENERIC.

Lemma okq_le g g' q : okq g q -> le g g' -> okq g' q.
Proof.
  unfold okq. intros H L. destruct (mp_type q) as [[]|]; intuition; eapply colo_le; eauto.
Qed.
Lemma okw_le g g' w : okw g w -> le g g' -> okw g' w.
Proof.
  intros (A & B & C & E) L. split; [|split; [|split]]; try (eapply colo_le; eauto).
  destruct L as (_ & L & _). destruct (mv_generic w); auto. destruct E as (t & E & N). eauto.
Qed.

Record inv (g : ghost) (s : mem) : Prop := {
  i_len : length (g_col g) = length (m_heap s);
  i_ty : g_ty g = map mp_type (m_params s);
  i_gen : g_gen g = map mv_generic (m_views s);
  i_caller : forall r, In r (m_caller s) -> col g false r;
  i_p : forall p q, nth_error (m_params s) p = Some q -> okq g q;
  i_v : forall v w, nth_error (m_views s) v = Some w -> okw g w }.

Definition hoare {A} (g : ghost) (x : MM A) (Q : ghost -> A -> Prop) : Prop :=
  forall s, inv g s -> exists g', inv g' (fst (x s)) /\ le g g' /\ (forall a, snd (x s) = Ok a -> Q g' a).
Definition any {A} (g : ghost) (a : A) : Prop := True.

Lemma h_bind {A B} g (x : MM A) (f : A -> MM B) Q Q' :
  hoare g x Q -> (forall g' a, le g g' -> Q g' a -> hoare g' (f a) Q') -> hoare g (mbind x f) Q'.
Proof.
  intros Hx Hf s I. destruct (Hx s I) as (g1 & I1 & L1 & Q1). unfold mbind.
  destruct (x s) as [t [a|e]]; simpl in *.
  - destruct (Hf g1 a L1 (Q1 a eq_refl) t I1) as (g2 & I2 & L2 & Q2).
    exists g2. split; [auto|split; [eapply le_trans; eauto|auto]].
  - exists g1. split; [auto|split; [auto|discriminate]].
Qed.
Lemma h_ret {A} g (a : A) (Q : ghost -> A -> Prop) : Q g a -> hoare g (mret a) Q.
Proof. intros H s I. exists g. split; [auto|split; [auto with mm|]]. intros b [= <-]. auto. Qed.
Lemma h_raise {A} g e (Q : ghost -> A -> Prop) : hoare g (mraise e) Q.
Proof. intros s I. exists g. split; [auto|split; [auto with mm|]]. discriminate. Qed.
Lemma h_lift {A} g (r : res A) : hoare g (mlift r) (fun g' _ => g' = g).
Proof. intros s I. exists g. split; [auto|split; [auto with mm|auto]]. Qed.
Lemma h_any {A} g (x : MM A) Q : hoare g x Q -> hoare g x any.
Proof.
  intros H s I. destruct (H s I) as (g1 & I1 & L1 & Q1). exists g1. split; [auto|split; [auto|]].
  intros; exact Logic.I.
Qed.

Lemma h_get_param g p :
  hoare g (get_param p) (fun g' q => g' = g /\ okq g q /\ nth_error (g_ty g) p = Some (mp_type q)).
Proof.
  intros s I. exists g. split; [auto|split; [auto with mm|]]. simpl. intros q.
  destruct nth_error as [q'|] eqn:E; [|discriminate]. intros [= <-]. split; [auto|split].
  - eapply i_p; eauto.
  - rewrite (i_ty _ _ I). rewrite nth_error_map, E. reflexivity.
Qed.
Lemma h_get_view g v :
  hoare g (get_view v) (fun g' w => g' = g /\ okw g w /\ nth_error (g_gen g) v = Some (mv_generic w)).
Proof.
  intros s I. exists g. split; [auto|split; [auto with mm|]]. simpl. intros q.
  destruct nth_error as [q'|] eqn:E; [|discriminate]. intros [= <-]. split; [auto|split].
  - eapply i_v; eauto.
  - rewrite (i_gen _ _ I). rewrite nth_error_map, E. reflexivity.
Qed.
Lemma map_upd {A B} (f : A -> B) l i x : map f (upd l i x) = upd (map f l) i (f x).
Proof. revert i. induction l; intros [|i]; simpl; auto. f_equal. auto. Qed.

(** A parameter keeps its type once it has one. *)
Lemma h_put_param g p q t : mp_type q = Some t -> okq g q ->
  (forall t', ty g p t' -> t' = t) ->
  hoare g (put_param p q) (fun g' _ => g_col g' = g_col g /\ g_gen g' = g_gen g /\
     (forall t', p < length (g_ty g) -> mp_type q = Some t' -> ty g' p t')).
Proof.
  intros T O C s I. exists (mkG (g_col g) (upd (g_ty g) p (Some t)) (g_gen g)).
  assert (L : le g (mkG (g_col g) (upd (g_ty g) p (Some t)) (g_gen g))).
  { split; [|split]; auto. intros p' t' E. unfold ty in *. simpl. rewrite nth_upd.
    destruct (Nat.eqb_spec p p') as [->|]; auto. rewrite E. f_equal. f_equal. symmetry. auto. }
  split; [|split; [auto|]].
  - destruct I. constructor; simpl; auto.
    + rewrite map_upd, T. congruence.
    + intros p' q' E. rewrite nth_upd in E. destruct (p =? p')%nat.
      * destruct (nth_error (m_params s) p'); [|discriminate]. injection E as <-. eapply okq_le; eauto.
      * eapply okq_le; eauto.
    + intros v w E. eapply okw_le; eauto.
  - intros a _. split; [auto|split; [auto|]]. intros t' Lt E. unfold ty. simpl.
    rewrite nth_upd_eq by auto. congruence.
Qed.
Lemma h_put_view g v w : okw g w -> nth_error (g_gen g) v = Some (mv_generic w) ->
  hoare g (put_view v w) (fun g' _ => g' = g).
Proof.
  intros O G s I. exists g. split; [|split; [auto with mm|auto]].
  destruct I. constructor; simpl; auto.
  - rewrite i_gen0 in *. rewrite map_upd. clear - G.
    revert v G. induction (map mv_generic (m_views s)) as [|b l IH]; intros [|v]; simpl; auto; try discriminate.
    + congruence.
    + intros G. f_equal. auto.
  - intros v' w' E. rewrite nth_upd in E. destruct (v =? v')%nat.
    + destruct (nth_error (m_views s) v'); [|discriminate]. injection E as <-. auto.
    + eauto.
Qed.
Lemma h_add_view g w : okw g w -> hoare g (add_view w) any.
Proof.
  intros O s I. exists (mkG (g_col g) (g_ty g) (g_gen g ++ [mv_generic w])).
  assert (L : le g (mkG (g_col g) (g_ty g) (g_gen g ++ [mv_generic w]))).
  { split; [|split]; auto. intros v b E. simpl. apply nth_app_old; auto. }
  split; [|split; [auto|intros; exact Logic.I]].
  destruct I. constructor; simpl; auto.
  - rewrite map_app. simpl. congruence.
  - intros v w' E. apply nth_app_inv in E as [E|[_ ->]]; eapply okw_le; eauto.
Qed.
(** A new array has the colour one wants. *)
Lemma h_new_array b g c :
  hoare g (new_array c) (fun g' r => col g' b r /\ g_ty g' = g_ty g).
Proof.
  intros s I. exists (mkG (g_col g ++ [b]) (g_ty g) (g_gen g)).
  assert (L : le g (mkG (g_col g ++ [b]) (g_ty g) (g_gen g))).
  { split; [|split]; auto. intros r b' E. apply nth_app_old; auto. }
  split; [|split; [auto|]].
  - destruct I. constructor; simpl; auto.
    + rewrite !app_length. simpl. lia.
    + intros r E. apply L. auto.
    + intros p q E. eapply okq_le; eauto.
    + intros p q E. eapply okw_le; eauto.
  - simpl. intros r [= <-]. split; auto. unfold col. simpl. rewrite <- (i_len _ _ I). apply nth_app_new.
Qed.
Lemma h_content g r : hoare g (content r) (fun g' _ => g' = g).
Proof. intros s I. exists g. split; [auto|split; [auto with mm|auto]]. Qed.
Lemma h_overwrite g r c : hoare g (overwrite r c) (fun g' _ => g' = g).
Proof.
  intros s I. exists g. split; [|split; [auto with mm|auto]].
  destruct I. constructor; simpl; auto. rewrite upd_length; auto.
Qed.
Lemma h_give g r : col g false r -> hoare g (give r) any.
Proof.
  intros C s I. exists g. split; [|split; [auto with mm|intros; exact Logic.I]].
  destruct I. constructor; simpl; auto. intros r' [<-|J]; auto.
Qed.
Lemma h_has g r : hoare g (has r) (fun g' _ => g' = g /\ col g false r).
Proof.
  intros s I. exists g. split; [auto|split; [auto with mm|]]. simpl. intros a.
  destruct existsb eqn:E; [|discriminate]. intros _. split; auto.
  apply existsb_exists in E as (x & J & E). apply Nat.eqb_eq in E as <-. eapply i_caller; eauto.
Qed.
Ltac nx := eapply h_bind.
Lemma h_numbers g r : hoare g (numbers r) (fun g' _ => g' = g).
Proof.
  nx; [apply h_content|]. intros g' [a|l] L ->; [apply h_ret; auto|apply h_raise].
Qed.
Lemma h_times g r : hoare g (times r) (fun g' _ => g' = g).
Proof.
  nx; [apply h_content|]. intros g' [a|l] L ->; [apply h_raise|apply h_ret; auto].
Qed.
Lemma h_attribute {A} g (o : option A) : hoare g (attribute o) (fun g' r => g' = g /\ o = Some r).
Proof. destruct o; [apply h_ret; auto|apply h_raise]. Qed.

Section Calls.
Variable leaves : nat -> list nat.
Variable units : nat -> string -> res uconv.

Lemma okq_frame g q r wr ver : okq g q -> okq g (mkMP (mp_type q) (mp_time q) (mp_data q) r wr ver).
Proof. unfold okq. simpl. auto. Qed.

Lemma h_attempt_read g p t o :
  hoare g (m_attempt_read leaves p t o) (fun g' _ => ty g' p t).
Proof.
  unfold m_attempt_read. nx; [apply h_get_param|]. intros g1 q L1 (-> & O & T).
  assert (Lp : p < length (g_ty g)) by (apply nth_error_Some; congruence).
  destruct (mp_type q) as [t'|] eqn:E.
  - destruct ptype_eqb eqn:Et; [|apply h_raise].
    assert (t' = t) as -> by (destruct t', t; try discriminate; auto).
    intros s I. destruct (h_put_param g p (mkMP (Some t) (mp_time q) (mp_data q) true (mp_written q) (mp_version q)) t)
      with (s := s) as (g2 & I2 & L2 & C2); auto.
    + rewrite <- E. apply okq_frame; auto.
    + intros t' T'. unfold ty in T'. congruence.
    + exists g2. split; [auto|split; [auto|]]. intros a Ea. apply (C2 a Ea); auto.
  - assert (Nt : mp_time q = None /\ mp_data q = None) by (unfold okq in O; rewrite E in O; auto).
    destruct Nt as [Nt Nd].
    nx. 1: { apply h_put_param with (t := t); simpl; auto.
      - unfold okq; simpl. rewrite Nt, Nd. destruct t; auto with mm.
      - intros t' T'. unfold ty in T'. congruence. }
    intros g2 _ L2 (C2 & G2 & T2). assert (T2' : ty g2 p t) by (apply T2; auto).
    assert (TS : t <> GENERIC -> hoare g2 match o with
      | None => mraise ETypeError
      | Some r =>
        mbind (times r) (fun l =>
        let n := series_length t (length l) in
        if (n <? 0)%Z then mraise EValueError
        else
          mbind (new_array (Nums (mkArr false (repeat None (Z.to_nat n))))) (fun data =>
          mbind (new_array (Times l)) (fun time =>
          put_param p (mkMP (Some t) (Some time) (Some data) true (mp_written q) (mp_version q)))))
      end (fun g' _ => ty g' p t)).
    { intros NG. destruct o as [r|]; [|apply h_raise].
      nx; [apply h_times|]. intros g3 l L3 ->. cbv zeta. destruct Z.ltb; [apply h_raise|].
      nx; [apply (h_new_array true)|]. intros g4 d L4 [Cd T4].
      nx; [apply (h_new_array true)|]. intros g5 d' L5 [Cd' T5].
      assert (T5' : ty g5 p t) by (apply L5, L4; auto).
      intros s I. destruct (h_put_param g5 p (mkMP (Some t) (Some d') (Some d) true (mp_written q) (mp_version q)) t)
        with (s := s) as (g6 & I6 & L6 & C6); auto.
      - unfold okq; simpl. apply colo_some in Cd'.
        assert (colo g5 true (Some d)) by (apply colo_some, L5; auto). destruct t; auto. contradiction.
      - intros t' T'. unfold ty in *. congruence.
      - exists g6. split; [auto|split; [auto|]]. intros a Ea. apply L6; auto. }
    destruct t; try (apply TS; discriminate).
    + apply h_raise.
    + destruct kids; [apply h_raise|].
      intros s I. destruct (h_put_param g2 p (mkMP (Some GENERIC) (mp_time q) None true (mp_written q) (mp_version q)) GENERIC)
        with (s := s) as (g6 & I6 & L6 & C6); auto.
      * unfold okq; simpl. auto with mm.
      * intros t' T'. unfold ty in *. congruence.
      * exists g6. split; [auto|split; [auto|]]. intros a Ea. apply L6; auto.
Qed.

Lemma h_attempt_write g p t o : hoare g (m_attempt_write leaves p t o) (fun g' _ => ty g' p t).
Proof.
  unfold m_attempt_write. destruct kids; [apply h_raise|].
  nx; [apply h_attempt_read|]. intros g1 z0 L1 T1. cbv beta in T1. nx; [apply h_get_param|].
  intros g2 q L2 (-> & O & T). assert (E : mp_type q = Some t) by (unfold ty in T1; congruence).
  intros s I. destruct (h_put_param g1 p (mkMP (mp_type q) (mp_time q) (mp_data q) (mp_read q) true (mp_version q)) t)
    with (s := s) as (g6 & I6 & L6 & C6); auto.
  - intros t' T'. unfold ty in *. congruence.
  - exists g6. split; [auto|split; [auto|]]. intros a Ea. apply L6; auto.
Qed.

Lemma h_leaf_view g u r t ex p :
  hoare g (m_leaf_view units u r t ex p) (fun g' w => okw g' w /\ mv_param w = p /\ mv_generic w = false).
Proof.
  unfold m_leaf_view. nx; [apply h_get_param|]. intros g1 q L1 (-> & O & T).
  nx; [apply h_lift|]. intros g2 uc L2 ->.
  destruct (mp_time q) as [rt|] eqn:Et; [|apply h_raise].
  assert (Tp : exists t', ty g p t' /\ t' <> GENERIC).
  { unfold okq, ty in *. destruct (mp_type q) as [[]|]; try (exists SCALAR; split; [assumption|discriminate]).
    - eexists; split; [eassumption|discriminate].
    - eexists; split; [eassumption|discriminate].
    - destruct O as [O _]. congruence.
    - destruct O as [O _]. congruence. }
  nx; [apply h_times|]. intros g3 from L3 ->.
  nx; [apply h_times|]. intros g4 to L4 ->.
  nx; [apply h_lift|]. intros g5 uc' L5 ->.
  nx; [apply (h_new_array true)|]. intros g6 a L6 [C6 T6].
  nx; [apply (h_new_array true)|]. intros g7 b L7 [C7 T7].
  apply h_ret. split; [|split; auto]. split; [|split; [|split]]; simpl; auto with mm.
  - apply colo_some, L7; auto.
  - destruct Tp as (t' & Tp & N). exists t'. split; auto. apply L7, L6; auto.
Qed.
Lemma h_leaf_views u t ex ps g r : hoare g (m_leaf_views units u r t ex ps) (fun g' ws => Forall (okw g') ws).
Proof.
  revert g. induction ps as [|p ps IH]; intros g; simpl.
  - apply h_ret. constructor.
  - nx; [apply h_leaf_view|]. intros g1 w L1 [O1 _].
    nx; [apply IH|]. intros g3 ws L3 F. apply h_ret. constructor; auto. eapply okw_le; eauto.
Qed.
Lemma h_add_views ws g : Forall (okw g) ws -> hoare g (add_views ws) any.
Proof.
  revert g. induction ws as [|w ws IH]; intros g O; simpl.
  - apply h_ret. exact Logic.I.
  - inversion_clear O. nx; [apply h_add_view; auto|]. intros g1 v L1 _. nx.
    + apply IH. eapply Forall_impl; [|eassumption]. intros w' O'. eapply okw_le; eauto.
    + intros g2 vs L2 _. apply h_ret. exact Logic.I.
Qed.
Lemma h_timeseries g p u r t ex : hoare g (m_timeseries leaves units p u r t ex) any.
Proof.
  unfold m_timeseries. nx; [apply h_attempt_read|]. intros g1 z0 L1 T1.
  nx; [apply h_leaf_view|]. intros g2 w L2 (O2 & P2 & G2).
  assert (N : forall g' cs, le g2 g' -> okw g' (mkMV true false p (mv_uconv w) t ex (mv_source w) (mv_target w) cs false None false None)).
  { intros g' cs L. apply (okw_le _ g') in O2; auto. destruct O2 as (A & B & C & E). rewrite G2, P2 in E.
    split; [|split; [|split]]; simpl; auto with mm. }
  destruct kids.
  - nx; [apply h_attribute|]. intros g3 target L3 [-> _].
    nx; [apply h_leaf_views|]. intros g4 ws L4 F. nx; [apply h_add_views; exact F|]. intros g5 vs L5 _.
    apply h_add_view. apply N. eapply le_trans; eauto.
  - apply h_add_view. auto with mm.
Qed.

Lemma h_converter g w : hoare g (converter w) (fun g' _ => g' = g).
Proof.
  unfold converter. nx; [apply h_attribute|]. intros g1 r L1 [-> _].
  nx; [apply h_times|]. intros g2 from L2 ->.
  nx; [apply h_attribute|]. intros g3 r' L3 [-> _].
  nx; [apply h_times|]. intros g4 to L4 ->. apply h_ret; auto.
Qed.
Lemma h_own_values g w : hoare g (own_values w) (fun g' _ => g' = g).
Proof.
  unfold own_values. nx; [apply h_get_param|]. intros g1 q L1 (-> & _).
  destruct mp_written; [|apply h_raise]. destruct (mp_data q) as [r|] eqn:E; [|apply h_raise].
  nx; [apply h_numbers|]. intros g2 d L2 ->. nx; [apply h_converter|]. intros g3 c L3 ->. apply h_lift.
Qed.

Lemma okw_data g w r : okw g w -> col g false r -> okw g (set_data w r).
Proof. intros (A & B & C & E) O. split; [|split; [|split]]; simpl; auto with mm. Qed.
Lemma okw_same g w w' : okw g w -> mv_source w' = mv_source w -> mv_target w' = mv_target w ->
  mv_data w' = mv_data w -> mv_generic w' = mv_generic w -> mv_param w' = mv_param w -> okw g w'.
Proof. intros H E1 E2 E3 E4 E5. unfold okw in *. rewrite E1, E2, E3, E4, E5. auto. Qed.

Lemma h_read_view g get v :
  (forall g' w, okw g' w -> hoare g' (get w) any) -> hoare g (read_view get v) any.
Proof.
  intros G. unfold read_view. nx; [apply h_get_view|]. intros g1 w L1 (-> & O & T).
  nx; [apply h_get_param|]. intros g2 q L2 (-> & _).
  destruct (mv_data w) as [r|] eqn:E.
  - nx; [apply h_numbers|]. intros g3 d L3 ->.
    destruct (mv_version w) as [n|]; [|apply h_raise].
    destruct Nat.eqb; [apply h_ret; exact Logic.I|].
    nx; [apply G; auto|]. intros g4 xs L4 _.
    destruct (a_int d); [apply h_raise|].
    nx; [apply h_overwrite|]. intros g5 z0 L5 ->.
    nx; [apply h_put_view|intros; apply h_ret; exact Logic.I].
    + apply okw_same with (w := w); auto. eapply okw_le; eauto.
    + apply L4; auto.
  - nx; [apply G; auto|]. intros g3 xs L3 _.
    nx; [apply (h_new_array false)|]. intros g4 r L4 [C4 T4].
    nx; [apply h_put_view|intros; apply h_ret; exact Logic.I].
    + apply okw_same with (w := set_data w r); auto. apply okw_data; auto.
      eapply okw_le; eauto. eapply le_trans; eauto.
    + apply L4, L3; auto.
Qed.
Lemma h_leaf_read g v : hoare g (leaf_read leaves v) any.
Proof.
  apply h_read_view. intros g' w O. destruct kids; [apply h_raise|eapply h_any, h_own_values].
Qed.
Lemma h_sum_reads cs g acc : hoare g (sum_reads leaves cs acc) any.
Proof.
  revert g acc. induction cs as [|c cs IH]; intros g acc; simpl.
  - destruct acc; [apply h_ret; exact Logic.I|apply h_raise].
  - nx; [apply h_leaf_read|]. intros g1 xs L1 _. destruct acc; [|apply IH].
    nx; [apply h_lift|]. intros g2 a' L2 ->. apply IH.
Qed.
Lemma h_get g v : hoare g (m_get leaves v) any.
Proof.
  apply h_read_view. intros k' w O. unfold m_get_values. destruct kids; [|eapply h_any, h_own_values].
  destruct mv_children; [apply h_sum_reads|apply h_raise].
Qed.

(** Only views that are not generic write. *)
Lemma h_write g v : nth_error (g_gen g) v = Some false -> hoare g (m_write v) any.
Proof.
  intros NG. unfold m_write. nx; [apply h_get_view|]. intros g1 w L1 (-> & O & T).
  destruct mv_locked; [apply h_ret; exact Logic.I|].
  destruct (mv_data w) as [r|] eqn:E; [|apply h_raise].
  nx; [apply h_numbers|]. intros g2 d L2 ->.
  nx; [apply h_get_param|]. intros g3 q L3 (-> & Oq & Tq).
  nx; [apply h_converter|]. intros g4 c L4 ->.
  nx; [apply h_lift|]. intros g5 xs L5 ->.
  nx; [apply (h_new_array true)|]. intros g6 r' L6 [C6 T6].
  assert (O' := O). destruct O' as (_ & _ & _ & O').
  replace (mv_generic w) with false in O' by congruence. destruct O' as (t & Tw & Nt).
  assert (mp_type q = Some t) as Et by (unfold ty in Tw; congruence).
  nx; [apply h_put_param with (t := t); simpl; auto|].
  - unfold okq; simpl. unfold okq in Oq. rewrite Et in *. apply (colo_some _ true) in C6.
    destruct t; try contradiction; split; auto; destruct Oq; eapply colo_le; eauto.
  - intros t' T'. unfold ty in *. rewrite T6 in T'. congruence.
  - intros g7 z0 L7 (C7 & G7 & T7). eapply h_any, h_put_view.
    + apply okw_same with (w := w); auto. eapply okw_le; eauto. eapply le_trans; eauto.
    + apply L7, L6; auto.
Qed.

Lemma h_check_write g v : hoare g (m_check_write leaves v) any.
Proof.
  unfold m_check_write. nx; [apply h_get_view|]. intros g1 w L1 (-> & O & T).
  destruct mv_writable; [apply h_ret; exact Logic.I|].
  nx; [apply h_attempt_write|]. intros g2 z0 L2 T2. eapply h_any, h_put_view.
  - apply okw_same with (w := w); auto. eapply okw_le; eauto.
  - apply L2; auto.
Qed.

Lemma h_set g v r : nth_error (g_gen g) v = Some false -> hoare g (m_set leaves v r) any.
Proof.
  intros NG. unfold m_set. nx; [apply h_numbers|]. intros g1 a L1 ->.
  nx; [apply h_check_write|]. intros g2 z0 L2 _.
  nx; [apply h_get_view|]. intros g3 w L3 (-> & O & T).
  nx; [apply h_converter|]. intros g4 c L4 ->.
  assert (NG2 : nth_error (g_gen g2) v = Some false) by (apply L2; auto).
  destruct Z.eqb; [|apply h_raise].
  destruct (mv_data w) as [d|] eqn:E.
  - nx; [apply h_numbers|]. intros g5 old L5 ->.
    destruct (a_int old && negb (a_int a)); [apply h_raise|].
    nx; [apply h_overwrite|]. intros g6 z1 L6 ->. apply h_write; auto.
  - nx; [apply (h_new_array false)|]. intros g5 r' L5 [C5 T5].
    nx; [apply h_put_view|].
    + apply okw_data; auto. eapply okw_le; eauto.
    + apply L5; auto.
    + intros g6 z1 L6 ->. apply h_write. apply L5; auto.
Qed.

Lemma h_set_item g v i x : nth_error (g_gen g) v = Some false -> hoare g (m_set_item leaves v i x) any.
Proof.
  intros NG. unfold m_set_item. nx; [apply h_get|]. intros g1 z0 L1 _.
  nx; [apply h_get_view|]. intros g2 w L2 (-> & O & T).
  destruct (mv_data w) as [r|] eqn:E; [|apply h_raise].
  nx; [apply h_numbers|]. intros g3 d L3 ->.
  destruct pyindex; [|apply h_raise].
  nx; [apply h_lift|]. intros g4 y L4 ->.
  nx; [apply h_overwrite|]. intros g5 z1 L5 ->. apply h_write. apply L1; auto.
Qed.
Lemma h_iadd g v x : nth_error (g_gen g) v = Some false -> hoare g (m_iadd leaves v x) any.
Proof.
  intros NG. unfold m_iadd. nx; [apply h_get|]. intros g1 z0 L1 _.
  nx; [apply h_get_view|]. intros g2 w L2 (-> & O & T).
  nx; [apply h_attribute|]. intros g3 r L3 [-> _].
  nx; [apply h_numbers|]. intros g4 d L4 ->.
  destruct (a_int d); [apply h_raise|].
  nx; [apply h_overwrite|]. intros g5 z1 L5 ->.
  nx; [apply h_write; apply L1; auto|]. intros g6 z2 L6 _. apply h_set. apply L6, L1; auto.
Qed.
Lemma h_lock g v : hoare g (m_lock v) any.
Proof.
  unfold m_lock. nx; [apply h_get_view|]. intros g1 w L1 (-> & O & T). eapply h_any, h_put_view; [|auto].
  apply okw_same with (w := w); auto.
Qed.
Lemma h_unlock g v : nth_error (g_gen g) v = Some false -> hoare g (m_unlock v) any.
Proof.
  intros NG. unfold m_unlock. nx; [apply h_get_view|]. intros g1 w L1 (-> & O & T).
  nx; [apply h_put_view; auto; apply okw_same with (w := w); auto|]. intros g2 z0 L2 ->. apply h_write; auto.
Qed.
Lemma h_asarray g v : hoare g (m_asarray leaves v) any.
Proof.
  unfold m_asarray. nx; [apply h_get|]. intros g1 z0 L1 _.
  nx; [apply h_get_view|]. intros g2 w L2 (-> & O & T).
  nx; [apply h_attribute|]. intros g3 r L3 [-> E].
  nx; [apply h_give; apply O; auto|]. intros; apply h_ret; exact Logic.I.
Qed.
Lemma h_compute g v f : hoare g (m_compute leaves v f) any.
Proof.
  unfold m_compute. nx; [apply h_get|]. intros g1 xs L1 _.
  nx; [apply (h_new_array false)|]. intros g2 r L2 [C2 _].
  nx; [apply h_give; auto|]. intros; apply h_ret; exact Logic.I.
Qed.
Lemma h_generic g p : hoare g (m_generic leaves p) any.
Proof.
  unfold m_generic. nx; [apply h_attempt_read|]. intros g1 z0 L1 T1.
  apply h_add_view. split; [|split; [|split]]; simpl; auto with mm.
Qed.
Lemma h_get_generic g v : nth_error (g_gen g) v = Some true -> hoare g (m_get_generic v) any.
Proof.
  intros G. unfold m_get_generic. nx; [apply h_get_view|]. intros g1 w L1 (-> & O & T).
  nx; [apply h_get_param|]. intros g2 q L2 (-> & Oq & Tq).
  destruct mp_written; [|apply h_raise]. destruct (mp_data q) as [r|] eqn:E; [|apply h_raise].
  destruct O as (_ & _ & _ & O). replace (mv_generic w) with true in O by congruence.
  assert (mp_type q = Some GENERIC) as Et by (unfold ty in O; congruence).
  unfold okq in Oq. rewrite Et in Oq. destruct Oq as [_ Od].
  nx; [apply h_give; auto|]. intros; apply h_ret; exact Logic.I.
Qed.
Lemma h_set_generic g v r : nth_error (g_gen g) v = Some true -> col g false r ->
  hoare g (m_set_generic leaves v r) any.
Proof.
  intros G C. unfold m_set_generic. nx; [apply h_get_view|]. intros g1 w L1 (-> & O & T).
  assert (O' := O). destruct O' as (_ & _ & _ & O').
  replace (mv_generic w) with true in O' by congruence.
  nx; [instantiate (1 := any); destruct (mv_writable w)|].
  - apply h_ret; exact Logic.I.
  - nx; [apply h_attempt_write|]. intros g2 z0 L2 T2. eapply h_any, h_put_view.
    + apply okw_same with (w := w); auto. eapply okw_le; eauto.
    + apply L2; auto.
  - intros g2 z0 L2 _. nx; [apply h_get_param|]. intros g3 q L3 (-> & Oq & Tq).
    assert (T' : ty g2 (mv_param w) GENERIC) by (apply L2; auto).
    assert (mp_type q = Some GENERIC) as Et by (unfold ty in T'; congruence).
    eapply h_any, h_put_param with (t := GENERIC); simpl; auto.
    + unfold okq in *; simpl. rewrite Et in *. destruct Oq. split; auto. apply colo_some, L2. auto.
    + intros t' T2. unfold ty in *. congruence.
Qed.

Lemma h_as_val {A} g (f : A -> mval) x : hoare g x any -> hoare g (as_val f x) any.
Proof. intros H. nx; [exact H|]. intros; apply h_ret; exact Logic.I. Qed.
Lemma h_on_view g v b x : (nth_error (g_gen g) v = Some b -> hoare g x any) -> hoare g (on_view v b x) any.
Proof.
  intros H. nx; [apply h_get_view|]. intros g1 w L1 (-> & O & T).
  destruct (mv_public w && Bool.eqb (mv_generic w) b) eqn:E; [|apply h_raise].
  apply andb_true_iff in E as [_ E]. apply eqb_prop in E as <-. auto.
Qed.

Lemma h_step g o : hoare g (mstep leaves units o) any.
Proof.
  destruct o; simpl.
  - nx; [apply (h_new_array false)|]. intros g1 r L1 [C1 _]. nx; [apply h_give; auto|].
    intros; apply h_ret; exact Logic.I.
  - apply h_as_val. unfold m_write_item. nx; [apply h_has|]. intros g1 z0 L1 [-> _].
    nx; [apply h_numbers|]. intros g2 a L2 ->. destruct pyindex; [|apply h_raise].
    nx; [apply h_lift|]. intros g3 y L3 ->. eapply h_any, h_overwrite.
  - apply h_as_val. unfold m_write_time. nx; [apply h_has|]. intros g1 z0 L1 [-> _].
    nx; [apply h_times|]. intros g2 a L2 ->. destruct pyindex; [|apply h_raise].
    eapply h_any, h_overwrite.
  - nx; [apply h_has|]. intros g1 z0 L1 [-> _]. apply h_as_val. eapply h_any, h_content.
  - nx; [apply h_has|]. intros g1 z0 L1 [-> _]. apply h_as_val, h_timeseries.
  - apply h_on_view. intros. apply h_as_val, h_get.
  - nx; [apply h_has|]. intros g1 z0 L1 [-> _]. apply h_on_view. intros. apply h_as_val, h_set; auto.
  - apply h_on_view. intros. apply h_as_val, h_set_item; auto.
  - apply h_on_view. intros. apply h_as_val, h_iadd; auto.
  - apply h_on_view. intros. apply h_as_val, h_lock.
  - apply h_on_view. intros. apply h_as_val, h_unlock; auto.
  - apply h_on_view. intros. apply h_as_val, h_asarray.
  - apply h_on_view. intros. apply h_as_val, h_compute.
  - apply h_as_val, h_generic.
  - apply h_on_view. intros. apply h_as_val, h_get_generic; auto.
  - nx; [apply h_has|]. intros g1 z0 L1 [-> C]. apply h_on_view. intros. apply h_as_val, h_set_generic; auto.
Qed.

Lemma inv_run n h : exists g, inv g (mrun leaves units (mstart n) h).
Proof.
  assert (S : exists g, inv g (mstart n)).
  { exists (mkG [] (map mp_type (m_params (mstart n))) []). constructor; simpl; auto; try contradiction.
    - intros p q E. apply nth_error_In, repeat_spec in E as ->. split; auto.
    - intros v w E. destruct v; discriminate. }
  revert S. generalize (mstart n). induction h as [|o h IH]; intros s S; simpl; auto.
  apply IH. destruct S as [g I]. destruct (h_step g o s I) as (g' & I' & _). eauto.
Qed.

(** Writing to an array of the caller changes no parameter other than generic ones. *)
Theorem parameter_not_changed n h o r p :
  writes_to o = Some r ->
  let m := mrun leaves units (mstart n) h in
  let m' := fst (mstep leaves units o m) in
  param_type m p <> Some GENERIC ->
  param_values m' p = param_values m p /\ param_times m' p = param_times m p.
Proof.
  intros W m m' NG. destruct (inv_run n h) as [g I]. fold m in I.
  assert (H : (m' = m) \/ (exists c, In r (m_caller m) /\ m' = mkMem (upd (m_heap m) r c) (m_params m) (m_views m) (m_caller m))).
  { assert (C : existsb (Nat.eqb r) (m_caller m) = true -> In r (m_caller m)).
    { intros E. apply existsb_exists in E as (x & J & E). apply Nat.eqb_eq in E as ->. auto. }
    unfold m'. destruct o; try discriminate; injection W as ->; simpl.
    - unfold nothing, as_val, m_write_item, mbind, has, numbers, mbind, content, mlift, mret, mraise, overwrite.
      destruct (existsb (Nat.eqb r) (m_caller m)); [|auto]. destruct (nth_error (m_heap m) r) as [[a|l]|]; simpl; auto.
      destruct pyindex; simpl; auto. destruct cast_item; simpl; eauto.
    - unfold nothing, as_val, m_write_time, mbind, has, times, mbind, content, mlift, mret, mraise, overwrite.
      destruct (existsb (Nat.eqb r) (m_caller m)); [|auto]. destruct (nth_error (m_heap m) r) as [[a|l]|]; simpl; auto.
      destruct pyindex; simpl; eauto. }
  destruct H as [->|(c & C & ->)]; auto.
  unfold param_values, param_times, param_type in *. simpl.
  destruct (nth_error (m_params m) p) as [q|] eqn:E; auto.
  apply (i_p _ _ I) in E. apply (i_caller _ _ I) in C.
  assert (K : forall r', colo g true (Some r') -> r' <> r).
  { intros r' K ->. specialize (K r eq_refl). unfold col in *. congruence. }
  unfold okq in E. split.
  - destruct (mp_data q) as [r'|] eqn:Ed; auto. apply nth_upd_neq. apply not_eq_sym, K.
    destruct (mp_type q) as [[]|]; try (apply E; fail); try congruence. destruct E; discriminate.
  - destruct (mp_time q) as [r'|] eqn:Ed; auto. apply nth_upd_neq. apply not_eq_sym, K.
    destruct (mp_type q) as [[]|]; try (apply E; fail); try congruence. destruct E; discriminate.
Qed.
End Calls.
