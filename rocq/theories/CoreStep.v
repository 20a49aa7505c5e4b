(** Exact effects of the operations on views. *)
From Coq Require Import String List Arith Lia Bool ZArith Reals.
From Verif Require Import Base ListFacts Units TimeModel Core CoreEvo CoreTree CoreNames CoreInv.
Import ListNotations.

Lemma upd_same {A} (l : list A) i x : nth_error l i = Some x -> upd l i x = l.
Proof. revert i; induction l; intros [|i]; simpl; intros H; try discriminate; f_equal; auto. congruence. Qed.
Lemma upd_upd {A} (l : list A) i x y : upd (upd l i x) i y = upd l i y.
Proof. revert i; induction l; intros [|i]; simpl; auto. f_equal; auto. Qed.

(** [s] with parameter cell [p] and view cell [vi] replaced. *)
Definition put (s : state) (p : nat) (q : param) (vi : nat) (v : view) : state :=
  mkState (st_regions s) (upd (st_params s) p q) (upd (st_views s) vi v).

Lemma put_same s p q vi v : nth_error (st_params s) p = Some q ->
  nth_error (st_views s) vi = Some v -> put s p q vi v = s.
Proof. intros. unfold put. rewrite !upd_same by auto. now destruct s. Qed.
Lemma put_put s p q vi v q' v' : put (put s p q vi v) p q' vi v' = put s p q' vi v'.
Proof. unfold put; simpl. now rewrite !upd_upd. Qed.
Lemma set_view_put s p q vi v : nth_error (st_params s) p = Some q ->
  set_view s vi v = put s p q vi v.
Proof. intros H. unfold put, set_view. now rewrite (upd_same (st_params s) p q H). Qed.
Lemma put_param s p q0 q vi v : nth_error (st_params s) p = Some q0 ->
  nth_error (st_params (put s p q vi v)) p = Some q.
Proof. intros. simpl. apply nth_upd_eq. eapply nth_lt; eauto. Qed.
Lemma put_param_other s p q vi v p' : p' <> p ->
  nth_error (st_params (put s p q vi v)) p' = nth_error (st_params s) p'.
Proof. intros. simpl. apply nth_upd_neq; auto. Qed.
Lemma put_view s p q v0 vi v : nth_error (st_views s) vi = Some v0 ->
  nth_error (st_views (put s p q vi v)) vi = Some v.
Proof. intros. simpl. apply nth_upd_eq. eapply nth_lt; eauto. Qed.
Lemma put_view_other s p q vi v vi' : vi' <> vi ->
  nth_error (st_views (put s p q vi v)) vi' = nth_error (st_views s) vi'.
Proof. intros. simpl. apply nth_upd_neq; auto. Qed.

Lemma p_set_read_id q : p_read q = true -> p_set_read q = q.
Proof. destruct q; simpl; intros ->; reflexivity. Qed.
Lemma p_set_written_id q : p_written q = true -> p_set_written q = q.
Proof. destruct q; simpl; intros ->; reflexivity. Qed.
Lemma v_set_writable_id v : v_writable v = true -> v_set_writable v = v.
Proof. destruct v; simpl; intros ->; reflexivity. Qed.

Section S.
Variable env : uenv.
Notation wf := (wf env).

(** A public view and its parameter. *)
Lemma view_cell s vi v : wf s -> nth_error (st_views s) vi = Some v ->
  exists q, nth_error (st_params s) (v_param v) = Some q /\ vinv env (st_views s) vi v q.
Proof. intros W V. apply (wf_views _ _ W _ _ V). Qed.

Lemma check_write_eff s vi v q u tp s1 x : wf s ->
  nth_error (st_views s) vi = Some v -> v_public v = true ->
  nth_error (st_params s) (v_param v) = Some q ->
  check_write s vi v (vtype v) u tp = (s1, x) ->
  match x with
  | Ok _ => p_children q = [] /\ s1 = put s (v_param v) (p_set_written q) vi (v_set_writable v)
  | Err e => p_children q <> [] /\ e = EParameterReadonly /\ s1 = s
  end.
Proof.
  intros W V Pb Q H. destruct (view_cell _ _ _ W V) as (q0 & Q0 & I).
  assert (q0 = q) by congruence; subst q0. clear Q0.
  destruct (vi_public _ _ _ _ _ I Pb) as (Rd & Ty & _).
  unfold check_write in H. destruct (v_writable v) eqn:Wr.
  - inversion H; subst. pose proof (vi_writable _ _ _ _ _ I Wr) as Wq.
    split; [eapply wt_written; eauto; apply W|].
    rewrite p_set_written_id, v_set_writable_id by auto. now rewrite put_same.
  - unfold on_param in H. rewrite Q in H. unfold attempt_write, has_children, attempt_read in H.
    destruct (p_children q) eqn:C.
    + rewrite Ty in H. assert (E : ptype_eqb (vtype v) (vtype v) = true) by (destruct (vtype v); auto).
      rewrite E in H. inversion H; subst. split; auto.
      rewrite p_set_read_id by auto. reflexivity.
    + inversion H; subst. split; [discriminate|]. split; auto.
      unfold set_param. rewrite upd_same by auto. now destruct s.
Qed.

Lemma store_put s p q0 q vi v d : nth_error (st_params s) p = Some q0 ->
  store (put s p q vi v) p d = put s p (p_store q d) vi v.
Proof.
  intros Q. unfold store. rewrite (put_param _ _ _ _ _ _ Q).
  unfold set_param, put. simpl. now rewrite upd_upd.
Qed.

Lemma scalar_set_eff s vi v q y s' x : wf s ->
  nth_error (st_views s) vi = Some v -> v_public v = true -> v_kind v = KScalar ->
  nth_error (st_params s) (v_param v) = Some q ->
  scalar_set s vi v y = (s', x) ->
  match x with
  | Ok _ => p_children q = [] /\
    s' = put s (v_param v)
           (p_store (p_set_written q) (PScalar (option_map (uconvert_to (v_uconv v)) y)))
           vi (v_set_writable v)
  | Err e => p_children q <> [] /\ e = EParameterReadonly /\ s' = s
  end.
Proof.
  intros W V Pb K Q H. unfold scalar_set in H.
  assert (T : SCALAR = vtype v) by (unfold vtype; now rewrite K). rewrite T in H.
  destruct (check_write s vi v (vtype v) _ _) as [s1 [z|e]] eqn:C;
    apply check_write_eff with (q := q) in C; auto; inversion H; subst.
  - destruct C as [Ch ->]. split; auto. now apply store_put with (q0 := q).
  - auto.
Qed.
Lemma generic_set_eff s vi v q y s' x : wf s ->
  nth_error (st_views s) vi = Some v -> v_public v = true -> v_kind v = KGeneric ->
  nth_error (st_params s) (v_param v) = Some q ->
  generic_set s vi v y = (s', x) ->
  match x with
  | Ok _ => p_children q = [] /\
    s' = put s (v_param v) (p_store (p_set_written q) (PGen y)) vi (v_set_writable v)
  | Err e => p_children q <> [] /\ e = EParameterReadonly /\ s' = s
  end.
Proof.
  intros W V Pb K Q H. unfold generic_set in H.
  assert (T : GENERIC = vtype v) by (unfold vtype; now rewrite K). rewrite T in H.
  destruct (check_write s vi v (vtype v) _ _) as [s1 [z|e]] eqn:C;
    apply check_write_eff with (q := q) in C; auto; inversion H; subst.
  - destruct C as [Ch ->]. split; auto. now apply store_put with (q0 := q).
  - auto.
Qed.

Lemma ts_write_eff s vi v q s' x : nth_error (st_views s) vi = Some v ->
  nth_error (st_params s) (v_param v) = Some q ->
  ts_write s vi = (s', x) ->
  match x with
  | Ok _ => (v_locked v = true /\ s' = s) \/
            (v_locked v = false /\ exists d xs, v_data v = Some d /\
             to_param v (a_val d) = Ok xs /\
             s' = put s (v_param v) (p_store q (PArr xs)) vi (v_set_version v (S (p_version q))))
  | Err _ => v_locked v = false /\ s' = s
  end.
Proof.
  intros V Q H. unfold ts_write in H. rewrite V in H.
  destruct (v_locked v); [inversion H; subst; auto|].
  destruct (v_data v) as [d|]; [|inversion H; subst; auto]. rewrite Q in H.
  destruct (to_param v (a_val d)) eqn:T; inversion H; subst; auto.
  right. split; auto. exists d, a. auto.
Qed.

(** The array a whole write leaves in the cache. *)
Definition newdata (v : view) (a : arr) : arr :=
  match v_data v with None => a | Some d => mkArr (a_int d) (a_val a) end.

Lemma ts_set_eff s vi v q a s' x : wf s ->
  nth_error (st_views s) vi = Some v -> v_public v = true -> v_kind v = KTimeseries ->
  nth_error (st_params s) (v_param v) = Some q ->
  ts_set s vi v a = (s', x) ->
  let q1 := p_set_written q in
  let v1 := v_set_writable v in
  let v2 := v_set_data v1 (newdata v a) in
  let p := v_param v in
  match x with
  | Ok _ => p_children q = [] /\ Z.of_nat (length (a_val a)) = target_length (v_tconv v) /\
     ((v_locked v = true /\ s' = put s p q1 vi v2) \/
      (v_locked v = false /\ exists xs, to_param v (a_val a) = Ok xs /\
         s' = put s p (p_store q1 (PArr xs)) vi (v_set_version v2 (S (p_version q)))))
  | Err e =>
     (p_children q <> [] /\ e = EParameterReadonly /\ s' = s) \/
     (p_children q = [] /\
      ((Z.of_nat (length (a_val a)) <> target_length (v_tconv v) /\ e = ETimeseriesMismatch /\
        s' = put s p q1 vi v1) \/
       (Z.of_nat (length (a_val a)) = target_length (v_tconv v) /\
         ((exists d, v_data v = Some d /\ a_int d = true /\ a_int a = false /\ e = ETypeError /\
            s' = put s p q1 vi v1) \/
          (v_locked v = false /\ to_param v (a_val a) = Err e /\ s' = put s p q1 vi v2)))))
  end.
Proof.
  intros W V Pb K Q H q1 v1 v2 p. unfold ts_set in H.
  assert (T : tc_type (v_tconv v) = vtype v) by (unfold vtype; now rewrite K). rewrite T in H.
  destruct (check_write s vi v (vtype v) _ _) as [s1 [z|e]] eqn:C;
    apply check_write_eff with (q := q) in C; auto.
  2: { inversion H; subst. left. auto. }
  destruct C as [Ch ->].
  destruct (Z.eqb_spec (Z.of_nat (length (a_val a))) (target_length (v_tconv v))) as [L|L].
  2: { inversion H; subst. right. split; auto. }
  rewrite (put_view _ _ _ _ _ _ V) in H.
  assert (X : forall d s'' y, d = newdata v a ->
    ts_write (set_view (put s (v_param v) (p_set_written q) vi (v_set_writable v)) vi
       (v_set_data (v_set_writable v) d)) vi = (s'', y) ->
    match y with
    | Ok _ => (v_locked v = true /\ s'' = put s p q1 vi v2) \/
      (v_locked v = false /\ exists xs, to_param v (a_val a) = Ok xs /\
         s'' = put s p (p_store q1 (PArr xs)) vi (v_set_version v2 (S (p_version q))))
    | Err e => v_locked v = false /\ to_param v (a_val a) = Err e /\ s'' = put s p q1 vi v2
    end).
  { intros d s'' y -> Hw.
    assert (Dv : a_val (newdata v a) = a_val a) by (unfold newdata; destruct (v_data v); auto).
    rewrite (set_view_put _ (v_param v) q1) in Hw.
    2: { eapply put_param; eauto. }
    rewrite put_put in Hw. unfold ts_write in Hw.
    rewrite (put_view _ _ _ _ _ _ V) in Hw. cbn [v_set_data v_set_writable v_locked v_data v_param] in Hw.
    destruct (v_locked v); [inversion Hw; subst; auto|].
    fold p in Hw. rewrite (put_param _ _ _ _ _ _ Q) in Hw.
    change (to_param (v_set_data (v_set_writable v) (newdata v a)) (a_val (newdata v a)))
      with (to_param v (a_val (newdata v a))) in Hw. rewrite Dv in Hw.
    destruct (to_param v (a_val a)) as [xs|e'] eqn:TP; inversion Hw; subst; auto.
    right. split; auto. exists xs. split; auto.
    unfold set_view, set_param, put. simpl. now rewrite !upd_upd. }
  change (v_data (v_set_writable v)) with (v_data v) in H.
  unfold newdata in X.
  destruct (v_data v) as [d|] eqn:D.
  - destruct (a_int d && negb (a_int a)) eqn:B.
    + inversion H; subst. right. split; auto. right. split; auto. left. exists d.
      apply andb_true_iff in B. destruct B as [B1 B2]. apply negb_true_iff in B2. auto.
    + apply X in H; auto. destruct x; auto. right. split; auto.
  - apply X in H; auto. destruct x; auto. right. split; auto.
Qed.

Lemma handle_set_eff s vi v q d i y s' x :
  nth_error (st_views s) vi = Some v -> v_data v = Some d ->
  nth_error (st_params s) (v_param v) = Some q ->
  handle_set s vi i y = (s', x) ->
  match x with
  | Ok _ => exists j y', pyindex (length (a_val d)) i = Some j /\ cast_item (a_int d) y = Ok y' /\
      let d' := mkArr (a_int d) (upd (a_val d) j y') in
      (v_locked v = true /\ s' = put s (v_param v) q vi (v_set_data v d')) \/
      (v_locked v = false /\ exists xs, to_param v (a_val d') = Ok xs /\
        s' = put s (v_param v) (p_store q (PArr xs)) vi
               (v_set_version (v_set_data v d') (S (p_version q))))
  | Err e => s' = s \/ exists j y', pyindex (length (a_val d)) i = Some j /\
      cast_item (a_int d) y = Ok y' /\
      let d' := mkArr (a_int d) (upd (a_val d) j y') in
      v_locked v = false /\ to_param v (a_val d') = Err e /\
      s' = put s (v_param v) q vi (v_set_data v d')
  end.
Proof.
  intros V D Q H. unfold handle_set in H. rewrite V, D in H.
  destruct (pyindex (length (a_val d)) i) as [j|]; [|inversion H; subst; auto].
  destruct (cast_item (a_int d) y) as [y'|e]; [|inversion H; subst; auto].
  rewrite (set_view_put _ _ _ _ _ Q) in H. unfold ts_write in H.
  rewrite (put_view _ _ _ _ _ _ V) in H. cbn [v_set_data v_locked v_data v_param] in H.
  destruct (v_locked v) eqn:Lk.
  - inversion H; subst. exists j, y'. auto.
  - rewrite (put_param _ _ _ _ _ _ Q) in H.
    change (to_param (v_set_data v ?d) ?x) with (to_param v x) in H.
    match type of H with context [to_param ?a ?b] => destruct (to_param a b) as [xs|e'] eqn:TP end;
      inversion H; subst.
    + exists j, y'. split; auto. split; auto. right. split; auto. exists xs. split; auto.
      unfold set_view, set_param, put. simpl. now rewrite !upd_upd.
    + right. exists j, y'. auto.
Qed.

(** ** Reading *)

(** Views whose cache reading [v] (cell [vi]) can change. *)
Definition touched (vi : nat) (v : view) (i : nat) : Prop :=
  i = vi \/ exists cs, v_children v = Some cs /\ In i cs.

Lemma leaf_read_views s vi s' x i : read_with leaf_values s vi = (s', x) -> i <> vi ->
  nth_error (st_views s') i = nth_error (st_views s) i.
Proof.
  intros H N. unfold read_with in H.
  destruct (nth_error (st_views s) vi) as [v|] eqn:V; [|inversion H; auto].
  destruct (nth_error (st_params s) (v_param v)) as [q|] eqn:Q; [|inversion H; auto].
  unfold leaf_values in H. rewrite Q in H.
  destruct (v_data v) as [d|].
  - destruct (v_version v); [|inversion H; auto].
    destruct (n =? p_version q); [inversion H; auto|].
    destruct (if has_children q then _ else _); [|inversion H; auto].
    destruct (a_int d); inversion H; subst; auto. simpl. apply nth_upd_neq; auto.
  - destruct (if has_children q then _ else _); inversion H; subst; auto.
    simpl. apply nth_upd_neq; auto.
Qed.
Lemma sum_children_views cs : forall s acc s' x i, sum_children s cs acc = (s', x) -> ~ In i cs ->
  nth_error (st_views s') i = nth_error (st_views s) i.
Proof.
  induction cs as [|c cs]; simpl; intros s acc s' x i H N; [inversion H; auto|].
  destruct (read_with leaf_values s c) as [s1 [xs|e]] eqn:R.
  - rewrite <- (leaf_read_views _ _ _ _ i R) by (intros ->; apply N; auto).
    destruct acc as [a|].
    + destruct (arr_add a xs); [|inversion H; auto]. eapply IHcs; eauto.
    + eapply IHcs; eauto.
  - inversion H; subst. eapply leaf_read_views; eauto.
Qed.
Lemma get_values_views s v s' x i : get_values s v = (s', x) ->
  (forall cs, v_children v = Some cs -> ~ In i cs) ->
  nth_error (st_views s') i = nth_error (st_views s) i.
Proof.
  intros H N. unfold get_values in H.
  destruct (nth_error (st_params s) (v_param v)); [|inversion H; auto].
  destruct (has_children p); [|inversion H; auto].
  destruct (v_children v); [|inversion H; auto].
  eapply sum_children_views; eauto.
Qed.
Lemma ts_get_views s vi v s' x i : nth_error (st_views s) vi = Some v ->
  ts_get s vi = (s', x) -> ~ touched vi v i ->
  nth_error (st_views s') i = nth_error (st_views s) i.
Proof.
  intros V H N.
  assert (N1 : i <> vi) by (intros ->; apply N; left; auto).
  assert (N2 : forall cs, v_children v = Some cs -> ~ In i cs)
    by (intros cs E I; apply N; right; eauto).
  unfold ts_get, read_with in H. rewrite V in H.
  destruct (nth_error (st_params s) (v_param v)) as [q|] eqn:Q; [|inversion H; auto].
  destruct (v_data v) as [d|].
  - destruct (v_version v); [|inversion H; auto].
    destruct (n =? p_version q); [inversion H; auto|].
    destruct (get_values s v) as [s1 [xs|e]] eqn:G.
    + apply get_values_views with (i := i) in G; auto.
      destruct (a_int d); inversion H; subst; auto. simpl. rewrite nth_upd_neq; auto.
    + inversion H; subst. eapply get_values_views; eauto.
  - destruct (get_values s v) as [s1 [xs|e]] eqn:G; inversion H; subst.
    + apply get_values_views with (i := i) in G; auto. simpl. rewrite nth_upd_neq; auto.
    + eapply get_values_views; eauto.
Qed.

Definition v_cache (v : view) (xs : list num) (k : nat) : view :=
  v_set_version (v_set_data v (mkArr false xs)) k.

(** Reading a view of a parameter without children. *)
Lemma ts_get_leaf s vi v q : nth_error (st_views s) vi = Some v ->
  nth_error (st_params s) (v_param v) = Some q -> p_children q = [] ->
  ts_get s vi =
    match v_data v with
    | None =>
      match ts_own v q with
      | Err e => (s, Err e)
      | Ok xs => (set_view s vi (v_cache v xs (p_version q)), Ok xs)
      end
    | Some d =>
      match v_version v with
      | None => (s, Err EAttributeError)
      | Some k =>
        if k =? p_version q then (s, Ok (a_val d))
        else match ts_own v q with
             | Err e => (s, Err e)
             | Ok xs => if a_int d then (s, Err ETypeError)
                        else (set_view s vi (v_cache v xs (p_version q)), Ok xs)
             end
      end
    end.
Proof.
  intros V Q C. unfold ts_get, read_with. rewrite V, Q.
  assert (G : get_values s v = (s, ts_own v q)).
  { unfold get_values. rewrite Q. unfold has_children. now rewrite C. }
  rewrite G. reflexivity.
Qed.

(** A successful read leaves the array in the cache, with the parameter's version. *)
Lemma ts_get_cached s vi v q s' xs : nth_error (st_views s) vi = Some v ->
  nth_error (st_params s) (v_param v) = Some q ->
  ts_get s vi = (s', Ok xs) ->
  exists v', nth_error (st_views s') vi = Some v' /\ vread v v' /\
    v_version v' = Some (p_version q) /\
    exists d, v_data v' = Some d /\ a_val d = xs /\
      ((s' = s /\ v' = v) \/ a_int d = false).
Proof.
  intros V Q H. pose proof (rd_ts_get _ _ _ _ H) as R.
  destruct (rd_views _ _ R _ _ V) as (v' & V' & Vr). exists v'. split; auto. split; auto.
  unfold ts_get, read_with in H. rewrite V, Q in H.
  destruct (v_data v) as [d|] eqn:D.
  - destruct (v_version v) as [k|] eqn:Ve; [|inversion H].
    destruct (Nat.eqb_spec k (p_version q)) as [->|].
    + inversion H; subst. assert (v' = v) by congruence; subst. split; auto. exists d. auto.
    + destruct (get_values s v) as [s1 [ys|e]] eqn:G; [|inversion H].
      destruct (a_int d); inversion H; subst.
      simpl in V'. rewrite nth_upd_eq in V'.
      * inversion V'; subst. simpl. split; auto. exists (mkArr false xs). auto.
      * apply rd_get_values in G. destruct (rd_views _ _ G _ _ V) as (w & W & _). eapply nth_lt; eauto.
  - destruct (get_values s v) as [s1 [ys|e]] eqn:G; inversion H; subst.
    simpl in V'. rewrite nth_upd_eq in V'.
    + inversion V'; subst. simpl. split; auto. exists (mkArr false xs). auto.
    + apply rd_get_values in G. destruct (rd_views _ _ G _ _ V) as (w & W & _). eapply nth_lt; eauto.
Qed.

(** ** The effect of a write operation *)

Inductive pwrite (q : param) : bool -> param -> Prop :=
| pw_same : pwrite q false q
| pw_written : p_children q = [] -> pwrite q false (p_set_written q)
| pw_store d : pwrite q true (p_store q d)
| pw_both d : p_children q = [] -> pwrite q true (p_store (p_set_written q) d).

Record wstep (s s' : state) (vi : nat) (v : view) (b : bool) : Prop := {
  ws_regions : st_regions s' = st_regions s;
  ws_plen : length (st_params s') = length (st_params s);
  ws_params : forall p, p <> v_param v ->
    nth_error (st_params s') p = nth_error (st_params s) p;
  ws_param : forall q, nth_error (st_params s) (v_param v) = Some q ->
    exists q', nth_error (st_params s') (v_param v) = Some q' /\ pwrite q b q';
  ws_vlen : length (st_views s') = length (st_views s);
  ws_views : forall i, ~ touched vi v i ->
    nth_error (st_views s') i = nth_error (st_views s) i }.

Lemma wstep_put s vi v q q' v' b : nth_error (st_views s) vi = Some v ->
  nth_error (st_params s) (v_param v) = Some q -> pwrite q b q' ->
  wstep s (put s (v_param v) q' vi v') vi v b.
Proof.
  intros V Q P. constructor; simpl; auto using upd_length.
  - intros. apply nth_upd_neq; auto.
  - intros q0 Q0. assert (q0 = q) by congruence; subst. exists q'. split; auto.
    apply nth_upd_eq. eapply nth_lt; eauto.
  - intros i N. apply nth_upd_neq. intros ->. apply N. left; auto.
Qed.
Lemma wstep_refl s vi v : wstep s s vi v false.
Proof. constructor; auto. intros q Q. exists q. split; auto. constructor. Qed.

(** Did the operation store data? [x] is its answer. *)
Definition stored (o : op) (v : view) (x : res val) : bool :=
  match x with
  | Err _ => false
  | Ok _ => match o with
            | OSetValue _ _ | OSetGeneric _ _ | OUnlock _ => true
            | _ => negb (v_locked v)
            end
  end.

Definition op_view (o : op) : option nat :=
  match o with
  | OSetValue v _ | OSetGeneric v _ | OSetValues v _ | OSetItem v _ _
  | OHandleSet v _ _ | OHandleIAdd v _ | OUnlock v => Some v
  | _ => None
  end.

Lemma lift_inv2 {A} (g : A -> val) y s' x :
  lift g y = (s', x) -> exists z, y = (s', z) /\
    match z with Ok a => x = Ok (g a) | Err e => x = Err e end.
Proof.
  destruct y as [s1 [a|e]]; simpl; intros H; inversion H; subst.
  - exists (Ok a). auto.
  - exists (Err e). auto.
Qed.

Lemma rd_wstep s s1 vi v s' v1 b : rd s s1 -> nth_error (st_views s) vi = Some v ->
  (forall i, ~ touched vi v i -> nth_error (st_views s1) i = nth_error (st_views s) i) ->
  nth_error (st_views s1) vi = Some v1 -> vread v v1 ->
  wstep s1 s' vi v1 b -> wstep s s' vi v b.
Proof.
  intros R V Tv V1 Vr H. destruct H. rewrite (vr_param _ _ Vr) in *.
  constructor.
  - rewrite ws_regions0. apply R.
  - rewrite ws_plen0. now rewrite (rd_params _ _ R).
  - intros. rewrite ws_params0, (rd_params _ _ R) by auto. auto.
  - intros q Q. apply ws_param0. now rewrite (rd_params _ _ R).
  - rewrite ws_vlen0. apply R.
  - intros i N. rewrite ws_views0, Tv; auto.
    intros [->|(cs & E & I)]; apply N; [left; auto|right].
    exists cs. split; auto. rewrite <- (vr_children _ _ Vr). auto.
Qed.

Lemma handle_set_wstep s vi v i y s' x : wf s -> nth_error (st_views s) vi = Some v ->
  handle_set s vi i y = (s', x) ->
  wstep s s' vi v (match x with Ok _ => negb (v_locked v) | Err _ => false end).
Proof.
  intros W V H. destruct (view_cell _ _ _ W V) as (q & Q & I).
  destruct (v_data v) as [d|] eqn:D.
  2: { unfold handle_set in H. rewrite V, D in H. inversion H; subst. apply wstep_refl. }
  apply handle_set_eff with (v := v) (q := q) (d := d) in H; auto.
  destruct x as [a|e].
  - destruct H as (j & y' & _ & _ & [(Lk & ->)|(Lk & xs & _ & ->)]); rewrite Lk; simpl.
    + eapply wstep_put; eauto. constructor.
    + eapply wstep_put; eauto. constructor.
  - destruct H as [->|(j & y' & _ & _ & _ & _ & ->)]; [apply wstep_refl|].
    eapply wstep_put; eauto. constructor.
Qed.

Lemma ts_write_data_wstep s vi v d s' x : wf s -> nth_error (st_views s) vi = Some v ->
  ts_write (set_view s vi (v_set_data v d)) vi = (s', x) ->
  wstep s s' vi v (match x with Ok _ => negb (v_locked v) | Err _ => false end).
Proof.
  intros W V H. destruct (view_cell _ _ _ W V) as (q & Q & I).
  rewrite (set_view_put _ _ _ _ _ Q) in H.
  apply ts_write_eff with (v := v_set_data v d) (q := q) in H.
  - simpl in H. destruct x as [a|e].
    + destruct H as [[Lk ->]|(Lk & d' & xs & _ & _ & ->)]; rewrite Lk; simpl.
      * eapply wstep_put; eauto. constructor.
      * rewrite put_put. eapply wstep_put; eauto. constructor.
    + destruct H as [_ ->]. eapply wstep_put; eauto. constructor.
  - eapply put_view; eauto.
  - simpl. apply nth_upd_eq. eapply nth_lt; eauto.
Qed.

Lemma write_step o vi v s s' x : wf s -> op_view o = Some vi ->
  nth_error (st_views s) vi = Some v ->
  step env o s = (s', x) -> wstep s s' vi v (stored o v x).
Proof.
  intros W O V; destruct o; try discriminate; inversion O; subst; clear O;
    intros H; cbn [step] in H;
    apply with_view_inv in H;
    destruct H as [[-> ->]|(w & V' & Pb & K & H)];
    try (simpl; apply wstep_refl; fail);
    assert (w = v) by congruence; subst w; clear V';
    destruct (view_cell _ _ _ W V) as (q & Q & I);
    apply lift_inv2 in H; destruct H as (z & H & X).
  - apply scalar_set_eff with (q := q) in H; auto.
    destruct z as [z|e]; subst x; simpl.
    + destruct H as [C ->]. eapply wstep_put; eauto. constructor; auto.
    + destruct H as (_ & _ & ->). apply wstep_refl.
  - apply generic_set_eff with (q := q) in H; auto.
    destruct z as [z|e]; subst x; simpl.
    + destruct H as [C ->]. eapply wstep_put; eauto. constructor; auto.
    + destruct H as (_ & _ & ->). apply wstep_refl.
  - apply ts_set_eff with (q := q) in H; auto. simpl in H.
    destruct z as [z|e]; subst x; simpl.
    + destruct H as (C & _ & [(Lk & ->)|(Lk & xs & _ & ->)]); rewrite Lk; simpl;
        eapply wstep_put; eauto; constructor; auto.
    + destruct H as [(_ & _ & ->)|(C & [(_ & _ & ->)|(_ & [(d & _ & _ & _ & _ & ->)|(_ & _ & ->)])])];
        try apply wstep_refl; eapply wstep_put; eauto; constructor; auto.
  - unfold ts_setitem in H.
    destruct (ts_get s vi) as [s1 [ys|e]] eqn:G.
    + assert (Tv : forall i, ~ touched vi v i -> nth_error (st_views s1) i = nth_error (st_views s) i) by (intros j N; eapply ts_get_views; eauto).
      pose proof (wf_ts_get _ _ _ _ _ _ W V K G) as [W1 _].
      pose proof (rd_ts_get _ _ _ _ G) as R.
      destruct (rd_views _ _ R _ _ V) as (v1 & V1 & Vr).
      eapply rd_wstep; eauto.
      apply handle_set_wstep with (v := v1) in H; auto.
      destruct z; subst x; simpl; try rewrite <- (vr_locked _ _ Vr); auto.
    + inversion H; subst s' z. subst x. simpl.
      pose proof (rd_ts_get _ _ _ _ G) as R.
      destruct (rd_views _ _ R _ _ V) as (v1 & V1 & Vr).
      eapply rd_wstep; eauto; [|apply wstep_refl].
      intros j N. eapply ts_get_views; eauto.
  - apply handle_set_wstep with (v := v) in H; auto. destruct z; subst x; auto.
  - unfold handle_iadd in H. rewrite V in H.
    destruct (v_data v); [|inversion H; subst s' z; subst x; simpl; apply wstep_refl].
    destruct (ts_get s vi) as [s1 [ys|e]] eqn:G.
    + pose proof (wf_ts_get _ _ _ _ _ _ W V K G) as [W1 _].
      pose proof (rd_ts_get _ _ _ _ G) as R.
      destruct (rd_views _ _ R _ _ V) as (v1 & V1 & Vr). rewrite V1 in H.
      eapply rd_wstep; eauto; [intros j N; eapply ts_get_views; eauto|].
      destruct (v_data v1) as [d|]; [|inversion H; subst s' z; subst x; simpl; apply wstep_refl].
      destruct (a_int d); [inversion H; subst s' z; subst x; simpl; apply wstep_refl|].
      apply ts_write_data_wstep in H; auto.
      destruct z; subst x; simpl; try rewrite <- (vr_locked _ _ Vr); auto.
    + inversion H; subst s' z. subst x. simpl.
      pose proof (rd_ts_get _ _ _ _ G) as R.
      destruct (rd_views _ _ R _ _ V) as (v1 & V1 & Vr).
      eapply rd_wstep; eauto; [|apply wstep_refl].
      intros j N. eapply ts_get_views; eauto.
  - unfold ts_unlock in H. rewrite (set_view_put _ _ _ _ _ Q) in H.
    apply ts_write_eff with (v := v_set_locked v false) (q := q) in H.
    + simpl in H. destruct z as [z|e]; subst x; simpl.
      * destruct H as [[Lk _]|(_ & d' & xs & _ & _ & ->)]; [discriminate|].
        rewrite put_put. eapply wstep_put; eauto. constructor.
      * destruct H as [_ ->]. eapply wstep_put; eauto. constructor.
    + eapply put_view; eauto.
    + simpl. apply nth_upd_eq. eapply nth_lt; eauto.
Qed.

(** Operations that are neither requests nor writes leave regions and parameters alone. *)
Lemma other_step o s s' x : is_request o = None -> op_view o = None ->
  step env o s = (s', x) ->
  st_regions s' = st_regions s /\ st_params s' = st_params s /\
  length (st_views s') = length (st_views s).
Proof.
  destruct o; simpl is_request; simpl op_view; try discriminate; intros _ _ H; cbn [step] in H;
  try (apply lift_inv in H; destruct H as [z H]);
  try (apply with_view_inv in H; destruct H as [[-> _]|(w & V & Pb & K & H)]; [auto|]);
  try (apply lift_inv in H; destruct H as [z H]).
  - inversion H; auto.
  - inversion H; auto.
  - inversion H; auto.
  - apply rd_ts_get in H. destruct H; auto.
  - destruct (v_data w); [|inversion H; auto].
    destruct (ts_get s v) as [s1 [z|e]] eqn:G; inversion H; subst;
      apply rd_ts_get in G; destruct G; auto.
  - inversion H; auto.
  - inversion H; subst. simpl. rewrite upd_length. auto.
Qed.

End S.
