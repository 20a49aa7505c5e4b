(** A parameter set used by one user alone, inside a parameter set used by several: the relation between the two, and
    calls through views.  (For C93.) *)
From Coq Require Import String List Arith Lia Bool ZArith Reals.
From Verif Require Import Base ListFacts Units TimeModel Core CoreEvo CoreTree CoreNames.
Import ListNotations.

(** Trees that are the same have the same names. *)
Lemma region_at_regions s s' rs : st_regions s' = st_regions s -> region_at s' rs = region_at s rs.
Proof.
  intros E. unfold region_at. rewrite E. destruct rs as [|n rest]; auto. destruct (nth_error (st_regions s) 0); auto.
  destruct (String.eqb n (r_name r)); auto. generalize 0. induction rest as [|m rest IH]; intros k; auto.
  cbn [get_subregion]. rewrite E. destruct (nth_error (st_regions s) k); auto. destruct (alookup m (r_children r0)); auto.
Qed.
Lemma param_at_tsame s s' rs ps : tsame s s' -> param_at s' rs ps = param_at s rs ps.
Proof.
  intros T. pose proof (ts_regions _ _ T) as E. unfold param_at. rewrite (region_at_regions _ _ _ E). destruct (region_at s rs) as [r|]; auto.
  destruct ps as [|n l]; auto. cbn [param_in]. rewrite E. destruct (nth_error (st_regions s) r) as [g|]; auto. destruct (alookup n (r_params g)) as [p|]; auto.
  clear - T. revert p. induction l as [|m l IH]; intros p; auto. cbn [get_subparameter]. destruct (nth_error (st_params s) p) as [q|] eqn:Q.
  - destruct (tsame_nth' _ _ _ _ T Q) as (q' & -> & E & _). unfold tproj in E. injection E as _ _ _ ->. destruct (alookup m (p_children q)); auto.
  - destruct (nth_error (st_params s') p) as [q'|] eqn:Q'; auto. destruct (tsame_nth _ _ _ _ T Q') as (q & Q2 & _). congruence.
Qed.
(** Each parameter has one name, and names of parameters that existed before stay. *)
Lemma at_unique s rs ps rs' ps' p : wft s -> param_at s rs ps = Some p -> param_at s rs' ps' = Some p -> rs' = rs /\ ps' = ps.
Proof. intros W A B. apply (param_at_names s W) in A as [A1 A2]. apply (param_at_names s W) in B as [B1 B2]. split; congruence. Qed.
Lemma at_total s p : wft s -> p < length (st_params s) -> exists rs ps, param_at s rs ps = Some p.
Proof. intros W L. destruct (names_total s W p L) as (rs & ps & N). exists rs, ps. now apply (param_at_names s W). Qed.
Lemma param_at_lt s rs ps p : wft s -> param_at s rs ps = Some p -> p < length (st_params s).
Proof. intros W H. destruct (param_at_valid _ _ _ _ W H) as [q Q]. eapply nth_lt; eauto. Qed.
Lemma param_at_old s s' rs ps p : wft s -> wft s' -> evo s s' -> p < length (st_params s) -> param_at s' rs ps = Some p -> param_at s rs ps = Some p.
Proof.
  intros W W' E L H. destruct (at_total s p W L) as (rs0 & ps0 & A). pose proof (param_at_evo _ _ _ _ _ E A) as A'.
  destruct (at_unique _ _ _ _ _ _ W' A' H) as [-> ->]. exact A.
Qed.
Lemma param_at_same s s' rs ps : wft s -> wft s' -> evo s s' -> length (st_params s') = length (st_params s) -> param_at s' rs ps = param_at s rs ps.
Proof.
  intros W W' E P. destruct (param_at s rs ps) as [p|] eqn:A; [now apply (param_at_evo _ _ _ _ _ E)|].
  destruct (param_at s' rs ps) as [p|] eqn:B; [|reflexivity].
  pose proof (param_at_lt _ _ _ _ W' B) as L. rewrite P in L. rewrite <- A. symmetry. eapply param_at_old; eauto.
Qed.

Section Sim.
(** The names the user asks for: region and name. *)
Variable dom : list string -> list string -> Prop.
(** Such a name or one below it; such a name or one above it. *)
Definition inside (rs ps : list string) : Prop := exists m rest, dom rs m /\ ps = m ++ rest.
Definition onway (rs ps : list string) : Prop := exists rest, dom rs (ps ++ rest).
Definition idle (q : param) : Prop := p_read q = false /\ p_written q = false.

Section Maps.
Variables mp mv : list nat.
Definition fp (i : nat) : nat := nth i mp 0.
Definition fv (i : nat) : nat := nth i mv 0.
Definition pmap (r : nat) (q : param) : param :=
  mkParam (p_name q) (option_map fp (p_parent q)) r (map (fun c => (fst c, fp (snd c))) (p_children q)) (p_read q) (p_written q)
    (p_type q) (p_unit q) (p_time q) (p_data q) (p_version q).
Definition vmap (v : view) : view :=
  mkView (v_public v) (v_kind v) (fp (v_param v)) (v_unit v) (v_uconv v) (v_tconv v) (option_map (map fv) (v_children v))
    (v_writable v) (v_data v) (v_locked v) (v_version v).
Definition within (s : state) (p : nat) : Prop := exists rs ps, inside rs ps /\ param_at s rs ps = Some p.

Record sim (s t : state) : Prop := {
  s_ws : wft s;
  s_wt : wft t;
  s_lp : length mp = length (st_params s);
  s_lv : length mv = length (st_views s);
  s_nv : NoDup mv;
  s_path : forall rs ps p, param_at s rs ps = Some p -> param_at t rs ps = Some (fp p);
  s_none : forall rs ps, inside rs ps -> param_at s rs ps = None -> param_at t rs ps = None;
  s_mine : forall rs ps p, param_at s rs ps = Some p -> inside rs ps \/ onway rs ps;
  s_cell : forall p q, within s p -> nth_error (st_params s) p = Some q -> exists r, nth_error (st_params t) (fp p) = Some (pmap r q);
  s_idle : forall rs ps p q, ~ inside rs ps -> param_at s rs ps = Some p -> nth_error (st_params s) p = Some q -> idle q;
  s_idle_t : forall rs ps p q, onway rs ps -> ~ inside rs ps -> param_at t rs ps = Some p -> nth_error (st_params t) p = Some q -> idle q;
  s_view : forall i v, nth_error (st_views s) i = Some v -> nth_error (st_views t) (fv i) = Some (vmap v);
  s_vparam : forall i v, nth_error (st_views s) i = Some v -> within s (v_param v);
  s_vchild : forall i v cs c, nth_error (st_views s) i = Some v -> v_children v = Some cs -> In c cs -> c < length (st_views s);
  s_name : option_map r_name (nth_error (st_regions t) 0) = option_map r_name (nth_error (st_regions s) 0) }.
End Maps.

(** What a call may change for the others. *)
Record frame (mv : list nat) (t : state) (mv' : list nat) (t' : state) : Prop := {
  f_wt : wft t';
  f_name : option_map r_name (nth_error (st_regions t') 0) = option_map r_name (nth_error (st_regions t) 0);
  f_path : forall rs ps p, param_at t rs ps = Some p -> param_at t' rs ps = Some p;
  f_cell : forall rs ps p q, param_at t rs ps = Some p -> ~ inside rs ps -> nth_error (st_params t) p = Some q ->
    exists q', nth_error (st_params t') p = Some q' /\ p_read q' = p_read q /\ p_written q' = p_written q /\ (~ onway rs ps -> q' = q);
  f_new : forall rs ps p, param_at t rs ps = None -> param_at t' rs ps = Some p ->
    inside rs ps \/ onway rs ps /\ (~ inside rs ps -> forall q, nth_error (st_params t') p = Some q -> idle q);
  f_views : forall j, j < length (st_views t) -> ~ In j mv -> nth_error (st_views t') j = nth_error (st_views t) j;
  f_lv : length (st_views t) <= length (st_views t');
  f_mv : exists e, mv' = mv ++ e /\ Forall (fun j => length (st_views t) <= j) e }.

Lemma frame_refl mv t : wft t -> frame mv t mv t.
Proof.
  intros W. constructor; auto.
  - intros rs ps p q _ _ Q. exists q. auto.
  - intros rs ps p A B. congruence.
  - exists []; rewrite app_nil_r; auto.
Qed.
Lemma frame_trans mv t mv1 t1 mv2 t2 : frame mv t mv1 t1 -> frame mv1 t1 mv2 t2 -> frame mv t mv2 t2.
Proof.
  intros A B. destruct (f_mv _ _ _ _ A) as (g1 & -> & G1), (f_mv _ _ _ _ B) as (g2 & -> & G2).
  pose proof (f_lv _ _ _ _ A). pose proof (f_lv _ _ _ _ B).
  constructor.
  - apply B.
  - now rewrite (f_name _ _ _ _ B), (f_name _ _ _ _ A).
  - intros. apply B, A; auto.
  - intros rs ps p q P N Q. destruct (f_cell _ _ _ _ A _ _ _ _ P N Q) as (q1 & Q1 & E1 & E2 & E3).
    destruct (f_cell _ _ _ _ B _ _ _ _ (f_path _ _ _ _ A _ _ _ P) N Q1) as (q2 & Q2 & F1 & F2 & F3).
    exists q2. repeat split; auto; try congruence. intros K. rewrite (F3 K). auto.
  - intros rs ps p P P2. destruct (param_at t1 rs ps) as [p1|] eqn:P1; [|now apply (f_new _ _ _ _ B)].
    pose proof (f_path _ _ _ _ B _ _ _ P1) as P2'. assert (p1 = p) by congruence; subst p1.
    destruct (f_new _ _ _ _ A _ _ _ P P1) as [K|[K I]]; [now left|right]. split; auto. intros N q2 Q2.
    destruct (param_at_valid _ _ _ _ (f_wt _ _ _ _ A) P1) as [q1 Q1]. destruct (I N _ Q1) as [I1 I2].
    destruct (f_cell _ _ _ _ B _ _ _ _ P1 N Q1) as (q3 & Q3 & F1 & F2 & _). rewrite Q2 in Q3. injection Q3 as <-. split; congruence.
  - intros j L N. rewrite (f_views _ _ _ _ B), (f_views _ _ _ _ A); auto; try lia.
    rewrite in_app_iff. intros [I|I]; auto. rewrite Forall_forall in G1. specialize (G1 _ I). lia.
  - lia.
  - exists (g1 ++ g2). split; [now rewrite app_assoc|]. apply Forall_app. split; auto. eapply Forall_impl; [|exact G2]. intros j; cbv beta; lia.
Qed.

Section Views.
Variables mp mv : list nat.
Notation sim := (sim mp mv).
Notation pmap := (pmap mp).
Notation vmap := (vmap mp mv).
Notation fp := (fp mp).
Notation fv := (fv mv).

(** Calls through views: the results are the same. *)
Record both {A} (t0 : state) (x y : state * res A) : Prop := {
  b_res : snd y = snd x;
  b_sim : sim (fst x) (fst y);
  b_frame : frame mv t0 mv (fst y) }.

Lemma both_here {A} s t (r : res A) : sim s t -> both t (s, r) (t, r).
Proof. intros S. constructor; auto. apply frame_refl, S. Qed.
Lemma both_after {A B} t0 (x y : state * res A) (x' y' : state * res B) : both t0 x y -> both (fst y) x' y' -> both t0 x' y'.
Proof. intros [_ _ F] [? ? F']. constructor; auto. eapply frame_trans; eauto. Qed.

Lemma within_lt s p : wft s -> within s p -> p < length (st_params s).
Proof. intros W (rs & ps & _ & P). eapply param_at_lt; eauto. Qed.
Lemma fp_inj s t p p' : sim s t -> p < length (st_params s) -> p' < length (st_params s) -> fp p = fp p' -> p = p'.
Proof.
  intros S L L' E. destruct (at_total s p (s_ws _ _ _ _ S) L) as (rs & ps & A). destruct (at_total s p' (s_ws _ _ _ _ S) L') as (rs' & ps' & A').
  pose proof (s_path _ _ _ _ S _ _ _ A) as B. pose proof (s_path _ _ _ _ S _ _ _ A') as B'. rewrite <- E in B'.
  destruct (at_unique _ _ _ _ _ _ (s_wt _ _ _ _ S) B B') as [-> ->]. congruence.
Qed.
Lemma fv_inj s t p p' : sim s t -> p < length (st_views s) -> p' < length (st_views s) -> fv p = fv p' -> p = p'.
Proof. intros S L L' E. rewrite <- (s_lv _ _ _ _ S) in L, L'. exact (proj1 (NoDup_nth mv 0) (s_nv _ _ _ _ S) _ _ L L' E). Qed.
Lemma fv_in s t p : sim s t -> p < length (st_views s) -> In (fv p) mv.
Proof. intros S L. apply nth_In. now rewrite (s_lv _ _ _ _ S). Qed.

Lemma pmap_tproj r q q1 : tproj q1 = tproj q -> tproj (pmap r q1) = tproj (pmap r q).
Proof. unfold tproj. cbn. intros E. injection E as -> -> _ ->. reflexivity. Qed.
Lemma within_tsame s s' p : tsame s s' -> within s' p <-> within s p.
Proof. intros T. unfold within. split; intros (rs & ps & I & P); exists rs, ps; split; auto; revert P; now rewrite (param_at_tsame _ _ _ _ T). Qed.

Lemma set_param_both s t p q q1 r : sim s t -> within s p -> nth_error (st_params s) p = Some q -> nth_error (st_params t) (fp p) = Some (pmap r q) ->
  tproj q1 = tproj q -> wok q q1 ->
  sim (set_param s p q1) (set_param t (fp p) (pmap r q1)) /\ frame mv t mv (set_param t (fp p) (pmap r q1)).
Proof.
  intros S I Q Q' T W. pose proof (nth_lt _ _ _ Q) as L.
  assert (W' : wok (pmap r q) (pmap r q1)).
  { intros X. destruct (W X) as [Y|Y]; [left; exact Y|right]. cbn. now rewrite Y. }
  pose proof (tsame_set_param _ _ _ _ Q T W) as T1. pose proof (tsame_set_param _ _ _ _ Q' (pmap_tproj r _ _ T) W') as T2.
  destruct I as (rs0 & ps0 & I0 & P0). pose proof (s_path _ _ _ _ S _ _ _ P0) as P0'.
  split.
  - constructor; try (cbn; apply S).
    + exact (wft_tsame _ _ (s_ws _ _ _ _ S) T1).
    + exact (wft_tsame _ _ (s_wt _ _ _ _ S) T2).
    + cbn. rewrite upd_length. apply S.
    + intros rs ps x. rewrite (param_at_tsame _ _ _ _ T1), (param_at_tsame _ _ _ _ T2). apply S.
    + intros rs ps. rewrite (param_at_tsame _ _ _ _ T1), (param_at_tsame _ _ _ _ T2). apply S.
    + intros rs ps x. rewrite (param_at_tsame _ _ _ _ T1). apply S.
    + intros i x Wi. apply (within_tsame _ _ _ T1) in Wi. cbn [set_param st_params]. rewrite nth_upd. destruct (Nat.eqb_spec p i) as [<-|N].
      * rewrite Q. intros E. injection E as <-. exists r. now rewrite nth_upd, Nat.eqb_refl, Q'.
      * intros E. destruct (s_cell _ _ _ _ S _ _ Wi E) as (r' & Qr). exists r'.
        rewrite nth_upd. destruct (Nat.eqb_spec (fp p) (fp i)) as [X|_]; auto.
        destruct N. eapply fp_inj; eauto. eapply nth_lt; eauto.
    + intros rs ps i x N. rewrite (param_at_tsame _ _ _ _ T1). cbn [set_param st_params]. intros P. rewrite nth_upd. destruct (Nat.eqb_spec p i) as [<-|_]; [|now apply (s_idle _ _ _ _ S rs ps)].
      destruct (at_unique _ _ _ _ _ _ (s_ws _ _ _ _ S) P0 P) as [-> ->]. contradiction.
    + intros rs ps i x O N. rewrite (param_at_tsame _ _ _ _ T2). cbn [set_param st_params]. intros P. rewrite nth_upd. destruct (Nat.eqb_spec (fp p) i) as [<-|_]; [|now apply (s_idle_t _ _ _ _ S rs ps)].
      destruct (at_unique _ _ _ _ _ _ (s_wt _ _ _ _ S) P0' P) as [-> ->]. contradiction.
    + intros i v V. apply (within_tsame _ _ _ T1). eapply (s_vparam _ _ _ _ S); eauto.
  - constructor; auto.
    + exact (wft_tsame _ _ (s_wt _ _ _ _ S) T2).
    + intros rs ps x. now rewrite (param_at_tsame _ _ _ _ T2).
    + intros rs ps j x P N X. exists x. cbn [set_param st_params]. rewrite nth_upd. destruct (Nat.eqb_spec (fp p) j) as [<-|_]; auto.
      destruct (at_unique _ _ _ _ _ _ (s_wt _ _ _ _ S) P0' P) as [-> ->]. contradiction.
    + intros rs ps j. rewrite (param_at_tsame _ _ _ _ T2). congruence.
    + exists []. now rewrite app_nil_r.
Qed.
Lemma set_view_both s t i v v1 : sim s t -> nth_error (st_views s) i = Some v -> v_param v1 = v_param v -> v_children v1 = v_children v ->
  sim (set_view s i v1) (set_view t (fv i) (vmap v1)) /\ frame mv t mv (set_view t (fv i) (vmap v1)).
Proof.
  intros S V P C. pose proof (nth_lt _ _ _ V) as L. pose proof (s_view _ _ _ _ S _ _ V) as V'.
  pose proof (tsame_set_view s i v1) as T1. pose proof (tsame_set_view t (fv i) (vmap v1)) as T2.
  split.
  - constructor; try (cbn; apply S).
    + exact (wft_tsame _ _ (s_ws _ _ _ _ S) T1).
    + exact (wft_tsame _ _ (s_wt _ _ _ _ S) T2).
    + cbn. rewrite upd_length. apply S.
    + intros rs ps x. rewrite (param_at_tsame _ _ _ _ T1), (param_at_tsame _ _ _ _ T2). apply S.
    + intros rs ps. rewrite (param_at_tsame _ _ _ _ T1), (param_at_tsame _ _ _ _ T2). apply S.
    + intros rs ps x. rewrite (param_at_tsame _ _ _ _ T1). apply S.
    + intros x q Wi. apply (within_tsame _ _ _ T1) in Wi. now apply (s_cell _ _ _ _ S).
    + intros rs ps x q N. rewrite (param_at_tsame _ _ _ _ T1). now apply (s_idle _ _ _ _ S).
    + intros rs ps x q O N. rewrite (param_at_tsame _ _ _ _ T2). now apply (s_idle_t _ _ _ _ S).
    + intros j x. cbn [set_view st_views]. rewrite nth_upd. destruct (Nat.eqb_spec i j) as [<-|N].
      * rewrite V. intros E. injection E as <-. now rewrite nth_upd, Nat.eqb_refl, V'.
      * intros E. rewrite nth_upd. destruct (Nat.eqb_spec (fv i) (fv j)) as [X|_]; [|now apply S].
        destruct N. eapply fv_inj; eauto. eapply nth_lt; eauto.
    + intros j x Vj. apply (within_tsame _ _ _ T1). revert Vj. cbn [set_view st_views st_params]. rewrite nth_upd. destruct (Nat.eqb_spec i j) as [<-|N]; [|apply S].
      rewrite V. intros E. injection E as <-. rewrite P. eapply (s_vparam _ _ _ _ S); eauto.
    + intros j x cs c. cbn [set_view st_views]. rewrite upd_length, nth_upd. destruct (Nat.eqb_spec i j) as [<-|N]; [|apply S].
      rewrite V. intros E. injection E as <-. rewrite C. now apply (s_vchild _ _ _ _ S i).
  - constructor; auto.
    + exact (wft_tsame _ _ (s_wt _ _ _ _ S) T2).
    + intros rs ps x. now rewrite (param_at_tsame _ _ _ _ T2).
    + intros rs ps j x X N Q. exists x. auto.
    + intros rs ps j. rewrite (param_at_tsame _ _ _ _ T2). congruence.
    + cbn. intros j Lj Nj. rewrite nth_upd. destruct (Nat.eqb_spec (fv i) j) as [<-|_]; auto. destruct Nj. eapply fv_in; eauto.
    + cbn. rewrite upd_length. lia.
    + exists []. now rewrite app_nil_r.
Qed.

(** The cells behind a view. *)
Lemma view_cells s t i v : sim s t -> nth_error (st_views s) i = Some v ->
  nth_error (st_views t) (fv i) = Some (vmap v) /\
  exists q r, nth_error (st_params s) (v_param v) = Some q /\ nth_error (st_params t) (fp (v_param v)) = Some (pmap r q).
Proof.
  intros S V. split; [now apply S|]. pose proof (s_vparam _ _ _ _ S _ _ V) as I. pose proof (within_lt s _ (s_ws _ _ _ _ S) I) as L.
  destruct (nth_error (st_params s) (v_param v)) as [q|] eqn:Q; [|apply nth_error_None in Q; lia].
  destruct (s_cell _ _ _ _ S _ _ I Q) as (r & Q'). eauto.
Qed.
Lemma kids r q : has_children (pmap r q) = has_children q.
Proof. unfold has_children. cbn. destruct (p_children q); reflexivity. Qed.
Lemma read_map r q ty u tp : attempt_read (pmap r q) ty u tp = (pmap r (fst (attempt_read q ty u tp)), snd (attempt_read q ty u tp)).
Proof.
  unfold attempt_read. change (p_type (pmap r q)) with (p_type q). destruct (p_type q); [destruct (ptype_eqb p ty); reflexivity|].
  rewrite kids. destruct ty; try reflexivity; try (destruct tp as [tp|]; [|reflexivity]; destruct (_ <? 0)%Z; reflexivity).
  destruct (has_children q); reflexivity.
Qed.
Lemma write_map r q ty u tp : attempt_write (pmap r q) ty u tp = (pmap r (fst (attempt_write q ty u tp)), snd (attempt_write q ty u tp)).
Proof.
  unfold attempt_write. rewrite kids. destruct (has_children q); [reflexivity|]. rewrite read_map.
  destruct (attempt_read q ty u tp) as [q1 [x|e]]; reflexivity.
Qed.

Lemma on_read_both s t p ty u tp : sim s t -> within s p ->
  both t (on_param s p (fun q => attempt_read q ty u tp)) (on_param t (fp p) (fun q => attempt_read q ty u tp)).
Proof.
  intros S I. pose proof (within_lt s _ (s_ws _ _ _ _ S) I) as L. destruct (nth_error (st_params s) p) as [q|] eqn:Q; [|apply nth_error_None in Q; lia].
  destruct (s_cell _ _ _ _ S _ _ I Q) as (r & Q'). unfold on_param. rewrite Q, Q', read_map.
  destruct (attempt_read q ty u tp) as [q1 x] eqn:E. cbn [fst snd].
  destruct (tproj_attempt_read _ _ _ _ _ _ E) as (T & W).
  destruct (set_param_both s t p q q1 r S I Q Q' T) as [X Y]; [intros Z; left; congruence|]. constructor; auto.
Qed.
Lemma on_write_both s t p ty u tp : sim s t -> within s p ->
  both t (on_param s p (fun q => attempt_write q ty u tp)) (on_param t (fp p) (fun q => attempt_write q ty u tp)).
Proof.
  intros S I. pose proof (within_lt s _ (s_ws _ _ _ _ S) I) as L. destruct (nth_error (st_params s) p) as [q|] eqn:Q; [|apply nth_error_None in Q; lia].
  destruct (s_cell _ _ _ _ S _ _ I Q) as (r & Q'). unfold on_param. rewrite Q, Q', write_map.
  destruct (attempt_write q ty u tp) as [q1 x] eqn:E. cbn [fst snd].
  destruct (tproj_attempt_write _ _ _ _ _ _ E) as (T & W).
  destruct (set_param_both s t p q q1 r S I Q Q' T) as [X Y]; [exact W|]. constructor; auto.
Qed.
Lemma check_write_both s t i v ty u tp : sim s t -> nth_error (st_views s) i = Some v ->
  both t (check_write s i v ty u tp) (check_write t (fv i) (vmap v) ty u tp).
Proof.
  intros S V. unfold check_write. change (v_writable (vmap v)) with (v_writable v). destruct (v_writable v); [now apply both_here|].
  change (v_param (vmap v)) with (fp (v_param v)).
  pose proof (on_write_both s t (v_param v) ty u tp S (s_vparam _ _ _ _ S _ _ V)) as B.
  assert (Vs : st_views (fst (on_param s (v_param v) (fun q => attempt_write q ty u tp))) = st_views s).
  { unfold on_param. destruct (nth_error (st_params s) (v_param v)); auto. destruct (attempt_write p ty u tp); auto. }
  destruct (on_param s (v_param v) _) as [s1 x], (on_param t (fp (v_param v)) _) as [t1 y]. pose proof (b_res _ _ _ B) as E. cbn [fst snd] in *. subst y.
  destruct x as [x|e]; [|constructor; auto; apply B]. rewrite <- Vs in V.
  destruct (set_view_both s1 t1 i v (v_set_writable v) (b_sim _ _ _ B) V eq_refl eq_refl) as [X Y].
  constructor; auto. eapply frame_trans; [apply B|exact Y].
Qed.
Lemma store_both s t p d : sim s t -> within s p ->
  sim (store s p d) (store t (fp p) d) /\ frame mv t mv (store t (fp p) d).
Proof.
  intros S I. pose proof (within_lt s _ (s_ws _ _ _ _ S) I) as L. destruct (nth_error (st_params s) p) as [q|] eqn:Q; [|apply nth_error_None in Q; lia].
  destruct (s_cell _ _ _ _ S _ _ I Q) as (r & Q'). unfold store. rewrite Q, Q'.
  change (p_store (pmap r q) d) with (pmap r (p_store q d)). apply (set_param_both s t p q); auto. intros X. left. exact X.
Qed.
Lemma check_within s i v a b c p : within s p -> within (fst (check_write s i v a b c)) p.
Proof.
  intros I. destruct (check_write s i v a b c) as [s1 x] eqn:E. apply (within_tsame _ _ p (tsame_check_write _ _ _ _ _ _ _ _ E)). exact I.
Qed.
Lemma read_within s p a b c i : within s i -> within (fst (on_param s p (fun q => attempt_read q a b c))) i.
Proof.
  intros I. destruct (on_param s p (fun q => attempt_read q a b c)) as [s1 x] eqn:E. apply (within_tsame _ _ i (tsame_on_read _ _ _ _ _ _ _ E)). exact I.
Qed.
Lemma params_kept {A} s t (x y : state * res A) p : both t x y -> p < length (st_params s) -> sim s t -> p < length (st_params (fst x)).
Proof. intros B L S. rewrite <- (s_lp _ _ _ _ (b_sim _ _ _ B)), (s_lp _ _ _ _ S). exact L. Qed.

Lemma scalar_set_both s t i v x : sim s t -> nth_error (st_views s) i = Some v ->
  both t (scalar_set s i v x) (scalar_set t (fv i) (vmap v) x).
Proof.
  intros S V. unfold scalar_set. change (v_unit (vmap v)) with (v_unit v).
  pose proof (check_write_both s t i v SCALAR (Some (v_unit v)) None S V) as B.
  pose proof (check_within s i v SCALAR (Some (v_unit v)) None _ (s_vparam _ _ _ _ S _ _ V)) as L.
  destruct (check_write s i v _ _ _) as [s1 a], (check_write t (fv i) (vmap v) _ _ _) as [t1 b]. pose proof (b_res _ _ _ B) as E. cbn [fst snd] in *. subst b.
  destruct a as [a|e]; [|constructor; auto; apply B].
  change (v_param (vmap v)) with (fp (v_param v)). change (v_uconv (vmap v)) with (v_uconv v).
  destruct (store_both s1 t1 (v_param v) (PScalar (option_map (uconvert_to (v_uconv v)) x)) (b_sim _ _ _ B) L) as [X Y].
  constructor; auto. eapply frame_trans; [apply B|exact Y].
Qed.
Lemma generic_set_both s t i v x : sim s t -> nth_error (st_views s) i = Some v ->
  both t (generic_set s i v x) (generic_set t (fv i) (vmap v) x).
Proof.
  intros S V. unfold generic_set.
  pose proof (check_write_both s t i v GENERIC None None S V) as B.
  pose proof (check_within s i v GENERIC None None _ (s_vparam _ _ _ _ S _ _ V)) as L.
  destruct (check_write s i v _ _ _) as [s1 a], (check_write t (fv i) (vmap v) _ _ _) as [t1 b]. pose proof (b_res _ _ _ B) as E. cbn [fst snd] in *. subst b.
  destruct a as [a|e]; [|constructor; auto; apply B].
  change (v_param (vmap v)) with (fp (v_param v)).
  destruct (store_both s1 t1 (v_param v) (PGen x) (b_sim _ _ _ B) L) as [X Y].
  constructor; auto. eapply frame_trans; [apply B|exact Y].
Qed.

Lemma scalar_leaf_both s t c : sim s t -> c < length (st_views s) -> scalar_leaf_get t (fv c) = scalar_leaf_get s c.
Proof.
  intros S L. destruct (nth_error (st_views s) c) as [v|] eqn:V; [|apply nth_error_None in V; lia].
  destruct (view_cells _ _ _ _ S V) as (V' & q & r & Q & Q'). unfold scalar_leaf_get. rewrite V, V'.
  change (v_param (vmap v)) with (fp (v_param v)). rewrite Q, Q', kids. reflexivity.
Qed.
Lemma scalar_get_both s t i v : sim s t -> nth_error (st_views s) i = Some v -> scalar_get t (vmap v) = scalar_get s v.
Proof.
  intros S V. destruct (view_cells _ _ _ _ S V) as (V' & q & r & Q & Q'). unfold scalar_get.
  change (v_param (vmap v)) with (fp (v_param v)). rewrite Q, Q', kids. destruct (has_children q); [|reflexivity].
  change (v_children (vmap v)) with (option_map (map fv) (v_children v)). destruct (v_children v) as [cs|] eqn:C; [|reflexivity]. cbn [option_map].
  assert (E : rmap (scalar_leaf_get t) (map fv cs) = rmap (scalar_leaf_get s) cs).
  { pose proof (fun c => s_vchild _ _ _ _ S i v cs c V C) as H. clear C. induction cs as [|c cs IH]; [reflexivity|]. cbn [map rmap].
    rewrite (scalar_leaf_both s t c S) by (apply H; now left). rewrite IH by (intros; apply H; now right). reflexivity. }
  now rewrite E.
Qed.
Lemma generic_get_both s t i v : sim s t -> nth_error (st_views s) i = Some v -> generic_get t (vmap v) = generic_get s v.
Proof.
  intros S V. destruct (view_cells _ _ _ _ S V) as (V' & q & r & Q & Q'). unfold generic_get.
  change (v_param (vmap v)) with (fp (v_param v)). rewrite Q, Q'. reflexivity.
Qed.

(** Reading timeseries. *)
Lemma read_with_both get s t i v : sim s t -> nth_error (st_views s) i = Some v ->
  both t (get s v) (get t (vmap v)) -> (exists v', nth_error (st_views (fst (get s v))) i = Some v' /\ v_param v = v_param v' /\ v_children v = v_children v') ->
  both t (read_with get s i) (read_with get t (fv i)).
Proof.
  intros S V B (v' & K & K1 & K2). destruct (view_cells _ _ _ _ S V) as (V' & q & r & Q & Q'). unfold read_with. rewrite V, V'.
  change (v_param (vmap v)) with (fp (v_param v)). rewrite Q, Q'. change (v_data (vmap v)) with (v_data v). change (v_version (vmap v)) with (v_version v).
  change (p_version (pmap r q)) with (p_version q).
  destruct (get s v) as [s1 a] eqn:Gs, (get t (vmap v)) as [t1 b] eqn:Gt. pose proof (b_res _ _ _ B) as E. cbn [fst snd] in *. subst b.
  assert (X : forall xs, both t (set_view s1 i (v_set_version (v_set_data v (mkArr false xs)) (p_version q)), Ok xs)
     (set_view t1 (fv i) (v_set_version (v_set_data (vmap v) (mkArr false xs)) (p_version q)), Ok xs)).
  { intros xs. destruct (set_view_both s1 t1 i v' (v_set_version (v_set_data v (mkArr false xs)) (p_version q)) (b_sim _ _ _ B) K K1 K2) as [X Y].
    constructor; auto. eapply frame_trans; [apply B|exact Y]. }
  assert (Y : forall e : err, both t (s1, Err e : res (list num)) (t1, Err e)) by (intros; constructor; auto; apply B).
  destruct (v_data v) as [d|].
  - destruct (v_version v); [|now apply both_here]. destruct (n =? p_version q); [now apply both_here|].
    destruct a as [xs|e]; auto. destruct (a_int d); auto.
  - destruct a as [xs|e]; auto.
Qed.
Lemma leaf_both s t c : sim s t -> c < length (st_views s) -> both t (read_with leaf_values s c) (read_with leaf_values t (fv c)).
Proof.
  intros S L. destruct (nth_error (st_views s) c) as [v|] eqn:V; [|apply nth_error_None in V; lia].
  destruct (view_cells _ _ _ _ S V) as (V' & q & r & Q & Q'). apply (read_with_both _ s t c v); auto.
  - unfold leaf_values. change (v_param (vmap v)) with (fp (v_param v)). rewrite Q, Q', kids. now apply both_here.
  - unfold leaf_values. rewrite Q. exists v. auto.
Qed.
Lemma views_kept {A} s t (x y : state * res A) c : both t x y -> c < length (st_views s) -> sim s t -> c < length (st_views (fst x)).
Proof. intros B L S. rewrite <- (s_lv _ _ _ _ (b_sim _ _ _ B)), (s_lv _ _ _ _ S). exact L. Qed.
Lemma sum_both cs : forall s t acc, sim s t -> (forall c, In c cs -> c < length (st_views s)) ->
  both t (sum_children s cs acc) (sum_children t (map fv cs) acc).
Proof.
  induction cs as [|c cs IH]; intros s t acc S H; [now apply both_here|]. cbn [sum_children map].
  pose proof (leaf_both s t c S (H c (or_introl eq_refl))) as B.
  pose proof (fun d (D : In d cs) => views_kept s t _ _ d B (H d (or_intror D)) S) as K'.
  destruct (read_with leaf_values s c) as [s1 a], (read_with leaf_values t (fv c)) as [t1 b]. pose proof (b_res _ _ _ B) as E. cbn [fst snd] in *. subst b.
  destruct a as [xs|e]; [|constructor; auto; apply B].
  destruct acc as [a|].
  - destruct (arr_add a xs); [|constructor; auto; apply B]. apply (both_after _ _ _ _ _ B), IH; auto. apply B.
  - apply (both_after _ _ _ _ _ B), IH; auto. apply B.
Qed.
(** Reading changes neither the parameter nor the parts of a view. *)
Definition shape (s : state) (i : nat) : option (nat * option (list nat)) := option_map (fun v => (v_param v, v_children v)) (nth_error (st_views s) i).
Lemma shape_set s j v v1 i : nth_error (st_views s) j = Some v -> v_param v1 = v_param v -> v_children v1 = v_children v -> shape (set_view s j v1) i = shape s i.
Proof.
  intros V P C. unfold shape. cbn. rewrite nth_upd. destruct (Nat.eqb_spec j i) as [<-|_]; auto. rewrite V. cbn. congruence.
Qed.
Lemma shape_leaf s c i : shape (fst (read_with leaf_values s c)) i = shape s i.
Proof.
  unfold read_with. destruct (nth_error (st_views s) c) as [v|] eqn:V; [|reflexivity]. unfold leaf_values.
  destruct (nth_error (st_params s) (v_param v)) as [q|]; [|reflexivity].
  assert (X : forall a k, shape (set_view s c (v_set_version (v_set_data v a) k)) i = shape s i) by (intros; eapply shape_set; eauto).
  destruct (v_data v) as [d|].
  - destruct (v_version v); [|reflexivity]. destruct (n =? p_version q); [reflexivity|].
    destruct (if has_children q then Err EAttributeError else ts_own v q); [|reflexivity]. destruct (a_int d); [reflexivity|]. apply X.
  - destruct (if has_children q then Err EAttributeError else ts_own v q); [|reflexivity]. apply X.
Qed.
Lemma shape_sum cs : forall s acc i, shape (fst (sum_children s cs acc)) i = shape s i.
Proof.
  induction cs as [|c cs IH]; intros s acc i; [reflexivity|]. cbn [sum_children]. pose proof (shape_leaf s c i) as E.
  destruct (read_with leaf_values s c) as [s1 [xs|e]]; [|exact E]. cbn [fst] in E.
  destruct acc as [a|]; [destruct (arr_add a xs); [|exact E]|]; now rewrite IH.
Qed.
Lemma get_values_both s t i v : sim s t -> nth_error (st_views s) i = Some v -> both t (get_values s v) (get_values t (vmap v)).
Proof.
  intros S V. destruct (view_cells _ _ _ _ S V) as (V' & q & r & Q & Q'). unfold get_values.
  change (v_param (vmap v)) with (fp (v_param v)). rewrite Q, Q', kids. destruct (has_children q); [|now apply both_here].
  change (v_children (vmap v)) with (option_map (map fv) (v_children v)). destruct (v_children v) as [cs|] eqn:C; [|now apply both_here].
  apply sum_both; auto. intros c. eapply (s_vchild _ _ _ _ S); eauto.
Qed.
Lemma shape_values s v i : shape (fst (get_values s v)) i = shape s i.
Proof.
  unfold get_values. destruct (nth_error (st_params s) (v_param v)); [|reflexivity]. destruct (has_children p); [|reflexivity].
  destruct (v_children v); [|reflexivity]. apply shape_sum.
Qed.
Lemma ts_get_both s t i : sim s t -> i < length (st_views s) -> both t (ts_get s i) (ts_get t (fv i)).
Proof.
  intros S L. destruct (nth_error (st_views s) i) as [v|] eqn:V; [|apply nth_error_None in V; lia].
  apply (read_with_both _ s t i v); auto; [now apply (get_values_both s t i)|].
  pose proof (shape_values s v i) as E. unfold shape in E. rewrite V in E. destruct (nth_error (st_views (fst (get_values s v))) i) as [v'|]; [|discriminate].
  exists v'. injection E as -> ->. auto.
Qed.

Lemma ts_write_both s t i : sim s t -> i < length (st_views s) -> both t (ts_write s i) (ts_write t (fv i)).
Proof.
  intros S L. destruct (nth_error (st_views s) i) as [v|] eqn:V; [|apply nth_error_None in V; lia].
  destruct (view_cells _ _ _ _ S V) as (V' & q & r & Q & Q'). unfold ts_write. rewrite V, V'.
  change (v_locked (vmap v)) with (v_locked v). change (v_data (vmap v)) with (v_data v). change (v_param (vmap v)) with (fp (v_param v)).
  destruct (v_locked v); [now apply both_here|]. destruct (v_data v) as [d|]; [|now apply both_here]. rewrite Q, Q'.
  change (to_param (vmap v) (a_val d)) with (to_param v (a_val d)). destruct (to_param v (a_val d)) as [xs|e]; [|now apply both_here].
  change (p_store (pmap r q) (PArr xs)) with (pmap r (p_store q (PArr xs))). change (p_version (pmap r q)) with (p_version q).
  destruct (set_param_both s t (v_param v) q (p_store q (PArr xs)) r S (s_vparam _ _ _ _ S _ _ V) Q Q' eq_refl) as [X F]; [intros Z; left; exact Z|].
  destruct (set_view_both _ _ i v (v_set_version v (Datatypes.S (p_version q))) X V eq_refl eq_refl) as [Y F'].
  constructor; auto. eapply frame_trans; eauto.
Qed.
(** Put something into the cache and write it. *)
Lemma cache_both s t i v a : sim s t -> nth_error (st_views s) i = Some v ->
  both t (ts_write (set_view s i (v_set_data v a)) i) (ts_write (set_view t (fv i) (v_set_data (vmap v) a)) (fv i)).
Proof.
  intros S V. destruct (set_view_both s t i v (v_set_data v a) S V eq_refl eq_refl) as [X F].
  pose proof (ts_write_both _ _ i X) as [R1 R2 R3]; [cbn; rewrite upd_length; eapply nth_lt; eauto|].
  constructor; auto. eapply frame_trans; eauto.
Qed.
Lemma ts_set_both s t i v a : sim s t -> nth_error (st_views s) i = Some v -> both t (ts_set s i v a) (ts_set t (fv i) (vmap v) a).
Proof.
  intros S V. unfold ts_set. change (v_unit (vmap v)) with (v_unit v). change (v_tconv (vmap v)) with (v_tconv v).
  pose proof (check_write_both s t i v (tc_type (v_tconv v)) (Some (v_unit v)) (Some (mkTP 1 (tc_target (v_tconv v)))) S V) as B.
  pose proof (views_kept s t _ _ i B (nth_lt _ _ _ V) S) as L.
  destruct (check_write s i v _ _ _) as [s1 x], (check_write t (fv i) (vmap v) _ _ _) as [t1 y]. pose proof (b_res _ _ _ B) as E. cbn [fst snd] in *. subst y.
  destruct x as [x|e]; [|constructor; auto; apply B]. destruct (_ =? _)%Z; [|constructor; auto; apply B].
  destruct (nth_error (st_views s1) i) as [v1|] eqn:V1; [|apply nth_error_None in V1; lia].
  pose proof (s_view _ _ _ _ (b_sim _ _ _ B) _ _ V1) as V1x. cbn [fst] in V1x. rewrite V1x. change (v_data (vmap v1)) with (v_data v1). destruct (v_data v1) as [d|].
  - destruct (a_int d && negb (a_int a)); [constructor; auto; apply B|]. apply (both_after _ _ _ _ _ B), cache_both; auto. apply B.
  - apply (both_after _ _ _ _ _ B), cache_both; auto. apply B.
Qed.
Lemma handle_set_both s t i j x : sim s t -> i < length (st_views s) -> both t (handle_set s i j x) (handle_set t (fv i) j x).
Proof.
  intros S L. destruct (nth_error (st_views s) i) as [v|] eqn:V; [|apply nth_error_None in V; lia].
  unfold handle_set. rewrite V, (s_view _ _ _ _ S _ _ V). change (v_data (vmap v)) with (v_data v).
  destruct (v_data v) as [d|]; [|now apply both_here]. destruct (pyindex _ j); [|now apply both_here].
  destruct (cast_item _ x); [|now apply both_here]. now apply cache_both.
Qed.
Lemma ts_setitem_both s t i j x : sim s t -> i < length (st_views s) -> both t (ts_setitem s i j x) (ts_setitem t (fv i) j x).
Proof.
  intros S L. unfold ts_setitem. pose proof (ts_get_both s t i S L) as B. pose proof (views_kept s t _ _ i B L S) as L1.
  destruct (ts_get s i) as [s1 a], (ts_get t (fv i)) as [t1 b]. pose proof (b_res _ _ _ B) as E. cbn [fst snd] in *. subst b.
  destruct a as [a|e]; [|constructor; auto; apply B]. apply (both_after _ _ _ _ _ B), handle_set_both; auto. apply B.
Qed.
Lemma handle_iadd_both s t i x : sim s t -> i < length (st_views s) -> both t (handle_iadd s i x) (handle_iadd t (fv i) x).
Proof.
  intros S L. destruct (nth_error (st_views s) i) as [v0|] eqn:V0; [|apply nth_error_None in V0; lia].
  unfold handle_iadd. rewrite V0, (s_view _ _ _ _ S _ _ V0). change (v_data (vmap v0)) with (v_data v0).
  destruct (v_data v0); [|now apply both_here]. pose proof (ts_get_both s t i S L) as B. pose proof (views_kept s t _ _ i B L S) as L1.
  destruct (ts_get s i) as [s1 b], (ts_get t (fv i)) as [t1 c]. pose proof (b_res _ _ _ B) as E. cbn [fst snd] in *. subst c.
  destruct b as [b|e]; [|constructor; auto; apply B].
  destruct (nth_error (st_views s1) i) as [v|] eqn:V; [|apply nth_error_None in V; lia].
  pose proof (s_view _ _ _ _ (b_sim _ _ _ B) _ _ V) as Vx. cbn [fst] in Vx. rewrite Vx. change (v_data (vmap v)) with (v_data v).
  destruct (v_data v) as [d|]; [|constructor; auto; apply B]. destruct (a_int d); [constructor; auto; apply B|].
  apply (both_after _ _ _ _ _ B), cache_both; auto. apply B.
Qed.
Lemma lock_both s t i v : sim s t -> nth_error (st_views s) i = Some v -> both t (ts_lock s i v) (ts_lock t (fv i) (vmap v)).
Proof.
  intros S V. unfold ts_lock. destruct (set_view_both s t i v (v_set_locked v true) S V eq_refl eq_refl) as [X F]. constructor; auto.
Qed.
Lemma unlock_both s t i v : sim s t -> nth_error (st_views s) i = Some v -> both t (ts_unlock s i v) (ts_unlock t (fv i) (vmap v)).
Proof.
  intros S V. unfold ts_unlock. destruct (set_view_both s t i v (v_set_locked v false) S V eq_refl eq_refl) as [X F].
  pose proof (ts_write_both _ _ i X) as [R1 R2 R3]; [cbn; rewrite upd_length; eapply nth_lt; eauto|].
  constructor; auto. eapply frame_trans; eauto.
Qed.

Lemma lift_both {A} (g : A -> val) t x y : both t x y -> both t (lift g x) (lift g y).
Proof. intros [E S F]. destruct x as [s1 [a|e]], y as [t1 y]; cbn [fst snd] in *; subst y; constructor; auto. Qed.
Lemma with_both s t i v k (f g : view -> state * res val) : sim s t -> nth_error (st_views s) i = Some v -> both t (f v) (g (vmap v)) ->
  both t (with_view s i k f) (with_view t (fv i) k g).
Proof.
  intros S V B. unfold with_view. rewrite V, (s_view _ _ _ _ S _ _ V). change (v_public (vmap v)) with (v_public v). change (v_kind (vmap v)) with (v_kind v).
  destruct (v_public v); [|now apply both_here]. destruct (v_kind v), k; auto; now apply both_here.
Qed.
End Views.
End Sim.
