(** Users of different parameters can share a parameter set.  (For C93.) *)
From Coq Require Import String List Arith Lia Bool ZArith Reals.
From Verif Require Import Base ListFacts Units TimeModel Core CoreEvo CoreTree CoreNames Spec_Core Spec_Apart Spec_Share ShareSim ShareReq.
Import ListNotations.

(** What others do leaves the part of a user alone. *)
Definition apartd (d d' : list string -> list string -> Prop) : Prop := forall rs m m', d rs m -> d' rs m' -> overlap m m' -> False.
Lemma apart_inside d d' rs ps : apartd d d' -> inside d rs ps -> inside d' rs ps -> False.
Proof.
  intros A (m & a & D & ->) (m' & b & D' & E). apply (A rs m m' D D'). clear - E. revert m' E. induction m as [|x m IH]; intros [|y m'] E.
  - exists []. auto.
  - exists (y :: m'). auto.
  - exists (x :: m). auto.
  - injection E as <- E. destruct (IH m' E) as (r & [K|K]); subst; exists r; auto.
Qed.
Lemma apart_onway d d' rs ps : apartd d d' -> inside d rs ps -> onway d' rs ps -> False.
Proof. intros A (m & a & D & ->) (b & D'). apply (A rs m _ D D'). exists (a ++ b). left. now rewrite app_assoc. Qed.
Lemma apart_sym d d' : apartd d d' -> apartd d' d.
Proof. intros A rs m m' D D' (r & R). apply (A rs m' m D' D). exists r. tauto. Qed.
Lemma frame_keeps (dom dom' : list string -> list string -> Prop) mp mv s t mp' mv' s' mv1 t1 : apartd dom dom' -> sim dom mp mv s t -> sim dom' mp' mv' s' t ->
  frame dom mv t mv1 t1 -> sim dom' mp' mv' s' t1.
Proof.
  intros D S S' F. pose proof (apart_sym _ _ D) as D'.
  constructor; try apply S'.
  - apply F.
  - intros rs ps p P. apply F, S'. exact P.
  - intros rs ps I P. pose proof (s_none _ _ _ _ _ S' _ _ I P) as N. destruct (param_at t1 rs ps) as [p|] eqn:E; [|reflexivity].
    exfalso. destruct (f_new _ _ _ _ _ F _ _ _ N E) as [J|[J _]]; [eapply (apart_inside dom dom'); eauto|eapply (apart_onway dom' dom); eauto].
  - intros p q J Q. destruct (s_cell _ _ _ _ _ S' p q J Q) as (r & Q'). exists r. destruct J as (rs & ps & I & P).
    destruct (f_cell _ _ _ _ _ F rs ps (fp mp' p) (pmap mp' r q)) as (q1 & -> & _ & _ & E); auto.
    + now apply S'.
    + intros J. eapply (apart_inside dom dom'); eauto.
    + rewrite E; auto. intros J. eapply (apart_onway dom' dom); eauto.
  - intros rs ps p q O N P Q. assert (NI : ~ inside dom rs ps) by (intros J; eapply (apart_onway dom dom'); eauto).
    destruct (param_at t rs ps) as [p0|] eqn:P0.
    + pose proof (f_path _ _ _ _ _ F _ _ _ P0) as P1. rewrite P in P1. injection P1 as <-.
      destruct (param_at_valid _ _ _ _ (s_wt _ _ _ _ _ S) P0) as [q0 Q0]. destruct (f_cell _ _ _ _ _ F _ _ _ _ P0 NI Q0) as (q1 & Q1 & E1 & E2 & _).
      rewrite Q in Q1. injection Q1 as <-. destruct (s_idle_t _ _ _ _ _ S' _ _ _ _ O N P0 Q0). split; congruence.
    + destruct (f_new _ _ _ _ _ F _ _ _ P0 P) as [J|[_ J]]; [contradiction|]. now apply J.
  - intros i v V. pose proof (s_view _ _ _ _ _ S' _ _ V) as V'. rewrite (f_views _ _ _ _ _ F); auto; [eapply nth_lt; eauto|].
    intros I. destruct (In_nth _ _ 0 I) as (j & Lj & Ej). rewrite (s_lv _ _ _ _ _ S) in Lj.
    destruct (nth_error (st_views s) j) as [w|] eqn:W; [|apply nth_error_None in W; lia]. pose proof (s_view _ _ _ _ _ S _ _ W) as W'.
    change (nth j mv 0) with (fv mv j) in Ej. rewrite Ej, V' in W'. injection W' as _ _ E _ _ _ _ _ _ _ _.
    destruct (s_vparam _ _ _ _ _ S _ _ W) as (rs & ps & J & P), (s_vparam _ _ _ _ _ S' _ _ V) as (rs' & ps' & J' & P').
    apply (s_path _ _ _ _ _ S) in P. apply (s_path _ _ _ _ _ S') in P'. rewrite E in P'.
    destruct (at_unique _ _ _ _ _ _ (s_wt _ _ _ _ _ S) P P') as [-> ->]. eapply (apart_inside dom dom'); eauto.
  - rewrite (f_name _ _ _ _ _ F). apply S'.
Qed.

Section Env.
Variable env : uenv.

Definition vrel (dom : list string -> list string -> Prop) (s : state) (mp mv : list nat) (x y : val) : Prop :=
  match x, y with
  | VView i, VView j => i < length (st_views s) /\ j = fv mv i
  | VInfo p, VInfo p' => p' = option_map (fp mp) p /\ forall k, p = Some k -> within dom s k
  | VView _, _ | VInfo _, _ => False
  | a, b => a = b
  end.
Definition plain (x : res val) : Prop := match x with Ok (VView _) | Ok (VInfo _) => False | _ => True end.
Lemma went_plain own mp mv t x y : both own mp mv t x y -> plain (snd x) -> went own mv t mp mv (vrel own (fst x) mp mv) x y.
Proof. intros [E S F] P. constructor; auto. rewrite E. destruct (snd x) as [[]|]; cbn in *; auto; contradiction. Qed.
Lemma plain_with s i k f : (forall v, plain (snd (f v))) -> plain (snd (with_view s i k f)).
Proof. intros H. unfold with_view. destruct (nth_error (st_views s) i) as [v|]; cbn; auto. destruct (v_public v); cbn; auto. destruct (v_kind v), k; cbn; auto. Qed.
Lemma plain_lift {A} (g : A -> val) x : (forall a, plain (Ok (g a))) -> plain (snd (lift g x)).
Proof. intros H. destruct x as [s [a|e]]; cbn; auto. exact (H a). Qed.
Lemma same_went own mv t x y : same_way own mv t x y -> exists mp' mv', went own mv t mp' mv' (vrel own (fst (lift VView x)) mp' mv') (lift VView x) (lift VView y).
Proof.
  intros (mp' & mv' & [R S F]). exists mp', mv'. destruct x as [s1 x], y as [t1 y]. cbn [fst snd] in *.
  destruct x, y; cbn [agree] in R; try contradiction; constructor; cbn; auto.
Qed.

Lemma step_both (own : list string -> list string -> Prop) mp mv s t o : sim own mp mv s t ->
  (forall nm rn, asks o nm rn \/ o = OInfo nm rn -> hcomponents nm <> [] -> own (hcomponents rn) (hcomponents nm)) ->
  (forall nm rn, o = OInfo nm rn -> hempty nm = false) ->
  (forall i, works_on o = Some i -> i < length (st_views s)) ->
  exists mp' mv', went own mv t mp' mv' (vrel own (fst (step env o s)) mp' mv') (step env o s) (step env (match works_on o with None => o | Some i => via o (fv mv i) end) t).
Proof.
  intros S O I L.
  assert (P : forall x y, both own mp mv t x y -> plain (snd x) -> exists mp' mv', went own mv t mp' mv' (vrel own (fst x) mp' mv') x y).
  { intros x y B Q. exists mp, mv. now apply went_plain. }
  assert (V : forall i, works_on o = Some i -> exists v, nth_error (st_views s) i = Some v).
  { intros i W. specialize (L i W). destruct (nth_error (st_views s) i) eqn:E; eauto. apply nth_error_None in E. lia. }
  destruct o as [nm u rn|nm u tps rn a b c|nm rn|nm rn|i|i x|i|i g|i|i a|i j x|i j|i|i j x|i x|i|i]; cbn [works_on via step] in *;
    try (specialize (L i eq_refl); destruct (V i eq_refl) as [v Vi]; clear V O I).
  - apply same_went. eapply scalar_way; [exact S|]. apply O. left. cbn. auto.
  - apply same_went. eapply timeseries_way; [exact S|]. apply O. left. cbn. auto.
  - apply same_went. eapply generic_way; [exact S|]. apply O. left. cbn. auto.
  - exists mp, mv. destruct (info_both own mp mv s t nm rn S (I _ _ eq_refl)) as [(e & -> & ->)|(p & -> & -> & K)].
    + apply O. auto.
    + constructor; cbn; auto. apply frame_refl, S.
    + constructor; cbn; auto. apply frame_refl, S.
  - apply P; [|apply plain_with; intros; apply plain_lift; cbn; auto]. eapply with_both; eauto. rewrite <- (scalar_get_both own mp mv s t i v S Vi). apply lift_both, both_here; auto.
  - apply P; [|apply plain_with; intros; apply plain_lift; cbn; auto]. eapply with_both; eauto. now apply lift_both, scalar_set_both.
  - apply P; [|apply plain_with; intros; apply plain_lift; cbn; auto]. eapply with_both; eauto. rewrite <- (generic_get_both own mp mv s t i v S Vi). apply lift_both, both_here; auto.
  - apply P; [|apply plain_with; intros; apply plain_lift; cbn; auto]. eapply with_both; eauto. now apply lift_both, generic_set_both.
  - apply P; [|apply plain_with; intros; apply plain_lift; cbn; auto]. eapply with_both; eauto. now apply lift_both, ts_get_both.
  - apply P; [|apply plain_with; intros; apply plain_lift; cbn; auto]. eapply with_both; eauto. now apply lift_both, ts_set_both.
  - apply P; [|apply plain_with; intros; apply plain_lift; cbn; auto]. eapply with_both; eauto. now apply lift_both, ts_setitem_both.
  - apply P.
    + eapply with_both; eauto. change (v_data (vmap mp mv v)) with (v_data v). destruct (v_data v); [|now apply both_here].
      pose proof (ts_get_both own mp mv s t i S L) as [R1 R2 R3]. destruct (ts_get s i) as [s1 x], (ts_get t (fv mv i)) as [t1 y]. cbn [fst snd] in *. subst y.
      destruct x; constructor; auto.
    + apply plain_with. intros w. destruct (v_data w); cbn; auto. destruct (ts_get s i) as [s1 [xs|e]]; cbn; auto.
      destruct (pyindex (length xs) j); cbn; auto. destruct (nth_error xs n); cbn; auto.
  - apply P.
    + eapply with_both; eauto. change (v_data (vmap mp mv v)) with (v_data v). now apply both_here.
    + apply plain_with. intros w. cbn. destruct (v_data w); cbn; auto.
  - apply P; [|apply plain_with; intros; apply plain_lift; cbn; auto]. eapply with_both; eauto. now apply lift_both, handle_set_both.
  - apply P; [|apply plain_with; intros; apply plain_lift; cbn; auto]. eapply with_both; eauto. now apply lift_both, handle_iadd_both.
  - apply P; [|apply plain_with; intros; apply plain_lift; cbn; auto]. eapply with_both; eauto. now apply lift_both, lock_both.
  - apply P; [|apply plain_with; intros; apply plain_lift; cbn; auto]. eapply with_both; eauto. now apply lift_both, unlock_both.
Qed.
Lemma tell_both own mp mv s t k x y : sim own mp mv s t -> agree (vrel own s mp mv) x y -> tell t k y = tell s k x.
Proof.
  intros S R. destruct x as [x|e], y as [y|e']; cbn [agree] in R; try contradiction; [|subst; reflexivity].
  destruct x, y; cbn [vrel] in R; try contradiction; try (injection R as <-); try discriminate; try reflexivity.
  destruct R as [-> K]. destruct p as [p|]; [|reflexivity]. specialize (K p eq_refl). cbn [tell option_map].
  destruct (nth_error (st_params s) p) as [q|] eqn:Q; [|apply nth_error_None in Q; pose proof (within_lt own s p (s_ws _ _ _ _ _ S) K); lia]. destruct (s_cell _ _ _ _ _ S _ _ K Q) as (r & ->).
  destruct (names_both own mp mv s t p S (nth_lt _ _ _ Q)) as (rs & ps & A & B). apply (param_at_names s (s_ws _ _ _ _ _ S)) in A as [-> ->].
  apply (param_at_names t (s_wt _ _ _ _ _ S)) in B as [-> ->]. reflexivity.
Qed.

(** User [u] in the shared parameter set [w], and alone in [a]. *)
Definition related (own : list string -> list string -> Prop) (u : nat) (w a : shared) : Prop :=
  exists mp mv, sim own mp mv (sh_state a) (sh_state w) /\ sh_views w u = map (fv mv) (sh_views a u) /\
    forall i, In i (sh_views a u) -> i < length (st_views (sh_state a)).

Definition allowed (own : list string -> list string -> Prop) (o : op) : Prop :=
  (forall nm rn, asks o nm rn \/ o = OInfo nm rn -> hcomponents nm <> [] -> own (hcomponents rn) (hcomponents nm)) /\
  (forall nm rn, o = OInfo nm rn -> hempty nm = false).
Lemma asks_via o v : forall nm rn, (asks (via o v) nm rn -> asks o nm rn) /\ (via o v = OInfo nm rn -> o = OInfo nm rn).
Proof. intros nm rn. destruct o; cbn; split; auto; discriminate. Qed.
Lemma works_via o k v : works_on o = Some k -> works_on (via o v) = Some v.
Proof. destruct o; cbn; intros; try discriminate; reflexivity. Qed.
Lemma via_via o a b : via (via o a) b = via o b.
Proof. destruct o; reflexivity. Qed.

Lemma call_both own u o w a : related own u w a -> allowed own o ->
  snd (call env u o w) = snd (call env u o a) /\ related own u (fst (call env u o w)) (fst (call env u o a)) /\
  forall (own' : list string -> list string -> Prop) u' a', u' <> u -> apartd own own' -> related own' u' w a' -> related own' u' (fst (call env u o w)) a'.
Proof.
  intros (mp & mv & S & Vw & Vb) [O I].
  assert (None' : snd (w, RRaised EInvalid) = snd (a, RRaised EInvalid) /\ related own u w a /\
    forall (own' : list string -> list string -> Prop) u' a', u' <> u -> apartd own own' -> related own' u' w a' -> related own' u' w a').
  { split; auto. split; auto. exists mp, mv. auto. }
  assert (Go : forall oa ow, (forall nm rn, asks oa nm rn \/ oa = OInfo nm rn -> hcomponents nm <> [] -> own (hcomponents rn) (hcomponents nm)) ->
     (forall nm rn, oa = OInfo nm rn -> hempty nm = false) -> (forall i, works_on oa = Some i -> i < length (st_views (sh_state a))) ->
     ow = match works_on oa with None => oa | Some i => via oa (fv mv i) end ->
     let go w0 o' := (mkShared (after env o' (sh_state w0)) (match answer env o' (sh_state w0) with Ok (VView i) => fun u' => if u' =? u then sh_views w0 u' ++ [i] else sh_views w0 u' | _ => sh_views w0 end),
        tell (after env o' (sh_state w0)) (length (sh_views w0 u)) (answer env o' (sh_state w0))) in
     snd (go w ow) = snd (go a oa) /\ related own u (fst (go w ow)) (fst (go a oa)) /\
     forall (own' : list string -> list string -> Prop) u' a', u' <> u -> apartd own own' -> related own' u' w a' -> related own' u' (fst (go w ow)) a').
  { intros oa ow Oa Ia La Eo go. destruct (step_both own mp mv (sh_state a) (sh_state w) oa S Oa Ia La) as (mp' & mv' & [R S1 F]). rewrite <- Eo in *.
    cbn [go fst snd]. unfold after, answer. destruct (step env oa (sh_state a)) as [sa x] eqn:Xa, (step env ow (sh_state w)) as [sw y] eqn:Xw. cbn [fst snd] in *.
    assert (Lg : length (st_views (sh_state a)) <= length (st_views sa)).
    { pose proof (evo_step _ _ _ _ _ Xa) as E. clear - E. destruct (st_views (sh_state a)) as [|v0 l] eqn:V; [cbn; lia|].
      destruct (nth_error (st_views (sh_state a)) (length l)) as [v|] eqn:N; [|apply nth_error_None in N; rewrite V in N; cbn in N; lia].
      destruct (ev_views _ _ E _ _ N) as (v' & N' & _). apply nth_lt in N'. cbn. lia. }
    assert (Mv : map (fv mv') (sh_views a u) = map (fv mv) (sh_views a u)).
    { apply map_ext_in. intros i Ii. destruct (f_mv _ _ _ _ _ F) as (e & -> & _). apply nth_longer. rewrite (s_lv _ _ _ _ _ S). now apply Vb. }
    split; [|split].
    - rewrite Vw, map_length. eapply tell_both; eauto.
    - exists mp', mv'. split; [exact S1|]. cbn [sh_views sh_state]. destruct x as [x|e], y as [y|e']; cbn [agree] in R; try contradiction.
      + destruct x, y; cbn [vrel] in R; try contradiction; try discriminate; try (rewrite Mv; split; auto; intros i Ii; specialize (Vb i Ii); lia).
        destruct R as [L ->]. rewrite Nat.eqb_refl. split.
        * rewrite map_app, Mv, Vw. reflexivity.
        * intros i Ii. apply in_app_or in Ii. destruct Ii as [Ii|[<-|[]]]; auto. specialize (Vb i Ii). lia.
      + rewrite Mv. split; auto. intros i Ii. specialize (Vb i Ii). lia.
    - intros own' u' a' N D (mp2 & mv2 & S2 & Vw2 & Vb2). exists mp2, mv2. cbn [sh_state sh_views]. split; [exact (frame_keeps own own' mp mv _ _ mp2 mv2 _ mv' sw D S S2 F)|]. split; [|exact Vb2].
      rewrite <- Vw2. destruct y as [[]|]; try reflexivity. destruct (Nat.eqb_spec u' u); [contradiction|reflexivity]. }
  unfold call. destruct (works_on o) as [k|] eqn:Wo.
  - rewrite Vw, nth_error_map. destruct (nth_error (sh_views a u) k) as [i|] eqn:Ni; cbn [option_map]; [|exact None'].
    rewrite <- Vw. apply Go.
    + intros nm rn A. apply (O nm rn). destruct A as [A|A]; [left|right]; now apply (asks_via o i).
    + intros nm rn A. apply (I nm rn). now apply (asks_via o i).
    + intros j J. rewrite (works_via _ _ _ Wo) in J. injection J as <-. apply Vb. eapply nth_error_In; eauto.
    + rewrite (works_via _ _ _ Wo), via_via. reflexivity.
  - apply Go; auto; [intros i J; congruence|]. now rewrite Wo.
Qed.

Lemma shared_alone (own : nat -> list string -> list string -> Prop) : (forall u u', u <> u' -> apartd (own u) (own u')) ->
  forall h, (forall u o, In (u, o) h -> allowed (own u) o) -> forall w (a : nat -> shared), (forall u, related (own u) u w (a u)) ->
  forall u, of_user u (replies env h w) = of_user u (replies env (of_user u h) (a u)).
Proof.
  intros D. induction h as [|(u0, o) h IH]; intros A w a R u; [reflexivity|].
  assert (A' : forall u o, In (u, o) h -> allowed (own u) o) by (intros; apply A; now right).
  destruct (call_both (own u0) u0 o w (a u0) (R u0) (A u0 o (or_introl eq_refl))) as (E & Ru & Ro).
  set (a' := fun u' => if u' =? u0 then fst (call env u0 o (a u0)) else a u').
  assert (R' : forall u', related (own u') u' (fst (call env u0 o w)) (a' u')).
  { intros u'. unfold a'. destruct (Nat.eqb_spec u' u0) as [->|N]; [exact Ru|]. apply Ro; auto. }
  specialize (IH A' _ a' R' u). unfold of_user in *. cbn [replies filter fst]. rewrite IH. unfold a'.
  destruct (Nat.eqb_spec u0 u) as [->|N].
  - cbn [replies filter fst]. rewrite Nat.eqb_refl. f_equal. now rewrite E.
  - destruct (Nat.eqb_spec u u0); [congruence|reflexivity].
Qed.
Theorem share root h : separate h -> forall u, of_user u (replies env h (fresh_set root)) = of_user u (replies env (of_user u h) (fresh_set root)).
Proof.
  intros [D I]. apply (shared_alone (uses h)).
  - intros u u' N rs m m' U U' O. exact (D u u' rs m m' N U U' O).
  - intros u o J. split.
    + intros nm rn A C. exists o, nm, rn. auto.
    + intros nm rn ->. eauto.
  - intros u. exists [], []. split; [|split; [reflexivity|intros i []]].
    pose proof (wft_init root) as W.
    assert (N : forall rs ps, param_at (init_state root) rs ps = None).
    { intros rs ps. unfold param_at. destruct (region_at (init_state root) rs) as [r|] eqn:R; [|reflexivity]. destruct ps; [reflexivity|]. cbn.
      destruct r as [|[|r]]; reflexivity. }
    constructor; auto; cbn [sh_state fresh_set]; try (intros [|i] v; discriminate); try (intros *; rewrite N; discriminate).
    constructor.
Qed.
End Env.

(** Checking [separate]. *)
Definition named (o : op) : option (list string * list string) :=
  match o with
  | OScalar n _ r | OTimeseries n _ _ r _ _ _ | OGeneric n r | OInfo n r => Some (hcomponents r, hcomponents n)
  | _ => None
  end.
Fixpoint prefixb (a b : list string) : bool :=
  match a, b with [], _ => true | x :: a, y :: b => String.eqb x y && prefixb a b | _, _ => false end%bool.
Fixpoint listb (a b : list string) : bool :=
  match a, b with [], [] => true | x :: a, y :: b => String.eqb x y && listb a b | _, _ => false end%bool.
Definition clash (c c' : nat * op) : bool :=
  match named (snd c), named (snd c') with
  | Some (r, m), Some (r', m') => (negb (fst c =? fst c') && listb r r' && (prefixb m m' || prefixb m' m))%bool
  | _, _ => false
  end.
Definition separateb (h : schedule) : bool :=
  (forallb (fun c => forallb (fun c' => negb (clash c c')) h) h &&
   forallb (fun c => match snd c with OInfo n _ => negb (hempty n) | _ => true end) h)%bool.
Lemma prefixb_app a r : prefixb a (a ++ r) = true.
Proof. induction a; cbn; auto. now rewrite String.eqb_refl. Qed.
Lemma listb_refl a : listb a a = true.
Proof. induction a; cbn; auto. now rewrite String.eqb_refl. Qed.
Lemma named_uses h u rs ps : uses h u rs ps -> exists o, In (u, o) h /\ named o = Some (rs, ps).
Proof.
  intros (o & n & r & I & A & <- & <- & _). exists o. split; auto. destruct A as [A| ->]; [|reflexivity].
  destruct o; cbn in A; try contradiction; destruct A as [<- <-]; reflexivity.
Qed.
Lemma separate_check h : separateb h = true -> separate h.
Proof.
  unfold separateb. rewrite andb_true_iff, !forallb_forall. intros [A B]. constructor.
  - intros u u' rs m m' N U U' (x & O). destruct (named_uses _ _ _ _ U) as (o & I & E), (named_uses _ _ _ _ U') as (o' & I' & E').
    specialize (A _ I). rewrite forallb_forall in A. specialize (A _ I'). unfold clash in A. cbn [fst snd] in A. rewrite E, E', listb_refl in A.
    destruct (Nat.eqb_spec u u'); [contradiction|]. destruct O as [->| ->]; rewrite prefixb_app in A; cbn in A; try discriminate. rewrite orb_true_r in A. discriminate.
  - intros u n r I. specialize (B _ I). cbn in B. now destruct (hempty n).
Qed.
