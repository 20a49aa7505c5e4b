(** C46: a run does not depend on uninitialised memory, and running again gives the same results. *)
From Coq Require Import String List ZArith Reals Bool Arith Lia.
From Verif Require Import Base ListFacts Units TimeModel Calendar Core CoreEvo CoreTree CoreNames
  CoreInv CoreStep Spec_Core CoreReq CoreP1 CoreP2 Adapters Dice ConvShape DiceSim DiceBase DiceMachine
  Spec_Dice DiceUsed DiceProgress DiceTime DiceProps.
Import ListNotations.
Local Open Scope string_scope.
Local Open Scope list_scope.

(** ** Writing a whole series: when it succeeds *)
Lemma start_iff env w0 vi pi x l : base env w0 vi pi ->
  forall v q, nth_error (st_views (w_out w0)) (vi x) = Some v -> nth_error (st_params (w_out w0)) (v_param v) = Some q ->
  start_of env w0 vi x l = Ok tt <->
  p_children q = [] /\ Z.of_nat (length l) = target_length (v_tconv v) /\ exists xs, to_param v l = Ok xs.
Proof.
  intros B v q V Q. destruct (ba_cells _ _ _ _ B x) as (v1 & q1 & V1 & Pv & Q1 & Pb & K & Dv & Lo).
  assert (v1 = v) by congruence. subst v1. assert (q1 = q) by congruence. subst q1.
  unfold start_of, answer. cbn [step]. unfold with_view. rewrite V, Pb, K.
  destruct (ts_set (w_out w0) (vi x) v (mkArr false l)) as [s' r] eqn:S.
  pose proof (ts_set_eff env _ _ _ _ _ _ _ (ba_wf _ _ _ _ B) V Pb K Q S) as E. cbv zeta in E. cbn [a_val] in E.
  destruct r as [[]|e]; simpl.
  - split; auto. intros _. destruct E as (Ch & Le & [[L _]|[_ (xs & T & _)]]); [congruence|eauto].
  - split; [discriminate|]. intros (Ch & Le & xs & T). exfalso.
    destruct E as [[N _]|[_ [[N _]|[_ [(d & D & _)|[_ [T2 _]]]]]]]; try congruence.
Qed.
Lemma start_len env w0 vi pi x l l' : base env w0 vi pi -> length l' = length l ->
  start_of env w0 vi x l = Ok tt -> start_of env w0 vi x l' = Ok tt.
Proof.
  intros B L H. destruct (ba_cells _ _ _ _ B x) as (v & q & V & Pv & Q & _). rewrite <- Pv in Q.
  apply (start_iff _ _ _ _ _ _ B v q V Q) in H. apply (start_iff _ _ _ _ _ _ B v q V Q). destruct H as (Ch & Le & xs & T). rewrite L.
  split; auto. split; auto. pose proof (to_param_both v l' l L) as Bo. rewrite T in Bo.
  destruct (to_param v l') as [ys|]; [eauto|contradiction].
Qed.

Lemma reset_stepping_go env a w0 w' : prepared_world env a w0 -> reset_model env w0 = (w', Ok tt) ->
  exists a', scm_reset_stepping world (dice_hooks env) a = (a', Ok tt) /\ a_world _ a' = w' /\ a_initialized _ a' = true.
Proof.
  intros (a1 & w1 & E & Rp & St) Re. unfold scm_reset_stepping, Adapters.initialize_model_input, Adapters.initialize_run_parameters.
  rewrite E. cbn [then_do]. unfold call at 1. cbn [h_initialize_model_input dice_hooks]. unfold initialize_model_input, ret.
  cbn [returned then_do].
  assert (E2 : ensure_initialized world (dice_hooks env) (mkAdapter world (a_world world a1) (a_initialized world a1) (a_log world a1 ++ [(EvModelInput, true)])) =
    (mkAdapter world (a_world world a1) (a_initialized world a1) (a_log world a1 ++ [(EvModelInput, true)]), Ok tt)).
  { unfold ensure_initialized. simpl. destruct (ensure_out _ _ _ E) as [-> _]. reflexivity. }
  rewrite E2. cbn [then_do]. unfold call at 1. cbn [h_initialize_run_parameters dice_hooks a_world]. rewrite Rp. cbn [then_do].
  unfold adapter_reset. cbn [h_start_time dice_hooks a_world]. rewrite St. unfold call. cbn [h_reset dice_hooks a_world]. rewrite Re.
  eexists. split; [reflexivity|]. split; [reflexivity|]. simpl. apply (ensure_out _ _ _ E).
Qed.

(** ** The machine: the same inputs give the same cells *)
Lemma equations_det c t e old old' new new' : (forall x, old' x = old x) ->
  equations c t e old new -> equations c t e old' new' -> forall x, new' x = new x.
Proof.
  intros Eo [A1 A2 A3 A4 (x & r & l & X & Dv & Lg & A5) (la & Dl & A6)]
    [B1 B2 B3 B4 (x' & r' & l' & X' & Dv' & Lg' & B5) (la' & Dl' & B6)].
  rewrite !Eo in *. assert (Em : new' Mat = new Mat) by congruence.
  rewrite Em in Dv'. assert (r' = r) by congruence. subst r'. assert (l' = l) by congruence. subst l'.
  assert (x' = x) by congruence. subst x'. assert (la' = la) by congruence. subst la'.
  assert (Ef : new' Forc = new Forc) by congruence. rewrite Ef in B6.
  intros []; congruence.
Qed.
(** The attributes that are views of series; all others are parameters. *)
Definition series_attributes : list string := ["E"; "mat"; "ml"; "mu"; "tatm"; "tocean"; "forc"].
Definition keeps_reads {A} (f f' : string -> res A) : Prop :=
  forall s a, ~ In s series_attributes -> f s = Ok a -> f' s = Ok a.
Lemma coefficients_det I I' co co' : keeps_reads (i_scalar I) (i_scalar I') -> coefficients I co -> coefficients I' co' ->
  forall s, In s ["b11"; "b21"; "b22"; "b32"; "b33"] -> alookup s co' = alookup s co.
Proof.
  intros Es [(b12 & b23 & mateq & mueq & mleq & b21 & b32 & A1 & A2 & A3 & A4 & A5 & A6 & A7 & K1 & K2 & K3 & K4 & K5)]
    [(c12 & c23 & nateq & nueq & nleq & c21 & c32 & B1 & B2 & B3 & B4 & B5 & B6 & B7 & L1 & L2 & L3 & L4 & L5)].
  apply Es in A1; [|simpl; intuition discriminate]. apply Es in A2; [|simpl; intuition discriminate].
  apply Es in A3; [|simpl; intuition discriminate]. apply Es in A4; [|simpl; intuition discriminate].
  apply Es in A5; [|simpl; intuition discriminate].
  assert (c12 = b12) by congruence. assert (c23 = b23) by congruence. assert (nateq = mateq) by congruence.
  assert (nueq = mueq) by congruence. assert (nleq = mleq) by congruence. subst.
  assert (c21 = b21) by congruence. assert (c32 = b32) by congruence. subst.
  intros s [<-|[<-|[<-|[<-|[<-|[]]]]]]; congruence.
Qed.
Lemma initial_fine x : x <> Forc -> ~ In (initial_name x) series_attributes.
Proof. destruct x; simpl; intuition discriminate. Qed.
Lemma initials_det I I' init init' : keeps_reads (i_scalar I) (i_scalar I') -> initials I init -> initials I' init' ->
  forall x, init' x = init x.
Proof.
  intros Es [S1 (f & m & q & r & l & e & A1 & A2 & A3 & A4 & A5 & A6 & A7)] [S2 (f' & m' & q' & r' & l' & e' & B1 & B2 & B3 & B4 & B5 & B6 & B7)] x.
  apply Es in A1; [|simpl; intuition discriminate]. apply Es in A2; [|simpl; intuition discriminate].
  apply Es in A3; [|simpl; intuition discriminate]. apply Es in A6; [|simpl; intuition discriminate].
  destruct (series_eq_dec x Forc) as [->|N].
  - assert (f' = f) by congruence. assert (m' = m) by congruence. assert (q' = q) by congruence. subst.
    assert (r' = r) by congruence. subst. assert (l' = l) by congruence. assert (e' = e) by congruence. congruence.
  - pose proof (Es _ _ (initial_fine x N) (S1 x N)). pose proof (S2 x N) as Y. congruence.
Qed.
Lemma reads_same I I' co co' c : keeps_reads (i_scalar I) (i_scalar I') -> keeps_reads (i_generic I) (i_generic I') ->
  (forall s, In s ["b11"; "b21"; "b22"; "b32"; "b33"] -> alookup s co' = alookup s co) -> reads I co c -> reads I' co' c.
Proof.
  intros Es Eg Ec []. constructor;
  match goal with
  | |- i_scalar _ _ = _ => apply Es; [simpl; intuition discriminate|assumption]
  | |- i_generic _ _ = _ => apply Eg; [simpl; intuition discriminate|assumption]
  | |- _ => rewrite Ec; [assumption|simpl; auto 10]
  end.
Qed.
Lemma reads_det I co c c' : reads I co c -> reads I co c' -> c' = c.
Proof.
  intros [] []. destruct c, c'. cbn in *.
  repeat match goal with
  | A : ?l = ?x, B : ?l = ?y |- _ => rewrite A in B; injection B; clear B; intros; subst
  end. reflexivity.
Qed.

Record same_inputs (I I' : inputs) : Prop := {
  si_scalar : keeps_reads (i_scalar I) (i_scalar I');
  si_generic : keeps_reads (i_generic I) (i_generic I');
  si_E : i_E I' = i_E I;
  si_count : i_count I' = i_count I;
  si_start : forall x g g', length g' = length g -> i_start I x g = Ok tt -> i_start I' x g' = Ok tt }.

Lemma machine_again I I' d d0 k e : same_inputs I I' -> p_reset I d = (d0, Ok tt) -> p_repeat I k d0 = (e, Ok tt) ->
  forall d2, d_time d2 = d_time d -> exists d0' e', p_reset I' d2 = (d0', Ok tt) /\ p_repeat I' k d0' = (e', Ok tt) /\
    d_time e' = d_time e /\ (forall x, length (d_get e' x) = length (d_get e x)) /\
    forall x i, (i <= k)%nat -> cell e' x i = cell e x i.
Proof.
  intros Si Re Rp d2 Et. destruct (p_reset_ok _ _ _ Re) as (n & init & S0).
  destruct S0 as [N Np T0 Tm Co Ini Get].
  assert (Go : okp (p_reset I') d2 (fun _ _ => True)).
  { destruct Co as [K]. destruct Ini as [Is If].
    apply (reset_go I' d2 n init (d_coef d0)); auto.
    - rewrite (si_count _ _ Si); auto.
    - constructor. destruct K as (b12 & b23 & mateq & mueq & mleq & b21 & b32 & K1 & K2 & K3 & K4 & K5 & K).
      exists b12, b23, mateq, mueq, mleq, b21, b32.
      repeat (split; [apply (si_scalar _ _ Si); [simpl; intuition discriminate|assumption]|]). exact K.
    - constructor; [intros x Nx; apply (si_scalar _ _ Si); auto using initial_fine|].
      destruct If as (f & m & q & r & l & e1 & F1 & F2 & F3 & F4 & F5 & F6 & F7). exists f, m, q, r, l, e1.
      repeat (split; [first [assumption|apply (si_scalar _ _ Si); [simpl; intuition discriminate|assumption]]|]). assumption.
    - intros x g Lg. destruct (Get x) as (g0 & L0 & S & _). apply (si_start _ _ Si x g0 g); congruence. }
  destruct Go as ([] & d0' & Re' & _). destruct (p_reset_ok _ _ _ Re') as (n' & init' & S0').
  destruct S0' as [N' Np' T0' Tm' Co' Ini' Get']. assert (n' = n) by (rewrite (si_count _ _ Si) in N'; congruence). subst n'.
  pose proof (initials_det _ _ _ _ (si_scalar _ _ Si) Ini Ini') as Ei.
  pose proof (coefficients_det _ _ _ _ (si_scalar _ _ Si) Co Co') as Ec.
  assert (L0 : forall x, length (d_get d0 x) = Z.to_nat n)
    by (intros x; destruct (Get x) as (g & Lg & _ & ->); now rewrite upd_length).
  assert (L0' : forall x, length (d_get d0' x) = Z.to_nat n)
    by (intros x; destruct (Get' x) as (g & Lg & _ & ->); now rewrite upd_length).
  exists d0'. revert e Rp. induction k as [|k IH]; intros e Rp.
  - simpl in Rp. inversion Rp; subst e. exists d0'. split; auto. split; auto. split; [congruence|]. split; [congruence|].
    intros x i Li. assert (i = 0)%nat by lia. subst i. unfold cell.
    destruct (Get x) as (g & Lg & _ & ->), (Get' x) as (g' & Lg' & _ & ->). rewrite !upd_nth_same by lia. auto.
  - rewrite repeat_snoc in Rp. apply pbind_ok in Rp. destruct Rp as ([] & e1 & R1 & Rs).
    destruct (IH _ R1) as (e1' & _ & R1' & Tm1 & Le1 & Ce1).
    assert (P0 : (0 <= d_t d0)%Z) by lia. assert (P0' : (0 <= d_t d0')%Z) by lia.
    destruct (repeat_ok _ _ _ _ P0 R1) as (T1 & Co1 & Ln1 & _).
    destruct (repeat_ok _ _ _ _ P0' R1') as (T1' & Co1' & Ln1' & _).
    rewrite T0 in T1. rewrite T0' in T1'. simpl in T1, T1'.
    apply p_calc_step_ok in Rs; [|lia]. destruct Rs as (c & em & new & [Rd St Stm _ _ (l & El & Em) Q Ro Ge]).
    rewrite T1 in *. rewrite Nat2Z.id in *. apply at_index_nth in Em; [|lia]. rewrite Nat2Z.id in Em. destruct Em as [Em Ll].
    assert (Rd' : reads I' (d_coef e1') c).
    { apply (reads_same I I' (d_coef e1)); auto; [apply Si|apply Si|]. rewrite Co1, Co1'. exact Ec. }
    assert (Q' : equations c (Z.of_nat k + 1) (nth k l None) (fun x => cell e1' x k) new).
    { rewrite <- Em. destruct Q as [Q1 Q2 Q3 Q4 Q5 Q6]. constructor; rewrite ?Ce1 by lia; auto. }
    destruct (step_go I' (d_coef e1') (Z.to_nat n) c l Rd' ltac:(rewrite (si_E _ _ Si); auto) e1' k new) as ([] & e' & Rs' & _); auto.
    { split; auto. intros x. rewrite Ln1'. auto. }
    { specialize (Ro Mat). rewrite Ln1, L0 in Ro. lia. }
    exists e'. split; auto. split. { rewrite repeat_snoc. unfold pbind. rewrite R1'. exact Rs'. }
    apply p_calc_step_ok in Rs'; [|lia]. destruct Rs' as (c' & em' & new' & [Rd2 St2 Stm2 _ _ (l2 & El2 & Em2) Q2 Ro2 Ge2]).
    assert (c' = c) by (eapply reads_det; eauto). subst c'. rewrite T1' in *. rewrite Nat2Z.id in *.
    rewrite (si_E _ _ Si), El in El2. inversion El2; subst l2.
    apply at_index_nth in Em2; [|lia]. rewrite Nat2Z.id in Em2. destruct Em2 as [Em2 _]. rewrite <- Em2 in Q'.
    pose proof (equations_det _ _ _ _ _ _ _ (fun x => eq_refl) Q' Q2) as En.
    split; [congruence|]. split; [intros x; rewrite Ge, Ge2, !upd_length; auto|].
    intros x i Li. unfold cell. rewrite Ge, Ge2. destruct (Nat.eq_dec i (S k)) as [->|Ni].
    + rewrite (upd_nth_same _ _ _ _ (Ro x)), (upd_nth_same _ _ _ _ (Ro2 x)). apply En.
    + rewrite !upd_nth_other by lia. apply Ce1. lia.
Qed.

(** ** Two prepared worlds with the same inputs, and outputs of the same shape *)
Section Alike.
Variable env : uenv.
Notation H := (dice_hooks env).
Notation In w0 := (I env w0 (vi_of w0)).

Record alike (w0 w1 : world) : Prop := {
  al_scalar : keeps_reads (fun n => snd (scalar env n w0)) (fun n => snd (scalar env n w1));
  al_generic : keeps_reads (fun n => snd (generic env n w0)) (fun n => snd (generic env n w1));
  al_E : read_E env w1 = read_E env w0;
  al_count : w_count w1 = w_count w0;
  al_time : w_time w1 = w_time w0;
  al_regions : st_regions (w_out w1) = st_regions (w_out w0);
  al_params : forall p, (forall x, p <> pi_of w0 x) ->
    nth_error (st_params (w_out w1)) p = nth_error (st_params (w_out w0)) p;
  al_series : forall x, exists v q v' q',
    nth_error (st_views (w_out w0)) (vi_of w0 x) = Some v /\ nth_error (st_params (w_out w0)) (v_param v) = Some q /\
    nth_error (st_views (w_out w1)) (vi_of w1 x) = Some v' /\ nth_error (st_params (w_out w1)) (v_param v') = Some q' /\
    v_param v' = v_param v /\ v_uconv v' = v_uconv v /\ v_tconv v' = v_tconv v /\ psame q q' }.

Lemma alike_inputs w0 w1 : base env w0 (vi_of w0) (pi_of w0) -> base env w1 (vi_of w1) (pi_of w1) -> alike w0 w1 ->
  same_inputs (In w0) (In w1).
Proof.
  intros B0 B1 A. constructor; simpl; try apply A.
  - unfold count. simpl. now rewrite (al_count _ _ A).
  - intros x g g' L S. destruct (al_series _ _ A x) as (v & q & v' & q' & V & Q & V' & Q' & Pv & Uc & Tc & Ps).
    apply (start_len env w1 (vi_of w1) (pi_of w1) x g g' B1 L).
    apply (start_iff _ _ _ _ _ _ B0 v q V Q) in S. apply (start_iff _ _ _ _ _ _ B1 v' q' V' Q').
    destruct S as (C & Le & xs & T). rewrite (ps_children _ _ Ps), Tc. split; auto. split; auto.
    exists xs. unfold to_param in *. now rewrite Tc, Uc.
Qed.

Lemma nth_ext_num (l l' : list num) : length l' = length l ->
  (forall i, (i < length l)%nat -> nth i l' None = nth i l None) -> l' = l.
Proof. intros L Ex. apply (nth_ext _ _ None None L). intros i Hi. apply Ex. rewrite <- L. exact Hi. Qed.

Lemma alike_content w0 w1 a b d e : alike w0 w1 -> running env w0 a d -> running env w1 b e ->
  (forall x, d_get e x = d_get d x) -> d_time e = d_time d ->
  same_content (w_out (a_world _ a)) (w_out (a_world _ b)) /\ now b = now a /\
  forall x i, out env b (nm x) i = out env a (nm x) i.
Proof.
  intros A Ra Rb Ed Et. 
  assert (Ep : forall x, pi_of w1 x = pi_of w0 x).
  { intros x. destruct (al_series _ _ A x) as (v & q & v' & q' & V & Q & V' & Q' & Pv & _).
    unfold pi_of. now rewrite V, V'. }
  split; [|split].
  - pose proof (ru_sim _ _ _ _ Ra) as Ja. pose proof (ru_sim _ _ _ _ Rb) as Jb. split.
    + rewrite (j_regions _ _ _ _ _ _ _ Ja), (j_regions _ _ _ _ _ _ _ Jb). apply A.
    + apply nth_ext_err. intros i. rewrite !nth_error_map.
      destruct (series_or_not (pi_of w0) i) as [(x & ->)|N].
      * destruct (j_series _ _ _ _ _ _ _ Ja x) as (v0 & q0 & v & q & V0 & Q0 & V & Q & Vs & Ps & L).
        destruct (j_series _ _ _ _ _ _ _ Jb x) as (v0' & q0' & v' & q' & V0' & Q0' & V' & Q' & Vs' & Ps' & L').
        destruct (al_series _ _ A x) as (c & r & c' & r' & C & Rr & C' & Rr' & Pv & Uc & Tc & Pr).
        rewrite Ep in Q', Q0'. rewrite Q, Q'. simpl. f_equal.
        assert (c = v0) by congruence. assert (c' = v0') by congruence. subst c c'.
        assert (Ev : v_param v0 = pi_of w0 x) by (unfold pi_of; now rewrite V0).
        assert (r = q0) by congruence. assert (r' = q0') by congruence. subst r r'.
        destruct (lv_kept _ _ _ _ L eq_refl) as (xs & T & D). destruct (lv_kept _ _ _ _ L' eq_refl) as (xs' & T' & D').
        rewrite (vsame_conv _ _ _ Vs) in T. rewrite (vsame_conv _ _ _ Vs') in T'.
        assert (xs' = xs). { rewrite Ed in T'. unfold to_param in T, T'. rewrite Tc, Uc in T'. congruence. } subst xs'.
        destruct Ps, Ps', Pr. unfold forget_version.
        rewrite (lv_written _ _ _ _ L), (lv_written _ _ _ _ L'). f_equal; congruence.
      * rewrite (j_params _ _ _ _ _ _ _ Ja), (j_params _ _ _ _ _ _ _ Jb); auto.
        -- now rewrite (al_params _ _ A).
        -- intros x. rewrite Ep. auto.
  - unfold now. rewrite (j_time _ _ _ _ _ _ _ (ru_sim _ _ _ _ Ra)), (j_time _ _ _ _ _ _ _ (ru_sim _ _ _ _ Rb)). auto.
  - intros x i. unfold out. rewrite (running_item env _ _ _ x _ Ra), (running_item env _ _ _ x _ Rb), Ed. auto.
Qed.

Lemma alike_run a a' w0 d0 d n b w1 : i_count (In w0) = Ok n -> after_k env a (Z.to_nat (n - 1)) a' w0 d0 d ->
  wf env (w_out (a_world _ b)) -> prepared_world env b w1 -> alike w0 w1 ->
  exists b', do_call world H SRun b = (b', Ok tt) /\ same_results env a' b'.
Proof.
  intros N Ak Wb Pb A. pose proof (ru_base _ _ _ _ (ak_running _ _ _ _ _ _ _ Ak)) as B0.
  destruct (prepared_base _ _ _ Wb Pb) as [B1 J1].
  pose proof (alike_inputs _ _ B0 B1 A) as Si.
  destruct (machine_again _ _ _ _ _ _ Si (ak_reset _ _ _ _ _ _ _ Ak) (ak_steps _ _ _ _ _ _ _ Ak) (d_start w1) (al_time _ _ A))
    as (e0 & e & Re & Rp & Tm & Ln & Ce).
  assert (Ed : forall x, d_get e x = d_get d x).
  { intros x. pose proof (ak_len env _ _ _ _ _ _ Ak n x N) as Lx. pose proof (ak_room env _ _ _ _ _ _ Ak n N).
    apply nth_ext_num; [apply Ln|]. intros i Hi. apply Ce. lia. }
  pose proof (ref_reset env w1 (vi_of w1) (pi_of w1) B1 w1 (d_start w1) J1) as Rr. rewrite Re in Rr.
  destruct Rr as (w' & Rm & Jw). destruct (reset_stepping_go _ _ _ _ Pb Rm) as (b1 & Rs & Ew & In1).
  assert (Ru : running env w1 b1 e0) by (constructor; auto; now rewrite Ew).
  pose proof (run_running env _ _ _ Ru) as Rn. unfold p_run, pbind, plift in Rn.
  assert (N1 : i_count (In w1) = Ok n) by (rewrite <- N; apply Si). rewrite N1 in Rn. rewrite Rp in Rn.
  destruct Rn as (b' & Er & Rb'). exists b'. split.
  { change (do_call world H SRun b) with (then_do world (scm_reset_stepping world H b) (adapter_run world H)). now rewrite Rs. }
  destruct (alike_content _ _ _ _ _ _ A (ak_running _ _ _ _ _ _ _ Ak) Rb' Ed Tm) as (C1 & C2 & C3).
  split; auto. split; auto. intros name i Hn. destruct (named _ Hn) as (x & ->). now rewrite C3.
Qed.
End Alike.
