(** Initialisation of the DICE model: proof of C41. *)
From Coq Require Import String List ZArith Reals Bool Arith Lia Lra.
From Verif Require Import Base ListFacts Units TimeModel Calendar Core CoreEvo CoreTree CoreNames
  CoreInv CoreStep Spec_Core CoreReq CoreP1 CoreP2 Adapters Dice Spec_Adapters.
From Verif Require OffsetsProps.
Import ListNotations.
Local Open Scope string_scope.
Local Open Scope list_scope.

Section D.
Variable env : uenv.
Notation wf := (wf env).

Lemma evo_after o s : evo s (after env o s).
Proof. apply (evo_run env [o] s). Qed.
Lemma evo_names s s' rs ps p q : wf s -> wf s' -> evo s s' -> param_at s' rs ps = Some p ->
  nth_error (st_params s) p = Some q -> param_at s rs ps = Some p.
Proof. intros W W' E A Q. eapply at_back; eauto; [apply W|apply W']. Qed.
Lemma same_place s rs a b p : wf s -> param_at s rs a = Some p -> param_at s rs b = Some p -> a = b.
Proof.
  intros W A B. apply (param_at_names s (wf_tree _ _ W)) in A, B. destruct A, B. congruence.
Qed.

(** What a sequence of calls does to written parameters: none of those written before is
    changed, those written afterwards have a name in [ns]. *)
Record grows (ns : list (list string)) (s s' : state) : Prop := {
  gr_reach : reachable env s -> reachable env s';
  gr_evo : evo s s';
  gr_kept : forall p q, nth_error (st_params s) p = Some q -> p_written q = true ->
    nth_error (st_params s') p = Some q;
  gr_new : forall p q', nth_error (st_params s') p = Some q' -> p_written q' = true ->
    nth_error (st_params s) p = Some q' \/ exists n, In n ns /\ param_at s' ["World"] n = Some p }.

Lemma grows_refl ns s : grows ns s s.
Proof. constructor; auto with evo. Qed.
Lemma grows_trans a b s1 s2 s3 : grows a s1 s2 -> grows b s2 s3 -> grows (a ++ b) s1 s3.
Proof.
  intros [R1 E1 K1 N1] [R2 E2 K2 N2]. constructor; eauto using evo_trans.
  intros p q Q Wr. destruct (N2 _ _ Q Wr) as [Q2|(n & I & A)].
  - destruct (N1 _ _ Q2 Wr) as [Q1|(n & I & A)]; auto.
    right. exists n. split; [apply in_app_iff; auto|]. eapply param_at_evo; eauto.
  - right. exists n. split; auto. apply in_app_iff; auto.
Qed.

Lemma written_read s p q : wf s -> nth_error (st_params s) p = Some q -> p_written q = true -> p_read q = true.
Proof. intros W Q Wr. apply (wf_params _ _ W _ _ Q). auto. Qed.

Lemma grows_request o s : wf s -> write_target o = None -> grows [] s (after env o s).
Proof.
  intros W T. assert (NW : forall p, ~ writes_to s o p) by (intros p (vi & E & _); congruence).
  constructor; [apply reachable_after|apply evo_after| |].
  - intros p q Q Wr. apply frame_step; auto. eapply written_read; eauto.
  - intros p q' Q' Wr. left. pose proof (vw_step env _ _ _ _ W Q') as V.
    destruct (nth_error (st_params s) p) as [q|] eqn:Q; [|destruct V as (_ & V & _); congruence].
    destruct V as [_ V]. destruct (V Wr) as [V'|V']; [|apply NW in V'; contradiction].
    rewrite <- Q'. symmetry. rewrite <- Q. rewrite Q.
    apply frame_step; auto. eapply written_read; eauto.
Qed.

Lemma grows_write o s vi c q n : wf s -> write_target o = Some vi -> views s vi c ->
  nth_error (st_params s) c = Some q -> p_written q = false ->
  param_at s ["World"] n = Some c -> grows [n] s (after env o s).
Proof.
  intros W T (v & V & Pb & Pv) Q Wq A.
  assert (NW : forall p, p <> c -> ~ writes_to s o p).
  { intros p Np (vi' & E & v' & V' & _ & P'). rewrite T in E. inversion E; subst vi'. congruence. }
  constructor; [apply reachable_after|apply evo_after| |].
  - intros p q0 Q0 Wr. apply frame_step; auto; [eapply written_read; eauto|].
    apply NW. intros ->. congruence.
  - intros p q' Q' Wr. destruct (Nat.eq_dec p c) as [->|Np].
    + right. exists n. split; [left; auto|]. eapply param_at_evo; eauto. apply evo_after.
    + left. pose proof (vw_step env _ _ _ _ W Q') as Vw.
      destruct (nth_error (st_params s) p) as [q0|] eqn:Q0; [|destruct Vw as (_ & Vw & _); congruence].
      destruct Vw as [_ Vw]. destruct (Vw Wr) as [V'|V']; [|apply NW in V'; tauto].
      rewrite <- Q'. symmetry. apply frame_step; auto. eapply written_read; eauto.
Qed.

(** What is known about a table entry after the call of [set_parameter]: attribute [name]
    is a view [v] of the parameter [q] called [full]. *)
Record entry_view (w : world) (name : string) (full : list string) (u : option string)
    (vi c : nat) (v : view) (q : param) : Prop := {
  en_attr : alookup name (w_views w) = Some vi;
  en_view : nth_error (st_views (w_in w)) vi = Some v;
  en_public : v_public v = true;
  en_kind : v_kind v = match u with None => KGeneric | Some _ => KScalar end;
  en_unit : forall u', u = Some u' -> v_unit v = u';
  en_param : v_param v = c;
  en_at : param_at (w_in w) ["World"] full = Some c;
  en_cell : nth_error (st_params (w_in w)) c = Some q }.

Definition default_in (value : default) (v : view) (q : param) : Prop :=
  match value with
  | DNum x => p_written q = true /\ p_children q = [] /\
      p_data q = Some (PScalar (Some (uconvert_to (v_uconv v) x)))
  | DGen g => p_written q = true /\ p_data q = Some (PGen g)
  | DNone => p_written q = false
  end.

Definition unwritten (s : state) (c : nat) : Prop :=
  forall q, nth_error (st_params s) c = Some q -> p_written q = false.

Lemma op_in o w w' x : op_on env In_ o w = (w', x) ->
  w_in w' = after env o (w_in w) /\ x = answer env o (w_in w) /\ w_out w' = w_out w /\
  w_views w' = w_views w /\ w_coef w' = w_coef w.
Proof.
  unfold op_on, after, answer. destruct (step env o (w_in w)) as [s r]. intros H. inversion H; subst. simpl. auto.
Qed.

Lemma answer_view o s x : is_request o <> None -> answer env o s = Ok x -> exists vi, x = VView vi.
Proof.
  unfold answer. destruct o; simpl; try congruence; intros _.
  - destruct (ps_scalar _ _ _ _ _) as [s' [a|e]]; simpl; intros H; inversion H; eauto.
  - destruct (ps_timeseries _ _ _ _ _ _ _ _ _) as [s' [a|e]]; simpl; intros H; inversion H; eauto.
  - destruct (ps_generic _ _ _) as [s' [a|e]]; simpl; intros H; inversion H; eauto.
Qed.

Lemma set_parameter_spec name full value u w w' r : wf (w_in w) -> 
  set_parameter env name full value u w = (w', r) ->
  grows [full] (w_in w) (w_in w') /\
  (r = Ok tt -> (exists vi, w_views w' = (name, vi) :: w_views w) /\
     exists vi c v q, entry_view w' name full u vi c v q /\
       (unwritten (w_in w) c -> default_in value v q)).
Proof.
  intros W H. unfold set_parameter in H. unfold bind at 1 in H. unfold a_view, bind at 1 in H.
  set (o := match u with None => _ | Some _ => _ end) in H.
  set (ty := match u with None => GENERIC | Some _ => SCALAR end).
  assert (Rq : requests o (HSeq full) World_ ty u None) by (unfold o, ty; destruct u; simpl; auto).
  assert (Ir : is_request o <> None) by (unfold o; destruct u; simpl; congruence).
  assert (Wt : write_target o = None) by (unfold o; destruct u; auto).
  destruct (op_on env In_ o w) as [w1 x] eqn:O. apply op_in in O. destruct O as (S1 & X & _ & Vw1 & _).
  pose proof (grows_request o _ W Wt) as G1. rewrite <- S1 in G1.
  assert (G1' : grows [full] (w_in w) (w_in w1)).
  { pose proof (grows_trans _ _ _ _ _ G1 (grows_refl [full] _)) as G. exact G. }
  destruct x as [x|e].
  2: { inversion H; subst. split; auto. discriminate. }
  destruct (answer_view _ _ _ Ir (eq_sym X)) as (vi & ->). simpl in H.
  pose proof (request_ok_reports env _ _ _ _ _ _ _ _ W Rq (eq_sym X)) as
    (c & q & At & Q & Ty & Rd & v & V & Pb & Pv & Vt & _ & Kg & Ks).
  rewrite <- S1 in At, Q, V. simpl in At.
  assert (W1 : wf (w_in w1)) by (rewrite S1; now apply wf_after).
  assert (Kv : v_kind v = match u with None => KGeneric | Some _ => KScalar end).
  { destruct u as [u|]; auto. destruct (Ks u eq_refl) as [N _]. revert Vt N. unfold vtype, ty.
    destruct (v_kind v) eqn:K; auto; try congruence.
    intros T. destruct (view_cell _ _ _ _ W1 V) as (qv & Qv & Iv).
    destruct (vi_ktype _ _ _ _ _ Iv K); congruence. }
  assert (Uv : forall u', u = Some u' -> v_unit v = u') by (intros u' E; now destruct (Ks u' E)).
  assert (Ev : forall w2 vs, w_in w2 = w_in w1 -> w_views w2 = (name, vi) :: vs -> entry_view w2 name full u vi c v q).
  { intros w2 vs E1 E2. constructor; rewrite ?E1; auto. rewrite E2. simpl. now rewrite String.eqb_refl. }
  assert (Un1 : unwritten (w_in w) c -> p_written q = false).
  { intros U. destruct (p_written q) eqn:Wq; auto. destruct (gr_new _ _ _ G1 _ _ Q Wq) as [Q0|(? & [] & _)].
    now rewrite (U _ Q0) in Wq. }
  unfold bind at 1, is_empty, param_of_view in H. rewrite V, Pv, Q in H. unfold param_empty in H.
  destruct (p_written q) eqn:Wq.
  { simpl in H. assert (E : w' = fst (set_view_of name vi w1) /\ r = Ok tt).
    { destruct value; inversion H; auto. }
    destruct E as [-> ->]. split; [exact G1'|]. intros _. simpl. rewrite Vw1. split; [eauto|].
    exists vi, c, v, q. split; [eapply Ev; simpl; eauto|]. intros U. apply Un1 in U. congruence. }
  simpl in H.
  assert (Gw : forall o', write_target o' = Some vi -> grows [full] (w_in w) (after env o' (w_in w1))).
  { intros o' T. assert (G2 : grows [full] (w_in w1) (after env o' (w_in w1))).
    { eapply grows_write; eauto. exists v. auto. }
    exact (grows_trans _ _ _ _ _ G1 G2). }
  destruct value as [x|g|].
  - (* scalar default *)
    unfold bind at 1 2 in H. destruct (op_on env In_ (OSetValue vi (Some x)) w1) as [w2 y] eqn:O2.
    apply op_in in O2. destruct O2 as (S2 & Y & _ & Vw2 & _).
    assert (Gr : grows [full] (w_in w) (w_in w2)) by (rewrite S2; apply Gw; auto).
    destruct y as [y|e]; [|inversion H; subst; split; auto; discriminate].
    inversion H; subst w' r. split; auto. intros _. simpl. rewrite Vw2, Vw1. split; [eauto|].
    assert (Ks' : v_kind v = KScalar).
    { destruct u; auto. exfalso. symmetry in Y. unfold answer in Y. cbn [step] in Y. unfold with_view in Y.
      rewrite V, Pb, Kv in Y. discriminate. }
    rewrite <- Pv in Q.
    destruct (scalar_write env _ _ _ _ (Some x) W1 V Pb Ks' Q) as [Ch E]; [exists y; auto|].
    pose proof (evo_after (OSetValue vi (Some x)) (w_in w1)) as Ea. rewrite <- S2 in Ea.
    rewrite E in S2. rewrite Pv in S2. rewrite Pv in Q. simpl in S2.
    exists vi, c, (v_set_writable v), (p_store (p_set_written q) (PScalar (Some (uconvert_to (v_uconv v) x)))).
    split.
    + constructor; simpl; rewrite ?String.eqb_refl; auto.
      * rewrite S2. eapply put_view; eauto.
      * eapply param_at_evo; [exact Ea|exact At].
      * rewrite S2. eapply put_param; eauto.
    + intros _. simpl. auto.
  - unfold bind at 1 2 in H. destruct (op_on env In_ (OSetGeneric vi g) w1) as [w2 y] eqn:O2.
    apply op_in in O2. destruct O2 as (S2 & Y & _ & Vw2 & _).
    assert (Gr : grows [full] (w_in w) (w_in w2)) by (rewrite S2; apply Gw; auto).
    destruct y as [y|e]; [|inversion H; subst; split; auto; discriminate].
    inversion H; subst w' r. split; auto. intros _. simpl. rewrite Vw2, Vw1. split; [eauto|].
    assert (Ks' : v_kind v = KGeneric).
    { destruct u; auto. exfalso. symmetry in Y. unfold answer in Y. cbn [step] in Y. unfold with_view in Y.
      rewrite V, Pb, Kv in Y. discriminate. }
    rewrite <- Pv in Q.
    destruct (generic_write env _ _ _ _ g W1 V Pb Ks' Q) as [Ch E]; [exists y; auto|].
    pose proof (evo_after (OSetGeneric vi g) (w_in w1)) as Ea. rewrite <- S2 in Ea.
    rewrite E in S2. rewrite Pv in S2. rewrite Pv in Q. simpl in S2.
    exists vi, c, (v_set_writable v), (p_store (p_set_written q) (PGen g)).
    split.
    + constructor; simpl; rewrite ?String.eqb_refl; auto.
      * rewrite S2. eapply put_view; eauto.
      * eapply param_at_evo; [exact Ea|exact At].
      * rewrite S2. eapply put_param; eauto.
    + intros _. simpl. auto.
  - inversion H; subst. split; auto. intros _. simpl. rewrite Vw1. split; [eauto|].
    exists vi, (v_param v), v, q. split; [eapply Ev; simpl; eauto|]. intros _. simpl. auto.
Qed.
(** ** The loops *)

Definition entry := (string * list string * default * option string)%type.
Definition e_name (e : entry) : string := fst (fst (fst e)).
Definition e_full (e : entry) : list string := snd (fst (fst e)).
Definition e_value (e : entry) : default := snd (fst e).
Definition e_unit (e : entry) : option string := snd e.
Definition set_entry (e : entry) : M unit :=
  set_parameter env (e_name e) (e_full e) (e_value e) (e_unit e).

Definition entries : list entry :=
  map (fun e => let '(name, (d, u)) := e in (name, ["DICE"; name], d, u)) MODEL_PARAMETER_DEFAULTS ++
  map (fun e => let '(name, (sn, d, u)) := e in (name, [sn], d, u)) STANDARD_PARAMETER_DEFAULTS.

Lemma for_each_map {A B} (g : A -> B) (f : B -> M unit) l w :
  for_each (map g l) f w = for_each l (fun a => f (g a)) w.
Proof.
  revert w. induction l as [|a l IH]; intros w; simpl; auto. unfold bind.
  destruct (f (g a) w) as [w1 [x|e]]; auto.
Qed.
Lemma for_each_app {A} (f : A -> M unit) l m w :
  for_each (l ++ m) f w = bind (for_each l f) (fun _ => for_each m f) w.
Proof.
  revert w. induction l as [|a l IH]; intros w; simpl; auto. unfold bind in *.
  destruct (f a w) as [w1 [x|e]]; auto.
Qed.
Lemma for_each_ext {A} (f g : A -> M unit) l w : (forall a w, f a w = g a w) -> for_each l f w = for_each l g w.
Proof.
  intros E. revert w. induction l as [|a l IH]; intros w; simpl; auto. unfold bind. rewrite E.
  destruct (g a w) as [w1 [x|e]]; auto.
Qed.
Lemma initialize_model_entries w :
  initialize_model env w = for_each entries set_entry (fst (clear_values w)).
Proof.
  unfold initialize_model, entries. unfold bind at 1. cbn [clear_values fst].
  rewrite for_each_app. unfold bind. rewrite for_each_map.
  rewrite for_each_ext with (g := fun a => set_entry (let '(name, (d, u)) := a in (name, ["DICE"; name], d, u)))
    by (intros [n [d u]] w0; reflexivity).
  destruct (for_each MODEL_PARAMETER_DEFAULTS _ _) as [w1 [x|e]]; reflexivity.
Qed.

Lemma for_each_spec l : forall w w' r, wf (w_in w) -> reachable env (w_in w) ->
  NoDup (map e_name l) -> NoDup (map e_full l) ->
  for_each l set_entry w = (w', r) ->
  grows (map e_full l) (w_in w) (w_in w') /\
  (r = Ok tt -> (exists vs, w_views w' = vs ++ w_views w /\ incl (map fst vs) (map e_name l)) /\
   forall e, In e l -> exists vi c v q, entry_view w' (e_name e) (e_full e) (e_unit e) vi c v q /\
     (unwritten (w_in w) c -> default_in (e_value e) v q)).
Proof.
  induction l as [|e l IH]; intros w w' r W Re Nn Nf H.
  { inversion H; subst. split; [apply grows_refl|]. intros _. split; [exists []; split; auto; intros ? []|intros ? []]. }
  inversion Nn; inversion Nf; subst. simpl in H. unfold bind in H.
  destruct (set_entry e w) as [w1 x] eqn:S1. apply set_parameter_spec in S1; auto. destruct S1 as [G1 S1].
  destruct x as [[]|er].
  2: { inversion H; subst. split; [|discriminate].
       pose proof (grows_trans _ _ _ _ _ G1 (grows_refl (map e_full l) _)) as G. exact G. }
  destruct (S1 eq_refl) as ((vi0 & Vw1) & vi & c & v & q & En & De). clear S1.
  assert (Re1 : reachable env (w_in w1)) by (apply (gr_reach _ _ _ G1); auto).
  assert (W1 : wf (w_in w1)) by now apply reachable_wf.
  destruct (IH _ _ _ W1 Re1 H3 H7 H) as [G2 R2].
  split; [exact (grows_trans _ _ _ _ _ G1 G2)|]. intros ->.
  destruct (R2 eq_refl) as ((vs & Vw2 & Iv) & En2). clear R2.
  split. { exists (vs ++ [(e_name e, vi0)]). rewrite Vw2, Vw1, <- app_assoc. split; auto.
           rewrite map_app. intros a I. apply in_app_iff in I. simpl. destruct I as [I|[<-|[]]]; auto. }
  assert (Re2 : reachable env (w_in w')) by (apply (gr_reach _ _ _ G2); auto).
  assert (W2 : wf (w_in w')) by now apply reachable_wf.
  intros e' [<-|I].
  - (* the head *)
    destruct En as [E1 E2 E3 E4 E5 E6 E7 E8].
    destruct (ev_views _ _ (gr_evo _ _ _ G2) _ _ E2) as (v' & V' & Ve).
    destruct (ev_params _ _ (gr_evo _ _ _ G2) _ _ E8) as (q' & Q' & Pe).
    exists vi, c, v', q'. split.
    + constructor; auto.
      * rewrite Vw2, alookup_app. destruct (alookup (e_name e) vs) eqn:Al; auto.
        exfalso. apply H2. apply Iv. apply alookup_In in Al. apply (in_map fst) in Al. exact Al.
      * rewrite (ve_public _ _ Ve). auto.
      * rewrite (ve_kind _ _ Ve). auto.
      * intros u' E. rewrite (ve_unit _ _ Ve). auto.
      * rewrite (ve_param _ _ Ve). auto.
      * eapply param_at_evo; [apply G2|auto].
    + intros U. apply De in U. revert U. unfold default_in. rewrite (ve_uconv _ _ Ve).
      assert (K : p_written q = true -> q' = q).
      { intros Wq. pose proof (gr_kept _ _ _ G2 _ _ E8 Wq). congruence. }
      destruct (e_value e).
      * intros U. rewrite K; tauto.
      * intros U. rewrite K; tauto.
      * intros U. destruct (p_written q') eqn:Wq'; auto.
        destruct (gr_new _ _ _ G2 _ _ Q' Wq') as [Q1|(n & In_n & A)]; [congruence|].
        exfalso. apply H6. assert (At : param_at (w_in w') ["World"] (e_full e) = Some c) by (eapply param_at_evo; [apply G2|auto]).
        rewrite (same_place _ _ _ _ _ W2 At A). auto.
  - destruct (En2 _ I) as (vi' & c' & v' & q' & Ev & De').
    exists vi', c', v', q'. split; auto. intros U. apply De'. intros q1 Q1.
    destruct (p_written q1) eqn:Wq1; auto.
    destruct (gr_new _ _ _ G1 _ _ Q1 Wq1) as [Q0|(n & [<-|[]] & A)].
    + now rewrite (U _ Q0) in Wq1.
    + exfalso. apply H6. assert (A2 : param_at (w_in w') ["World"] (e_full e) = Some c') by (eapply param_at_evo; [apply G2|auto]).
      rewrite (same_place _ _ _ _ _ W2 A2 (en_at _ _ _ _ _ _ _ _ Ev)). now apply in_map.
Qed.

Ltac nodup := repeat constructor; simpl; intuition discriminate.
Lemma names_nodup : NoDup (map e_name entries).
Proof. cbv [entries map MODEL_PARAMETER_DEFAULTS STANDARD_PARAMETER_DEFAULTS app e_name fst snd]. nodup. Qed.
Lemma fulls_nodup : NoDup (map e_full entries).
Proof. cbv [entries map MODEL_PARAMETER_DEFAULTS STANDARD_PARAMETER_DEFAULTS app e_full fst snd]. nodup. Qed.

Lemma C41_user_proof w w' r n reg q : reachable env (w_in w) -> initialize_model env w = (w', r) ->
  reports env (w_in w) n reg q -> p_written q = true -> reports env (w_in w') n reg q.
Proof.
  intros Re H Rp Wq. rewrite initialize_model_entries in H.
  assert (W : wf (w_in w)) by now apply reachable_wf.
  destruct (for_each_spec entries (fst (clear_values w)) _ _ W Re names_nodup fulls_nodup H) as [G _]. simpl in G.
  apply reports_at in Rp. destruct Rp as (p & E & A & Q).
  apply (at_reports env _ _ _ p); auto.
  - eapply param_at_evo; [apply G|auto].
  - apply (gr_kept _ _ _ G); auto.
Qed.


Lemma entry_after w w' e : reachable env (w_in w) -> initialize_model env w = (w', Ok tt) ->
  In e entries -> not_written env (w_in w) (e_full e) ->
  exists vi c v q, entry_view w' (e_name e) (e_full e) (e_unit e) vi c v q /\ default_in (e_value e) v q /\
    wf (w_in w').
Proof.
  intros Re H I Em. rewrite initialize_model_entries in H.
  assert (W : wf (w_in w)) by now apply reachable_wf.
  destruct (for_each_spec entries (fst (clear_values w)) _ _ W Re names_nodup fulls_nodup H) as [G R]. destruct (R eq_refl) as [_ En].
  simpl in G. assert (W' : wf (w_in w')) by (apply reachable_wf, (gr_reach _ _ _ G), Re).
  destruct (En _ I) as (vi & c & v & q & Ev & De). exists vi, c, v, q. split; auto. split; auto.
  apply De. intros q0 Q0. simpl in Q0. apply Em. apply (at_reports env _ _ _ c); auto.
  - simpl. clear - I. destruct e as [[[n f] d] u]. unfold entries in I. apply in_app_iff in I. rewrite !in_map_iff in I.
    destruct I as [([n' [d' u']] & E & _)|([n' [[sn d'] u']] & E & _)]; inversion E; subst; reflexivity.
  - simpl. eapply evo_names; [exact W|exact W'|apply G|apply Ev|exact Q0].
Qed.

Lemma full_nonempty e : In e entries -> hempty (HSeq (e_full e)) = false.
Proof.
  intros I. destruct e as [[[n f] d] u]. unfold entries in I. apply in_app_iff in I. rewrite !in_map_iff in I.
  destruct I as [([n' [d' u']] & E & _)|([n' [[sn d'] u']] & E & _)]; inversion E; subst; reflexivity.
Qed.

Lemma table_entry name full d u : table name full d u -> In (name, full, d, u) entries.
Proof.
  assert (K : forall n x y v, In (n, (DNum y, v)) MODEL_PARAMETER_DEFAULTS -> x = y -> In (n, ["DICE"; n], DNum x, v) entries).
  { intros n x y v I ->. apply in_app_iff. left. apply in_map_iff. exists (n, (DNum y, v)). auto. }
  assert (G : forall n g, In (n, (DGen g, None)) MODEL_PARAMETER_DEFAULTS -> In (n, ["DICE"; n], DGen g, None) entries).
  { intros n g I. apply in_app_iff. left. apply in_map_iff. exists (n, (DGen g, None)). auto. }
  assert (S : forall n sn d v d', In (n, (sn, d', v)) STANDARD_PARAMETER_DEFAULTS -> d = d' -> In (n, [sn], d, v) entries).
  { intros n sn d0 v d' I ->. apply in_app_iff. right. apply in_map_iff. exists (n, (sn, d', v)). auto. }
  assert (N : forall n sn v x y, In (n, (sn, DNum y, v)) STANDARD_PARAMETER_DEFAULTS -> x = y -> In (n, [sn], DNum x, v) entries).
  { intros n sn v x y I ->. now apply (S n sn (DNum y) v (DNum y)). }
  destruct 1 as [n x I|n x I|n x v I| | |D GD| | | |].
  - repeat (destruct I as [E|I]; [injection E as <- <-; eapply K; [simpl; tauto|lra]|]). destruct I.
  - repeat (destruct I as [E|I]; [injection E as <- <-; eapply K; [simpl; tauto|lra]|]). destruct I.
  - repeat (destruct I as [E|I]; [injection E as <- <- <-; eapply K; [simpl; tauto|lra]|]). destruct I.
  - apply G. simpl. tauto.
  - apply G. simpl. tauto.
  - apply G. rewrite (OffsetsProps.g_ord D GD) by lia. simpl. tauto.
  - eapply N; [simpl; tauto|lra].
  - eapply N; [simpl; tauto|lra].
  - eapply S; [simpl; tauto|reflexivity].
  - eapply S; [simpl; tauto|reflexivity].
Qed.

Lemma C41_scalar_proof w w' name full x u : good_env env -> reachable env (w_in w) ->
  initialize_model env w = (w', Ok tt) -> table name full (DNum x) (Some u) -> not_written env (w_in w) full ->
  (exists q u' y, reports env (w_in w') (HSeq full) World_ q /\ p_written q = true /\
     p_unit q = Some u' /\ p_data q = Some (PScalar (Some y)) /\ same_quantity env u x u' y) /\
  snd (scalar env name w') = Ok (Some x).
Proof.
  intros Ge Re H I Em. apply table_entry in I. destruct (entry_after _ _ _ Re H I Em) as (vi & c & v & q & Ev & De & W').
  cbn [e_name e_full e_value e_unit fst snd] in Ev; simpl in De. destruct Ev as [E1 E2 E3 E4 E5 E6 E7 E8]. destruct De as (D1 & D2 & D3).
  subst c. destruct (view_cell _ _ _ _ W' E2) as (q' & Q' & Iv).
  assert (q' = q) by congruence. subst q'.
  assert (Uc : unit_converter env (p_unit q) (Some u) = Ok (v_uconv v)).
  { rewrite <- (E5 u eq_refl). apply (vi_uconv _ _ _ _ _ Iv). rewrite E4. discriminate. }
  destruct (p_unit q) as [u'|] eqn:Pu; [|destruct (unit_converter_inv _ _ _ _ Uc) as (? & ? & ? & ? & ? & _); discriminate].
  destruct (uconv_phys env _ _ _ Ge Uc x) as [_ P2]. split.
  - exists q, u', (uconvert_to (v_uconv v) x). split; [|auto].
    apply (at_reports env _ _ _ (v_param v)); auto. apply (full_nonempty _ I).
  - unfold scalar, bind, view_of. rewrite E1. unfold op_on. cbn [step]. unfold with_view. rewrite E2, E3, E4.
    unfold scalar_get. rewrite E8. unfold has_children. rewrite D2. unfold scalar_own. rewrite D1, D3. simpl. do 2 f_equal.
    destruct (uconv_phys env _ _ _ Ge Uc (uconvert_to (v_uconv v) x)) as [P1 _].
    symmetry. eapply same_quantity_unique; eauto. eapply same_quantity_trans; eauto.
Qed.
Lemma C41_generic_proof w w' name full g : reachable env (w_in w) ->
  initialize_model env w = (w', Ok tt) -> table name full (DGen g) None -> not_written env (w_in w) full ->
  (exists q, reports env (w_in w') (HSeq full) World_ q /\ p_written q = true /\ p_data q = Some (PGen g)) /\
  snd (generic env name w') = Ok g.
Proof.
  intros Re H I Em. apply table_entry in I. destruct (entry_after _ _ _ Re H I Em) as (vi & c & v & q & Ev & De & W').
  cbn [e_name e_full e_value e_unit fst snd] in Ev; simpl in De. destruct Ev as [E1 E2 E3 E4 E5 E6 E7 E8]. destruct De as (D1 & D3). subst c.
  split.
  - exists q. split; [|auto]. apply (at_reports env _ _ _ (v_param v)); auto. apply (full_nonempty _ I).
  - unfold generic, bind, view_of. rewrite E1. unfold op_on. cbn [step]. unfold with_view. rewrite E2, E3, E4.
    unfold generic_get. rewrite E8, D1, D3. reflexivity.
Qed.
Lemma C41_none_proof w w' name full u : reachable env (w_in w) ->
  initialize_model env w = (w', Ok tt) -> table name full DNone u -> not_written env (w_in w) full ->
  exists q, reports env (w_in w') (HSeq full) World_ q /\ p_written q = false.
Proof.
  intros Re H I Em. apply table_entry in I. destruct (entry_after _ _ _ Re H I Em) as (vi & c & v & q & Ev & De & W').
  cbn [e_name e_full e_value e_unit fst snd] in Ev; simpl in De. destruct Ev as [E1 E2 E3 E4 E5 E6 E7 E8].
  exists q. split; auto. apply (at_reports env _ _ _ c); auto. apply (full_nonempty _ I).
Qed.
End D.
