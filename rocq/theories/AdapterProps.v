(** Proofs of C39 and C40. *)
From Coq Require Import String List Bool Lia.
From Verif Require Import Base ListFacts Adapters Spec_Adapters.
Import ListNotations.
Local Open Scope list_scope.

Section A.
Variable W : Type.
Variable H : hooks W.
Implicit Type a : adapter W.
Notation log := (list (event * bool)).



Definition once (l : log) : Prop :=
  forall l1 l2, l = l1 ++ good_init :: l2 -> forall b, ~ In (EvInitializeModel, b) l2.

Record inv a : Prop := {
  inv_flag : a_initialized W a = true <-> In good_init (a_log W a);
  inv_once : once (a_log W a);
  inv_after : after_init [EvModelInput; EvRunParameters] (a_log W a) }.

Lemma snoc_split {A} (l : list A) x l1 y l2 : l ++ [x] = l1 ++ y :: l2 ->
  (l2 = [] /\ l1 = l /\ x = y) \/ exists l3, l2 = l3 ++ [x] /\ l = l1 ++ y :: l3.
Proof.
  destruct l2 as [|z l2] using rev_ind; intros E.
  - left. apply app_inj_tail in E. destruct E; auto.
  - right. exists l2. clear IHl2. change (l1 ++ y :: l2 ++ [z]) with (l1 ++ (y :: l2) ++ [z]) in E.
    rewrite app_assoc in E. apply app_inj_tail in E. destruct E as [-> ->]. auto.
Qed.

Lemma after_init_snoc ks l e b : after_init ks l -> (In e ks -> In good_init l) ->
  after_init ks (l ++ [(e, b)]).
Proof.
  intros A G l1 e' b' l2 E I. apply snoc_split in E. destruct E as [(-> & -> & E)|(l3 & -> & E)].
  - inversion E; subst. auto.
  - eapply A; eauto.
Qed.
Lemma once_snoc l e b : once l -> (e = EvInitializeModel -> ~ In good_init l) -> once (l ++ [(e, b)]).
Proof.
  intros O N l1 l2 E b' I. apply snoc_split in E. destruct E as [(-> & _ & _)|(l3 & -> & E)]; [contradiction|].
  apply in_app_or in I. destruct I as [I|[I|[]]].
  - eapply O; eauto.
  - inversion I; subst. apply N; auto. apply in_or_app. right. left. auto.
Qed.

Lemma call_log h e a a' r : call W h e a = (a', r) ->
  a_initialized W a' = a_initialized W a /\ a_log W a' = a_log W a ++ [(e, returned r)].
Proof. unfold call. destruct (h (a_world W a)) as [w x]. intros E. inversion E; subst. auto. Qed.

Lemma inv_call h e a a' r : inv a -> call W h e a = (a', r) -> e <> EvInitializeModel ->
  (In e [EvModelInput; EvRunParameters] -> a_initialized W a = true) -> inv a'.
Proof.
  intros [F O A] C N G. apply call_log in C. destruct C as [Ci Cl]. constructor; rewrite ?Ci, Cl.
  - rewrite F, in_app_iff. simpl. split; auto. intros [I|[I|[]]]; auto. inversion I; congruence.
  - apply once_snoc; [auto|congruence].
  - apply after_init_snoc; auto. intros I. apply F; auto.
Qed.

Lemma inv_ensure a a' r : inv a -> ensure_initialized W H a = (a', r) ->
  inv a' /\ (r = Ok tt -> a_initialized W a' = true) /\
  exists l, a_log W a' = a_log W a ++ l /\ (l = [] \/ exists b, l = [(EvInitializeModel, b)]).
Proof.
  intros I. unfold ensure_initialized. destruct (a_initialized W a) eqn:Ei.
  - intros E. inversion E; subst. split; auto. split; auto. exists []. rewrite app_nil_r. auto.
  - destruct (call W (h_initialize_model W H) EvInitializeModel a) as [a1 x] eqn:C. unfold then_do.
    destruct (call_log _ _ _ _ _ C) as [Ci Cl]. destruct I as [F O A].
    assert (NI : ~ In good_init (a_log W a)) by (rewrite <- F; congruence).
    destruct x as [u|e]; intros E; inversion E; subst; clear E; (split; [|split; [try discriminate; auto|]]).
    2,4: simpl; rewrite Cl; eexists; split; [reflexivity|right; eauto].
    + constructor; cbn [a_initialized a_log]; rewrite Cl; simpl returned.
      * split; auto. intros _. apply in_or_app. right. left. auto.
      * apply once_snoc; auto.
      * apply after_init_snoc; auto. simpl. intros [X|[X|[]]]; discriminate.
    + constructor; rewrite ?Ci, Cl; simpl returned.
      * rewrite Ei, in_app_iff. simpl. split; [discriminate|]. intros [X|[X|[]]]; [contradiction|discriminate].
      * apply once_snoc; auto.
      * apply after_init_snoc; auto. simpl. intros [X|[X|[]]]; discriminate.
Qed.

(** What a call does to the log: it extends it. *)
Definition ext a a' := exists l, a_log W a' = a_log W a ++ l.
Lemma ext_refl a : ext a a.
Proof. exists []. now rewrite app_nil_r. Qed.
Lemma ext_trans a b c : ext a b -> ext b c -> ext a c.
Proof. intros [l E] [m F]. exists (l ++ m). now rewrite F, E, app_assoc. Qed.
Lemma ext_in a b x : ext a b -> In x (a_log W a) -> In x (a_log W b).
Proof. intros [l ->] I. apply in_or_app. auto. Qed.

Lemma inv_input a a' r : inv a -> initialize_model_input W H a = (a', r) ->
  inv a' /\ ext a a' /\ (r = Ok tt -> a_initialized W a' = true).
Proof.
  intros I. unfold initialize_model_input, then_do. destruct (ensure_initialized W H a) as [a1 x] eqn:E.
  destruct (inv_ensure _ _ _ I E) as (I1 & F & l & L & _). destruct x as [[]|e].
  - intros C. destruct (call_log _ _ _ _ _ C) as [Ci Cl]. split; [|split].
    + apply (inv_call _ _ _ _ _ I1 C); [discriminate|auto].
    + exists (l ++ [(EvModelInput, returned r)]). now rewrite Cl, L, app_assoc.
    + intros _. rewrite Ci. auto.
  - intros C. inversion C; subst. split; auto. split; [now exists l|discriminate].
Qed.
Lemma inv_runp a a' r : inv a -> initialize_run_parameters W H a = (a', r) ->
  inv a' /\ ext a a' /\ (r = Ok tt -> a_initialized W a' = true).
Proof.
  intros I. unfold initialize_run_parameters, then_do. destruct (ensure_initialized W H a) as [a1 x] eqn:E.
  destruct (inv_ensure _ _ _ I E) as (I1 & F & l & L & _). destruct x as [[]|e].
  - intros C. destruct (call_log _ _ _ _ _ C) as [Ci Cl]. split; [|split].
    + apply (inv_call _ _ _ _ _ I1 C); [discriminate|auto].
    + exists (l ++ [(EvRunParameters, returned r)]). now rewrite Cl, L, app_assoc.
    + intros _. rewrite Ci. auto.
  - intros C. inversion C; subst. split; auto. split; [now exists l|discriminate].
Qed.

(** [reset], [run] and [step] add at most one event; it is after an initialisation if the
    adapter is initialised. *)
Definition rest : list event := [EvReset; EvRun; EvStep].
Lemma later_call h e a a' r : inv a -> call W h e a = (a', r) -> In e rest ->
  inv a' /\ ext a a' /\ (a_initialized W a = true -> a_initialized W a' = true) /\
  (a_initialized W a = true -> after_init rest (a_log W a) -> after_init rest (a_log W a')).
Proof.
  intros I C R. destruct (call_log _ _ _ _ _ C) as [Ci Cl]. split; [|split; [|split]].
  - apply (inv_call _ _ _ _ _ I C).
    + intros ->. simpl in R. destruct R as [R|[R|[R|[]]]]; discriminate.
    + simpl in *. intros [<-|[<-|[]]]; destruct R as [R|[R|[R|[]]]]; discriminate.
  - now exists [(e, returned r)].
  - congruence.
  - intros F A. rewrite Cl. apply after_init_snoc; auto. intros _. now apply (inv_flag _ I).
Qed.
Lemma inv_reset a a' r : inv a -> adapter_reset W H a = (a', r) ->
  inv a' /\ ext a a' /\ (a_initialized W a = true -> a_initialized W a' = true) /\
  (a_initialized W a = true -> after_init rest (a_log W a) -> after_init rest (a_log W a')).
Proof.
  intros I. unfold adapter_reset. destruct (h_start_time W H (a_world W a)) as [w x].
  assert (I1 : inv (mkAdapter W w (a_initialized W a) (a_log W a))) by (destruct I; constructor; auto).
  destruct x as [u|e]; intros C.
  - apply (later_call _ _ _ _ _ I1) in C; [|now left]. exact C.
  - inversion C; subst. split; auto. split; [exists []; simpl; now rewrite app_nil_r|]. split; auto.
Qed.

Lemma after_init_other (l : log) m : after_init rest l ->
  (forall e b, In (e, b) m -> ~ In e rest) -> after_init rest (l ++ m).
Proof.
  induction m as [|[e b] m IH] using rev_ind; intros A N; [now rewrite app_nil_r|].
  rewrite app_assoc. apply after_init_snoc.
  - apply IH; auto. intros e' b' I'. apply (N e' b'). apply in_or_app. auto.
  - intros R. exfalso. apply (N e b); auto. apply in_or_app. right. left. auto.
Qed.

Lemma rest_input a a' r : inv a -> initialize_model_input W H a = (a', r) ->
  after_init rest (a_log W a) -> after_init rest (a_log W a').
Proof.
  intros I. unfold initialize_model_input, then_do. destruct (ensure_initialized W H a) as [a1 x] eqn:E.
  destruct (inv_ensure _ _ _ I E) as (I1 & F & l & L & Cs). intros C A.
  assert (A1 : after_init rest (a_log W a1)).
  { rewrite L. apply after_init_other; auto. intros e b J.
    destruct Cs as [->|[b' ->]]; [destruct J|]. destruct J as [J|[]]; inversion J; subst.
    simpl. intros [X|[X|[X|[]]]]; discriminate. }
  destruct x as [[]|e].
  - destruct (call_log _ _ _ _ _ C) as [Ci ->]. apply after_init_snoc; auto. simpl. intros [X|[X|[X|[]]]]; discriminate.
  - now inversion C; subst.
Qed.
Lemma rest_runp a a' r : inv a -> initialize_run_parameters W H a = (a', r) ->
  after_init rest (a_log W a) -> after_init rest (a_log W a').
Proof.
  intros I. unfold initialize_run_parameters, then_do. destruct (ensure_initialized W H a) as [a1 x] eqn:E.
  destruct (inv_ensure _ _ _ I E) as (I1 & F & l & L & Cs). intros C A.
  assert (A1 : after_init rest (a_log W a1)).
  { rewrite L. apply after_init_other; auto. intros e b J.
    destruct Cs as [->|[b' ->]]; [destruct J|]. destruct J as [J|[]]; inversion J; subst.
    simpl. intros [X|[X|[X|[]]]]; discriminate. }
  destruct x as [[]|e].
  - destruct (call_log _ _ _ _ _ C) as [Ci ->]. apply after_init_snoc; auto. simpl. intros [X|[X|[X|[]]]]; discriminate.
  - now inversion C; subst.
Qed.

Lemma inv_stepping a a' r : inv a -> scm_reset_stepping W H a = (a', r) ->
  inv a' /\ ext a a' /\ (r = Ok tt -> a_initialized W a' = true) /\
  (after_init rest (a_log W a) -> after_init rest (a_log W a')).
Proof.
  intros I. unfold scm_reset_stepping, then_do.
  destruct (initialize_model_input W H a) as [a1 [u|e]] eqn:E1; destruct (inv_input _ _ _ I E1) as (I1 & X1 & F1).
  2: { intros C; inversion C; subst. repeat (split; auto); try discriminate. now apply (rest_input _ _ _ I E1). }
  destruct u. specialize (F1 eq_refl).
  destruct (initialize_run_parameters W H a1) as [a2 [u|e]] eqn:E2; destruct (inv_runp _ _ _ I1 E2) as (I2 & X2 & F2).
  2: { intros C; inversion C; subst. split; auto. split; [eapply ext_trans; eauto|]. split; [discriminate|].
       intros A. apply (rest_runp _ _ _ I1 E2). now apply (rest_input _ _ _ I E1). }
  destruct u. specialize (F2 eq_refl). intros C.
  destruct (inv_reset _ _ _ I2 C) as (I3 & X3 & F3 & R3). split; auto. split; [|split].
  - eapply ext_trans; [|eauto]. eapply ext_trans; eauto.
  - auto.
  - intros A. apply R3; auto. apply (rest_runp _ _ _ I1 E2). now apply (rest_input _ _ _ I E1).
Qed.
Lemma inv_run a a' r : inv a -> scm_run W H a = (a', r) ->
  inv a' /\ ext a a' /\ (r = Ok tt -> a_initialized W a' = true) /\
  (after_init rest (a_log W a) -> after_init rest (a_log W a')).
Proof.
  intros I. unfold scm_run, then_do.
  destruct (scm_reset_stepping W H a) as [a1 [u|e]] eqn:E1; destruct (inv_stepping _ _ _ I E1) as (I1 & X1 & F1 & R1).
  2: { intros C; inversion C; subst. repeat (split; auto); discriminate. }
  destruct u. specialize (F1 eq_refl). intros C.
  destruct (later_call _ _ _ _ _ I1 C) as (I2 & X2 & F2 & R2); [simpl; tauto|].
  split; auto. split; [eapply ext_trans; eauto|]. split; auto.
Qed.


Lemma inv_do c a a' r : inv a -> do_call W H c a = (a', r) ->
  inv a' /\ ext a a' /\ (bare c = false -> r = Ok tt -> a_initialized W a' = true) /\
  ((bare c = true -> a_initialized W a = true) -> after_init rest (a_log W a) -> after_init rest (a_log W a')).
Proof.
  intros I. destruct c; simpl; intros C.
  - destruct (inv_input _ _ _ I C) as (A & B & D). split; auto. split; auto. split; auto. intros _. now apply (rest_input _ _ _ I C).
  - destruct (inv_runp _ _ _ I C) as (A & B & D). split; auto. split; auto. split; auto. intros _. now apply (rest_runp _ _ _ I C).
  - destruct (inv_reset _ _ _ I C) as (A & B & D & G). split; [exact A|]. split; [exact B|]. split; [intros ?X; discriminate X|auto].
  - destruct (later_call _ _ _ _ _ I C) as (A & B & D & G); [simpl; tauto|]. split; [exact A|]. split; [exact B|]. split; [intros ?X; discriminate X|auto].
  - destruct (later_call _ _ _ _ _ I C) as (A & B & D & G); [simpl; tauto|]. split; [exact A|]. split; [exact B|]. split; [intros ?X; discriminate X|auto].
  - destruct (inv_stepping _ _ _ I C) as (A & B & D & G). split; auto.
  - destruct (inv_run _ _ _ I C) as (A & B & D & G). split; auto.
  - destruct (later_call _ _ _ _ _ I C) as (A & B & D & G); [simpl; tauto|]. split; [exact A|]. split; [exact B|]. split; [intros ?X; discriminate X|auto].
Qed.

Lemma inv_new w : inv (new_adapter W w).
Proof.
  constructor; simpl.
  - split; [discriminate|tauto].
  - intros [|] l2 E; discriminate.
  - intros [|] e b l2 E; discriminate.
Qed.
Lemma inv_calls cs : forall a, inv a -> inv (do_calls W H a cs) /\ ext a (do_calls W H a cs).
Proof.
  induction cs as [|c cs IH]; intros a I; simpl; [split; auto; apply ext_refl|].
  destruct (do_call W H c a) as [a1 r] eqn:E. destruct (inv_do _ _ _ _ I E) as (I1 & X1 & _).
  destruct (IH _ I1) as (I2 & X2). split; auto. eapply ext_trans; eauto.
Qed.
Lemma calls_app cs ds a : do_calls W H a (cs ++ ds) = do_calls W H (do_calls W H a cs) ds.
Proof. apply fold_left_app. Qed.

(** Every bare call comes after a call that initialised and returned. *)

Lemma init_kept c a : inv a -> a_initialized W a = true -> a_initialized W (fst (do_call W H c a)) = true.
Proof.
  intros I F. destruct (do_call W H c a) as [a1 r] eqn:E. destruct (inv_do _ _ _ _ I E) as (I1 & X & _). simpl.
  apply (inv_flag _ I1). eapply ext_in; eauto. now apply (inv_flag _ I).
Qed.
Lemma init_kept_all cs : forall a, inv a -> a_initialized W a = true -> a_initialized W (do_calls W H a cs) = true.
Proof.
  induction cs as [|c cs IH]; intros a I F; simpl; auto. apply IH; [|now apply init_kept].
  destruct (do_call W H c a) as [a1 r] eqn:E. now destruct (inv_do _ _ _ _ I E).
Qed.

Lemma C39_prepared_proof w cs : prepared W H w cs -> after_init rest (a_log W (do_calls W H (new_adapter W w) cs)).
Proof.
  induction cs as [|c cs IH] using rev_ind; intros P; [intros [|] e b l2 E; discriminate|].
  rewrite calls_app. simpl.
  assert (Pc : prepared W H w cs).
  { intros c1 d c2 E. apply (P c1 d (c2 ++ [c])). now rewrite E, <- app_assoc. }
  specialize (IH Pc). destruct (inv_calls cs _ (inv_new w)) as (I & X).
  destruct (do_call W H c (do_calls W H (new_adapter W w) cs)) as [a1 r] eqn:E.
  destruct (inv_do _ _ _ _ I E) as (I1 & X1 & F1 & R1). simpl. apply R1; auto. intros B.
  destruct (P cs c [] eq_refl B) as (d1 & d & d2 & -> & Bd & Okd).
  rewrite calls_app. simpl. apply init_kept_all.
  - destruct (inv_calls d1 _ (inv_new w)) as (J & _).
    destruct (do_call W H d (do_calls W H (new_adapter W w) d1)) as [a2 r2] eqn:E2. now destruct (inv_do _ _ _ _ J E2).
  - destruct (inv_calls d1 _ (inv_new w)) as (J & _).
    destruct (do_call W H d (do_calls W H (new_adapter W w) d1)) as [a2 r2] eqn:E2. simpl in *.
    destruct (inv_do _ _ _ _ J E2) as (_ & _ & F & _). auto.
Qed.

Lemma C39_once_proof w cs l1 l2 b : a_log W (do_calls W H (new_adapter W w) cs) = l1 ++ good_init :: l2 ->
  ~ In (EvInitializeModel, b) l2.
Proof. intros E. destruct (inv_calls cs _ (inv_new w)) as (I & _). eapply (inv_once _ I); eauto. Qed.

Lemma C39_parameters_proof w cs : after_init [EvModelInput; EvRunParameters] (a_log W (do_calls W H (new_adapter W w) cs)).
Proof. destruct (inv_calls cs _ (inv_new w)) as (I & _). apply I. Qed.

Lemma C39_all_proof w cs : prepared W H w cs ->
  after_init [EvModelInput; EvRunParameters; EvReset; EvRun; EvStep] (a_log W (do_calls W H (new_adapter W w) cs)).
Proof.
  intros P l1 e b l2 E I. pose proof (C39_prepared_proof w cs P l1 e b l2 E) as A.
  pose proof (C39_parameters_proof w cs l1 e b l2 E) as B. unfold rest in A. simpl in *. tauto.
Qed.

End A.

(** ** C40 *)

Lemma alookup_snoc {A} n (l : list (string * A)) k v : alookup n l <> None -> alookup n (l ++ [(k, v)]) = alookup n l.
Proof.
  induction l as [|[k' v'] l IH]; simpl; [congruence|]. intros N. destruct (String.eqb n k'); auto.
Qed.
Lemma alookup_snoc_new {A} n (l : list (string * A)) v : alookup n l = None -> alookup n (l ++ [(n, v)]) = Some v.
Proof.
  induction l as [|[k' v'] l IH]; simpl; [now rewrite String.eqb_refl|]. intros N. destruct (String.eqb n k'); [discriminate|auto].
Qed.
Lemma load_keeps i n l m c : alookup m l = Some c -> alookup m (fst (load_adapter i n l)) = Some c.
Proof.
  intros E. unfold load_adapter. destruct (alookup n l); simpl; auto. destruct (String.eqb n "DICE"); simpl; auto.
  destruct i; simpl; auto. rewrite alookup_snoc; congruence.
Qed.
Lemma loads_keep h : forall l m c, alookup m l = Some c -> alookup m (loads l h) = Some c.
Proof. induction h as [|[n i] h IH]; intros l m c E; simpl; auto. apply IH. now apply load_keeps. Qed.

Lemma C40_stable_proof l n i c h j : snd (load_adapter i n l) = Ok c ->
  snd (load_adapter j n (loads (fst (load_adapter i n l)) h)) = Ok c.
Proof.
  intros E. assert (K : alookup n (fst (load_adapter i n l)) = Some c).
  { revert E. unfold load_adapter. destruct (alookup n l) eqn:A; simpl; [congruence|].
    destruct (String.eqb n "DICE"); simpl; [|discriminate]. destruct i; simpl; [|discriminate].
    intros E. inversion E; subst. now apply alookup_snoc_new. }
  unfold load_adapter at 1. now rewrite (loads_keep h _ _ _ K).
Qed.

Lemma loads_keys h : forall l, (forall n c, alookup n l = Some c -> n = "DICE"%string) ->
  forall n c, alookup n (loads l h) = Some c -> n = "DICE"%string.
Proof.
  induction h as [|[n i] h IH]; intros l K; simpl; auto. apply IH. intros m c.
  unfold load_adapter. destruct (alookup n l) eqn:A; simpl; [apply K|].
  destruct (String.eqb n "DICE") eqn:D; simpl; [|apply K]. destruct i as [x|]; simpl; [|apply K].
  destruct (alookup m l) eqn:B.
  - rewrite alookup_snoc by congruence. intros _. eapply K; eauto.
  - intros E. apply String.eqb_eq in D. subst n. destruct (String.eqb_spec m "DICE"); auto.
    clear - E B n. induction l as [|[k v] l IH]; simpl in *.
    + destruct (String.eqb_spec m "DICE"); [contradiction|discriminate].
    + destruct (String.eqb m k); [discriminate|auto].
Qed.
Lemma C40_unknown_proof h n i : n <> "DICE"%string -> snd (load_adapter i n (loads [] h)) = Err EKeyError.
Proof.
  intros N. unfold load_adapter. destruct (alookup n (loads [] h)) eqn:A.
  - apply loads_keys in A; [contradiction|discriminate].
  - destruct (String.eqb_spec n "DICE"); [contradiction|auto].
Qed.
Lemma C40_failed_proof l n i e c : snd (load_adapter i n l) = Err e ->
  fst (load_adapter i n l) = l /\
  (n = "DICE"%string -> snd (load_adapter (Some c) n (fst (load_adapter i n l))) = Ok c).
Proof.
  unfold load_adapter. destruct (alookup n l) eqn:A; simpl; [discriminate|].
  destruct (String.eqb_spec n "DICE") as [->|N]; simpl; [|intros _; split; [auto|contradiction]].
  destruct i; simpl; [discriminate|]. intros _. split; auto. intros _. now rewrite A.
Qed.
