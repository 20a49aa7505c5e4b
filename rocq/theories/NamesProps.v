(** Hierarchical names as strings and as sequences (C60). *)
From Coq Require Import String Ascii List ZArith Bool.
From Verif Require Import Base Units TimeModel Core Spec_Core CoreNames CoreP1 Spec_Names.
Import ListNotations.
Local Open Scope string_scope.
Local Open Scope list_scope.

Lemma plain_cons c w : plain (String c w) -> c <> "|"%char /\ plain w.
Proof.
  intros H. split.
  - intros E. subst c. apply (H "" w). reflexivity.
  - intros a b E. apply (H (String c a) b). cbn. now rewrite E.
Qed.

Lemma split_plain w : plain w -> split "|"%char w = [w].
Proof.
  induction w as [|c w IH]; intros H; [reflexivity|].
  apply plain_cons in H. destruct H as [Hc Hw]. cbn [split].
  destruct (Ascii.eqb_spec c "|"%char); [contradiction|]. now rewrite (IH Hw).
Qed.

Lemma split_bar w s : plain w -> split "|"%char (w ++ String "|"%char s)%string = w :: split "|"%char s.
Proof.
  induction w as [|c w IH]; intros H; [reflexivity|].
  apply plain_cons in H. destruct H as [Hc Hw]. cbn [split append].
  destruct (Ascii.eqb_spec c "|"%char); [contradiction|]. now rewrite (IH Hw).
Qed.

Lemma split_written l s : written l s -> Forall plain l -> split "|"%char s = l.
Proof.
  induction 1 as [w|w l s W IH]; intros F; apply Forall_cons_iff in F; destruct F as [F1 F2].
  - now apply split_plain.
  - cbn [append]. rewrite split_bar by assumption. now rewrite IH.
Qed.

Lemma written_join l : l <> [] -> written l (join "|" l).
Proof.
  induction l as [|w l IH]; intros H; [contradiction|].
  destruct l as [|w' l]; [constructor|].
  change (join "|" (w :: w' :: l)) with (w ++ "|" ++ join "|" (w' :: l))%string.
  constructor. apply IH. discriminate.
Qed.

Lemma join_written l s : written l s -> join "|" l = s.
Proof.
  induction 1 as [w|w l s W IH]; [reflexivity|].
  destruct l; [inversion W|].
  change (join "|" (w :: s0 :: l)) with (w ++ "|" ++ join "|" (s0 :: l))%string. now rewrite IH.
Qed.

Lemma written_nonempty l s : written l s -> l <> [].
Proof. destruct 1; discriminate. Qed.

Lemma plain_nil : plain "".
Proof. intros a b E. destruct a; discriminate. Qed.

Lemma plain_snoc c w : c <> "|"%char -> plain w -> plain (String c w).
Proof.
  intros Hc Hw a b E. destruct a as [|x a].
  - cbn in E. injection E as E1 E2. contradiction.
  - cbn in E. injection E as E1 E2. now apply (Hw a b).
Qed.

Lemma split_is_written s : written (split "|"%char s) s /\ Forall plain (split "|"%char s).
Proof.
  induction s as [|c s [IW IP]]; [split; [constructor|constructor; [apply plain_nil|constructor]]|].
  cbn [split]. destruct (Ascii.eqb_spec c "|"%char) as [->|N].
  - split; [exact (W_more "" _ _ IW)|]. constructor; [apply plain_nil|assumption].
  - destruct IW as [w|w l s IW]; apply Forall_cons_iff in IP; destruct IP as [P1 P2].
    + split; [constructor|]. constructor; [now apply plain_snoc|constructor].
    + split; [exact (W_more (String c w) l s IW)|]. constructor; [now apply plain_snoc|assumption].
Qed.

Lemma name_of_components l s : Forall plain l -> written l s -> hcomponents (HStr s) = hcomponents (HSeq l).
Proof. intros F W. cbn. now apply split_written. Qed.

Lemma name_of_empty l s : Forall proper l -> written l s -> hempty (HStr s) = hempty (HSeq l).
Proof.
  intros F W. cbn. destruct W as [w|w l s W]; apply Forall_cons_iff in F; destruct F as [[F1 _] _].
  - destruct (String.eqb_spec w ""); [contradiction|reflexivity].
  - destruct w; [contradiction|reflexivity].
Qed.

Lemma proper_plain l : Forall proper l -> Forall plain l.
Proof. apply Forall_impl. now intros w []. Qed.

Lemma alike_components a b : alike a b -> hcomponents a = hcomponents b.
Proof.
  destruct 1; [reflexivity|symmetry|]; now apply name_of_components; [apply proper_plain|].
Qed.
Lemma alike_empty a b : alike a b -> hempty a = hempty b.
Proof.
  destruct 1; [reflexivity|symmetry|]; now apply name_of_empty.
Qed.

Lemma region_components s a b : hcomponents a = hcomponents b ->
  get_or_create_region s a = get_or_create_region s b /\ get_region s a = get_region s b.
Proof. intros E. unfold get_or_create_region, get_region. now rewrite E. Qed.

Lemma parameter_components s a b r : hcomponents a = hcomponents b ->
  get_or_create_parameter s a r = get_or_create_parameter s b r.
Proof. intros E. unfold get_or_create_parameter. now rewrite E. Qed.

Lemma locate_alike s a b r r' : alike a b -> alike r r' -> locate s a r = locate s b r'.
Proof.
  intros A R. unfold locate.
  rewrite (proj1 (region_components s r r' (alike_components _ _ R))).
  destruct (get_or_create_region s r') as [s1 [i|e]]; [|reflexivity].
  now rewrite (parameter_components s1 a b i (alike_components _ _ A)).
Qed.

Lemma step_alike env s o o' : same_call o o' -> step env o s = step env o' s.
Proof.
  destruct 1 as [o|n n' u r r' N R|n n' u t r r' ty ip ex N R|n n' r r' N R|n n' r r' N R];
    [reflexivity|..]; cbn [step].
  - unfold ps_scalar. now rewrite (locate_alike _ _ _ _ _ N R).
  - unfold ps_timeseries. now rewrite (locate_alike _ _ _ _ _ N R).
  - unfold ps_generic. now rewrite (locate_alike _ _ _ _ _ N R).
  - unfold info, get_parameter.
    rewrite (proj2 (region_components s r r' (alike_components _ _ R))).
    now rewrite (alike_components _ _ N), (alike_empty _ _ N).
Qed.

Lemma run_alike env h h' : Forall2 same_call h h' -> forall s, run env s h = run env s h'.
Proof.
  induction 1 as [|o o' h h' O H IH]; intros s; [reflexivity|].
  change (run env (fst (step env o s)) h = run env (fst (step env o' s)) h').
  rewrite (step_alike env s o o' O). apply IH.
Qed.

Lemma distinct_names env s o1 l1 w1 r1 t1 u1 tp1 v1 h o2 l2 w2 r2 t2 u2 tp2 v2 :
  reachable env s -> Forall plain l1 -> Forall plain l2 -> written l1 w1 -> written l2 w2 ->
  requests o1 (HStr w1) r1 t1 u1 tp1 -> answer env o1 s = Ok (VView v1) ->
  let s1 := run env (after env o1 s) h in
  requests o2 (HStr w2) r2 t2 u2 tp2 -> answer env o2 s1 = Ok (VView v2) ->
  let s2 := after env o2 s1 in
  (exists p, views s2 v1 p /\ views s2 v2 p) -> l1 = l2.
Proof.
  intros R P1 P2 W1 W2 Q1 A1 s1 Q2 A2 s2 X.
  destruct (proj1 (C05_same env s o1 _ r1 t1 u1 tp1 v1 h o2 _ r2 t2 u2 tp2 v2 R Q1 A1 Q2 A2) X) as [N _].
  unfold same_name in N. cbn in N.
  now rewrite (split_written l1 w1 W1 P1), (split_written l2 w2 W2 P2) in N.
Qed.
