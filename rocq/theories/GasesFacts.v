(** Facts about dimensionalities and the resolution of units (model: Gases.v). *)
From Coq Require Import String Ascii List NArith Nnat ZArith QArith Qpower Qreals Reals Bool Lia Lqa Field.
From Verif Require Import Base Units Gases.
Import ListNotations.
Local Open Scope string_scope.
Local Open Scope list_scope.

(** ** Canonical dimensionalities *)

Lemma dim_eqb_true a b : dim_eqb a b = true <-> a = b.
Proof. unfold dim_eqb. destruct (list_eq_dec _ a b); split; congruence. Qed.

Lemma dim_eqb_refl a : dim_eqb a a = true.
Proof. now apply dim_eqb_true. Qed.

Lemma dim_eqb_false a b : dim_eqb a b = false <-> a <> b.
Proof. unfold dim_eqb. destruct (list_eq_dec _ a b); split; congruence. Qed.

Fixpoint coef (d : dim) (n : string) : Z :=
  match d with
  | [] => 0
  | (m, e) :: d' => (if String.eqb n m then e else 0) + coef d' n
  end%Z.

Definition slt (a b : string) : Prop := String.compare a b = Lt.

Lemma scompare_eq a b : String.compare a b = Eq -> a = b.
Proof. apply String.compare_eq_iff. Qed.

Lemma ascii_compare_nat a b : Ascii.compare a b = Nat.compare (nat_of_ascii a) (nat_of_ascii b).
Proof. unfold Ascii.compare, nat_of_ascii. apply N2Nat.inj_compare. Qed.

Lemma scompare_refl a : String.compare a a = Eq.
Proof.
  induction a as [|c a IH]; cbn; [reflexivity|].
  rewrite ascii_compare_nat, Nat.compare_refl. exact IH.
Qed.

Lemma slt_trans a b c : slt a b -> slt b c -> slt a c.
Proof.
  unfold slt. revert b c.
  induction a as [|x a IH]; intros [|y b] [|z c]; cbn; try congruence.
  rewrite !ascii_compare_nat.
  destruct (Nat.compare_spec (nat_of_ascii x) (nat_of_ascii y));
  destruct (Nat.compare_spec (nat_of_ascii y) (nat_of_ascii z)); try congruence;
  destruct (Nat.compare_spec (nat_of_ascii x) (nat_of_ascii z)); try congruence; try lia.
  intros A B. eapply IH; eauto.
Qed.

Lemma slt_irrefl a : ~ slt a a.
Proof. unfold slt. rewrite scompare_refl. congruence. Qed.

Lemma slt_flip a b : String.compare a b = Gt -> slt b a.
Proof. intros H. unfold slt. rewrite String.compare_antisym, H. reflexivity. Qed.

Fixpoint canon (d : dim) : Prop :=
  match d with
  | [] => True
  | (n, e) :: d' => e <> 0%Z /\ Forall (fun x => slt n (fst x)) d' /\ canon d'
  end.

Lemma coef_below n d : Forall (fun x => slt n (fst x)) d -> coef d n = 0%Z.
Proof.
  induction 1 as [|[m e] d H _ IH]; cbn; [reflexivity|].
  destruct (String.eqb_spec n m) as [->|]; [now apply slt_irrefl in H|]. now rewrite IH.
Qed.

Lemma Forall_slt_ins k n e d :
  slt k n -> Forall (fun x => slt k (fst x)) d -> Forall (fun x => slt k (fst x)) (dim_ins n e d).
Proof.
  intros Hk. induction 1 as [|[m f] d H F IH]; cbn.
  - destruct (e =? 0)%Z; repeat constructor; auto.
  - destruct (String.compare n m).
    + destruct (f + e =? 0)%Z; auto.
    + destruct (e =? 0)%Z; repeat constructor; auto.
    + constructor; auto.
Qed.

Lemma canon_ins n e d : canon d -> canon (dim_ins n e d).
Proof.
  induction d as [|[m f] d IH]; cbn.
  - destruct (Z.eqb_spec e 0); cbn; auto.
  - intros (A & B & C).
    destruct (String.compare n m) eqn:E.
    + apply scompare_eq in E as ->.
      destruct (Z.eqb_spec (f + e) 0); cbn; auto.
    + destruct (Z.eqb_spec e 0); cbn; auto.
      repeat split; auto. constructor; auto.
      eapply Forall_impl; [|exact B]. cbn. intros. eapply slt_trans; eauto.
    + cbn. split; [exact A|split; [|auto]]. apply Forall_slt_ins; auto. now apply slt_flip.
Qed.

Lemma coef_ins n e d k : coef (dim_ins n e d) k = (coef d k + if String.eqb k n then e else 0)%Z.
Proof.
  induction d as [|[m f] d IH]; cbn.
  - destruct (Z.eqb_spec e 0); cbn; destruct (String.eqb k n); lia.
  - destruct (String.compare n m) eqn:E.
    + apply scompare_eq in E as ->.
      destruct (Z.eqb_spec (f + e) 0); cbn; destruct (String.eqb k m); lia.
    + destruct (Z.eqb_spec e 0); cbn; destruct (String.eqb k n), (String.eqb k m); lia.
    + cbn. rewrite IH. lia.
Qed.

Lemma canon_mul e a b : canon b -> canon (dim_mul e a b).
Proof.
  intros H. induction a as [|[n k] a IH]; cbn; [exact H|]. now apply canon_ins.
Qed.

Lemma coef_mul e a b k : coef (dim_mul e a b) k = (e * coef a k + coef b k)%Z.
Proof.
  induction a as [|[n j] a IH]; [cbn; lia|].
  change (dim_mul e ((n, j) :: a) b) with (dim_ins n (e * j) (dim_mul e a b)).
  rewrite coef_ins, IH. cbn [coef]. destruct (String.eqb k n); lia.
Qed.

Lemma canon_ext a b : canon a -> canon b -> (forall n, coef a n = coef b n) -> a = b.
Proof.
  revert b. induction a as [|[n e] a IH]; intros [|[m f] b] A B H; cbn in A, B; auto.
  - specialize (H m). cbn in H. rewrite String.eqb_refl, (coef_below m b) in H by tauto. lia.
  - specialize (H n). cbn in H. rewrite String.eqb_refl, (coef_below n a) in H by tauto. lia.
  - destruct A as (A1 & A2 & A3), B as (B1 & B2 & B3).
    assert (n = m) as ->.
    { destruct (String.compare n m) eqn:E.
      - now apply scompare_eq.
      - exfalso. pose proof (H n) as Hn. cbn in Hn.
        rewrite String.eqb_refl, (coef_below n a) in Hn by tauto.
        destruct (String.eqb_spec n m) as [->|]; [now apply slt_irrefl in E|].
        rewrite (coef_below n b) in Hn; [lia|].
        eapply Forall_impl; [|exact B2]. cbn. intros. eapply slt_trans; eauto.
      - exfalso. apply slt_flip in E. pose proof (H m) as Hn. cbn in Hn.
        rewrite String.eqb_refl, (coef_below m b) in Hn by tauto.
        destruct (String.eqb_spec m n) as [->|]; [now apply slt_irrefl in E|].
        rewrite (coef_below m a) in Hn; [lia|].
        eapply Forall_impl; [|exact A2]. cbn. intros. eapply slt_trans; eauto. }
    assert (e = f) as ->.
    { pose proof (H m) as Hn. cbn in Hn.
      rewrite String.eqb_refl, (coef_below m a), (coef_below m b) in Hn by tauto. lia. }
    f_equal. apply IH; auto. intros k. specialize (H k). cbn in H. lia.
Qed.

(** ** Resolved units up to the representation of rationals *)

Definition req (a b : root) : Prop := fst a == fst b /\ snd a = snd b.
Definition oreq (a b : option root) : Prop :=
  match a, b with Some x, Some y => req x y | None, None => True | _, _ => False end.

Lemma req_refl a : req a a. Proof. split; reflexivity. Qed.
Lemma req_sym a b : req a b -> req b a. Proof. intros [A B]. split; now symmetry. Qed.
Lemma req_trans a b c : req a b -> req b c -> req a c.
Proof. intros [A B] [C D]. split; [etransitivity; eauto|congruence]. Qed.
Lemma oreq_refl a : oreq a a. Proof. destruct a; cbn; auto using req_refl. Qed.

Definition good_root (a : root) : Prop := (0 < fst a) /\ canon (snd a).

Lemma good_one : good_root root_one.
Proof. split; cbn; [reflexivity|auto]. Qed.

Lemma Qpower_pos_lt q z : 0 < q -> 0 < Qpower q z.
Proof.
  intros H. apply Qnot_le_lt. intros L.
  assert (E : Qpower q z == 0).
  { apply Qle_antisym; [exact L|]. apply Qpower_pos. now apply Qlt_le_weak. }
  revert E. apply Qpower_not_0. intros Z. rewrite Z in H. now apply Qlt_irrefl in H.
Qed.

Lemma good_mul e a b : good_root a -> good_root b -> good_root (root_mul e a b).
Proof.
  intros [A1 A2] [B1 B2]. split; cbn [root_mul fst snd].
  - rewrite Qred_correct. apply Qmult_lt_0_compat; auto. now apply Qpower_pos_lt.
  - now apply canon_mul.
Qed.

(** A registry all of whose factors are positive. *)
Definition good_def (d : unit_def) : Prop :=
  match d with UBase _ => True | UDeriv k _ => 0 < k end.
Definition good_registry (reg : registry) : Prop := Forall (fun x => good_def (snd x)) reg.

Lemma alookup_In {A} n (l : list (string * A)) v : alookup n l = Some v -> In (n, v) l.
Proof.
  induction l as [|[m w] l IH]; cbn; [congruence|].
  destruct (String.eqb_spec n m) as [->|]; intros H; [injection H as ->; auto|auto].
Qed.

Lemma prefixes_pos : Forall (fun p => 0 < snd p) prefixes.
Proof. unfold prefixes. repeat (constructor; [reflexivity|]). constructor. Qed.

Lemma parse_name_pos reg n k s : parse_name reg n = Some (k, s) -> 0 < k.
Proof.
  unfold parse_name. destruct (alookup n reg).
  { intros E. injection E as <- _. reflexivity. }
  destruct (candidates reg n) as [|c l] eqn:C; [congruence|].
  intros E. injection E as ->.
  assert (I : In (k, s) (candidates reg n)) by (rewrite C; now left).
  unfold candidates in I. apply in_flat_map in I as (p & Hp & I).
  destruct (strip _ _); [|contradiction]. destruct (alookup _ _); [|contradiction].
  destruct I as [I|[]]. injection I as <- _.
  pose proof prefixes_pos as F. rewrite Forall_forall in F. now apply F in Hp.
Qed.

Lemma good_with f e r :
  (forall n a, f n = Some a -> good_root a) -> resolve_with f e = Some r -> good_root r.
Proof.
  intros F. revert r. induction e as [|[n k] e IH]; cbn; intros r.
  - intros E. injection E as <-. apply good_one.
  - destruct (f n) eqn:N; [|congruence]. destruct (resolve_with f e); [|congruence].
    intros E. injection E as <-. apply good_mul; eauto.
Qed.

Lemma some_inj {A} (a b : A) : Some a = Some b -> a = b.
Proof. congruence. Qed.

Lemma good_name reg : good_registry reg ->
  forall fu n r, resolve_name reg fu n = Some r -> good_root r.
Proof.
  intros G. induction fu as [|fu IH]; cbn [resolve_name]; intros n r; [congruence|].
  destruct (parse_name reg n) as [[k s]|] eqn:P; [|congruence].
  apply parse_name_pos in P.
  destruct (alookup s reg) as [[d|c refs]|] eqn:L; [| |congruence].
  - intros E. apply some_inj in E. subst r. split; cbn [fst snd canon].
    + now rewrite Qred_correct.
    + repeat split; auto. discriminate.
  - destruct (resolve_with _ refs) as [[q d]|] eqn:W; [|congruence].
    intros E. apply some_inj in E. subst r.
    apply good_with in W; [|exact IH]. destruct W as [W1 W2].
    split; [|exact W2]. cbn [fst]. rewrite Qred_correct.
    apply alookup_In in L. unfold good_registry in G. rewrite Forall_forall in G.
    apply G in L. cbn in L.
    apply Qmult_lt_0_compat; auto. apply Qmult_lt_0_compat; auto.
Qed.

Lemma good_resolve reg e r : good_registry reg -> resolve reg e = Some r -> good_root r.
Proof. intros G. apply good_with. intros n a. now apply good_name. Qed.

(** ** Products *)

Lemma resolve_with_app f a b r :
  (forall n x, f n = Some x -> good_root x) ->
  resolve_with f (a ++ b) = Some r ->
  exists x y, resolve_with f a = Some x /\ resolve_with f b = Some y /\
    req r (root_mul 1 x y).
Proof.
  intros G. revert r. induction a as [|[n k] a IH]; cbn [app resolve_with]; intros r.
  - intros H. exists root_one, r. repeat split; auto.
    cbn [root_mul root_one fst snd]. rewrite Qred_correct, Qpower_1. ring.
  - destruct (f n) as [u|] eqn:N; [|congruence].
    destruct (resolve_with f (a ++ b)) as [w|] eqn:W; [|congruence].
    intros E. apply some_inj in E. subst r.
    destruct (IH _ eq_refl) as (x & y & A & B & C).
    exists (root_mul k u x), y. rewrite A. repeat split; auto.
    + destruct C as [C _]. cbn [root_mul fst snd] in C |- *.
      rewrite !Qred_correct. rewrite C, !Qred_correct. change (Qpower ?q 1) with q.
      ring.
    + destruct C as [_ C]. cbn [root_mul fst snd] in C |- *. rewrite C.
      apply canon_ext.
      * apply canon_mul, canon_mul. eapply good_with; eauto.
      * apply canon_mul. eapply good_with; eauto.
      * intros m. rewrite !coef_mul. ring.
Qed.

Lemma resolve_with_insert f n x pre post r :
  (forall n x, f n = Some x -> good_root x) ->
  f n = Some x -> resolve_with f (pre ++ post) = Some r ->
  exists r', resolve_with f (pre ++ (n, 1%Z) :: post) = Some r' /\ req r' (root_mul 1 x r).
Proof.
  intros G F. revert r. induction pre as [|[m k] pre IH]; cbn [app resolve_with]; intros r.
  - intros H. rewrite F, H. eexists. split; [reflexivity|apply req_refl].
  - destruct (f m) as [u|] eqn:N; [|congruence].
    destruct (resolve_with f (pre ++ post)) as [w|] eqn:W; [|congruence].
    intros E. apply some_inj in E. subst r.
    destruct (IH _ eq_refl) as (r' & A & B1 & B2). rewrite A.
    eexists. split; [reflexivity|]. split.
    + cbn [root_mul fst snd] in *. rewrite !Qred_correct. rewrite B1, !Qred_correct.
      change (Qpower ?q 1) with q. ring.
    + cbn [root_mul fst snd] in *. rewrite B2.
      assert (Gx : canon (snd w)) by (eapply good_with; eauto).
      apply canon_ext; auto using canon_mul.
      intros i. rewrite !coef_mul. ring.
Qed.

(** ** The environment of a registry *)

Lemma Q2R_pos q : 0 < q -> (0 < Q2R q)%R.
Proof. intros H. apply Qlt_Rlt in H. now rewrite RMicromega.Q2R_0 in H. Qed.

Lemma registry_env_good reg u a :
  good_registry reg -> registry_env reg u = Some a -> (0 < u_scale a)%R /\ canon (u_dim a).
Proof.
  intros G. unfold registry_env. destruct (parse_unit u) as [e|]; [|congruence].
  destruct (resolve reg e) as [[q d]|] eqn:R; [|congruence].
  intros E. apply some_inj in E. subst a. apply good_resolve in R; auto. destruct R as [A B].
  split; [now apply Q2R_pos|exact B].
Qed.

Definition good_defb (d : unit_def) : bool :=
  match d with UBase _ => true | UDeriv k _ => Z.ltb 0 (Qnum k) end.

Lemma good_registryb reg :
  forallb (fun x => good_defb (snd x)) reg = true -> good_registry reg.
Proof.
  intros H. unfold good_registry. apply Forall_forall. intros x Hx.
  rewrite forallb_forall in H. apply H in Hx.
  destruct (snd x) as [d|k refs]; cbn in *; auto.
  apply Z.ltb_lt in Hx. unfold Qlt. cbn. lia.
Qed.

Lemma std_good : good_registry std_registry.
Proof. apply good_registryb. vm_cast_no_check (eq_refl true). Qed.
