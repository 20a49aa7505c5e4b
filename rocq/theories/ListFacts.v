(** Facts about list cells and dictionaries. *)
From Coq Require Import String List Arith Lia Bool.
From Verif Require Import Base.
Import ListNotations.

Lemma upd_length {A} (l : list A) i x : length (upd l i x) = length l.
Proof. revert i; induction l; intros [|i]; simpl; auto. Qed.

Lemma nth_upd_eq {A} (l : list A) i x :
  i < length l -> nth_error (upd l i x) i = Some x.
Proof.
  revert i; induction l; intros [|i]; simpl; intros; try lia; auto.
  apply IHl; lia.
Qed.

Lemma nth_upd_neq {A} (l : list A) i j x :
  i <> j -> nth_error (upd l i x) j = nth_error l j.
Proof.
  revert i j; induction l; intros [|i] [|j]; simpl; intros; auto; try congruence.
Qed.

Lemma nth_lt {A} (l : list A) i x : nth_error l i = Some x -> i < length l.
Proof. intros H. apply nth_error_Some. congruence. Qed.

Lemma nth_upd {A} (l : list A) i j x :
  nth_error (upd l i x) j =
  if (i =? j)%nat then match nth_error l j with Some _ => Some x | None => None end
  else nth_error l j.
Proof.
  destruct (Nat.eqb_spec i j) as [->|N].
  - destruct (nth_error l j) eqn:E.
    + apply nth_upd_eq. eapply nth_lt; eauto.
    + apply nth_error_None. rewrite upd_length. apply nth_error_None; auto.
  - apply nth_upd_neq; auto.
Qed.

Lemma nth_app_new {A} (l : list A) x : nth_error (l ++ [x]) (length l) = Some x.
Proof. rewrite nth_error_app2, Nat.sub_diag; simpl; auto. Qed.

Lemma nth_app_old {A} (l l' : list A) i x :
  nth_error l i = Some x -> nth_error (l ++ l') i = Some x.
Proof. intros. rewrite nth_error_app1; auto. eapply nth_lt; eauto. Qed.

Lemma nth_app_inv {A} (l : list A) y i x :
  nth_error (l ++ [y]) i = Some x ->
  nth_error l i = Some x \/ (i = length l /\ x = y).
Proof.
  intros H. destruct (lt_dec i (length l)).
  - rewrite nth_error_app1 in H; auto.
  - right. rewrite nth_error_app2 in H by lia.
    destruct (i - length l) as [|k] eqn:E; simpl in H.
    + inversion H; split; auto; lia.
    + destruct k; discriminate.
Qed.

Lemma alookup_app {A} k (d d' : list (string * A)) :
  alookup k (d ++ d') = match alookup k d with Some v => Some v | None => alookup k d' end.
Proof.
  induction d as [|[k' v] d]; simpl; auto.
  destruct (String.eqb k k'); auto.
Qed.

Lemma alookup_In {A} k (d : list (string * A)) v : alookup k d = Some v -> In (k, v) d.
Proof.
  induction d as [|[k' v'] d]; simpl; intros; try discriminate.
  destruct (String.eqb_spec k k'); subst.
  - inversion H; auto.
  - auto.
Qed.

Lemma In_alookup {A} k (d : list (string * A)) v :
  NoDup (map fst d) -> In (k, v) d -> alookup k d = Some v.
Proof.
  induction d as [|[k' v'] d]; simpl; intros N H; [tauto|].
  inversion N; subst. destruct H as [H|H].
  - inversion H; subst. now rewrite String.eqb_refl.
  - destruct (String.eqb_spec k k'); subst; auto.
    exfalso. apply H2. change k' with (fst (k', v)). now apply in_map.
Qed.

Lemma alookup_None {A} k (d : list (string * A)) : alookup k d = None -> ~ In k (map fst d).
Proof.
  induction d as [|[k' v'] d]; simpl; intros H; auto.
  destruct (String.eqb_spec k k'); try discriminate.
  intros [E|E]; [congruence| now apply IHd].
Qed.

Lemma NoDup_snoc {A} (l : list A) x : NoDup l -> ~ In x l -> NoDup (l ++ [x]).
Proof.
  intros N I. induction l; simpl.
  - constructor; auto.
  - inversion N; subst. constructor.
    + rewrite in_app_iff; simpl. intros [?|[?|[]]]; subst; auto. apply I; simpl; auto.
    + apply IHl; auto. intro; apply I; simpl; auto.
Qed.

Lemma rmap_length {A B} (f : A -> res B) l bs : rmap f l = Ok bs -> length bs = length l.
Proof.
  revert bs; induction l; simpl; intros bs H.
  - inversion H; auto.
  - destruct (f a); try discriminate. destruct (rmap f l); try discriminate.
    inversion H; subst; simpl; f_equal; auto.
Qed.

Lemma rmap_nth {A B} (f : A -> res B) l bs i a :
  rmap f l = Ok bs -> nth_error l i = Some a ->
  exists b, nth_error bs i = Some b /\ f a = Ok b.
Proof.
  revert bs i; induction l; simpl; intros bs i H Hi.
  - destruct i; discriminate.
  - destruct (f a0) eqn:E; try discriminate. destruct (rmap f l) eqn:E2; try discriminate.
    inversion H; subst. destruct i; simpl in *.
    + inversion Hi; subst. eauto.
    + eapply IHl; eauto.
Qed.

Lemma rmap_nth_inv {A B} (f : A -> res B) l bs i b :
  rmap f l = Ok bs -> nth_error bs i = Some b ->
  exists a, nth_error l i = Some a /\ f a = Ok b.
Proof.
  revert bs i; induction l; simpl; intros bs i H Hi.
  - inversion H; subst. destruct i; discriminate.
  - destruct (f a) eqn:E; try discriminate. destruct (rmap f l) eqn:E2; try discriminate.
    inversion H; subst. destruct i; simpl in *.
    + inversion Hi; subst. eauto.
    + eapply IHl; eauto.
Qed.

Lemma rmap_ext {A B} (f g : A -> res B) l :
  (forall a, In a l -> f a = g a) -> rmap f l = rmap g l.
Proof.
  induction l; simpl; intros H; auto.
  rewrite (H a) by auto. rewrite IHl; auto.
Qed.
