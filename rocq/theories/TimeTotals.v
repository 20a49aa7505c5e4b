(** Sums over parts of the period (for C73). *)
From Coq Require Import List ZArith Reals Lra Lia Bool Sorted.
From Coquelicot Require Import Coquelicot.
From Verif Require Import Base TimeModel TimeFacts TimeLin TimeConv TimeConv2 TimeConv3 Spec_Time TimeProps Core Spec_Totals.
Import ListNotations.
Local Open Scope R_scope.

Section T.
Variable g : R -> R.
Hypothesis G : forall a b, ex_RInt g a b.

Lemma total_low x y t : forall v, increasing t -> (y <= hd y t)%Z -> total x y t v = 0.
Proof.
  induction t as [|a [|b t] IH]; intros v I L; auto. destruct v as [|z v]; auto.
  apply StronglySorted_inv in I. destruct I as [I J]. inversion J; subst. simpl in L.
  change (total x y (a :: b :: t) (z :: v)) with
    ((if ((x <=? a)%Z && (b <=? y)%Z)%bool then z * IZR (b - a) else 0) + total x y (b :: t) v).
  rewrite (IH v I) by (simpl; lia).
  destruct (Z.leb_spec b y); [lia|]. rewrite andb_false_r. lra.
Qed.
Lemma total_from x y t : forall a v, increasing (a :: t) -> length t = length v -> (x <= a)%Z -> In y (a :: t) ->
  (forall c d z, In (c, d, z) (periods (map IZR (a :: t)) v) -> RInt g c d = z * (d - c)) ->
  total x y (a :: t) v = RInt g (IZR a) (IZR y).
Proof.
  induction t as [|b t IH]; intros a v I L X Y P.
  - destruct Y as [<-|[]]. simpl. rewrite RInt_point. auto.
  - destruct v as [|z v]; [discriminate|].
    destruct (Z.eq_dec a y) as [<-|N].
    { rewrite RInt_point. apply total_low; auto. simpl. lia. }
    destruct Y as [Y|Y]; [congruence|].
    apply StronglySorted_inv in I. destruct I as [I J]. pose proof (Forall_inv J) as Jb.
    assert (By : (b <= y)%Z).
    { destruct Y as [->|Y]; [lia|]. apply StronglySorted_inv in I. destruct I as [_ I]. rewrite Forall_forall in I. specialize (I y Y). lia. }
    change (total x y (a :: b :: t) (z :: v)) with
      ((if ((x <=? a)%Z && (b <=? y)%Z)%bool then z * IZR (b - a) else 0) + total x y (b :: t) v).
    assert (P' : forall c d z, In (c, d, z) (periods (map IZR (b :: t)) v) -> RInt g c d = z * (d - c))
      by (intros c d z' Q; apply P; right; auto).
    rewrite (IH b v I ltac:(simpl in L; lia) ltac:(lia) Y P').
    destruct (Z.leb_spec x a); [|lia]. destruct (Z.leb_spec b y); [|lia]. simpl.
      rewrite <- (RInt_Chasles g (IZR a) (IZR b) (IZR y)) by auto. unfold plus. simpl.
      rewrite (P (IZR a) (IZR b) z) by (left; auto). rewrite minus_IZR. auto.
Qed.
Lemma total_RInt x y t : forall v, increasing t -> length t = S (length v) -> (x <= y)%Z -> In x t -> In y t ->
  (forall c d z, In (c, d, z) (periods (map IZR t) v) -> RInt g c d = z * (d - c)) ->
  total x y t v = RInt g (IZR x) (IZR y).
Proof.
  induction t as [|a t IH]; intros v I L XY X Y P; [contradiction|].
  destruct (Z.eq_dec a x) as [->|N].
  { apply total_from; auto; simpl in L; lia. }
  destruct X as [X|X]; [congruence|].
  destruct t as [|b t]; [contradiction|]. destruct v as [|z v]; [discriminate|].
  pose proof (StronglySorted_inv I) as [I' J]. rewrite Forall_forall in J.
  pose proof (J x X) as Ax.
  destruct Y as [Y|Y]; [lia|].
  change (total x y (a :: b :: t) (z :: v)) with
    ((if ((x <=? a)%Z && (b <=? y)%Z)%bool then z * IZR (b - a) else 0) + total x y (b :: t) v).
  destruct (Z.leb_spec x a); [lia|]. simpl andb. cbv iota.
  rewrite IH; auto; [lra|]. intros c d z' Q. apply P. right. auto.
Qed.
End T.

(** The representation of averages has the given integral over every period. *)
Lemma rep_periods ex s v a b z : increasing s -> length s = S (length v) -> (3 <= length v)%nat ->
  In (a, b, z) (periods (map IZR s) v) -> RInt (ip_val (rep_of AVERAGE_TIMESERIES ex (map IZR s) v)) a b = z * (b - a).
Proof.
  intros I L K P. pose proof (incr_IZR s I) as J. destruct s as [|s0 s]; [discriminate|]. simpl map in *.
  destruct (average_rep ex (IZR s0) (map IZR s) v) as (f & E & X & F & Lo & Hi & Ik & Q); auto; [rewrite map_length; simpl in L; lia|lia|].
  destruct (rep_spec AVERAGE_TIMESERIES ex (IZR s0 :: map IZR s) v) as (E' & _); auto; [left; auto|simpl; rewrite map_length; simpl in L; lia|].
  rewrite E in E'. inversion E'; subst f. clear E'.
  rewrite <- (Q a b z P). apply ip_RInt_inside; rewrite ?Lo, ?Hi.
  - clear - J P. revert J v P. generalize (IZR s0). generalize (map IZR s). clear.
    intros l. induction l as [|c l IH]; intros r J v P; [destruct P|].
    destruct v as [|y v]; [destruct P|]. apply incr_cons in J. destruct J as [Lt J].
    destruct P as [P|P]; [inversion P; subst; lra|]. specialize (IH c J v P). lra.
  - clear - J P. revert J v P. generalize (IZR s0). generalize (map IZR s). clear.
    intros l. induction l as [|c l IH]; intros r J v P; [destruct P|].
    destruct v as [|y v]; [destruct P|]. apply incr_cons in J. destruct J as [Lt J].
    change (last (r :: c :: l) 0) with (last (c :: l) 0).
    destruct P as [P|P]; [inversion P; subst|apply (IH c J v P)]. apply incr_last. auto.
Qed.

Lemma average_totals ex s v t w x y : increasing s -> increasing t -> conversion AVERAGE_TIMESERIES ex s v t (Ok w) ->
  (x <= y)%Z -> In x s -> In y s -> In x t -> In y t -> total x y t w = total x y s v.
Proof.
  intros I J C XY Xs Ys Xt Yt. pose proof (conversion_facts _ _ _ _ _ _ C) as (_ & F & L).
  simpl in F. rewrite map_length in F.
  set (g := ip_val (rep_of AVERAGE_TIMESERIES ex (map IZR s) v)).
  assert (G : forall a b, ex_RInt g a b).
  { destruct (rep_spec AVERAGE_TIMESERIES ex (map IZR s) v) as (_ & Ik & _ & _ & Le); auto; [left; auto|simpl; rewrite map_length; auto|apply incr_IZR; auto|].
    apply ip_ex_RInt; auto. }
  rewrite (total_RInt g G x y s v) by (auto; intros; apply rep_periods; auto).
  apply conversion_eq in C. symmetry in C. apply convert_result in C. destruct C as (_ & _ & _ & ->). cbn [sample].
  fold g. apply (total_RInt g G); auto.
  - rewrite avgs_len, map_length. destruct t; [contradiction|]. simpl. auto.
  - intros c d z P. apply (periods_avgs g (map IZR t) c d z); auto. apply incr_IZR; auto.
Qed.

Lemma total_affine a b x y t : forall v, increasing t -> length t = S (length v) -> (x <= y)%Z -> In x t -> In y t ->
  total x y t (map (fun z => a * z + b) v) = a * total x y t v + b * IZR (y - x).
Proof.
  intros v I L XY X Y.
  assert (Q : forall v, total x y t (map (fun z => a * z + b) v) = a * total x y t v + b * total x y t (map (fun _ => 1) v)).
  { clear. induction t as [|c [|d t] IH]; intros v; [simpl; lra|simpl; lra|]. destruct v as [|z v]; [simpl; lra|].
    change (total x y (c :: d :: t) (map (fun z => a * z + b) (z :: v))) with
      ((if ((x <=? c)%Z && (d <=? y)%Z)%bool then (a * z + b) * IZR (d - c) else 0) + total x y (d :: t) (map (fun z => a * z + b) v)).
    change (total x y (c :: d :: t) (map (fun _ => 1) (z :: v))) with
      ((if ((x <=? c)%Z && (d <=? y)%Z)%bool then 1 * IZR (d - c) else 0) + total x y (d :: t) (map (fun _ => 1) v)).
    change (total x y (c :: d :: t) (z :: v)) with
      ((if ((x <=? c)%Z && (d <=? y)%Z)%bool then z * IZR (d - c) else 0) + total x y (d :: t) v).
    rewrite IH. destruct ((x <=? c)%Z && (d <=? y)%Z)%bool; lra. }
  rewrite Q. f_equal. f_equal. rewrite (total_RInt (fun _ => 1)); auto.
  - rewrite RInt_const. unfold scal. simpl. unfold mult. simpl. rewrite minus_IZR. lra.
  - intros. apply ex_RInt_const.
  - rewrite map_length. auto.
  - intros c d z P. rewrite RInt_const. unfold scal; simpl; unfold mult; simpl.
    assert (z = 1); [|subst; lra]. clear - P. revert v P. generalize (map IZR t). induction l as [|p [|q l] IH]; intros v P; try destruct P.
    destruct v as [|r v]; [destruct P|]. destruct P as [P|P]; [inversion P; auto|]. apply (IH v P).
Qed.
