(** C61: arrays of the caller are not shared with parameters and views, except those of
    [np.asarray(view.values)] and of generic parameters. *)
From Coq Require Import String List ZArith Reals Bool Arith Lia Lra.
From Verif Require Import Base Units TimeModel Core Memory Spec_Memory MemoryProps MemoryKept MemoryEx.
Import ListNotations.
Local Open Scope string_scope.
Local Open Scope list_scope.

(** [D]: arrays the caller made, passed or not in the calls [h1] (as time points, as values), except
    to a generic parameter.  In whatever follows, as long as they are not passed again, writing to them
    changes no answer of any call: the answers of the other calls are those of the history without
    the writes. *)
Theorem C61_arrays : forall leaves units n h1 h2 D,
  (forall r, In r D -> made_by_caller leaves units n h1 r /\ never_generic h1 r) ->
  (forall o r, In o h2 -> In r D -> ~ takes o r) ->
  filter (fun oa => negb (writes_one_of D (fst oa)))
    (answers leaves units (mrun leaves units (mstart n) h1) h2) =
  answers leaves units (mrun leaves units (mstart n) h1) (filter (fun o => negb (writes_one_of D o)) h2).
Proof. exact arrays_not_shared. Qed.
Print Assumptions C61_arrays.

(** Its hypotheses hold for the values and time points that were passed, and the view goes on to
    read what was assigned. *)
Example C61_arrays_case : forall x y z a b,
  (forall r, In r [5; 0] -> made_by_caller flat same_unit 1 (assign x y z) r /\ never_generic (assign x y z) r) /\
  answers flat same_unit (after 1 (assign x y z)) [MWrite 5 0 (Some a); MWriteTime 0 1 b; MGetValues 0] =
  [(MWrite 5 0 (Some a), Ok MUnit); (MWriteTime 0 1 b, Ok MUnit);
   (MGetValues 0, Ok (MValues [Some x; Some y; Some z]))].
Proof.
  intros. split; [|apply overwritten_reads].
  intros r [<-|[<-|[]]]; split; auto using assigned_made, times_made, assign_never_generic.
Qed.

(** Writing to whatever array the caller has, wherever it got it from, changes neither the values nor
    the times of any parameter other than generic ones. *)
Theorem C61_parameters : forall leaves units n h o r p,
  writes_to o = Some r ->
  let m := mrun leaves units (mstart n) h in
  let m' := fst (mstep leaves units o m) in
  param_type m p <> Some GENERIC ->
  param_values m' p = param_values m p /\ param_times m' p = param_times m p.
Proof. exact parameter_not_changed. Qed.
Print Assumptions C61_parameters.

(** The hardest case: the array of [np.asarray(view.values)]. *)
Example C61_parameters_case : forall x y z a,
  answer (after 1 (assign x y z)) (MAsArray 0) = Ok (MRef 6) /\
  param_values (after 1 ((assign x y z ++ [MAsArray 0]) ++ [MWrite 6 0 (Some a)])) 0 = Some (some_values x y z).
Proof. intros. split; [apply asarray_is|apply alias_values]. Qed.

(** But the array of [np.asarray(view.values)] is the view's own: writing to it changes what the view
    reads ... *)
Theorem C61_asarray_refuted : exists leaves units n h v r i x before,
  let m := mrun leaves units (mstart n) h in
  snd (mstep leaves units (MAsArray v) m) = Ok (MRef r) /\
  answers leaves units (fst (mstep leaves units (MAsArray v) m)) [MGetValues v] = [(MGetValues v, Ok (MValues before))] /\
  exists later, later <> before /\
    answers leaves units (fst (mstep leaves units (MAsArray v) m)) [MWrite r i x; MGetValues v] =
      [(MWrite r i x, Ok MUnit); (MGetValues v, Ok (MValues later))].
Proof.
  exists flat, same_unit, 1, (assign 1 2 3), 0, 6, 0%Z, (Some 4%R), [Some 1%R; Some 2%R; Some 3%R].
  cbv zeta. split; [apply asarray_is|].
  pose proof (alias_reads 1 2 3 4) as H. rewrite after_app in H. cbn [answers] in H.
  split; [|exists [Some 4%R; Some 2%R; Some 3%R]; split].
  - fold (after 1 (assign 1 2 3)). rewrite assign_is. reflexivity.
  - intros E. injection E as E. lra.
  - fold (after 1 (assign 1 2 3)). rewrite assign_is. ev. reflexivity.
Qed.
Print Assumptions C61_asarray_refuted.

(** ... and the next time the view writes, here by unlocking, reaches the parameter. *)
Theorem C61_asarray_written_refuted : exists leaves units n h v r i x p,
  let m := mrun leaves units (mstart n) h in
  snd (mstep leaves units (MAsArray v) m) = Ok (MRef r) /\
  param_values (mrun leaves units m [MAsArray v; MUnlock v]) p <>
  param_values (mrun leaves units m [MAsArray v; MWrite r i x; MUnlock v]) p.
Proof.
  exists flat, same_unit, 1, (assign 1 2 3), 0, 6, 0%Z, (Some 4%R), 0.
  cbv zeta. split; [apply asarray_is|].
  pose proof (alias_unlocked 1 2 3) as A. destruct (alias_values 1 2 3 4) as [_ B].
  rewrite <- app_assoc, after_app in A, B. unfold after in A, B. simpl app in A, B.
  rewrite A, B. intros E. injection E as E. lra.
Qed.
Print Assumptions C61_asarray_written_refuted.

(** Generic parameters keep the caller's array itself. *)
Theorem C61_generic_refuted : exists leaves units n h o r p,
  writes_to o = Some r /\ made_by_caller leaves units n h r /\
  let m := mrun leaves units (mstart n) h in
  param_values (fst (mstep leaves units o m)) p <> param_values m p.
Proof.
  exists flat, same_unit, 1, (keep_array 1), (MWrite 0 0 (Some 2%R)), 0, 0.
  split; [reflexivity|split].
  - exists [MGeneric 0], (MNew (Nums (mkArr false [Some 1%R]))), [MSetGeneric 0 0].
    split; [reflexivity|split; [left; eauto|reflexivity]].
  - intros m. destruct (generic_values 1 2) as [A B]. rewrite after_app in B.
    unfold after in A, B. unfold m. rewrite A.
    match goal with |- ?a <> _ => change a with
      (param_values (mrun flat same_unit (mrun flat same_unit (mstart 1) (keep_array 1)) [MWrite 0 0 (Some 2%R)]) 0) end.
    rewrite B. intros E. injection E as E. lra.
Qed.
Print Assumptions C61_generic_refuted.
