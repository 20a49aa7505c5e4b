(** Concrete histories for C61: one parameter, three time points. *)
From Coq Require Import String List ZArith Reals Bool Arith Lia Lra.
From Verif Require Import Base Units TimeModel Spec_Time TimeProps Core Memory Spec_Memory.
Import ListNotations.
Local Open Scope string_scope.
Local Open Scope list_scope.

Definition flat : nat -> list nat := fun _ => [].
Definition same_unit : nat -> string -> res uconv := fun _ _ => Ok (mkUconv 1 0).
Definition three : list Z := [0; 1; 2]%Z.
Definition some_values (x y z : R) : cell := Nums (mkArr false [Some x; Some y; Some z]).

(** The caller makes time points (array 0) and a view (0) of the parameter, makes an array of values
    (array 5), and assigns it. *)
Definition assign (x y z : R) : list mop :=
  [MNew (Times three); MTimeseries 0 "K" 0 POINT_TIMESERIES XNONE; MNew (some_values x y z); MSetValues 0 5].

Lemma three_up : increasing three. Proof. repeat constructor; simpl; lia. Qed.
Lemma conv3 ex (x y z : R) : convert_R POINT_TIMESERIES ex [x; y; z] (map IZR three) (map IZR three) = Ok [x; y; z].
Proof.
  destruct (same_grid POINT_TIMESERIES ex three [x; y; z]) as (c & Ec & E & _).
  - right. reflexivity.
  - exact three_up.
  - split; [reflexivity|discriminate].
  - simpl; lia.
  - injection Ec as <-. exact E.
Qed.
Lemma to3 x : uconvert_to (mkUconv 1 0) x = x.
Proof. unfold uconvert_to. simpl. field. Qed.
Lemma from3 x : uconvert_from (mkUconv 1 0) x = x.
Proof. unfold uconvert_from. simpl. ring. Qed.
Ltac ev := lazy -[Rplus Rmult Rminus Rdiv Rinv Ropp IZR uconvert_from uconvert_to convert_R Rtrunc].
Ltac conv := repeat (rewrite ?to3, ?from3; change [0%R; 1%R; 2%R] with (map IZR three); rewrite conv3; ev).

Definition after (n : nat) (h : list mop) : mem := mrun flat same_unit (mstart n) h.
Notation answer m o := (snd (mstep flat same_unit o m)).

Lemma assign_is x y z : after 1 (assign x y z) =
  mkMem
    [Times three; Nums (mkArr false [None; None; None]); Times three; Times three; Times three;
     some_values x y z; some_values x y z; some_values x y z]
    [mkMP (Some POINT_TIMESERIES) (Some 2) (Some 7) true true 1]
    [mkMV true false 0 (mkUconv 1 0) POINT_TIMESERIES XNONE (Some 3) (Some 4) None true (Some 6) false (Some 1)]
    [5; 0].
Proof.
  unfold after. ev. conv. reflexivity.
Qed.

Lemma assigned_made x y z : made_by_caller flat same_unit 1 (assign x y z) 5.
Proof.
  exists [MNew (Times three); MTimeseries 0 "K" 0 POINT_TIMESERIES XNONE], (MNew (some_values x y z)), [MSetValues 0 5].
  split; [reflexivity|split; [left; eauto|]]. reflexivity.
Qed.
Lemma times_made x y z : made_by_caller flat same_unit 1 (assign x y z) 0.
Proof.
  exists [], (MNew (Times three)), (tl (assign x y z)). split; [reflexivity|split; [left; eauto|reflexivity]].
Qed.
Lemma assign_never_generic x y z r : never_generic (assign x y z) r.
Proof. intros v I. simpl in I. repeat destruct I as [I|I]; try discriminate. contradiction. Qed.

(** The caller overwrites the values and the time points it passed: the view reads what was assigned. *)
Lemma overwritten_reads x y z a b :
  answers flat same_unit (after 1 (assign x y z)) [MWrite 5 0 (Some a); MWriteTime 0 1 b; MGetValues 0] =
  [(MWrite 5 0 (Some a), Ok MUnit); (MWriteTime 0 1 b, Ok MUnit);
   (MGetValues 0, Ok (MValues [Some x; Some y; Some z]))].
Proof. rewrite assign_is. ev. reflexivity. Qed.

(** [np.asarray(view.values)] is array 6. *)
Lemma asarray_is x y z : answer (after 1 (assign x y z)) (MAsArray 0) = Ok (MRef 6).
Proof. rewrite assign_is. reflexivity. Qed.
Lemma after_app n h1 h2 : after n (h1 ++ h2) = mrun flat same_unit (after n h1) h2.
Proof. unfold after, mrun. apply fold_left_app. Qed.
Lemma alias_reads x y z a :
  answers flat same_unit (after 1 (assign x y z ++ [MAsArray 0]))
    [MGetValues 0; MWrite 6 0 (Some a); MGetValues 0] =
  [(MGetValues 0, Ok (MValues [Some x; Some y; Some z])); (MWrite 6 0 (Some a), Ok MUnit);
   (MGetValues 0, Ok (MValues [Some a; Some y; Some z]))].
Proof. rewrite after_app, assign_is. ev. reflexivity. Qed.
Lemma alias_values x y z a :
  param_values (after 1 ((assign x y z ++ [MAsArray 0]) ++ [MWrite 6 0 (Some a)])) 0 = Some (some_values x y z) /\
  param_values (after 1 ((assign x y z ++ [MAsArray 0]) ++ [MWrite 6 0 (Some a); MUnlock 0])) 0 = Some (some_values a y z).
Proof.
  rewrite !after_app, assign_is. split.
  - ev. reflexivity.
  - ev. conv. reflexivity.
Qed.
Lemma alias_unlocked x y z :
  param_values (after 1 ((assign x y z ++ [MAsArray 0]) ++ [MUnlock 0])) 0 = Some (some_values x y z).
Proof. rewrite !after_app, assign_is. ev. conv. reflexivity. Qed.

(** An array assigned to a generic parameter. *)
Definition keep_array (x : R) : list mop :=
  [MGeneric 0; MNew (Nums (mkArr false [Some x])); MSetGeneric 0 0].
Lemma generic_values x a :
  param_values (after 1 (keep_array x)) 0 = Some (Nums (mkArr false [Some x])) /\
  param_values (after 1 (keep_array x ++ [MWrite 0 0 (Some a)])) 0 = Some (Nums (mkArr false [Some a])).
Proof. split; reflexivity. Qed.
