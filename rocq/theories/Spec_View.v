(** Further vocabulary for the properties of timeseries views. *)
From Coq Require Import String List ZArith Reals Bool.
From Verif Require Import Base Units TimeModel Core Spec_Core.
Import ListNotations.

Section Spec.
Variable env : uenv.

(** What parameter [i] holds at the moment, in the unit and at the time points of view [v];
    ParameterEmptyError if it has not been written. *)
Definition shows (s : state) (v : view) (i : nat) (r : res (list num)) : Prop :=
  exists q, nth_error (st_params s) i = Some q /\
    (p_written q = false -> r = Err EParameterEmpty) /\
    (p_written q = true -> exists d, p_data q = Some (PArr d) /\ shown_as env q v d r).

(** Element-wise sum of the arrays [rs]; if one of them could not be had, the first such
    error. *)
Definition summed (rs : list (res (list num))) (x : res (list num)) : Prop :=
  (exists ok e rest, rs = map Ok ok ++ Err e :: rest /\ x = Err e) \/
  (exists ok xs, rs = map Ok ok /\ x = Ok xs /\
     forall ys, In ys ok -> length ys = length xs /\
     forall j, j < length xs -> nth_error xs j = Some (total (map (fun ys => nth j ys None) ok))).

(** The length of a view: as many values as it has time points, for averages as many as
    there are periods between them. *)
Definition view_length (v : view) : Z :=
  match tc_type (v_tconv v) with
  | AVERAGE_TIMESERIES => Z.of_nat (length (tc_target (v_tconv v))) - 1
  | _ => Z.of_nat (length (tc_target (v_tconv v)))
  end.

(** Python index [i] into an array of length [n] means position [j]: negative indices count
    from the end. *)
Definition position (n : nat) (i : Z) (j : nat) : Prop :=
  j < n /\ (Z.of_nat j = i \/ Z.of_nat j = Z.of_nat n + i)%Z.
(** [ys] is [xs] with the item at position [j] replaced by [x]. *)
Definition replaced (xs : list num) (j : nat) (x : num) (ys : list num) : Prop :=
  exists a y b, xs = a ++ y :: b /\ length a = j /\ ys = a ++ x :: b.

(** The answers along a history. *)
Fixpoint answers (s : state) (h : list op) : list (res val) :=
  match h with
  | [] => []
  | o :: h' => answer env o s :: answers (after env o s) h'
  end.

(** No integer array is assigned to view [vi] in the history. *)
Definition floats (h : list op) (vi : nat) : Prop :=
  forall a, In (OSetValues vi a) h -> a_int a = false.

(** Operations on view [vi] that read, assign values or items. *)
Definition uses (o : op) (vi : nat) : Prop :=
  match o with
  | OGetValues v | OSetValues v _ | OSetItem v _ _ | OHandleGet v _ | OHandleArray v
  | OHandleSet v _ _ | OHandleIAdd v _ => v = vi
  | _ => False
  end.

End Spec.
