(** Vocabulary of C75: the same calls with quantities given in other units. *)
From Coq Require Import String List ZArith Reals.
From Verif Require Import Base Units TimeModel Core Spec_Core Spec_Time.
Import ListNotations.

Section Spec.
Variable env : uenv.

(** Both units are unknown, or both are known, have the same dimension, and zero means zero in
    both (so not degC and the like, which have an offset). *)
Definition same_dimension (u u' : string) : Prop :=
  match env u, env u' with
  | Some a, Some b => u_dim a = u_dim b /\ u_offset a = 0%R /\ u_offset b = 0%R
  | None, None => True
  | _, _ => False
  end.

(** The unit of a view. *)
Definition unit_of (s : state) (vi : nat) : option string := option_map v_unit (nth_error (st_views s) vi).
(** [x] in the unit view [vi] has in [s] is the quantity [x'] in the unit it has in [s']. *)
Definition same_for (s s' : state) (vi : nat) (x x' : num) : Prop :=
  forall u u', unit_of s vi = Some u -> unit_of s' vi = Some u' -> same_num env u x u' x'.

(** The call [o] made in [s] and the call [o'] made in [s'] are the same but for units: requests
    have units of the same dimension, assigned numbers are the same quantities.  Arrays are
    arrays of floats. *)
Inductive restated (s s' : state) : op -> op -> Prop :=
| rs_scalar n u u' r : same_dimension u u' -> restated s s' (OScalar n u r) (OScalar n u' r)
| rs_timeseries n u u' tp r ty ip ex : same_dimension u u' ->
    restated s s' (OTimeseries n u tp r ty ip ex) (OTimeseries n u' tp r ty ip ex)
| rs_set_value v x x' : same_for s s' v x x' -> restated s s' (OSetValue v x) (OSetValue v x')
| rs_set_values v l l' : Forall2 (same_for s s' v) l l' ->
    restated s s' (OSetValues v (mkArr false l)) (OSetValues v (mkArr false l'))
| rs_set_item v i x x' : same_for s s' v x x' -> restated s s' (OSetItem v i x) (OSetItem v i x')
| rs_handle_set v i x x' : same_for s s' v x x' -> restated s s' (OHandleSet v i x) (OHandleSet v i x')
| rs_handle_iadd v x x' : same_for s s' v (Some x) (Some x') -> restated s s' (OHandleIAdd v x) (OHandleIAdd v x')
| rs_generic n r : restated s s' (OGeneric n r) (OGeneric n r)
| rs_info n r : restated s s' (OInfo n r) (OInfo n r)
| rs_get_value v : restated s s' (OGetValue v) (OGetValue v)
| rs_get_generic v : restated s s' (OGetGeneric v) (OGetGeneric v)
| rs_set_generic v g : restated s s' (OSetGeneric v g) (OSetGeneric v g)
| rs_get_values v : restated s s' (OGetValues v) (OGetValues v)
| rs_handle_get v i : restated s s' (OHandleGet v i) (OHandleGet v i)
| rs_handle_array v : restated s s' (OHandleArray v) (OHandleArray v)
| rs_lock v : restated s s' (OLock v) (OLock v)
| rs_unlock v : restated s s' (OUnlock v) (OUnlock v).

(** Two histories, call by call. *)
Fixpoint restated_run (s s' : state) (h h' : list op) : Prop :=
  match h, h' with
  | [], [] => True
  | o :: h, o' :: h' => restated s s' o o' /\ restated_run (after env o s) (after env o' s') h h'
  | _, _ => False
  end.

(** The answers of such calls: the same exception, the same view, parameter or object, or the same
    quantities in the units of the view. *)
Definition same_value (s s' : state) (vi : option nat) (a a' : val) : Prop :=
  match a, a' with
  | VNum x, VNum x' => exists v, vi = Some v /\ same_for s s' v x x'
  | VArr l, VArr l' => exists v, vi = Some v /\ Forall2 (same_for s s' v) l l'
  | _, _ => a = a'
  end.
Definition same_answer (s s' : state) (vi : option nat) (r r' : res val) : Prop :=
  match r, r' with
  | Ok a, Ok a' => same_value s s' vi a a'
  | Err e, Err e' => e = e'
  | _, _ => False
  end.
End Spec.
