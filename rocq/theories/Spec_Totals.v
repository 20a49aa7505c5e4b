(** Vocabulary of the properties about what several views of one timeseries show (C73, C74). *)
From Coq Require Import String List Bool ZArith Reals.
From Verif Require Import Base Units TimeModel Core Spec_Core.
Import ListNotations.
Local Open Scope R_scope.

(** Value times length of all periods of [t] that lie between [x] and [y]. *)
Fixpoint total (x y : Z) (t : list Z) (v : list R) : R :=
  match t, v with
  | a :: ((b :: _) as t'), z :: v' =>
      (if ((x <=? a)%Z && (b <=? y)%Z)%bool then z * IZR (b - a) else 0) + total x y t' v'
  | _, _ => 0
  end.
(** The mean between [x] and [y]. *)
Definition mean_between (x y : Z) (t : list Z) (v : list R) : R := total x y t v / IZR (y - x).

(** View [vi] has the unit [u] and the time points [t]. *)
Definition view_at (s : state) (vi : nat) (u : string) (t : list Z) : Prop :=
  exists v, nth_error (st_views s) vi = Some v /\ v_unit v = u /\ tc_target (v_tconv v) = t.
(** Parameter [p] has type [ty] and keeps its data at the time points [t]. *)
Definition kept_at (s : state) (p : nat) (ty : ptype) (t : list Z) : Prop :=
  exists q tp, nth_error (st_params s) p = Some q /\ p_type q = Some ty /\ p_time q = Some tp /\ tp_ticks tp = t.

(** Array [a] is stored through view [v0] of the parameter [p], which has no sub-parameters,
    between the calls [h1] and [h2]; [h2] stores nothing in [p], and no view of [p] is locked,
    gets an integer array or a refused write ([tidy_run], as in C14). *)
Definition written_by (env : uenv) (root : string) (h1 : list op) (a : arr) (h2 : list op) (p v0 : nat) : Prop :=
  let s1 := run env (init_state root) h1 in
  tidy_run env (init_state root) (h1 ++ OSetValues v0 a :: h2) p /\
  ts_view s1 v0 p /\ stores env s1 (OSetValues v0 a) p = true /\
  no_writes env (after env (OSetValues v0 a) s1) h2 p /\
  (exists q, nth_error (st_params s1) p = Some q /\ p_children q = []).
(** The state after all of this. *)
Definition state_after (env : uenv) (root : string) (h1 : list op) (a : arr) (h2 : list op) (v0 : nat) : state :=
  run env (after env (OSetValues v0 a) (run env (init_state root) h1)) h2.
