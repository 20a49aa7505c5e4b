(** Concrete units and histories, used to show that the hypotheses of the theorems are
    met by non-trivial cases, and as counterexamples. *)
From Coq Require Import String List ZArith Reals Bool.
From Coquelicot Require Import Coquelicot.
From Verif Require Import Base Units TimeModel Core Spec_Core.
Import ListNotations.
Local Open Scope string_scope.
Local Open Scope list_scope.

Definition ex_env : uenv := fun u =>
  if String.eqb u "K" then Some (mkUdef [("temperature", 1%Z)] 1 0)
  else if String.eqb u "mK" then Some (mkUdef [("temperature", 1%Z)] (1 / 1000) 0)
  else if String.eqb u "degC" then Some (mkUdef [("temperature", 1%Z)] 1 273)
  else if String.eqb u "W" then Some (mkUdef [("power", 1%Z)] 1 0)
  else None.

Definition W_ : hname := HStr "World".
Definition yrs : timepoints := mkTP 1 [0; 10; 20; 30]%Z.
(** average-timeseries request with constant extrapolation *)
Definition avg (n : hname) (u : string) (t : timepoints) : op :=
  OTimeseries n u t W_ (AStr "average") (AStr "linear") (AStr "constant").
Definition pnt (n : hname) (u : string) (t : timepoints) : op :=
  OTimeseries n u t W_ (AStr "Point") (AEnum ILINEAR) (AEnum XNONE).
(** point-timeseries request with constant extrapolation, three time points *)
Definition yrs3 : timepoints := mkTP 1 [0; 10; 20]%Z.
Definition pts (n : hname) (u : string) (t : timepoints) : op :=
  OTimeseries n u t W_ (AStr "point") (AStr "linear") (AStr "constant").

Definition start : state := init_state "World".
(** state after a history *)
Definition ex (h : list op) : state := run ex_env start h.

Lemma ex_reachable h : reachable ex_env (ex h).
Proof. exists "World", h. reflexivity. Qed.
Lemma ex_good : good_env ex_env.
Proof.
  unfold good_env, ex_env. intros u a.
  repeat match goal with
    |- context [if ?b then _ else _] => destruct b; [intros H; inversion H; subst; simpl; clear H|]
  end; try discriminate; try apply Rgt_not_eq; try apply Rlt_0_1.
  unfold Rdiv. rewrite Rmult_1_l. apply Rinv_0_lt_compat. apply IZR_lt. reflexivity.
Qed.

(** Evaluate a concrete history, leaving real arithmetic alone. *)
Ltac eval_ex := lazy -[RInt Rplus Rmult Rminus Rdiv Rinv Ropp IZR ip_val pint_to uconvert_from
                       uconvert_to Rtrunc].
Ltac eval_in H := lazy -[RInt Rplus Rmult Rminus Rdiv Rinv Ropp IZR ip_val pint_to uconvert_from
                       uconvert_to Rtrunc] in H.
Ltac calc := eval_ex; reflexivity.
(** A view cell with given properties. *)
Ltac is_view := eexists; split; [calc|repeat split; reflexivity].
