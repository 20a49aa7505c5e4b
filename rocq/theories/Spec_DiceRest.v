(** Vocabulary of C83 and C84, the DICE model after emissions have ended, and of C85, emissions mixed. *)
From Coq Require Import String List ZArith Reals.
From Verif Require Import Base Units TimeModel Core Adapters Dice Spec_Dice.
Import ListNotations.
Local Open Scope string_scope.

(** Carbon is exchanged between all pools, and no pool gives away more than it has (the upper ocean
    not even all). *)
Record mixing (p : string -> R) : Prop := {
  mx_b12 : (0 < p "b12" <= 1)%R;
  mx_b23 : (0 < p "b23")%R;
  mx_masses : (0 < p "mateq" /\ 0 < p "mueq" /\ 0 < p "mleq")%R;
  mx_upper : (p "b12" * p "mateq" / p "mueq" + p "b23" < 1)%R;
  mx_lower : (p "b23" * p "mueq" / p "mleq" <= 1)%R }.

(** In state [x] each pool has between [lo] and [hi] times its carbon in equilibrium; the model
    admits [lo] times that carbon. *)
Record between (p x : string -> R) (lo hi : R) : Prop := {
  bt_mat : (lo * p "mateq" <= x "mat" <= hi * p "mateq")%R;
  bt_mu : (lo * p "mueq" <= x "mu" <= hi * p "mueq")%R;
  bt_ml : (lo * p "mleq" <= x "ml" <= hi * p "mleq")%R;
  bt_bounds : (p "mat_lower" <= lo * p "mateq" /\ p "mu_lower" <= lo * p "mueq" /\ p "ml_lower" <= lo * p "mleq")%R }.

(** All carbon, relative to all carbon in equilibrium. *)
Definition level (p x : string -> R) : R :=
  ((x "mat" + x "mu" + x "ml") / (p "mateq" + p "mueq" + p "mleq"))%R.

(** Up to step [k] the bounds below the pools are not reached. *)
Definition off_bounds (env : uenv) (a : adapter world) (p : string -> R) (k : nat) : Prop :=
  forall i, (1 <= i <= k)%nat -> exists mat mu ml,
    out env a "mat" i = Ok (Some mat) /\ out env a "mu" i = Ok (Some mu) /\ out env a "ml" i = Ok (Some ml) /\
    (p "mat_lower" < mat /\ p "mu_lower" < mu /\ p "ml_lower" < ml)%R.

(** The carbon cycle of [s] is that of [p] and of [q]; it begins with carbon mixed from both, [c] parts of [q]
    and [1 - c] of [p].  Nothing is said about temperatures and forcing. *)
Definition mixed (c : R) (p q s : string -> R) : Prop :=
  (forall name, In name ["mateq"; "mueq"; "mleq"; "b12"; "b23"] -> p name = s name /\ q name = s name) /\
  (forall name, In name ["mat0"; "mu0"; "ml0"] -> s name = ((1 - c) * p name + c * q name)%R).
