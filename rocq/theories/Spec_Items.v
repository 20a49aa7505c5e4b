(** Specification vocabulary for reading and assigning items of a data frame (C70). *)
From Coq Require Import String List ZArith.
From Verif Require Import Base Core Filters Frame.
Import ListNotations.
Local Open Scope string_scope.

(** Assignments [df["time"] = ts] and [df[c] = a]. *)
Inductive assignment := SetTime (ts : list Z) | SetMeta (c : string) (a : parg).
Definition written (s : assignment) : string * parg :=
  match s with SetTime ts => ("time", Many (map PDate ts)) | SetMeta c a => (c, a) end.
(** Metadata are not called "time", and datetimes are no metadata. *)
Definition not_date (v : pyval) : Prop := forall t, v <> PDate t.
Definition proper (s : assignment) : Prop :=
  match s with
  | SetTime _ => True
  | SetMeta c a => c <> "time" /\ match a with One v => not_date v | Many vs => Forall not_date vs end
  end.
(** One value for all of [n] timeseries, or one for each. *)
Definition fits (n : nat) (a : parg) : Prop := match a with One _ => True | Many vs => length vs = n end.
Definition shows (n : nat) (a : parg) (vs : list mval) : Prop :=
  match a with
  | One v => length vs = n /\ forall w, In w vs -> w = mval_of v
  | Many ws => vs = map mval_of ws
  end.
