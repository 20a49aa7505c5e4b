(** Specification vocabulary for appending data frames (C50). *)
From Coq Require Import String List ZArith QArith Qcanon Reals.
From Verif Require Import Base Core Filters Frame Spec_Frame.
Import ListNotations.

Definition mval_dec (a b : mval) : {a = b} + {a <> b}.
Proof. decide equality; [apply string_dec|apply Qc_eq_dec]. Defined.
Definition row_dec : forall a b : list mval, {a = b} + {a <> b} := list_eq_dec mval_dec.

(** Metadata over more columns: NaN where there is no value. *)
Definition plain_value (v : mval) : mval := match v with MNone => MNaN | _ => v end.
Definition extend (cols : list string) (k : list (string * mval)) : list mval :=
  map (fun c => match alookup c k with Some v => plain_value v | None => MNaN end) cols.

(** The values of the points with the metadata [k] over the columns [cols] at time [t]. *)
Definition values_at (cols : list string) (pts : list point) (k : list mval) (t : Z) : list R :=
  map snd (filter (fun pt => if row_dec (extend cols (fst (fst pt))) k then Z.eqb (snd (fst pt)) t else false) pts).

Definition mean (xs : list R) : R := (fold_right Rplus 0 xs / INR (length xs))%R.

(** No metadata value is the number -999. *)
Definition no_fill (f : frame) : Prop := forall l row, In (l, row) (fr_meta f) -> ~ In (MNum (Q2Qc (inject_Z (-999)))) row.
