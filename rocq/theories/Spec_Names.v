(** Vocabulary for hierarchical names (C60): which string writes a sequence of components, and
    which calls differ only in how they write the names they pass. *)
From Coq Require Import String Ascii List ZArith Bool.
From Verif Require Import Base Units TimeModel Core.
Import ListNotations.
Local Open Scope string_scope.

(** The text [s] consists of the components [l], one "|" between neighbours. *)
Inductive written : list string -> string -> Prop :=
| W_one w : written [w] w
| W_more w l s : written l s -> written (w :: l) (w ++ "|" ++ s).

(** No "|" occurs in [w]. *)
Definition plain (w : string) : Prop := forall a b, w <> a ++ String "|"%char b.
(** A non-empty component without "|". *)
Definition proper (w : string) : Prop := w <> "" /\ plain w.

(** The two arguments are the same, or one is the string writing the other. *)
Inductive alike : hname -> hname -> Prop :=
| A_same n : alike n n
| A_seq l s : Forall proper l -> written l s -> alike (HSeq l) (HStr s)
| A_str l s : Forall proper l -> written l s -> alike (HStr s) (HSeq l).

(** The two calls differ at most in how they write parameter names and regions. *)
Inductive same_call : op -> op -> Prop :=
| S_same o : same_call o o
| S_scalar n n' u r r' : alike n n' -> alike r r' -> same_call (OScalar n u r) (OScalar n' u r')
| S_timeseries n n' u t r r' ty ip ex : alike n n' -> alike r r' ->
    same_call (OTimeseries n u t r ty ip ex) (OTimeseries n' u t r' ty ip ex)
| S_generic n n' r r' : alike n n' -> alike r r' -> same_call (OGeneric n r) (OGeneric n' r')
| S_info n n' r r' : alike n n' -> alike r r' -> same_call (OInfo n r) (OInfo n' r').
