(** Specification vocabulary for the order of statistics (C100). *)
From Coq Require Import String List ZArith Reals.
From Verif Require Import Base Core Filters Frame.
Import ListNotations.

(** The same value missing in both, or none of them and the second one at least as large. *)
Definition num_le (x y : num) : Prop :=
  match x, y with None, None => True | Some x, Some y => (x <= y)%R | _, _ => False end.
(** The same frame but with larger (or the same) values. *)
Definition raised (f g : frame) : Prop :=
  fr_times g = fr_times f /\ fr_cols g = fr_cols f /\ fr_meta g = fr_meta f /\
  Forall2 (fun c d => fst d = fst c /\ Forall2 num_le (snd c) (snd d)) (fr_data f) (fr_data g).
