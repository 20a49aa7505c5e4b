(** Specification vocabulary for other origins of time (C102). *)
From Coq Require Import List ZArith.
From Verif Require Import Base Frame.

(** Times that are [d] seconds later. *)
Definition shifted (d : Z) (ts : list Z) : list Z := map (fun t => (t + d)%Z) ts.
(** The same values and metadata, [d] seconds later. *)
Definition later (d : Z) (f : frame) : frame := mkFrame (shifted d (fr_times f)) (fr_data f) (fr_cols f) (fr_meta f).
(** A result which is a frame, later; errors stay the same. *)
Definition later_result (d : Z) (r : res frame) : res frame := match r with Ok f => Ok (later d f) | Err e => Err e end.
