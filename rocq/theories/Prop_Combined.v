(** C101: rules that combine ticks mean the sum of their parts. *)
From Coq Require Import String Ascii List ZArith Lia Sorted.
From Verif Require Import Base Civil Offsets Spec_Offsets Spec_Combined CombinedProps OffsetsProps.
Import ListNotations.
Local Open Scope Z_scope.

(** A rule is a multiple of seconds if and only if it is a sequence of numbers and units of time, and
    it is as long as they are together. *)
Theorem C101_sum rule z : to_offset rule = Ok (OTick z) <-> says_signed rule z.
Proof. split; [exact (to_offset_inv rule z)|exact (signed_ok rule z)]. Qed.
Print Assumptions C101_sum.

(** The order of the parts does not matter, and putting rules together adds them. *)
Theorem C101_order s t z u : says s z -> says t u -> to_offset (s ++ t) = to_offset (t ++ s) /\ to_offset (s ++ t) = Ok (OTick (z + u)).
Proof. exact (order_ok s t z u). Qed.
Print Assumptions C101_order.

(** The range of such a rule: every time which is a whole number of the summed steps after the start,
    up to the end. *)
Theorem C101_range rule z start end_ : says_signed rule z -> 0 < z -> exists o l, to_offset rule = Ok o /\
  generate_range start end_ o = Ok l /\ StronglySorted Z.lt l /\
  (forall x, In x l <-> start <= x <= end_ /\ exists k, x = start + k * z).
Proof.
  intros H P. destruct (range_ticks z start end_ P) as (l & E & S & I). exists (OTick z), l.
  split; [exact (signed_ok rule z H)|]. auto.
Qed.
Print Assumptions C101_range.

Example C101_case : says_signed "-1D12H" (-129600) /\ says "1D12H" 129600 /\ says "90min" 5400 /\ says_bare "D6H" 108000 /\
  to_offset "1D12H" = Ok (OTick 129600).
Proof.
  assert (A : says "12H" (12 * 3600)) by (apply (says_one [1; 2]%nat "H"); [split; [discriminate|repeat (constructor; [lia|]); constructor]|constructor]).
  assert (B : says "1D12H" 129600) by (apply (says_more [1]%nat "D" 86400 "12H" (12 * 3600)); [split; [discriminate|repeat (constructor; [lia|]); constructor]|constructor|exact A]).
  split; [exact (signed_minus _ _ (bare_full _ _ B))|]. split; [exact B|]. split.
  - apply (says_one [9; 0]%nat "min" 60); [split; [discriminate|repeat (constructor; [lia|]); constructor]|constructor].
  - split; [|reflexivity]. apply (bare_more "D" 86400 "6H" (6 * 3600)); [constructor|].
    apply (says_one [6]%nat "H"); [split; [discriminate|repeat (constructor; [lia|]); constructor]|constructor].
Qed.
