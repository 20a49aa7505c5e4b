(** C104: rules of the calendar mean what their names say.  Vocabulary: [Spec_Rules.v], [Spec_Combined.v],
    [Spec_Offsets.v]. *)
From Coq Require Import String Ascii List ZArith Lia.
From Verif Require Import Base Civil Offsets Spec_Offsets Spec_Combined CombinedProps Spec_Rules RulesProps.
Import ListNotations.
Local Open Scope string_scope.
Local Open Scope Z_scope.

(** A rule is an offset of the calendar if and only if it is a number and the name of one, and then it is
    that number of them. *)
Theorem C104_rules rule o : ~ is_tick o ->
  (to_offset rule = Ok o <-> exists c n t, counts_signed c n /\ calendar n t o /\ rule = (c ++ t)%string).
Proof.
  intros T. split; [intros H; exact (rules_inv rule o H T)|]. intros (c & n & t & C & H & ->). exact (rules_ok c n t o C H).
Qed.
Print Assumptions C104_rules.

(** Together with C101: all rules that are understood. *)
Theorem C104_all rule o : to_offset rule = Ok o <->
  (exists z, o = OTick z /\ says_signed rule z) \/
  (exists c n t, counts_signed c n /\ calendar n t o /\ rule = (c ++ t)%string).
Proof.
  split.
  - intros H. destruct o as [z| | | |]; [left; exists z; split; [reflexivity|exact (to_offset_inv rule z H)]|right..]; apply (rules_inv rule _ H); exact (fun x => x).
  - intros [(z & -> & H)|(c & n & t & C & H & ->)]; [exact (signed_ok rule z H)|exact (rules_ok c n t o C H)].
Qed.
Print Assumptions C104_all.

Example C104_case : counts_signed "-12" (-12) /\ calendar (-12) "QS-NOV" (OQuarter (-12) DStart 11) /\
  to_offset "-12QS-NOV" = Ok (OQuarter (-12) DStart 11) /\ ~ is_tick (OQuarter (-12) DStart 11).
Proof.
  split; [apply (count_minus "12" 12), (count_number [1; 2]%nat); split; [discriminate|repeat (constructor; [lia|]); constructor]|].
  split; [apply cal_quarter_start_in; cbn; tauto|]. split; [reflexivity|exact (fun x => x)].
Qed.
