(** C75: units are only labels.  Definitions: [Spec_Relabel.v], [Spec_Core.v]. *)
From Coq Require Import String List ZArith Reals Lra Lia Sorted.
From Verif Require Import Base Units TimeModel Core Spec_Core Spec_Time Examples Spec_Relabel RelabelProps.
Import ListNotations.
Local Open Scope string_scope.
Local Open Scope list_scope.

(** C75: two programs that differ only in the units in which they ask for views and give numbers
    get, call by call, the same exceptions, the same views and the same physical quantities. *)
Theorem C75_units_are_labels env root h h' o o' :
  good_env env -> restated_run env (init_state root) (init_state root) h h' ->
  let s := run env (init_state root) h in let s' := run env (init_state root) h' in
  restated env s s' o o' -> same_answer env s s' (works_on o) (answer env o s) (answer env o' s').
Proof. intros G. exact (C75_proof env G root h h' o o'). Qed.
Print Assumptions C75_units_are_labels.

(** A total of two parameters and a timeseries, in kelvin and millikelvin and the other way round. *)
Definition one_way : list op :=
  [OScalar (HStr "T|a") "K" W_; OScalar (HStr "T|b") "mK" W_; OScalar (HStr "T") "K" W_;
   OSetValue 0 (Some 10%R); OSetValue 1 (Some 20000%R); pts (HStr "A") "K" yrs3;
   OSetValues 5 (mkArr false [Some 1%R; None; Some 3%R]); OHandleIAdd 5 2%R].
Definition other_way : list op :=
  [OScalar (HStr "T|a") "mK" W_; OScalar (HStr "T|b") "K" W_; OScalar (HStr "T") "mK" W_;
   OSetValue 0 (Some 10000%R); OSetValue 1 (Some 20%R); pts (HStr "A") "mK" yrs3;
   OSetValues 5 (mkArr false [Some 1000%R; None; Some 3000%R]); OHandleIAdd 5 2000%R].
Ltac quantity := intros u u' A B; eval_in A; eval_in B; inversion A; inversion B; subst; simpl;
  first [exact I | do 2 eexists; split; [reflexivity|split; [reflexivity|simpl; lra]]].
Ltac one_call := constructor; first
  [ quantity
  | repeat (constructor; first [quantity | idtac])
  | (split; [reflexivity|split; reflexivity])
  | repeat constructor; lia ].
Example C75_instance :
  good_env ex_env /\ restated_run ex_env (init_state "World") (init_state "World") one_way other_way /\
  restated ex_env (ex one_way) (ex other_way) (OGetValue 4) (OGetValue 4) /\
  (exists x x', answer ex_env (OGetValue 4) (ex one_way) = Ok (VNum (Some x)) /\
     answer ex_env (OGetValue 4) (ex other_way) = Ok (VNum (Some x')) /\ x = 30%R /\ x' = 30000%R).
Proof.
  split; [exact ex_good|]. split.
  - unfold one_way, other_way. cbn [restated_run].
    do 8 (split; [one_call|]). exact I.
  - split; [constructor|].
    eexists _, _. split; [calc|]. split; [calc|]. unfold uconvert_from, uconvert_to, pint_to. simpl. split; field.
Qed.

(** For units with an offset the claim would be false: the total of 10 degC and 20 degC is 30 degC
    for a view in degC and 576 K for a view in kelvin. *)
Theorem C75_offset_matters :
  exists env s p v w x y, good_env env /\ reachable env s /\ scalar_view s v p "degC" /\ scalar_view s w p "K" /\
    answer env (OGetValue v) s = Ok (VNum x) /\ answer env (OGetValue w) s = Ok (VNum y) /\
    ~ same_num env "degC" x "K" y.
Proof.
  pose (h := [OScalar (HStr "T|a") "degC" W_; OScalar (HStr "T|b") "degC" W_; OScalar (HStr "T") "degC" W_;
    OScalar (HStr "T") "K" W_; OSetValue 0 (Some 10%R); OSetValue 1 (Some 20%R)]).
  exists ex_env, (ex h), 0, 4, 7. do 2 eexists.
  split; [exact ex_good|]. split; [apply ex_reachable|]. split; [is_view|]. split; [is_view|].
  split; [calc|]. split; [calc|].
  intros (a & b & A & B & E). inversion A; inversion B; subst. unfold uconvert_from, uconvert_to, pint_to in E. simpl in E. lra.
Qed.
Print Assumptions C75_offset_matters.
