(** C93: users of different parameters can share a parameter set, also when they make requests.  Vocabulary: [Spec_Core.v], [Spec_Apart.v],
    [Spec_Share.v]. *)
From Coq Require Import String List Arith ZArith Reals Bool Lra.
From Verif Require Import Base Units TimeModel Core Spec_Core Spec_Apart Spec_Share Share Examples.
Import ListNotations.
Local Open Scope string_scope.
Local Open Scope list_scope.

(** From the creation of the parameter set on, whatever the order in which the users' calls (also requests and [info]) are made, each user gets the
    replies the user would get from a parameter set of their own. *)
Theorem C93_alone env root h u : separate h -> of_user u (replies env h (fresh_set root)) = of_user u (replies env (of_user u h) (fresh_set root)).
Proof. exact (fun H => share env root h H u). Qed.
Print Assumptions C93_alone.

(** Nor does the order of the calls of different users matter. *)
Theorem C93_orders env root h h' u : separate h -> separate h' -> of_user u h' = of_user u h ->
  of_user u (replies env h' (fresh_set root)) = of_user u (replies env h (fresh_set root)).
Proof. intros A B E. now rewrite (share env root h A u), (share env root h' B u), E. Qed.
Print Assumptions C93_orders.

(** User 0 writes Emissions|CO2|Fossil, and reads it and the sum Emissions|CO2; user 1 writes Emissions|CH4 and, in the region World|Here, a number
    Emissions|CO2, fails to get that as an object, and asks [info] about it and about a parameter that does not exist. *)
Definition sharing : schedule :=
  [(0, pts (HStr "Emissions|CO2|Fossil") "K" yrs3); (1, OScalar (HStr "Emissions|CO2") "K" (HStr "World|Here")); (0, OSetValues 0 (mkArr false [Some 10; Some 20; Some 30]%R));
   (1, OSetValue 0 (Some 1%R)); (1, pts (HStr "Emissions|CH4") "K" yrs3); (0, pts (HStr "Emissions|CO2") "K" yrs3); (1, OSetValues 1 (mkArr false [Some 1; Some 2; Some 3]%R));
   (1, OGeneric (HStr "Emissions|CO2") (HStr "World|Here")); (0, OGetValues 1); (1, OGetValue 0); (1, OInfo (HStr "Emissions|CO2") (HStr "World|Here"));
   (1, OInfo (HStr "Other") (HStr "World")); (0, OSetItem 0 1 (Some 7%R)); (0, OGetValues 1)].
Example C93_case : separate sharing /\ exists x, x = 1%R /\
  of_user 1 (replies ex_env sharing (fresh_set "World")) =
    [(1, RView 0); (1, RDone); (1, RView 1); (1, RDone); (1, RRaised EParameterType); (1, RNumber (Some x));
     (1, RInfo (Some ["Emissions"; "CO2"]) (Some ["World"; "Here"]) (Some SCALAR) (Some "K") false); (1, RNothing)].
Proof.
  split; [apply separate_check; reflexivity|]. eexists. split; [|calc]. cbn. unfold uconvert_to, uconvert_from, pint_to. cbn. lra.
Qed.

(** The condition on names is needed: a user who reads Emissions keeps another from creating Emissions|CO2 ... *)
Definition crossing : schedule := [(0, OScalar (HStr "Emissions") "K" (HStr "World")); (1, OScalar (HStr "Emissions|CO2") "K" (HStr "World"))].
Example C93_crossing : of_user 1 (replies ex_env crossing (fresh_set "World")) = [(1, RRaised EParameterRead)] /\
  of_user 1 (replies ex_env (of_user 1 crossing) (fresh_set "World")) = [(1, RView 0)].
Proof. split; calc. Qed.
(** ... and so is the one on [info]: without a name, it tells whether somebody has created the region. *)
Definition prying : schedule := [(0, OScalar (HStr "a") "K" (HStr "World|Here")); (1, OInfo (HSeq []) (HStr "World|Here"))].
Example C93_prying : of_user 1 (replies ex_env prying (fresh_set "World")) = [(1, RRaised EValueError)] /\
  of_user 1 (replies ex_env (of_user 1 prying) (fresh_set "World")) = [(1, RNothing)].
Proof. split; calc. Qed.
