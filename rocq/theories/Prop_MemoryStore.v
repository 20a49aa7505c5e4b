(** C72: programs that use timeseries cannot tell that arrays are objects in memory. *)
From Coq Require Import String List ZArith Reals Bool Arith.
From Verif Require Import Base Units TimeModel Core Memory MemoryStore Spec_MemoryStore MemoryStoreProps MemoryStoreEx
  MemoryEx Examples.
Import ListNotations.
Local Open Scope string_scope.
Local Open Scope list_scope.

(** Whatever a program does - making arrays, overwriting them, requesting timeseries, reading, assigning and
    modifying values, computing new arrays from values - it gets the answers it would get if arrays were
    values: its own arrays change only when it writes to them, and what it does to them changes nothing
    else. *)
Theorem C72_values : forall env root program,
  results (hstep env) (hstart root) program = results (vstep env) (vstart root) program.
Proof. exact arrays_are_values. Qed.
Print Assumptions C72_values.

(** A program with a parameter and two children (views 0 and 1, the parameter itself is view 4; the first
    element of the array that was assigned is overwritten before the sum is read). *)
Example C72_values_ex : forall x y z a : R,
  results (hstep ex_env) (hstart "World")
    [CNew (Times [0; 1; 2]%Z); CNew (Nums (mkArr false [Some x; Some y; Some z]));
     request "T|sea"; request "T|land"; request "T";
     CSet 0 1; CSet 1 1; CWrite 1 0 (Some a); CGet 4; CLook 1; CIAdd 0 1; CGet 0; CGet 4] =
  [Ok AUnit; Ok AUnit; Ok (AView 0); Ok (AView 1); Ok (AView 4); Ok AUnit; Ok AUnit; Ok AUnit;
   Ok (AValues [Some (0 + x + x)%R; Some (0 + y + y)%R; Some (0 + z + z)%R]);
   Ok (ACell (Nums (mkArr false [Some a; Some y; Some z]))); Ok AUnit;
   Ok (AValues [Some (x + 1)%R; Some (y + 1)%R; Some (z + 1)%R]);
   Ok (AValues [Some (0 + x + x)%R; Some (0 + y + y)%R; Some (0 + z + z)%R])].
Proof. exact program_results. Qed.
