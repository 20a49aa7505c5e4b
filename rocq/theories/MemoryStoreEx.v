(** A program for C72. *)
From Coq Require Import String List ZArith Reals Bool Arith Lia Lra.
From Verif Require Import Base Units TimeModel Core Memory MemoryStore Spec_MemoryStore MemoryStoreProps MemoryEx Examples.
Import ListNotations.
Local Open Scope string_scope.
Local Open Scope list_scope.

(** Makes time points and values, a view of a parameter with children, assigns the values to one child, then
    overwrites its arrays, and reads the sum, its own array and the sum again after adding to the child. *)
Definition request (name : string) : call :=
  CTimeseries (HStr name) "K" 0 (HStr "World") (AEnum POINT_TIMESERIES) (AEnum ILINEAR) (AEnum XNONE).
Definition program (x y z a : R) : list call :=
  [CNew (Times three); CNew (some_values x y z);
   request "T|sea"; request "T|land"; request "T";
   CSet 0 1; CSet 1 1; CWrite 1 0 (Some a); CGet 4; CLook 1; CIAdd 0 1; CGet 0; CGet 4].
Lemma kelvin : unit_converter ex_env (Some "K") (Some "K") = Ok (mkUconv 1 0).
Proof. unfold unit_converter, ex_env, pint_to. simpl. f_equal. f_equal; field. Qed.
Lemma step_result {S} (step : call -> S -> S * res MemoryStore.answer) o s s' r h : step o s = (s', r) ->
  results step s (o :: h) = r :: results step s' h.
Proof. intros E. simpl. now rewrite E. Qed.
Ltac evs := lazy -[Rplus Rmult Rminus Rdiv Rinv Ropp IZR uconvert_from uconvert_to convert_R Rtrunc unit_converter ex_env].
Ltac convs := repeat (rewrite ?to3, ?from3, ?kelvin; change [0%R; 1%R; 2%R] with (map IZR three); rewrite ?conv3; evs).
Lemma program_results x y z a : results (hstep ex_env) (hstart "World") (program x y z a) =
  [Ok AUnit; Ok AUnit; Ok (AView 0); Ok (AView 1); Ok (AView 4); Ok AUnit; Ok AUnit; Ok AUnit;
   Ok (AValues [Some (0 + x + x)%R; Some (0 + y + y)%R; Some (0 + z + z)%R]);
   Ok (ACell (some_values a y z)); Ok AUnit; Ok (AValues [Some (x + 1)%R; Some (y + 1)%R; Some (z + 1)%R]);
   Ok (AValues [Some (0 + x + x)%R; Some (0 + y + y)%R; Some (0 + z + z)%R])].
Proof.
  rewrite arrays_are_values. unfold program, request, some_values, vstart, init_state.
  do 13 (erewrite step_result; [|evs; convs; reflexivity]; f_equal).
Qed.
