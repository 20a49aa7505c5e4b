(** C60: hierarchical names written as strings and as sequences of components.
    Vocabulary: [Spec_Names.v] ([written l s]: the text [s] consists of the components [l] with
    one "|" between neighbours; [proper]: non-empty and without "|"). *)
From Coq Require Import String Ascii List ZArith Bool Reals.
From Verif Require Import Base Units TimeModel Core Spec_Core Spec_Names NamesProps Examples.
Import ListNotations.
Local Open Scope string_scope.
Local Open Scope list_scope.

(** C60: splitting at "|" undoes writing, and joining with "|" is writing. *)
Theorem C60_split_undoes_join l :
  l <> [] -> Forall plain l ->
  written l (join "|" l) /\ split "|"%char (join "|" l) = l.
Proof. intros N P. split; [|apply split_written; [|assumption]]; now apply written_join. Qed.
Print Assumptions C60_split_undoes_join.

(** C60: joining undoes splitting, for every string; the parts contain no "|". *)
Theorem C60_join_undoes_split s :
  join "|" (split "|"%char s) = s /\ Forall plain (split "|"%char s) /\
  written (split "|"%char s) s.
Proof.
  destruct (split_is_written s) as [W P].
  exact (conj (join_written _ _ W) (conj P W)).
Qed.
Print Assumptions C60_join_undoes_split.

(** C60: every sequence has one string, and different sequences have different strings. *)
Theorem C60_one_string l s s' : written l s -> written l s' -> s = s'.
Proof. intros A B. now rewrite <- (join_written _ _ A), <- (join_written _ _ B). Qed.
Print Assumptions C60_one_string.

Theorem C60_one_sequence l l' s :
  Forall plain l -> Forall plain l' -> written l s -> written l' s -> l = l'.
Proof. intros P P' W W'. now rewrite <- (split_written _ _ W P), <- (split_written _ _ W' P'). Qed.
Print Assumptions C60_one_sequence.

(** C60: calls that differ only in writing names as strings or as sequences do the same and
    answer the same, in every state (so also as part of histories that differ only so). *)
Theorem C60_interchangeable env h h' s o o' :
  Forall2 same_call h h' -> same_call o o' ->
  run env s h = run env s h' /\
  answer env o (run env s h) = answer env o' (run env s h') /\
  after env o (run env s h) = after env o' (run env s h').
Proof.
  intros H O. rewrite (run_alike env h h' H s). unfold answer, after.
  rewrite (step_alike env (run env s h') o o' O). auto.
Qed.
Print Assumptions C60_interchangeable.

(** C60: different sequences denote different parameters, whatever happens in between. *)
Theorem C60_different_parameters env s o1 l1 w1 r1 t1 u1 tp1 v1 h o2 l2 w2 r2 t2 u2 tp2 v2 :
  reachable env s -> Forall plain l1 -> Forall plain l2 -> written l1 w1 -> written l2 w2 ->
  requests o1 (HStr w1) r1 t1 u1 tp1 -> answer env o1 s = Ok (VView v1) ->
  let s1 := run env (after env o1 s) h in
  requests o2 (HStr w2) r2 t2 u2 tp2 -> answer env o2 s1 = Ok (VView v2) ->
  let s2 := after env o2 s1 in
  (exists p, views s2 v1 p /\ views s2 v2 p) -> l1 = l2.
Proof. exact (distinct_names env s o1 l1 w1 r1 t1 u1 tp1 v1 h o2 l2 w2 r2 t2 u2 tp2 v2). Qed.
Print Assumptions C60_different_parameters.

(** Instance: the two ways of asking for "Emissions|CO2" in "World|EU". *)
Lemma proper_case : Forall proper ["Emissions"; "CO2"] /\ Forall proper ["World"; "EU"].
Proof.
  assert (P : forall w, existsb (Ascii.eqb "|"%char) (list_ascii_of_string w) = false -> plain w).
  { induction w as [|c w IH]; intros H; [apply plain_nil|].
    cbn [list_ascii_of_string existsb] in H. apply orb_false_elim in H. destruct H as [H1 H2].
    apply plain_snoc; [|now apply IH]. intros ->. discriminate H1. }
  split; repeat (constructor; [split; [discriminate|apply P; reflexivity]|]); constructor.
Qed.
Example C60_case :
  let a := OScalar (HSeq ["Emissions"; "CO2"]) "K" (HStr "World|EU") in
  let b := OScalar (HStr "Emissions|CO2") "K" (HSeq ["World"; "EU"]) in
  same_call a b /\ answer ex_env a start = Ok (VView 0) /\ answer ex_env b start = Ok (VView 0).
Proof.
  cbv zeta. split; [|split; reflexivity].
  apply S_scalar; [apply A_seq|apply A_str]; try apply proper_case.
  - exact (W_more "Emissions" ["CO2"] "CO2" (W_one "CO2")).
  - exact (W_more "World" ["EU"] "EU" (W_one "EU")).
Qed.

(** The restriction to components without "|" matters: the sequence of the one component "a|b"
    and the string "a|b" denote two different parameters; and [info] takes the sequence of one
    empty component but refuses the empty string. *)
Example C60_bar_differs :
  let a := OScalar (HSeq ["a|b"]) "K" (HStr "World") in
  let b := OScalar (HStr "a|b") "K" (HStr "World") in
  let s := after ex_env b (after ex_env a start) in
  view_name s 0 = Some ["a|b"] /\ view_name s 1 = Some ["a"; "b"].
Proof. split; reflexivity. Qed.
Example C60_empty_differs :
  answer ex_env (OInfo (HSeq [""]) (HStr "World")) start = Ok (VInfo None) /\
  answer ex_env (OInfo (HStr "") (HStr "World")) start = Err EValueError.
Proof. split; reflexivity. Qed.
