(** C86-C89: parts of [view.values].  Vocabulary: [Spec_Core.v], [Spec_Apart.v], [Spec_Handles.v]. *)
From Coq Require Import String List ZArith Reals Bool Lia Sorted.
From Verif Require Import Base Units TimeModel Core Spec_Core Spec_View Spec_Apart Handles Spec_Handles HandlesSlices HandlesProps
  Examples Prop_Core2 Prop_Core3.
Import ListNotations.
Local Open Scope string_scope.
Local Open Scope list_scope.

(** ** C86 *)
(** What can be selected from an array of length [n] and what cannot. *)
Theorem C86_selected n x js : positions n x = Ok js <-> selected n x js.
Proof. exact (positions_iff n x js). Qed.
Print Assumptions C86_selected.
Theorem C86_refused n x e : positions n x = Err e ->
  match x with
  | SSlice _ _ c => slice_step c = 0%Z /\ e = EValueError
  | SList l => e = EIndexError /\ exists i, In i l /\ forall j, ~ index n i j
  | SMask m => e = EIndexError /\ length m <> n
  end.
Proof. exact (positions_fail n x e). Qed.
Print Assumptions C86_refused.
(** [1:-1] and [::-2] of five elements, a list with a negative index, a mask. *)
Example C86_instance :
  positions 5 (SSlice (Some 1) (Some (-1)) None)%Z = Ok [1; 2; 3] /\
  positions 5 (SSlice None None (Some (-2)))%Z = Ok [4; 2; 0] /\
  positions 5 (SSlice (Some (-100)) (Some 100) (Some 3))%Z = Ok [0; 3] /\
  positions 3 (SList [2; -3]%Z) = Ok [2; 0] /\ positions 3 (SMask [true; false; true]) = Ok [0; 2].
Proof. repeat split. Qed.

(** ** C87 *)
(** Whatever has happened since it was taken, a slice of [view.values] (of a slice, ...) shows what
    [view.values] has at its positions. *)
Theorem C87_list env s h v ps : held env s h v (Some ps) ->
  fst (h_list s h) = after env (OGetValues v) s /\
  (forall ys, answer env (OGetValues v) s = Ok (VArr ys) ->
     snd (h_list s h) = Ok (map (fun j => nth j ys None) ps) /\ Forall (fun j => j < length ys) ps) /\
  (forall e, answer env (OGetValues v) s = Err e -> snd (h_list s h) = Err e).
Proof. exact (HandlesProps.C87_list env s h v ps). Qed.
Print Assumptions C87_list.
(** Reading one of its items is reading [view.values] at that position, ... *)
Theorem C87_item env s h v ps i k : held env s h v (Some ps) -> index (length ps) i k ->
  fst (h_item s h i) = after env (OHandleGet v (Z.of_nat (nth k ps 0))) s /\
  outcome VNum (snd (h_item s h i)) = answer env (OHandleGet v (Z.of_nat (nth k ps 0))) s.
Proof. exact (HandlesProps.C87_item env s h v ps i k). Qed.
Print Assumptions C87_item.
Theorem C87_no_item env s h v ps i ys : held env s h v (Some ps) -> (forall k, ~ index (length ps) i k) ->
  answer env (OGetValues v) s = Ok (VArr ys) -> snd (h_item s h i) = Err EIndexError.
Proof. exact (HandlesProps.C87_no_item env s h v ps i ys). Qed.
Print Assumptions C87_no_item.
(** ... and assigning to one of its items is assigning to [view.values] at that position. *)
Theorem C87_set env s h v ps i k x : held env s h v (Some ps) -> index (length ps) i k ->
  fst (fst (h_set s h i x)) = after env (OHandleSet v (Z.of_nat (nth k ps 0)) x) s /\
  snd (fst (h_set s h i x)) = h /\
  outcome (fun _ => VUnit) (snd (h_set s h i x)) = answer env (OHandleSet v (Z.of_nat (nth k ps 0)) x) s.
Proof. exact (HandlesProps.C87_set env s h v ps i k x). Qed.
Print Assumptions C87_set.
Theorem C87_no_set env s h v ps i x : held env s h v (Some ps) -> (forall k, ~ index (length ps) i k) ->
  h_set s h i x = (s, h, Err EIndexError).
Proof. exact (HandlesProps.C87_no_set env s h v ps i x). Qed.
Print Assumptions C87_no_set.
(** [part += x] is [part[:] = part + x] with up-to-date values, unless the array has integers. *)
Theorem C87_iadd env s h v ps x ys : held env s h v (Some ps) -> answer env (OGetValues v) s = Ok (VArr ys) ->
  h_iadd s h x = if h_int (after env (OGetValues v) s) h then (after env (OGetValues v) s, h, Err ETypeError)
    else h_assign (after env (OGetValues v) s) h (SSlice None None None) (Many (map (fun j => nadd (nth j ys None) (Some x)) ps)).
Proof. exact (HandlesProps.C87_iadd env s h v ps x ys). Qed.
Print Assumptions C87_iadd.

(** Two views of A; the second element and the third of the first view are taken, in reverse order, then
    the other view is written. *)
Definition part_history : list op := two_views ++ [OSetValues 0 (fl [10; 20; 30]%R)].
Lemma run_nil env s : run env s [] = s. Proof. reflexivity. Qed.
Lemma ex_eq h : run ex_env (init_state "World") h = ex h. Proof. reflexivity. Qed.
Lemma whole_held : held ex_env (ex (part_history ++ [OGetValues 0])) (HShared 0 [0; 1; 2]) 0 (Some [0; 1; 2]).
Proof.
  change (Some [0; 1; 2]) with (Some (seq 0 (length [Some 10; Some 20; Some 30]%R))).
  eapply held_values; [apply (ex_reachable part_history)|calc|calc].
Qed.
Lemma part_held : held ex_env (ex (part_history ++ [OGetValues 0])) (HShared 0 [2; 1]) 0 (Some [2; 1]).
Proof.
  change (Some [2; 1]) with (Some (map (fun j => nth j [0; 1; 2] 0) [2; 1])).
  eapply held_slice with (a := None) (b := Some 0%Z) (c := Some (-1)%Z); [exact whole_held|calc|].
  change (selected 3 (SSlice None (Some 0%Z) (Some (-1)%Z)) [2; 1]). apply C86_selected. reflexivity.
Qed.
Example C87_instance : let s := after ex_env (OSetValues 1 (fl [7; 8; 9]%R)) (ex (part_history ++ [OGetValues 0])) in
  held ex_env s (HShared 0 [2; 1]) 0 (Some [2; 1]) /\ succeeds ex_env (OGetValues 0) s /\
  index 2 (-1) 1 /\ succeeds ex_env (OHandleSet 0 (Z.of_nat (nth 1 [2; 1] 0)) (Some 5%R)) s.
Proof.
  split; [apply held_call, part_held|]. split; [eexists; calc|]. split; [split; [reflexivity|lia]|eexists; calc].
Qed.

(** ** C88 *)
(** Assigning to several positions succeeds if and only if the assignments to the single positions, one
    after the other, succeed; and then nobody can tell the difference. *)
Theorem C88_one_by_one env s h v ps x js y zs : held env s h v (Some ps) -> selected (length ps) x js -> js <> [] ->
  stored_at (length js) y zs ->
  let steps := one_by_one v (map (fun j => nth j ps 0) js) zs in
  (snd (h_assign s h x y) = Ok tt <-> answers env steps s = repeat (Ok VUnit) (length js)) /\
  (snd (h_assign s h x y) = Ok tt ->
     snd (fst (h_assign s h x y)) = h /\ indistinguishable env (fst (fst (h_assign s h x y))) (after_all env steps s)).
Proof. exact (C88_proof env s h v ps x js y zs). Qed.
Print Assumptions C88_one_by_one.
(** An assignment to positions that are not there, or of a wrong number of values, raises and changes
    nothing. *)
Theorem C88_refused env s h v ps x y : held env s h v (Some ps) ->
  (forall js, selected (length ps) x js -> forall zs, ~ stored_at (length js) y zs) ->
  exists e, h_assign s h x y = (s, h, Err e).
Proof. exact (HandlesProps.C88_refused env s h v ps x y). Qed.
Print Assumptions C88_refused.
Example C88_instance : let s := ex (part_history ++ [OGetValues 0]) in
  held ex_env s (HShared 0 [2; 1]) 0 (Some [2; 1]) /\
  selected 2 (SMask [true; true]) [0; 1] /\ stored_at 2 (Many [Some 1; Some 2]%R) [Some 1; Some 2]%R /\
  snd (h_assign s (HShared 0 [2; 1]) (SMask [true; true]) (Many [Some 1; Some 2]%R)) = Ok tt /\
  (forall js, selected 2 (SList [0; 2]%Z) js -> forall zs, ~ stored_at (length js) (One (Some 1%R)) zs).
Proof.
  split; [apply part_held|]. split; [apply C86_selected; reflexivity|]. split; [split; reflexivity|]. split; [calc|].
  intros js H. apply C86_selected in H. discriminate.
Qed.

(** ** C89 *)
(** Parts selected by a list or a mask are not windows.  They do not show what is written later: with the
    first and third of three values taken by a list and by a slice, only the slice follows the other view. *)
Theorem C89_stale_refuted : exists env s v w p h c sl,
  good_env env /\ reachable env s /\ ts_view s v p /\ ts_view s w p /\ held env s h v (Some [0; 1; 2]) /\
  h_select s h (SList [0; 2]%Z) = (s, Ok c) /\ h_select s h (SSlice None None (Some 2%Z)) = (s, Ok sl) /\
  forall x y z, let s2 := after env (OSetValues w (fl [x; y; z])) s in
    answer env (OSetValues w (fl [x; y; z])) s = Ok VUnit /\
    snd (h_list s2 c) = Ok [Some 10; Some 30]%R /\
    exists x' y' z', snd (h_list s2 sl) = Ok [x'; z'] /\
      Forall2 (fun x y => same_num env "K" x "K" y) (map Some [x; y; z]) [x'; y'; z'].
Proof.
  exists ex_env, (ex (part_history ++ [OGetValues 0])), 0, 1, 0, (HShared 0 [0; 1; 2]), (HCopy 0 false [Some 10; Some 30]%R), (HShared 0 [0; 2]).
  split; [exact ex_good|]. split; [apply ex_reachable|]. split; [is_view|]. split; [is_view|]. split; [exact whole_held|].
  split; [calc|]. split; [calc|]. intros x y z. cbv zeta. split; [calc|]. split; [calc|].
  pose (h1 := part_history ++ [OGetValues 0]).
  destruct (C14_same_time_points_partial ex_env "World" h1 (fl [x; y; z]) [] 0 1 0 "K" "K" [0; 10; 20]%Z [x; y; z]
    (answer ex_env (OGetValues 0) (run ex_env (after ex_env (OSetValues 1 (fl [x; y; z])) (run ex_env (init_state "World") h1)) []))) as (zs & A & F).
  - exact ex_good.
  - unfold h1, part_history, two_views. tidy_all.
  - is_view.
  - calc.
  - exact I.
  - eexists; split; [calc|reflexivity].
  - repeat constructor; lia.
  - do 3 eexists; split; [calc|]; split; [reflexivity|]; split; [reflexivity|]; split; [calc|]; split; reflexivity.
  - is_view.
  - discriminate.
  - eexists; split; [calc|repeat split; reflexivity].
  - reflexivity.
  - exact (eq_refl (answer ex_env (OGetValues 0) (run ex_env (after ex_env (OSetValues 1 (fl [x; y; z])) (run ex_env (init_state "World") h1)) []))).
  - inversion F as [|? x' ? l1 Fx F1]; subst. inversion F1 as [|? y' ? l2 Fy F2]; subst. inversion F2 as [|? z' ? l3 Fz F3]; subst. inversion F3; subst.
    exists (Some x'), (Some y'), (Some z'). split; [|repeat constructor; auto].
    assert (Hs : held ex_env (ex h1) (HShared 0 [0; 2]) 0 (Some [0; 2])).
    { change (Some [0; 2]) with (Some (map (fun j => nth j [0; 1; 2] 0) [0; 2])).
      eapply held_slice with (a := None) (b := None) (c := Some 2%Z); [exact whole_held|calc|].
      change (selected 3 (SSlice None None (Some 2%Z)) [0; 2]). apply C86_selected. reflexivity. }
    rewrite run_nil, ex_eq in A. change (ex (part_history ++ [OGetValues 0])) with (ex h1). revert A Hs. generalize (ex h1). intros S A Hs.
    destruct (C87_list _ _ _ _ _ (held_call ex_env _ _ _ _ (OSetValues 1 (fl [x; y; z])) Hs)) as (_ & X & _).
    destruct (X _ A) as (Y & _). exact Y.
Qed.
Print Assumptions C89_stale_refuted.

(** What is assigned to them does not reach the view; but the assignment undoes what others have
    written since. *)
Theorem C89_lost_refuted : exists env s v w p h c,
  good_env env /\ reachable env s /\ ts_view s v p /\ ts_view s w p /\ held env s h v (Some [0; 1; 2]) /\
  h_select s h (SList [0; 2]%Z) = (s, Ok c) /\
  forall x y z u, let s2 := after env (OSetValues w (fl [x; y; z])) s in
    answer env (OSetValues w (fl [x; y; z])) s = Ok VUnit /\
    snd (h_set s c 0 (Some u)) = Ok tt /\
    answer env (OGetValues v) (fst (fst (h_set s c 0 (Some u)))) = Ok (VArr [Some 10; Some 20; Some 30]%R) /\
    snd (h_set s2 c 0 (Some u)) = Ok tt /\
    answer env (OGetValues v) (fst (fst (h_set s2 c 0 (Some u)))) = Ok (VArr [Some 10; Some 20; Some 30]%R).
Proof.
  exists ex_env, (ex (part_history ++ [OGetValues 0])), 0, 1, 0, (HShared 0 [0; 1; 2]), (HCopy 0 false [Some 10; Some 30]%R).
  split; [exact ex_good|]. split; [apply ex_reachable|]. split; [is_view|]. split; [is_view|]. split; [exact whole_held|].
  split; [calc|]. intros x y z u. cbv zeta. split; [calc|]. split; [calc|]. split; [calc|]. split; calc.
Qed.
Print Assumptions C89_lost_refuted.
