(** C04, C07-C13: writes, reads, emptiness, versions and aggregation in the parameter store.
    Vocabulary: [Spec_Core.v]. *)
From Coq Require Import String List ZArith Reals Bool Lia Lra.
From Verif Require Import Base Units TimeModel Core CoreInv Spec_Core CoreReq CoreP2 CoreLeaves
  CoreP3 CoreP4 Examples.
Import ListNotations.
Local Open Scope string_scope.
Local Open Scope list_scope.

(** Top|a and Top|b written (10 K, 20 K, 30 K each), Top viewed: views 0, 1 and 4. *)
Definition agg_history : list op :=
  [pts (HStr "Top|a") "K" yrs3; pts (HStr "Top|b") "K" yrs3; pts (HStr "Top") "K" yrs3;
   OSetValues 0 (mkArr false [Some 10; Some 20; Some 30]%R);
   OSetValues 1 (mkArr false [Some 10; Some 20; Some 30]%R)].

(** C04 does not hold: item assignment on the aggregated view is accepted and counted as a
    write of the parent. *)
Theorem C04_readonly_refuted : exists env s vi p q i x,
  good_env env /\ reachable env s /\ views s vi p /\ nth_error (st_params s) p = Some q /\
  p_children q <> [] /\ answer env (OSetItem vi i x) s = Ok VUnit /\
  exists q', nth_error (st_params (after env (OSetItem vi i x) s)) p = Some q' /\
    p_version q' <> p_version q.
Proof.
  exists ex_env, (ex agg_history), 4, 0. eexists. exists 0%Z, (Some 5%R).
  split; [exact ex_good|]. split; [apply ex_reachable|].
  split; [is_view|].
  split; [calc|]. split; [discriminate|]. split; [calc|].
  eexists. split; [calc|]. discriminate.
Qed.
Print Assumptions C04_readonly_refuted.

(** C04, what holds: assigning [value] or [values] raises ParameterReadonlyError and changes
    nothing at all. *)
Theorem C04_assignment_raises_partial env s vi p q :
  reachable env s -> views s vi p -> nth_error (st_params s) p = Some q -> p_children q <> [] ->
  (forall u x, scalar_view s vi p u -> step env (OSetValue vi x) s = (s, Err EParameterReadonly)) /\
  (forall a, ts_view s vi p -> step env (OSetValues vi a) s = (s, Err EParameterReadonly)) /\
  (forall g, generic_view s vi p -> step env (OSetGeneric vi g) s = (s, Err EParameterReadonly)).
Proof. exact (C04_setters env s vi p q). Qed.
Print Assumptions C04_assignment_raises_partial.

(** C04, what holds: along every history without item assignment, in-place arithmetic and
    [unlock] on views of the parameter, the parameter object (data, version, everything) stays
    as it is.  Missing: exactly those operations, see the refutation. *)
Theorem C04_unchanged_partial env s vi p q h :
  reachable env s -> views s vi p -> nth_error (st_params s) p = Some q -> p_children q <> [] ->
  no_sneaky env s h p -> nth_error (st_params (run env s h)) p = Some q.
Proof. exact (C04_frame env h s vi p q). Qed.
Print Assumptions C04_unchanged_partial.

Example C04_instance :
  let s := ex agg_history in
  exists q, views s 4 0 /\ nth_error (st_params s) 0 = Some q /\ p_children q <> [] /\ ts_view s 4 0 /\
    no_sneaky ex_env s [OSetValues 4 (mkArr false []); OSetItem 0 0 (Some 1%R); OGetValues 4] 0.
Proof.
  cbv zeta. eexists. split; [is_view|]. split; [calc|].
  split; [discriminate|]. split; [is_view|].
  split; [discriminate|]. split; [|split; [discriminate|exact I]].
  intros _ (vi & T & v & V & _ & P). inversion T; subst. eval_in V. inversion V; subst. discriminate.
Qed.

(** C07: after [x] has been assigned through view [v] in unit [u], every history without a
    write to the parameter, and every scalar view [w] of it in unit [u2] existing then: reading
    [w] gives the same quantity; the writing view reads [x] itself. *)
Theorem C07_scalar_last_write_wins env s v p u x h w u2 :
  good_env env -> reachable env s -> scalar_view s v p u ->
  succeeds env (OSetValue v x) s ->
  let s1 := after env (OSetValue v x) s in
  no_writes env s1 h p -> scalar_view (run env s1 h) w p u2 ->
  exists y, answer env (OGetValue w) (run env s1 h) = Ok (VNum y) /\
    same_num env u x u2 y /\ (w = v -> y = x).
Proof. exact (C07_proof env s v p u x h w u2). Qed.
Print Assumptions C07_scalar_last_write_wins.

Example C07_instance :
  let s := ex [OScalar (HStr "T") "K" W_] in let v := 0 in let x := Some 300%R in
  let h := [OScalar (HStr "T") "degC" W_; OScalar (HStr "S") "K" W_; OSetValue 2 (Some 1%R)] in
  scalar_view s v 0 "K" /\ succeeds ex_env (OSetValue v x) s /\
  no_writes ex_env (after ex_env (OSetValue v x) s) h 0 /\
  scalar_view (run ex_env (after ex_env (OSetValue v x) s) h) 1 0 "degC".
Proof.
  cbv zeta. split; [is_view|].
  split; [eexists; calc|]. split.
  - split; [intros (vi & T & _); discriminate|]. split; [intros (vi & T & _); discriminate|].
    split; [|exact I]. intros (vi & T & v & V & _ & P). inversion T; subst. eval_in V. inversion V; subst. discriminate.
  - is_view.
Qed.

(** C08 *)
Theorem C08_generic_last_write_wins env s v p x h w :
  reachable env s -> generic_view s v p -> succeeds env (OSetGeneric v x) s ->
  let s1 := after env (OSetGeneric v x) s in
  no_writes env s1 h p -> generic_view (run env s1 h) w p ->
  answer env (OGetGeneric w) (run env s1 h) = Ok (VGen x).
Proof. exact (C08_proof env s v p x h w). Qed.
Print Assumptions C08_generic_last_write_wins.

Example C08_instance :
  let s := ex [OGeneric (HStr "T") W_] in let o := OSetGeneric 0 (GStr "abc") in
  generic_view s 0 0 /\ succeeds ex_env o s /\
  no_writes ex_env (after ex_env o s) [OGeneric (HSeq ["T"]) W_] 0 /\
  generic_view (run ex_env (after ex_env o s) [OGeneric (HSeq ["T"]) W_]) 1 0.
Proof.
  cbv zeta. split; [is_view|].
  split; [eexists; calc|]. split; [split; [intros (vi & T & _); discriminate|exact I]|].
  is_view.
Qed.

(** C09 does not hold for timeseries: after one failing assignment (wrong length) the parameter
    is reported as not empty and reads return numbers (NaN). *)
Theorem C09_empty_refuted : exists env root h p q vi,
  nth_error (st_params (run env (init_state root) h)) p = Some q /\ p_children q = [] /\
  (forall h1 o h2, h = h1 ++ o :: h2 -> writes_to (run env (init_state root) h1) o p ->
     ~ succeeds env o (run env (init_state root) h1)) /\
  param_empty q = false /\ ts_view (run env (init_state root) h) vi p /\
  succeeds env (OGetValues vi) (run env (init_state root) h).
Proof.
  exists ex_env, "World", [avg (HStr "T") "K" yrs; OSetValues 0 (mkArr false [])], 0.
  eexists. exists 0. split; [calc|]. split; [calc|]. split.
  - intros [|o1 [|o2 [|o3 l3]]] o h2 E; inversion E; subst; intros Wt [x A]; try (eval_in A; discriminate A).
    destruct Wt as (vi & T & _); discriminate.
  - split; [calc|]. split; [is_view|].
    eexists. calc.
Qed.
Print Assumptions C09_empty_refuted.

(** C09, scalar and generic parameters: not empty exactly when some write has succeeded. *)
Theorem C09_empty_iff_no_write_partial env root h p q :
  nth_error (st_params (run env (init_state root) h)) p = Some q ->
  p_type q = Some SCALAR \/ p_type q = Some GENERIC ->
  param_empty q = false <->
  exists h1 o h2, h = h1 ++ o :: h2 /\ writes_to (run env (init_state root) h1) o p /\
    succeeds env o (run env (init_state root) h1).
Proof. exact (C09_iff env root h p q). Qed.
Print Assumptions C09_empty_iff_no_write_partial.

(** C09, every type: a parameter that reports empty has seen no successful write. *)
Theorem C09_write_ends_empty env root h p q :
  nth_error (st_params (run env (init_state root) h)) p = Some q -> p_children q = [] ->
  (exists h1 o h2, h = h1 ++ o :: h2 /\ writes_to (run env (init_state root) h1) o p /\
     succeeds env o (run env (init_state root) h1)) ->
  param_empty q = false.
Proof. exact (C09_success_empty env root h p q). Qed.
Print Assumptions C09_write_ends_empty.

(** C09: reads raise ParameterEmptyError exactly when the parameter reports empty. *)
Theorem C09_reads_raise_iff_empty env s vi p q :
  reachable env s -> nth_error (st_params s) p = Some q -> p_children q = [] ->
  (forall u, scalar_view s vi p u ->
     (answer env (OGetValue vi) s = Err EParameterEmpty <-> param_empty q = true) /\
     (param_empty q = false -> exists x, answer env (OGetValue vi) s = Ok (VNum x))) /\
  (generic_view s vi p ->
     (answer env (OGetGeneric vi) s = Err EParameterEmpty <-> param_empty q = true) /\
     (param_empty q = false -> exists x, answer env (OGetGeneric vi) s = Ok (VGen x))) /\
  (ts_view s vi p -> (answer env (OGetValues vi) s = Err EParameterEmpty <-> param_empty q = true)).
Proof. exact (C09_read_iff env s vi p q). Qed.
Print Assumptions C09_reads_raise_iff_empty.

Example C09_instance :
  let h1 := [OScalar (HStr "T") "K" W_; OScalar (HStr "T") "degC" W_] in
  let o := OSetValue 1 (Some 3%R) in
  exists q, nth_error (st_params (run ex_env start (h1 ++ [o; OGetValue 0]))) 0 = Some q /\
    p_type q = Some SCALAR /\ p_children q = [] /\ writes_to (run ex_env start h1) o 0 /\
    succeeds ex_env o (run ex_env start h1).
Proof.
  cbv zeta. eexists. split; [calc|]. split; [calc|]. split; [calc|].
  split; [exists 1; split; [reflexivity|is_view]|].
  eexists. calc.
Qed.

(** C10: the version is the number of data-changing calls ([count_stores]) made so far. *)
Theorem C10_version_counts_writes env root h p q :
  nth_error (st_params (run env (init_state root) h)) p = Some q ->
  p_version q = count_stores env (init_state root) h p.
Proof. exact (C10_proof env root h p q). Qed.
Print Assumptions C10_version_counts_writes.

Example C10_instance :
  exists q, nth_error (st_params (ex (agg_history ++
      [OLock 0; OSetItem 0 1 (Some 5%R); OUnlock 0; OSetValues 0 (mkArr false []); OSetItem 0 2 (Some 6%R)]))) 1
    = Some q /\ p_version q = 3.
Proof. eexists. split; [calc|]. reflexivity. Qed.

(** C11: [o] is any write operation on view [vi]; [w] any view whose parameter is neither the
    same nor an ancestor in the same region (its name is no prefix of the name of [vi], or the
    region differs).  Every way of reading [w] answers the same before and after. *)
Theorem C11_writes_are_isolated env s o vi w r :
  reachable env s -> write_target o = Some vi ->
  ~ (exists nw rest, view_name s w = Some nw /\ view_name s vi = Some (nw ++ rest) /\
       view_region s w = view_region s vi) ->
  is_read r w -> answer env r (after env o s) = answer env r s.
Proof. exact (C11_proof env s o vi w r). Qed.
Print Assumptions C11_writes_are_isolated.

Example C11_instance :
  let s := ex (agg_history ++ [pts (HStr "Top|a") "K" yrs3]) in
  view_name s 1 = Some ["Top"; "b"] /\ view_name s 5 = Some ["Top"; "a"] /\
  ~ (exists nw rest, view_name s 1 = Some nw /\ view_name s 5 = Some (nw ++ rest) /\
       view_region s 1 = view_region s 5) /\
  succeeds ex_env (OSetItem 5 0 (Some 7%R)) s /\ succeeds ex_env (OGetValues 1) s.
Proof.
  cbv zeta. split; [calc|]. split; [calc|]. split.
  - intros (nw & rest & A & B & _).
    assert (nw = ["Top"; "b"]) by (eval_in A; congruence). subst.
    eval_in B. discriminate B.
  - split; eexists; calc.
Qed.

(** C12: [vi] is the view a scalar request just returned for a parameter [p] with
    sub-parameters; the leaves are scalar parameters (the code does not check this; a leaf of
    another type makes the sum meaningless).  After any further history [h], reading it gives
    the sum over the leaves [p] had when the view was made of what they hold now, in the view's
    unit; ParameterEmptyError if one has not been written. *)
Theorem C12_aggregated_scalar_is_sum_of_leaves env s o n r u vi :
  good_env env -> reachable env s -> requests o n r SCALAR (Some u) None ->
  answer env o s = Ok (VView vi) ->
  let s1 := after env o s in
  forall p q, views s1 vi p -> nth_error (st_params s1) p = Some q -> p_children q <> [] ->
  (forall i qi, leaf_of s1 p i -> nth_error (st_params s1) i = Some qi -> p_type qi = Some SCALAR) ->
  exists ls, NoDup ls /\ (forall i, In i ls <-> leaf_of s1 p i) /\
  forall h, let s2 := run env s1 h in
    ((exists i qi, In i ls /\ nth_error (st_params s2) i = Some qi /\ p_written qi = false) ->
       answer env (OGetValue vi) s2 = Err EParameterEmpty) /\
    ((forall i qi, In i ls -> nth_error (st_params s2) i = Some qi -> p_written qi = true) ->
       exists ys, Forall2 (fun i y => exists w x, holds s2 i w x /\ same_num env w x u y) ls ys /\
         answer env (OGetValue vi) s2 = Ok (VNum (total ys))).
Proof. exact (C12_proof env s o n r u vi). Qed.
Print Assumptions C12_aggregated_scalar_is_sum_of_leaves.

(** C12: what a leaf holds is what its own scalar views read. *)
Theorem C12_leaf_holds_what_its_views_read env s vi p u q :
  good_env env -> reachable env s -> scalar_view s vi p u ->
  nth_error (st_params s) p = Some q -> p_children q = [] -> forall y,
  answer env (OGetValue vi) s = Ok (VNum y) -> exists w x, holds s p w x /\ same_num env w x u y.
Proof. exact (C12_own env s vi p u q). Qed.
Print Assumptions C12_leaf_holds_what_its_views_read.

Example C12_instance :
  let s := ex [OScalar (HStr "Top|a|1") "K" W_; OScalar (HStr "Top|a|2") "mK" W_;
               OScalar (HStr "Top|b") "K" W_; OSetValue 0 (Some 1%R)] in
  let o := OScalar (HStr "Top") "mK" W_ in
  let s1 := after ex_env o s in
  answer ex_env o s = Ok (VView 6) /\ views s1 6 0 /\
  (exists q, nth_error (st_params s1) 0 = Some q /\ p_children q <> []) /\
  (forall i qi, leaf_of s1 0 i -> nth_error (st_params s1) i = Some qi -> p_type qi = Some SCALAR) /\
  param_leaves s1 0 = Some [2; 3; 4].
Proof.
  cbv zeta. split; [calc|]. split; [is_view|].
  split; [eexists; split; [reflexivity|discriminate]|]. split; [|reflexivity].
  intros i qi L Q.
  apply (param_leaves_spec _ 0 [2; 3; 4]) in L; [|apply (wf_tree ex_env), reachable_wf, reachable_after, ex_reachable|calc].
  destruct L as [<-|[<-|[<-|[]]]]; eval_in Q; inversion Q; reflexivity.
Qed.

(** C13 does not hold: "Top|a|1", then the aggregated view of "Top", then "Top|a|2": the view
    is still read as the sum over "Top|a|1" only. *)
Theorem C13_covers_current_leaves_refuted : exists env s h vi p q,
  good_env env /\ reachable env s /\ views s vi p /\ nth_error (st_params s) p = Some q /\
  p_children q <> [] /\ views (run env s h) vi p /\
  exists i qi, leaf_of (run env s h) p i /\ ~ leaf_of s p i /\
    nth_error (st_params (run env s h)) i = Some qi /\ p_type qi = Some SCALAR /\ p_written qi = false /\
    succeeds env (OGetValue vi) (run env s h).
Proof.
  exists ex_env, (ex [OScalar (HStr "Top|a|1") "K" W_; OSetValue 0 (Some 1%R); OScalar (HStr "Top") "K" W_]),
    [OScalar (HStr "Top|a|2") "K" W_], 2, 0.
  eexists. split; [exact ex_good|]. split; [apply ex_reachable|].
  split; [is_view|]. split; [calc|].
  split; [discriminate|]. split; [is_view|].
  exists 3. eexists. split.
  - apply (param_leaves_spec _ 0 [2; 3]); [apply (wf_tree ex_env), reachable_wf, reachable_run, ex_reachable|calc|simpl; auto].
  - split; [|split; [calc|split; [reflexivity|split; [reflexivity|eexists; calc]]]].
    intros L. apply (param_leaves_spec _ 0 [2]) in L; [|apply (wf_tree ex_env), reachable_wf, ex_reachable|calc].
    destruct L as [L|[]]. discriminate.
Qed.
Print Assumptions C13_covers_current_leaves_refuted.

(** C13, what holds: if every parameter of the subtree has been viewed (or written) when the
    aggregated view is made, the leaves never change afterwards, so the sum of C12 is over all
    current leaves.  Missing: subtrees with inner parameters nobody has viewed. *)
Theorem C13_leaves_fixed_partial env s h p q :
  reachable env s -> nth_error (st_params s) p = Some q ->
  (forall i qi, below s p i -> nth_error (st_params s) i = Some qi -> p_read qi = true) ->
  forall i, leaf_of (run env s h) p i <-> leaf_of s p i.
Proof. exact (C13_proof env s h p q). Qed.
Print Assumptions C13_leaves_fixed_partial.

Example C13_instance :
  let s := ex [OScalar (HStr "Top|a") "K" W_; OScalar (HStr "Top|b") "mK" W_; OScalar (HStr "Top") "K" W_] in
  forall i qi, below s 0 i -> nth_error (st_params s) i = Some qi -> p_read qi = true.
Proof.
  cbv zeta. intros [|[|[|i]]] qi _ Q; eval_in Q; inversion Q; try reflexivity. destruct i; discriminate Q.
Qed.
