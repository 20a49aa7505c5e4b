(** C14-C22 and the view part of C29: views with caches, item writes, locking, failing
    requests.  Vocabulary: [Spec_Core.v] and [Spec_View.v]. *)
From Coq Require Import String List ZArith Reals Bool Lia Lra.
From Verif Require Import Base Units TimeModel Core CoreInv Spec_Core Spec_View CoreReq CoreP2 CoreLeaves
  CoreP3 CoreP4 CoreView CoreP5 CoreP6 Spec_Time CoreP7 CoreP8 Examples Prop_Core2.
Import ListNotations.
Local Open Scope string_scope.
Local Open Scope list_scope.

(** Float and integer arrays. *)
Definition fl (l : list R) : arr := mkArr false (map Some l).
Definition ints (l : list R) : arr := mkArr true (map Some l).
(** Two views (0 and 1) of the parameter A, in kelvin, at 0, 10 and 20. *)
Definition two_views : list op := [pts (HStr "A") "K" yrs3; pts (HStr "A") "K" yrs3].

(** ** C14 *)
(** C14 does not hold: after an integer array has been assigned through a view, its cache is an
    integer array, and the view cannot be read any more once another view has written. *)
Theorem C14_integer_cache_refuted : exists env s vi p q v d,
  good_env env /\ reachable env s /\ ts_view s vi p /\ nth_error (st_views s) vi = Some v /\
  nth_error (st_params s) p = Some q /\ p_children q = [] /\ p_written q = true /\ p_data q = Some (PArr d) /\
  (exists ys, shown_as env q v d (Ok ys)) /\ v_locked v = false /\
  answer env (OGetValues vi) s = Err ETypeError.
Proof.
  exists ex_env, (ex (two_views ++ [OSetValues 0 (ints [1; 2; 3]%R); OSetValues 1 (fl [4; 5; 6]%R)])), 0, 0.
  do 3 eexists. split; [exact ex_good|]. split; [apply ex_reachable|]. split; [is_view|].
  split; [calc|]. split; [calc|]. split; [reflexivity|]. split; [reflexivity|]. split; [reflexivity|].
  split; [|split; [reflexivity|calc]].
  eexists. do 3 eexists. split; [calc|]. split; [calc|]. split; [calc|]. calc.
Qed.
Print Assumptions C14_integer_cache_refuted.

(** C14 does not hold: a view with two time points can be read but not written; the write
    raises, the parameter keeps its data, but the view from then on shows the rejected values. *)
Theorem C14_rejected_write_refuted : exists env s vi p a,
  good_env env /\ reachable env s /\ ts_view s vi p /\
  answer env (OSetValues vi a) s = Err EInsufficientData /\
  st_params (after env (OSetValues vi a) s) = st_params s /\
  answer env (OGetValues vi) (after env (OSetValues vi a) s) = Ok (VArr (a_val a)) /\
  forall b, length (a_val b) = 2%nat -> a_int b = false ->
    answer env (OGetValues vi) (after env (OSetValues vi b) s) = Ok (VArr (a_val b)).
Proof.
  exists ex_env, (ex [pts (HStr "A") "K" yrs3; pts (HStr "A") "K" (mkTP 1 [0; 20]%Z);
    OSetValues 0 (fl [10; 20; 30]%R); OGetValues 1]), 1, 0, (fl [1; 2]%R).
  split; [exact ex_good|]. split; [apply ex_reachable|]. split; [is_view|].
  split; [calc|]. split; [calc|]. split; [calc|].
  intros [b bl] L B. simpl in L, B. subst b. destruct bl as [|[x|] [|[y|] [|z bl]]]; try discriminate L; calc.
Qed.
Print Assumptions C14_rejected_write_refuted.

(** C14, what holds: consider histories in which views of parameter [p] are not locked, are not
    assigned integer arrays and no write through them raises InsufficientDataError.  After any
    successful write through a view [v0] of [p] (a leaf) and any further calls that do not write
    to [p], with any number of reads through any views before and in between: [v0] reads exactly
    what was assigned, and every other view reads the time- and unit-conversion of what the
    parameter keeps of it, or raises the error of that conversion.
    Missing: the three excluded kinds of calls, see the refutations. *)
Theorem C14_up_to_date_partial env root h1 o h2 p v0 :
  let s1 := run env (init_state root) h1 in let s2 := after env o s1 in let s3 := run env s2 h2 in
  tidy_run env (init_state root) (h1 ++ o :: h2) p ->
  ts_view s1 v0 p -> write_target o = Some v0 -> stores env s1 o p = true -> no_writes env s2 h2 p ->
  (exists q, nth_error (st_params s1) p = Some q /\ p_children q = []) ->
  exists xs l q vv, nth_error (st_views s3) v0 = Some vv /\ nth_error (st_params s3) p = Some q /\
    (forall a, o = OSetValues v0 a -> xs = a_val a) /\
    kept_as env q vv xs (Ok l) /\
    answer env (OGetValues v0) s3 = Ok (VArr xs) /\
    forall w wv, nth_error (st_views s3) w = Some wv -> ts_view s3 w p -> w <> v0 ->
      exists r, shown_as env q wv l r /\
        answer env (OGetValues w) s3 = match r with Ok ys => Ok (VArr ys) | Err e => Err e end.
Proof. exact (C14_proof env root h1 o h2 p v0). Qed.
Print Assumptions C14_up_to_date_partial.

(** C14, for views at the parameter's own time points: every other view reads the same physical
    quantities as were assigned, in its own unit. *)
Theorem C14_same_time_points_partial env root h1 a h2 p v0 w uv uw tp xs ys :
  let s1 := run env (init_state root) h1 in let s2 := after env (OSetValues v0 a) s1 in let s3 := run env s2 h2 in
  good_env env -> tidy_run env (init_state root) (h1 ++ OSetValues v0 a :: h2) p ->
  ts_view s1 v0 p -> stores env s1 (OSetValues v0 a) p = true -> no_writes env s2 h2 p ->
  (exists q, nth_error (st_params s1) p = Some q /\ p_children q = []) ->
  increasing tp ->
  (exists v q t, nth_error (st_views s3) v0 = Some v /\ v_unit v = uv /\ tc_target (v_tconv v) = tp /\
     nth_error (st_params s3) p = Some q /\ p_time q = Some t /\ tp_ticks t = tp) ->
  ts_view s3 w p -> w <> v0 -> (exists v, nth_error (st_views s3) w = Some v /\ v_unit v = uw /\ tc_target (v_tconv v) = tp) ->
  a_val a = map Some xs -> answer env (OGetValues w) s3 = ys ->
  exists zs, ys = Ok (VArr (map Some zs)) /\ Forall2 (fun x z => same_quantity env uv x uw z) xs zs.
Proof. exact (C14_same_points_proof env root h1 a h2 p v0 w uv uw tp xs ys). Qed.
Print Assumptions C14_same_time_points_partial.

Ltac tidy_op := intros ? E ?; first [discriminate E | exact I |
  split; [reflexivity|let H := fresh in intros H; eval_in H; discriminate H]].
Ltac tidy_all := cbn [app tidy_run]; repeat (split; [tidy_op|]); exact I.
Ltac quiet := intros (? & Q & _); discriminate Q.
Example C14_instance :
  let h1 := [pts (HStr "A") "K" yrs3; pts (HStr "A") "degC" yrs3; OSetValues 1 (fl [7; 7; 7]%R); OGetValues 0] in
  let o := OSetValues 0 (fl [280; 290; 300]%R) in
  let h2 := [OGetValues 1; OGetValues 0] in
  let s1 := ex h1 in let s3 := ex (h1 ++ o :: h2) in
  good_env ex_env /\ tidy_run ex_env start (h1 ++ o :: h2) 0 /\ ts_view s1 0 0 /\ stores ex_env s1 o 0 = true /\
  no_writes ex_env (after ex_env o s1) h2 0 /\
  (exists q, nth_error (st_params s1) 0 = Some q /\ p_children q = []) /\
  increasing [0; 10; 20]%Z /\
  (exists v q t, nth_error (st_views s3) 0 = Some v /\ v_unit v = "K" /\ tc_target (v_tconv v) = [0; 10; 20]%Z /\
     nth_error (st_params s3) 0 = Some q /\ p_time q = Some t /\ tp_ticks t = [0; 10; 20]%Z) /\
  ts_view s3 1 0 /\ (exists v, nth_error (st_views s3) 1 = Some v /\ v_unit v = "degC" /\ tc_target (v_tconv v) = [0; 10; 20]%Z).
Proof.
  cbv zeta. split; [exact ex_good|]. split.
  { tidy_all. }
  split; [is_view|]. split; [calc|].
  split; [split; [quiet|split; [quiet|exact I]]|].
  split; [eexists; split; [calc|reflexivity]|].
  split; [repeat constructor; lia|].
  split; [do 3 eexists; split; [calc|]; split; [reflexivity|]; split; [reflexivity|]; split; [calc|]; split; reflexivity|].
  split; [is_view|]. eexists; split; [calc|repeat split; reflexivity].
Qed.

(** ** C15 *)
(** C15 does not hold: Top|a is 10, 20, 30 and Top|b too; the view of Top is read; Top|a is
    changed to anything else; the view of Top still reads as before. *)
Theorem C15_always_fresh_refuted : exists env s vi p q la lb xs,
  good_env env /\ reachable env s /\ ts_view s vi p /\ nth_error (st_params s) p = Some q /\ p_children q <> [] /\
  answer env (OGetValues la) s = Ok (VArr [Some 10; Some 20; Some 30]%R) /\
  answer env (OGetValues lb) s = Ok (VArr [Some 10; Some 20; Some 30]%R) /\
  answer env (OGetValues vi) s = Ok (VArr xs) /\
  forall x y z, let s' := run env s [OGetValues vi; OSetValues la (fl [x; y; z])] in
    answer env (OGetValues la) s' = Ok (VArr [Some x; Some y; Some z]) /\
    answer env (OGetValues lb) s' = Ok (VArr [Some 10; Some 20; Some 30]%R) /\
    answer env (OGetValues vi) s' = Ok (VArr xs).
Proof.
  exists ex_env, (ex agg_history), 4, 0. eexists. exists 0, 1. eexists.
  split; [exact ex_good|]. split; [apply ex_reachable|]. split; [is_view|]. split; [calc|].
  split; [discriminate|]. split; [calc|]. split; [calc|]. split; [calc|].
  cbv zeta. intros x y z. split; [calc|]. split; calc.
Qed.
Print Assumptions C15_always_fresh_refuted.

(** C15, what holds: the first read of an aggregated view, whatever happened between its request
    and that read, returns the sum over the leaves of what each of them holds at that moment, in
    the unit and at the time points of the view; if some leaf is empty or cannot be converted,
    that error is raised.  Missing: later reads, see C15_later_reads_repeat. *)
Theorem C15_first_read_partial env s o n r t u tp vi :
  reachable env s -> requests o n r t (Some u) (Some tp) -> answer env o s = Ok (VView vi) ->
  let s1 := after env o s in
  forall p q, views s1 vi p -> nth_error (st_params s1) p = Some q -> p_children q <> [] ->
  exists ls, NoDup ls /\ (forall i, In i ls <-> leaf_of s1 p i) /\
  forall h, Forall (fun o => works_on o <> Some vi) h -> let s2 := run env s1 h in
    exists v rs x, nth_error (st_views s2) vi = Some v /\ v_unit v = u /\ tc_target (v_tconv v) = tp_ticks tp /\
      tc_type (v_tconv v) = t /\
      Forall2 (shows env s2 v) ls rs /\ summed rs x /\
      answer env (OGetValues vi) s2 = match x with Ok xs => Ok (VArr xs) | Err e => Err e end.
Proof. exact (C15_proof env s o n r t u tp vi). Qed.
Print Assumptions C15_first_read_partial.

(** C15: why it fails, for every history: after one successful read, an aggregated view returns
    the same array for ever, whatever is written to the leaves (unless the view itself is
    written by item assignment or [unlock], see C04). *)
Theorem C15_later_reads_repeat env h s vi p q xs :
  reachable env s -> ts_view s vi p -> nth_error (st_params s) p = Some q ->
  p_children q <> [] -> answer env (OGetValues vi) s = Ok (VArr xs) ->
  no_sneaky env (after env (OGetValues vi) s) h p ->
  answer env (OGetValues vi) (run env (after env (OGetValues vi) s) h) = Ok (VArr xs).
Proof. exact (C15_frozen env h s vi p q xs). Qed.
Print Assumptions C15_later_reads_repeat.

Example C15_instance :
  let s := ex [pts (HStr "Top|a") "K" yrs3; pts (HStr "Top|b") "degC" yrs3] in
  let o := pts (HStr "Top") "K" yrs3 in
  let s1 := after ex_env o s in
  requests o (HStr "Top") W_ POINT_TIMESERIES (Some "K") (Some yrs3) /\
  answer ex_env o s = Ok (VView 4) /\ views s1 4 0 /\
  (exists q, nth_error (st_params s1) 0 = Some q /\ p_children q <> []) /\
  let h := [OSetValues 0 (fl [1; 2; 3]%R); OGetValues 0; OSetValues 1 (fl [4; 5; 6]%R)] in
  Forall (fun o => works_on o <> Some 4) h /\ succeeds ex_env (OGetValues 4) (run ex_env s1 h) /\
  no_sneaky ex_env (after ex_env (OGetValues 4) (run ex_env s1 h)) [OSetValues 0 (fl [9; 9; 9]%R); OSetValues 4 (fl [0; 0; 0]%R)] 0.
Proof.
  cbv zeta. split.
  { unfold requests, pts. repeat split; try reflexivity; eexists; reflexivity. }
  split; [calc|]. split; [is_view|]. split; [eexists; split; [calc|discriminate]|].
  split; [repeat constructor; discriminate|]. split; [eexists; calc|].
  split; [discriminate|]. split; [discriminate|exact I].
Qed.

(** ** C16 *)
(** C16 does not hold: a rejected write of wrong length makes a parameter that has never been
    written non-empty; reading it gave ParameterEmptyError before and succeeds (with NaN)
    afterwards. *)
Theorem C16_no_effect_refuted : exists env s vi p q q' a,
  good_env env /\ reachable env s /\ ts_view s vi p /\ nth_error (st_params s) p = Some q /\
  answer env (OSetValues vi a) s = Err ETimeseriesMismatch /\
  nth_error (st_params (after env (OSetValues vi a) s)) p = Some q' /\
  param_empty q = true /\ param_empty q' = false /\
  answer env (OGetValues vi) s = Err EParameterEmpty /\
  answer env (OGetValues vi) (after env (OSetValues vi a) s) = Ok (VArr [None; None; None]).
Proof.
  exists ex_env, (ex [pts (HStr "A") "K" yrs3]), 0, 0. do 2 eexists. exists (fl [1; 2]%R).
  split; [exact ex_good|]. split; [apply ex_reachable|]. split; [is_view|]. split; [calc|].
  split; [calc|]. split; [calc|]. split; [reflexivity|]. split; [reflexivity|]. split; calc.
Qed.
Print Assumptions C16_no_effect_refuted.

(** C16: for views of parameters without sub-parameters the error is raised exactly for the
    wrong lengths. *)
Theorem C16_raised_for_wrong_length env s vi v q a :
  reachable env s -> nth_error (st_views s) vi = Some v -> v_public v = true -> v_kind v = KTimeseries ->
  nth_error (st_params s) (v_param v) = Some q -> p_children q = [] ->
  (answer env (OSetValues vi a) s = Err ETimeseriesMismatch <-> Z.of_nat (length (a_val a)) <> view_length v).
Proof. exact (C16_raises env s vi v q a). Qed.
Print Assumptions C16_raised_for_wrong_length.

(** C16, what holds: if the parameter has been written before, the rejected write changes no
    parameter, and every later history gets the same answers as without it. *)
Theorem C16_no_effect_partial env s vi v q a :
  reachable env s -> nth_error (st_views s) vi = Some v -> v_public v = true -> v_kind v = KTimeseries ->
  nth_error (st_params s) (v_param v) = Some q -> p_children q = [] ->
  Z.of_nat (length (a_val a)) <> view_length v -> p_written q = true ->
  st_params (after env (OSetValues vi a) s) = st_params s /\
  forall h, answers env (after env (OSetValues vi a) s) h = answers env s h.
Proof. exact (C16_no_effect env s vi v q a). Qed.
Print Assumptions C16_no_effect_partial.

(** C16, what holds otherwise: nothing but the parameter's written flag (and the view's record
    of it) changes. *)
Theorem C16_only_flag_partial env s vi v q a :
  reachable env s -> nth_error (st_views s) vi = Some v -> v_public v = true -> v_kind v = KTimeseries ->
  nth_error (st_params s) (v_param v) = Some q -> p_children q = [] ->
  Z.of_nat (length (a_val a)) <> view_length v ->
  let s' := after env (OSetValues vi a) s in
  (exists q', nth_error (st_params s') (v_param v) = Some q' /\ p_written q' = true /\ p_data q' = p_data q /\
     p_version q' = p_version q /\ p_type q' = p_type q /\ p_unit q' = p_unit q /\ p_time q' = p_time q /\
     p_children q' = p_children q) /\
  (forall i, i <> v_param v -> nth_error (st_params s') i = nth_error (st_params s) i) /\
  st_regions s' = st_regions s /\
  (exists v', nth_error (st_views s') vi = Some v' /\ v_data v' = v_data v /\ v_version v' = v_version v /\
     v_locked v' = v_locked v) /\
  (forall i, i <> vi -> nth_error (st_views s') i = nth_error (st_views s) i).
Proof. exact (C16_first env s vi v q a). Qed.
Print Assumptions C16_only_flag_partial.

Example C16_instance :
  let s := ex [avg (HStr "A") "K" yrs; OSetValues 0 (fl [1; 2; 3]%R)] in
  exists v q, nth_error (st_views s) 0 = Some v /\ v_public v = true /\ v_kind v = KTimeseries /\
    nth_error (st_params s) (v_param v) = Some q /\ p_children q = [] /\ p_written q = true /\
    Z.of_nat (length (a_val (fl [1; 2; 3; 4]%R))) <> view_length v /\
    Z.of_nat (length (a_val (fl [1; 2; 3]%R))) = view_length v.
Proof.
  cbv zeta. do 2 eexists. split; [calc|]. split; [reflexivity|]. split; [reflexivity|]. split; [calc|].
  split; [reflexivity|]. split; [reflexivity|]. split; [discriminate|reflexivity].
Qed.

(** ** C17 *)
(** C17 does not hold for integer arrays: after [values = [1, 2, 3]] (integers),
    [values[0] = 2.5] makes the view read 2, 2, 3. *)
Theorem C17_integer_item_refuted : exists env s vi p,
  good_env env /\ reachable env s /\ ts_view s vi p /\
  answer env (OGetValues vi) s = Ok (VArr [Some 1; Some 2; Some 3]%R) /\
  answer env (OSetItem vi 0 (Some (5 / 2)%R)) s = Ok VUnit /\
  answer env (OGetValues vi) (after env (OSetItem vi 0 (Some (5 / 2)%R)) s) = Ok (VArr [Some 2; Some 2; Some 3]%R).
Proof.
  exists ex_env, (ex [pts (HStr "A") "K" yrs3; OSetValues 0 (ints [1; 2; 3]%R)]), 0, 0.
  split; [exact ex_good|]. split; [apply ex_reachable|]. split; [is_view|]. split; [calc|]. split; [calc|].
  assert (T : Rtrunc (5 / 2) = 2%R).
  { unfold Rtrunc. destruct (Rle_dec 0 (5 / 2)) as [H|H]; [|exfalso; lra].
    assert (Int_part (5 / 2) = 2%Z) as ->; [|reflexivity].
    destruct (base_Int_part (5 / 2)) as [A B].
    assert (2 - 1 < Int_part (5 / 2) < 3)%Z; [|lia].
    split; apply lt_IZR; simpl; lra. }
  etransitivity; [eval_ex; reflexivity|]. rewrite T. reflexivity.
Qed.
Print Assumptions C17_integer_item_refuted.

(** C17, what holds: along every history that assigns no integer array to the view, an item
    assignment on an unlocked view of a parameter without sub-parameters behaves, for the
    answer, the parameters, the next read and all later histories, like assigning the array that
    was last read with item [i] replaced. *)
Theorem C17_item_is_whole_write_partial env root h vi v q xs i j x ys :
  let s := run env (init_state root) h in
  floats h vi -> nth_error (st_views s) vi = Some v -> v_public v = true -> v_kind v = KTimeseries ->
  nth_error (st_params s) (v_param v) = Some q -> p_children q = [] -> v_locked v = false ->
  answer env (OGetValues vi) s = Ok (VArr xs) -> position (length xs) i j -> replaced xs j x ys ->
  answer env (OSetItem vi i x) s = answer env (OSetValues vi (mkArr false ys)) s /\
  (succeeds env (OSetItem vi i x) s ->
     st_params (after env (OSetItem vi i x) s) = st_params (after env (OSetValues vi (mkArr false ys)) s) /\
     answer env (OGetValues vi) (after env (OSetItem vi i x) s) = Ok (VArr ys) /\
     forall h', answers env (after env (OSetItem vi i x) s) h' =
                answers env (after env (OSetValues vi (mkArr false ys)) s) h').
Proof. exact (C17_proof env root h vi v q xs i j x ys). Qed.
Print Assumptions C17_item_is_whole_write_partial.

Example C17_instance :
  let h := two_views ++ [OSetValues 0 (fl [1; 2; 3]%R); OSetValues 1 (fl [4; 5; 6]%R); OSetValues 0 (fl [7; 8; 9]%R)] in
  let s := ex h in
  floats h 0 /\ (exists v q, nth_error (st_views s) 0 = Some v /\ v_public v = true /\ v_kind v = KTimeseries /\
    nth_error (st_params s) (v_param v) = Some q /\ p_children q = [] /\ v_locked v = false) /\
  answer ex_env (OGetValues 0) s = Ok (VArr [Some 7; Some 8; Some 9]%R) /\
  position 3 (-1) 2 /\ replaced [Some 7; Some 8; Some 9]%R 2 (Some 0%R) [Some 7; Some 8; Some 0]%R /\
  succeeds ex_env (OSetItem 0 (-1) (Some 0%R)) s.
Proof.
  cbv zeta. split.
  { intros a H. simpl in H. repeat (destruct H as [H|H]; [inversion H; reflexivity|]). destruct H. }
  split; [do 2 eexists; split; [calc|]; split; [reflexivity|]; split; [reflexivity|]; split; [calc|]; split; reflexivity|]. split; [calc|].
  split; [split; lia|]. split; [exists [Some 7; Some 8]%R, (Some 9%R), []; auto|]. eexists; calc.
Qed.

(** ** C18 *)
(** C18 does not hold: after another view has written, conversion of the held array to a NumPy
    array (and arithmetic, comparison) still gives the old values while indexing gives new ones;
    the indexed items do not depend on the old values at all. *)
Theorem C18_stale_array_refuted : exists env s vi w p,
  good_env env /\ reachable env s /\ ts_view s vi p /\ ts_view s w p /\
  forall x y z, let s' := after env (OSetValues w (fl [x; y; z])) s in
    answer env (OSetValues w (fl [x; y; z])) s = Ok VUnit /\
    answer env (OHandleArray vi) s' = Ok (VArr [Some 10; Some 20; Some 30]%R) /\
    exists ys, answer env (OGetValues vi) s' = Ok (VArr ys) /\
      Forall2 (fun x y => same_num env "K" x "K" y) (map Some [x; y; z]) ys.
Proof.
  exists ex_env, (ex (two_views ++ [OSetValues 0 (fl [10; 20; 30]%R)])), 0, 1, 0.
  split; [exact ex_good|]. split; [apply ex_reachable|]. split; [is_view|]. split; [is_view|].
  intros x y z. cbv zeta. split; [calc|]. split; [calc|].
  pose (h1 := two_views ++ [OSetValues 0 (fl [10; 20; 30]%R)]).
  destruct (C14_same_time_points_partial ex_env "World" h1 (fl [x; y; z]) [] 0 1 0 "K" "K" [0; 10; 20]%Z [x; y; z] (answer ex_env (OGetValues 0) (after ex_env (OSetValues 1 (fl [x; y; z])) (ex h1))))
    as (zs & A & F).
  - exact ex_good.
  - unfold h1, two_views. tidy_all.
  - is_view.
  - calc.
  - exact I.
  - eexists; split; [calc|reflexivity].
  - repeat constructor; lia.
  - do 3 eexists; split; [calc|]; split; [reflexivity|]; split; [reflexivity|]; split; [calc|]; split; reflexivity.
  - is_view.
  - discriminate.
  - eexists; split; [calc|repeat split; reflexivity].
  - reflexivity.
  - reflexivity.
  - exists (map Some zs). split; [exact A|]. clear - F. induction F; simpl; constructor; auto.
Qed.
Print Assumptions C18_stale_array_refuted.

(** C18 does not hold: assigning one item through the held array replaces the other view's
    write altogether, whatever it was, by the old values with that item changed. *)
Theorem C18_undoes_write_refuted : exists env s vi w p,
  good_env env /\ reachable env s /\ ts_view s vi p /\ ts_view s w p /\
  forall x y z, let s1 := after env (OSetValues w (fl [x; y; z])) s in
    let s2 := after env (OHandleSet vi 0 (Some 11%R)) s1 in
    answer env (OSetValues w (fl [x; y; z])) s = Ok VUnit /\
    answer env (OHandleSet vi 0 (Some 11%R)) s1 = Ok VUnit /\
    answer env (OGetValues vi) s2 = Ok (VArr [Some 11; Some 20; Some 30]%R).
Proof.
  exists ex_env, (ex (two_views ++ [OSetValues 0 (fl [10; 20; 30]%R)])), 0, 1, 0.
  split; [exact ex_good|]. split; [apply ex_reachable|]. split; [is_view|]. split; [is_view|].
  intros x y z. cbv zeta. split; [calc|]. split; calc.
Qed.
Print Assumptions C18_undoes_write_refuted.

(** C18, what holds: as long as nobody writes to the parameter after the view has been read, the
    held array and the view agree in everything. *)
Theorem C18_coherent_without_writes_partial env s vi p xs h :
  reachable env s -> ts_view s vi p -> answer env (OGetValues vi) s = Ok (VArr xs) ->
  let s1 := after env (OGetValues vi) s in
  no_writes env s1 h p ->
  let s2 := run env s1 h in
  answer env (OHandleArray vi) s2 = Ok (VArr xs) /\ answer env (OGetValues vi) s2 = Ok (VArr xs) /\
  after env (OHandleArray vi) s2 = s2 /\ after env (OGetValues vi) s2 = s2 /\
  (forall i x, step env (OHandleSet vi i x) s2 = step env (OSetItem vi i x) s2).
Proof. exact (C18_fresh env s vi p xs h). Qed.
Print Assumptions C18_coherent_without_writes_partial.

(** C18, what holds: in every state, indexing through the held array agrees with reading the
    view and indexing the result. *)
Theorem C18_indexing_partial env s vi p i :
  reachable env s -> ts_view s vi p -> succeeds env (OHandleArray vi) s ->
  after env (OHandleGet vi i) s = after env (OGetValues vi) s /\
  (forall e, answer env (OGetValues vi) s = Err e -> answer env (OHandleGet vi i) s = Err e) /\
  (forall xs, answer env (OGetValues vi) s = Ok (VArr xs) ->
     (forall j, position (length xs) i j -> exists x, nth_error xs j = Some x /\ answer env (OHandleGet vi i) s = Ok (VNum x)) /\
     ((forall j, ~ position (length xs) i j) -> answer env (OHandleGet vi i) s = Err EIndexError)).
Proof. exact (C18_index env s vi p i). Qed.
Print Assumptions C18_indexing_partial.

Example C18_instance :
  let s := ex (two_views ++ [OSetValues 1 (fl [4; 5; 6]%R)]) in
  ts_view s 1 0 /\ answer ex_env (OGetValues 1) s = Ok (VArr [Some 4; Some 5; Some 6]%R) /\
  no_writes ex_env (after ex_env (OGetValues 1) s) [OGetValues 0; OScalar (HStr "B") "K" W_; OSetValue 2 (Some 1%R)] 0 /\
  succeeds ex_env (OHandleArray 1) s.
Proof.
  cbv zeta. split; [is_view|]. split; [calc|]. split; [|eexists; calc].
  split; [quiet|]. split; [quiet|]. split; [|exact I].
  intros (vi & T & v & V & _ & P). inversion T; subst. eval_in V. inversion V; subst. discriminate.
Qed.

(** ** C19 *)
(** C19 does not hold: lock, assign, read on a fresh view: the read raises AttributeError;
    without the lock it returns what was assigned. *)
Theorem C19_lock_first_refuted : exists env s vi p a,
  good_env env /\ reachable env s /\ ts_view s vi p /\
  answer env (OGetValues vi) (run env s [OSetValues vi a]) = Ok (VArr (a_val a)) /\
  answer env (OGetValues vi) (run env s [OLock vi; OSetValues vi a]) = Err EAttributeError.
Proof.
  exists ex_env, (ex [pts (HStr "A") "K" yrs3]), 0, 0, (fl [1; 2; 3]%R).
  split; [exact ex_good|]. split; [apply ex_reachable|]. split; [is_view|]. split; calc.
Qed.
Print Assumptions C19_lock_first_refuted.

(** C19 does not hold: [lock(); unlock()] on a view that has never been read or written raises
    TypeError. *)
Theorem C19_unlock_fresh_refuted : exists env s vi p,
  good_env env /\ reachable env s /\ ts_view s vi p /\
  answer env (OUnlock vi) (after env (OLock vi) s) = Err ETypeError.
Proof.
  exists ex_env, (ex [pts (HStr "A") "K" yrs3]), 0, 0.
  split; [exact ex_good|]. split; [apply ex_reachable|]. split; [is_view|]. calc.
Qed.
Print Assumptions C19_unlock_fresh_refuted.

(** C19 does not hold: if another view has written since the last read, a write through the
    locked view is lost at the next read through it: the result does not depend on it. *)
Theorem C19_own_write_lost_refuted : exists env s vi p ys,
  good_env env /\ reachable env s /\ ts_view s vi p /\
  forall x y z, let s1 := run env s [OLock vi; OSetValues vi (fl [x; y; z])] in
    answer env (OGetValues vi) s1 = Ok (VArr ys).
Proof.
  exists ex_env, (ex (two_views ++ [OSetValues 0 (fl [10; 20; 30]%R); OSetValues 1 (fl [4; 5; 6]%R)])), 0, 0.
  eexists. split; [exact ex_good|]. split; [apply ex_reachable|]. split; [is_view|].
  intros x y z. cbv zeta. calc.
Qed.
Print Assumptions C19_own_write_lost_refuted.

(** C19, what holds: if the view has been read before it is locked and nobody else acts in
    between, any sequence of reads, assignments, item assignments and uses of the held array
    gives the same answers locked and unlocked, and after [unlock] (when it succeeds) parameter,
    view and later reads are as without locking; the version counts one write. *)
Theorem C19_locking_batches_partial env s0 vi p q h xs :
  reachable env s0 -> ts_view s0 vi p -> nth_error (st_params s0) p = Some q -> p_children q = [] ->
  answer env (OGetValues vi) s0 = Ok (VArr xs) ->
  let s := after env (OGetValues vi) s0 in
  (exists v, nth_error (st_views s) vi = Some v /\ v_locked v = false) ->
  Forall (fun o => uses o vi) h ->
  let su := run env s h in
  let sk := run env (after env (OLock vi) s) h in
  let sl := after env (OUnlock vi) sk in
  succeeds env (OUnlock vi) sk ->
  answers env (after env (OLock vi) s) h = answers env s h /\
  (exists qu ql, nth_error (st_params su) p = Some qu /\ nth_error (st_params sl) p = Some ql /\
     p_version ql = S (p_version q) /\
     (p_version qu <> p_version q -> p_data ql = p_data qu) /\ (p_version qu = p_version q -> p_data qu = p_data q) /\
     p_written ql = p_written qu /\ p_read ql = p_read qu /\ p_type ql = p_type qu /\ p_unit ql = p_unit qu /\
     p_time ql = p_time qu /\ p_children ql = p_children qu) /\
  answer env (OGetValues vi) sl = answer env (OGetValues vi) su /\
  answer env (OHandleArray vi) sl = answer env (OHandleArray vi) su /\
  (exists vu vl, nth_error (st_views su) vi = Some vu /\ nth_error (st_views sl) vi = Some vl /\
     v_locked vu = false /\ v_locked vl = false /\ v_data vu = v_data vl) /\
  (forall i, i <> p -> nth_error (st_params sl) i = nth_error (st_params su) i) /\
  (forall i, i <> vi -> nth_error (st_views sl) i = nth_error (st_views su) i) /\
  st_regions sl = st_regions su.
Proof. exact (C19_proof env s0 vi p q h xs). Qed.
Print Assumptions C19_locking_batches_partial.

Example C19_instance :
  let s0 := ex (two_views ++ [OSetValues 0 (fl [1; 2; 3]%R)]) in
  let s := after ex_env (OGetValues 0) s0 in
  let h := [OSetItem 0 0 (Some 9%R); OSetValues 0 (fl [4; 5; 6]%R); OGetValues 0; OHandleSet 0 (-1) (Some 8%R)] in
  ts_view s0 0 0 /\ (exists q, nth_error (st_params s0) 0 = Some q /\ p_children q = []) /\
  answer ex_env (OGetValues 0) s0 = Ok (VArr [Some 1; Some 2; Some 3]%R) /\
  (exists v, nth_error (st_views s) 0 = Some v /\ v_locked v = false) /\
  Forall (fun o => uses o 0) h /\ succeeds ex_env (OUnlock 0) (run ex_env (after ex_env (OLock 0) s) h).
Proof.
  cbv zeta. split; [is_view|]. split; [eexists; split; [calc|reflexivity]|]. split; [calc|].
  split; [eexists; split; [calc|reflexivity]|]. split; [repeat constructor|eexists; calc].
Qed.

(** ** C20 *)
(** C20 does not hold: view 0 wrote 10, 20, 30, then view 1 wrote anything else.  Locking and
    unlocking view 0 restores the data of the first write. *)
Theorem C20_lock_unlock_refuted : exists env s vi w p,
  good_env env /\ reachable env s /\ ts_view s vi p /\ ts_view s w p /\
  answer env (OGetValues vi) s = Ok (VArr [Some 10; Some 20; Some 30]%R) /\
  forall x y z, let s1 := after env (OSetValues w (fl [x; y; z])) s in
    let s2 := run env s1 [OLock vi; OUnlock vi] in
    answer env (OSetValues w (fl [x; y; z])) s = Ok VUnit /\
    answer env (OUnlock vi) (after env (OLock vi) s1) = Ok VUnit /\
    (exists q q2, nth_error (st_params s) p = Some q /\ nth_error (st_params s2) p = Some q2 /\ p_data q2 = p_data q) /\
    answer env (OGetValues vi) s2 = Ok (VArr [Some 10; Some 20; Some 30]%R).
Proof.
  exists ex_env, (ex (two_views ++ [OSetValues 0 (fl [10; 20; 30]%R)])), 0, 1, 0.
  split; [exact ex_good|]. split; [apply ex_reachable|]. split; [is_view|]. split; [is_view|]. split; [calc|].
  intros x y z. cbv zeta. split; [calc|]. split; [calc|]. split; [|calc].
  do 2 eexists. split; [calc|]. split; [calc|]. reflexivity.
Qed.
Print Assumptions C20_lock_unlock_refuted.

(** C20, what holds: while a view is locked, no call on it except [unlock] changes the data or
    the version of its parameter. *)
Theorem C20_locked_is_quiet_partial env s vi p v q o :
  reachable env s -> nth_error (st_views s) vi = Some v -> v_public v = true ->
  v_kind v = KTimeseries -> v_param v = p -> v_locked v = true -> nth_error (st_params s) p = Some q ->
  works_on o = Some vi -> o <> OUnlock vi ->
  exists q', nth_error (st_params (after env o s)) p = Some q' /\ p_data q' = p_data q /\ p_version q' = p_version q.
Proof. exact (C20_quiet env s vi p v q o). Qed.
Print Assumptions C20_locked_is_quiet_partial.

(** C20, what holds: in the setting of C14 (a write through [v0] and no later one), reading a
    view and then locking and unlocking it leaves the parameter's data exactly as it was, if the
    view is the one that wrote, or is at the parameter's own time points and the data contain no
    NaN.  Missing: views that have not been read since the last write (refutation), views on
    other time points (their unlock writes re-interpolated data). *)
Theorem C20_lock_unlock_partial env root h1 o h2 p v0 w wv q ys :
  let s1 := run env (init_state root) h1 in let s2 := after env o s1 in let s3 := run env s2 h2 in
  tidy_run env (init_state root) (h1 ++ o :: h2) p ->
  ts_view s1 v0 p -> write_target o = Some v0 -> stores env s1 o p = true -> no_writes env s2 h2 p ->
  (exists q, nth_error (st_params s1) p = Some q /\ p_children q = []) ->
  nth_error (st_views s3) w = Some wv -> ts_view s3 w p -> nth_error (st_params s3) p = Some q ->
  w = v0 \/
  (good_env env /\ (exists tp, p_time q = Some tp /\ tp_ticks tp = tc_target (v_tconv wv)) /\
   increasing (tc_target (v_tconv wv)) /\
   forall l, p_data q = Some (PArr l) -> forall x, In x l -> x <> None) ->
  answer env (OGetValues w) s3 = Ok (VArr ys) ->
  let s4 := run env s3 [OGetValues w; OLock w] in
  answer env (OUnlock w) s4 = Ok VUnit /\
  exists q', nth_error (st_params (after env (OUnlock w) s4)) p = Some q' /\ p_data q' = p_data q.
Proof. exact (C20_pair env root h1 o h2 p v0 w wv q ys). Qed.
Print Assumptions C20_lock_unlock_partial.

(** The history of [C14_instance] also meets the hypotheses here, with view 1 in degrees. *)
Example C20_instance :
  let h1 := [pts (HStr "A") "K" yrs3; pts (HStr "A") "degC" yrs3; OSetValues 1 (fl [7; 7; 7]%R); OGetValues 0] in
  let s3 := ex (h1 ++ OSetValues 0 (fl [280; 290; 300]%R) :: [OGetValues 1; OGetValues 0]) in
  (exists wv q, nth_error (st_views s3) 1 = Some wv /\ nth_error (st_params s3) 0 = Some q /\
    (exists tp, p_time q = Some tp /\ tp_ticks tp = tc_target (v_tconv wv)) /\
    increasing (tc_target (v_tconv wv)) /\
    forall l, p_data q = Some (PArr l) -> forall x, In x l -> x <> None) /\
  (exists ys, answer ex_env (OGetValues 1) s3 = Ok (VArr ys)) /\
  exists v, nth_error (st_views (after ex_env (OLock 1) s3)) 1 = Some v /\ v_public v = true /\
    v_kind v = KTimeseries /\ v_param v = 0 /\ v_locked v = true.
Proof.
  cbv zeta. split.
  { do 2 eexists. split; [calc|]. split; [calc|]. split; [eexists; split; reflexivity|].
    split; [repeat constructor; lia|]. simpl. intros l H. inversion H; subst. simpl. intros x X.
    repeat (destruct X as [<-|X]; [discriminate|]). destruct X. }
  split; [eexists; calc|]. eexists. split; [calc|]. repeat split; reflexivity.
Qed.

(** ** C21 *)
(** C21 does not hold: three failing requests after which a request fails that would have
    succeeded. *)
Theorem C21_unknown_unit_refuted : exists env s o o' vi,
  good_env env /\ reachable env s /\ asks o (HStr "A") W_ /\ asks o' (HStr "A") W_ /\
  answer env o s = Err EUndefinedUnit /\ answer env o' s = Ok (VView vi) /\
  answer env o' (after env o s) = Err EUndefinedUnit.
Proof.
  exists ex_env, (ex []), (OScalar (HStr "A") "foo" W_), (OScalar (HStr "A") "K" W_), 0.
  split; [exact ex_good|]. split; [apply ex_reachable|]. split; [split; reflexivity|]. split; [split; reflexivity|].
  split; [calc|]. split; calc.
Qed.
Print Assumptions C21_unknown_unit_refuted.

Theorem C21_generic_of_parent_refuted : exists env s o o' vi,
  good_env env /\ reachable env s /\ asks o (HStr "A") W_ /\ asks o' (HStr "A") W_ /\
  answer env o s = Err EParameterAggregation /\ answer env o' s = Ok (VView vi) /\
  answer env o' (after env o s) = Err EParameterType.
Proof.
  exists ex_env, (ex [OScalar (HStr "A|b") "K" W_]), (OGeneric (HStr "A") W_), (OScalar (HStr "A") "K" W_), 2.
  split; [exact ex_good|]. split; [apply ex_reachable|]. split; [split; reflexivity|]. split; [split; reflexivity|].
  split; [calc|]. split; calc.
Qed.
Print Assumptions C21_generic_of_parent_refuted.

Theorem C21_no_periods_refuted : exists env s o o' vi,
  good_env env /\ reachable env s /\ asks o (HStr "A") W_ /\ asks o' (HStr "A") W_ /\
  answer env o s = Err EValueError /\ answer env o' s = Ok (VView vi) /\
  answer env o' (after env o s) = Err EAttributeError.
Proof.
  exists ex_env, (ex []), (avg (HStr "A") "K" (mkTP 1 [])), (avg (HStr "A") "K" yrs), 0.
  split; [exact ex_good|]. split; [apply ex_reachable|]. split; [split; reflexivity|]. split; [split; reflexivity|].
  split; [calc|]. split; calc.
Qed.
Print Assumptions C21_no_periods_refuted.

(** C21, what holds: a failing request leaves the state exactly as it was if one of its enum
    arguments is invalid, or it raises ParameterReadError, ParameterWrittenError or
    ParameterTypeError, or any request for that parameter has ever succeeded.
    Missing: failing requests for parameters nobody has got a view of. *)
Theorem C21_no_effect_partial env s o n r e :
  reachable env s -> asks o n r -> answer env o s = Err e -> hcomponents n <> [] ->
  (forall t u tp, ~ requests o n r t u tp) \/
  (e = EParameterRead \/ e = EParameterWritten \/ e = EParameterType) \/
  (exists root h1 o' n' r' vi h2, s = run env (after env o' (run env (init_state root) h1)) h2 /\
     asks o' n' r' /\ same_name n' n /\ same_name r' r /\ answer env o' (run env (init_state root) h1) = Ok (VView vi)) ->
  after env o s = s.
Proof. exact (C21_proof env s o n r e). Qed.
Print Assumptions C21_no_effect_partial.

(** C21, what holds for every failing request: no view changes, and no parameter that has a type
    changes its data, version, written flag, type, unit or time points. *)
Theorem C21_data_kept_partial env s o n r e :
  reachable env s -> asks o n r -> answer env o s = Err e ->
  st_views (after env o s) = st_views s /\
  forall i q, nth_error (st_params s) i = Some q -> p_type q <> None ->
    exists q', nth_error (st_params (after env o s)) i = Some q' /\ p_data q' = p_data q /\
      p_version q' = p_version q /\ p_written q' = p_written q /\ p_type q' = p_type q /\
      p_unit q' = p_unit q /\ p_time q' = p_time q.
Proof. exact (C21_kept_proof env s o n r e). Qed.
Print Assumptions C21_data_kept_partial.

Example C21_instance :
  let s := ex [OScalar (HStr "A") "K" W_; OSetValue 0 (Some 1%R); OGeneric (HStr "B") W_] in
  answer ex_env (OScalar (HStr "A") "W" W_) s = Err EDimensionality /\
  answer ex_env (OScalar (HStr "A|b") "K" W_) s = Err EParameterWritten /\
  answer ex_env (OScalar (HStr "B|b") "K" W_) s = Err EParameterRead /\
  answer ex_env (OGeneric (HStr "A") W_) s = Err EParameterType /\
  (exists root h1 o' n' r' vi h2, s = run ex_env (after ex_env o' (run ex_env (init_state root) h1)) h2 /\
     asks o' n' r' /\ same_name n' (HStr "A") /\ same_name r' W_ /\
     answer ex_env o' (run ex_env (init_state root) h1) = Ok (VView vi)) /\
  exists q, nth_error (st_params s) 0 = Some q /\ p_type q <> None.
Proof.
  cbv zeta. split; [calc|]. split; [calc|]. split; [calc|]. split; [calc|]. split.
  - exists "World", [], (OScalar (HStr "A") "K" W_), (HStr "A"), W_, 0, [OSetValue 0 (Some 1%R); OGeneric (HStr "B") W_].
    split; [reflexivity|]. split; [split; reflexivity|]. split; [reflexivity|]. split; [reflexivity|calc].
  - eexists. split; [calc|discriminate].
Qed.

(** ** C22 *)
(** C22 does not hold: for every reachable state and every parameter with sub-parameters that
    has no type yet, the first request raises, and the second one succeeds. *)
Theorem C22_repeated_request_succeeds env s n r q :
  reachable env s -> reports env s n r q -> p_children q <> [] -> p_type q = None ->
  answer env (OGeneric n r) s = Err EParameterAggregation /\
  succeeds env (OGeneric n r) (after env (OGeneric n r) s).
Proof. exact (C22_again_proof env s n r q). Qed.
Print Assumptions C22_repeated_request_succeeds.

Theorem C22_always_raises_refuted : exists env s n r q vi,
  good_env env /\ reachable env s /\ reports env s n r q /\ p_children q <> [] /\
  answer env (OGeneric n r) s = Ok (VView vi).
Proof.
  exists ex_env, (ex [OScalar (HStr "A|b") "K" W_; OGeneric (HStr "A") W_]), (HStr "A"), W_. do 2 eexists.
  split; [exact ex_good|]. split; [apply ex_reachable|]. split; [exists 0; split; calc|].
  split; [discriminate|calc].
Qed.
Print Assumptions C22_always_raises_refuted.

(** C22, what holds: unless an earlier (failed) request has made the parameter generic, the
    request raises ParameterAggregationError or, if it has another type, ParameterTypeError. *)
Theorem C22_raises_partial env s n r q :
  reachable env s -> reports env s n r q -> p_children q <> [] -> p_type q <> Some GENERIC ->
  answer env (OGeneric n r) s = Err (if p_type q then EParameterType else EParameterAggregation).
Proof. exact (C22_first_proof env s n r q). Qed.
Print Assumptions C22_raises_partial.

(** C22, what holds: a generic view of a parameter with sub-parameters, however obtained, can
    neither be read nor written. *)
Theorem C22_view_is_useless_partial env s vi p q :
  reachable env s -> generic_view s vi p -> nth_error (st_params s) p = Some q -> p_children q <> [] ->
  answer env (OGetGeneric vi) s = Err EParameterEmpty /\
  forall g, answer env (OSetGeneric vi g) s = Err EParameterReadonly.
Proof. exact (C22_useless_proof env s vi p q). Qed.
Print Assumptions C22_view_is_useless_partial.

Example C22_instance :
  let s := ex [OScalar (HStr "A|b") "K" W_] in
  (exists q, reports ex_env s (HStr "A") W_ q /\ p_children q <> [] /\ p_type q = None) /\
  let s' := ex [OScalar (HStr "A|b") "K" W_; OGeneric (HStr "A") W_; OGeneric (HStr "A") W_] in
  exists q, generic_view s' 1 0 /\ nth_error (st_params s') 0 = Some q /\ p_children q <> [].
Proof.
  cbv zeta. split.
  - eexists. split; [exists 0; split; calc|]. split; [discriminate|reflexivity].
  - eexists. split; [is_view|]. split; [calc|discriminate].
Qed.

(** ** C29 for views *)
(** A successful read has the view's length. *)
Theorem C29_read_length env s vi v xs :
  reachable env s -> nth_error (st_views s) vi = Some v -> v_kind v = KTimeseries ->
  answer env (OGetValues vi) s = Ok (VArr xs) -> Z.of_nat (length xs) = view_length v.
Proof. exact (C29_read_proof env s vi v xs). Qed.
Print Assumptions C29_read_length.

Example C29_read_instance :
  let s := ex (agg_history ++ [OGetValues 4]) in
  exists v xs, nth_error (st_views s) 4 = Some v /\ v_kind v = KTimeseries /\
    answer ex_env (OGetValues 4) s = Ok (VArr xs) /\ view_length v = 3%Z.
Proof. cbv zeta. do 2 eexists. split; [calc|]. split; [reflexivity|]. split; [calc|reflexivity]. Qed.
