(** C01, C02, C03, C05, C06: names, types and children in the parameter store.
    Vocabulary: [Spec_Core.v]. *)
From Coq Require Import String List ZArith Reals Bool.
From Verif Require Import Base Units TimeModel Core Spec_Core CoreP1 Examples.
Import ListNotations.
Local Open Scope string_scope.
Local Open Scope list_scope.

(** C01: whatever is done afterwards ([h]), the reported type stays [t], and every request
    for a view of another type raises ParameterTypeError. *)
Theorem C01_type_never_changes env s n r q t :
  reachable env s -> reports env s n r q -> p_type q = Some t ->
  forall h,
  (exists q', reports env (run env s h) n r q' /\ p_type q' = Some t) /\
  (forall o n' r' t' u tp, requests o n' r' t' u tp -> same_name n' n -> same_name r' r ->
     t' <> t -> answer env o (run env s h) = Err EParameterType).
Proof. exact (C01_stable env s n r q t). Qed.
Print Assumptions C01_type_never_changes.

(** C01: and a successful request gives (or finds) its type.  ([hempty n = false]: [info("")]
    raises ValueError although [scalar("")] creates a parameter.) *)
Theorem C01_request_gives_type env s o n r t u tp :
  reachable env s -> requests o n r t u tp -> hempty n = false -> succeeds env o s ->
  exists q, reports env (after env o s) n r q /\ p_type q = Some t.
Proof. exact (C01_typed env s o n r t u tp). Qed.
Print Assumptions C01_request_gives_type.

(** Instance: "T|a" typed scalar, then a timeseries request with the tuple name. *)
Example C01_instance :
  let s := ex [OScalar (HStr "T|a") "K" W_] in
  exists q, reports ex_env s (HStr "T|a") W_ q /\ p_type q = Some SCALAR /\
    requests (avg (HSeq ["T"; "a"]) "K" yrs) (HSeq ["T"; "a"]) W_ AVERAGE_TIMESERIES (Some "K")
      (Some yrs) /\
    same_name (HSeq ["T"; "a"]) (HStr "T|a") /\ succeeds ex_env (OScalar (HStr "T|a") "mK" W_) s.
Proof.
  simpl. eexists. split; [eexists; split; reflexivity|]. split; [reflexivity|].
  split; [simpl; repeat split; eauto|]. split; [reflexivity|]. eexists. reflexivity.
Qed.

(** C02: a typed parameter carries the unit and time points of the one request, at a time when
    the parameter was not typed, that typed it.  (A request that raises after typing, e.g. an
    average request with no time points, can leave the time points unset.) *)
Theorem C02_first_request_fixes_unit_and_time env root h n r q t :
  reports env (run env (init_state root) h) n r q -> p_type q = Some t ->
  exists h1 o h2 n' r' u tp, h = h1 ++ o :: h2 /\
    ~ typed env (run env (init_state root) h1) n r /\
    requests o n' r' t u tp /\ same_name n' n /\ same_name r' r /\ p_unit q = u /\
    (p_time q = tp \/
     p_time q = None /\ ~ succeeds env o (run env (init_state root) h1)).
Proof. exact (C02_first env root h n r q t). Qed.
Print Assumptions C02_first_request_fixes_unit_and_time.

(** C02: and nothing later changes them. *)
Theorem C02_unit_and_time_kept env s n r q :
  reports env s n r q -> p_type q <> None -> forall h,
  exists q', reports env (run env s h) n r q' /\ p_unit q' = p_unit q /\ p_time q' = p_time q.
Proof. exact (C02_kept env s n r q). Qed.
Print Assumptions C02_unit_and_time_kept.

Example C02_instance :
  let h := [pnt (HStr "T") "mK" yrs; pnt (HStr "T") "K" (mkTP 1 [5; 6; 7]%Z)] in
  exists q, reports ex_env (ex h) (HStr "T") W_ q /\ p_type q = Some POINT_TIMESERIES /\
    p_unit q = Some "mK" /\ p_time q = Some yrs.
Proof. simpl. eexists. split; [eexists; split; reflexivity|]. repeat split. Qed.

(** C03: once a view of [n] has been obtained, for every history [h] afterwards: the direct
    child [n|c] exists iff it existed then, and if it did not, every request that names it or
    something below it raises ParameterReadError or ParameterWrittenError. *)
Theorem C03_children_frozen env s o n r t u tp vi :
  reachable env s -> requests o n r t u tp -> answer env o s = Ok (VView vi) -> forall h c,
  let s1 := after env o s in
  let s2 := run env s1 h in
  let child := HSeq (hcomponents n ++ [c]) in
  (forall q, reports env s2 child r q -> exists q0, reports env s1 child r q0) /\
  (forall q, reports env s1 child r q -> exists q0, reports env s2 child r q0) /\
  ((forall q, ~ reports env s1 child r q) ->
   forall o' n' r' t' u' tp' rest, requests o' n' r' t' u' tp' ->
     hcomponents n' = hcomponents n ++ c :: rest -> same_name r' r ->
     answer env o' s2 = Err EParameterRead \/ answer env o' s2 = Err EParameterWritten).
Proof. exact (C03_children env s o n r t u tp vi). Qed.
Print Assumptions C03_children_frozen.

(** Instance: "T" has child "a" when viewed; "b" cannot be added. *)
Example C03_instance :
  let s := ex [OScalar (HStr "T|a") "K" W_] in
  let s1 := after ex_env (OScalar (HStr "T") "K" W_) s in
  answer ex_env (OScalar (HStr "T") "K" W_) s = Ok (VView 2) /\
  (exists q, reports ex_env s1 (HSeq ["T"; "a"]) W_ q) /\
  (forall q, ~ reports ex_env s1 (HSeq ["T"; "b"]) W_ q) /\
  answer ex_env (OScalar (HStr "T|b") "K" W_) s1 = Err EParameterRead.
Proof.
  simpl. split; [reflexivity|]. split; [eexists; eexists; split; reflexivity|].
  split; [intros q (p & A & _); discriminate A|reflexivity].
Qed.

(** C05: a view reports for ever exactly the components that were requested. *)
Theorem C05_view_reports_requested_names env s o n r t u tp vi :
  reachable env s -> requests o n r t u tp -> answer env o s = Ok (VView vi) -> forall h,
  view_name (run env (after env o s) h) vi = Some (hcomponents n) /\
  view_region (run env (after env o s) h) vi = Some (hcomponents r).
Proof. exact (C05_names env s o n r t u tp vi). Qed.
Print Assumptions C05_view_reports_requested_names.

(** C05: two requests, any history in between, denote the same parameter object iff the names
    are component-wise equal. *)
Theorem C05_same_parameter_iff_same_names env s o1 n1 r1 t1 u1 tp1 v1 h o2 n2 r2 t2 u2 tp2 v2 :
  reachable env s ->
  requests o1 n1 r1 t1 u1 tp1 -> answer env o1 s = Ok (VView v1) ->
  let s1 := run env (after env o1 s) h in
  requests o2 n2 r2 t2 u2 tp2 -> answer env o2 s1 = Ok (VView v2) ->
  let s2 := after env o2 s1 in
  (exists p, views s2 v1 p /\ views s2 v2 p) <-> same_name n1 n2 /\ same_name r1 r2.
Proof. exact (C05_same env s o1 n1 r1 t1 u1 tp1 v1 h o2 n2 r2 t2 u2 tp2 v2). Qed.
Print Assumptions C05_same_parameter_iff_same_names.

(** Instance: "World|EU" / ("World","EU") and equal leaf names under different parents. *)
Example C05_instance :
  let o1 := OScalar (HStr "a|x") "K" (HStr "World|EU") in
  let o2 := OScalar (HSeq ["b"; "x"]) "mK" (HSeq ["World"; "EU"]) in
  answer ex_env o1 start = Ok (VView 0) /\
  answer ex_env o2 (after ex_env o1 start) = Ok (VView 1) /\
  view_name (after ex_env o2 (after ex_env o1 start)) 1 = Some ["b"; "x"] /\
  view_region (after ex_env o2 (after ex_env o1 start)) 1 = Some ["World"; "EU"].
Proof. repeat split. Qed.

(** C06: [info] changes nothing. *)
Theorem C06_info_pure env s n r : after env (OInfo n r) s = s.
Proof. exact (C06_pure env s n r). Qed.
Print Assumptions C06_info_pure.

(** C06: what [info] finds was created by an earlier request naming it or a descendant ... *)
Theorem C06_found_was_requested env root h n r q :
  reports env (run env (init_state root) h) n r q ->
  exists h1 o h2 n' r' rest, h = h1 ++ o :: h2 /\
    (forall q0, ~ reports env (run env (init_state root) h1) n r q0) /\
    asks o n' r' /\ hcomponents n' = hcomponents n ++ rest /\ same_name r' r.
Proof. exact (C06_created env root h n r q). Qed.
Print Assumptions C06_found_was_requested.

(** ... and what such a request created is found for ever. *)
Theorem C06_requested_is_found env s o n r t u tp vi n0 r0 rest :
  reachable env s -> requests o n r t u tp -> answer env o s = Ok (VView vi) ->
  hcomponents n = hcomponents n0 ++ rest -> same_name r r0 -> hempty n0 = false ->
  forall h, exists q, reports env (run env (after env o s) h) n0 r0 q.
Proof. exact (C06_exists env s o n r t u tp vi n0 r0 rest). Qed.
Print Assumptions C06_requested_is_found.

(** C06: the result describes the parameter asked for. *)
Theorem C06_found_describes env s n r p :
  reachable env s -> answer env (OInfo n r) s = Ok (VInfo (Some p)) ->
  info_name s p = Some (hcomponents n) /\ info_region s p = Some (hcomponents r).
Proof. exact (C06_describes env s n r p). Qed.
Print Assumptions C06_found_describes.

(** C06: [info] raises only for an empty parameter name or an empty region. *)
Theorem C06_info_answers env s n r :
  reachable env s -> hempty n = false -> hcomponents r <> [] ->
  exists x, answer env (OInfo n r) s = Ok (VInfo x).
Proof. exact (C06_total env s n r). Qed.
Print Assumptions C06_info_answers.

Example C06_instance :
  let o := OScalar (HStr "a|b|c") "K" (HStr "World|EU") in
  requests o (HStr "a|b|c") (HStr "World|EU") SCALAR (Some "K") None /\
  answer ex_env o start = Ok (VView 0) /\
  hcomponents (HStr "a|b|c") = hcomponents (HSeq ["a"; "b"]) ++ ["c"] /\
  answer ex_env (OInfo (HSeq ["a"; "b"]) (HStr "World|EU")) (after ex_env o start)
    = Ok (VInfo (Some 1)) /\
  answer ex_env (OInfo (HStr "a|b") W_) (after ex_env o start) = Ok (VInfo None).
Proof. repeat split. Qed.
