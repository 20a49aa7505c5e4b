(** Validation of the model of parameter sets and views: the cases of the repository's own tests
    with the results expected there.  Examples on literals, not theorems.
    /repo/tests/unit/test_core.py.  Left out: texts of messages and [str], the class of
    [view.values], the conversion of 1825 daily values to yearly ones (see Tests_Time.v for
    conversions), the runs of DICE (see the Dice files). *)
From Coq Require Import String List ZArith Reals Bool Lia Lra.
From Coquelicot Require Import Coquelicot.
From Verif Require Import Base Units TimeModel Spec_Time TimeProps Core Examples.
Import ListNotations.
Local Open Scope string_scope.
Local Open Scope list_scope.

Definition units : uenv := fun u =>
  let temperature := [("temperature", 1%Z)] in
  let carbon := [("carbon", 1%Z); ("mass", 1%Z); ("time", (-1)%Z)] in
  if String.eqb u "degC" then Some (mkUdef temperature 1 (27315 / 100))
  else if String.eqb u "degF" then Some (mkUdef temperature (5 / 9) (45967 / 100 * (5 / 9)))
  else if String.eqb u "kg" then Some (mkUdef [("mass", 1%Z)] 1000 0) else if String.eqb u "g" then Some (mkUdef [("mass", 1%Z)] 1 0)
  else if String.eqb u "A" then Some (mkUdef [("current", 1%Z)] 1 0) else if String.eqb u "mA" then Some (mkUdef [("current", 1%Z)] (1 / 1000) 0)
  else if String.eqb u "dimensionless" then Some (mkUdef [] 1 0)
  else if String.eqb u "GtC/yr" then Some (mkUdef carbon 1000 0) else if String.eqb u "MtC/yr" then Some (mkUdef carbon 1 0) else None.
(** The results of a program, one operation after the other *)
Fixpoint results (h : list op) (s : state) : list (res val) :=
  match h with [] => [] | o :: h' => let (s', r) := step units o s in r :: results h' s' end.
Definition after (h : list op) : state := run units (init_state "World") h.
Definition result (h : list op) (o : op) : res val := snd (step units o (after h)).
Definition World : hname := HStr "World".
Definition one (x : R) : num := Some x.
(** A result that is a number or an array, up to arithmetic *)
Definition is_number (r : res val) (x : R) : Prop := exists y, r = Ok (VNum (Some y)) /\ y = x.
Definition is_array (r : res val) (l : list R) : Prop := exists ys, r = Ok (VArr ys) /\ ys = map Some l.
Ltac number := eexists; split; [calc|]; cbn; unfold uconvert_to, uconvert_from, pint_to; cbn; (reflexivity || lra || field).

(** ** Regions (80-108, 187-213) *)
Definition regions : state := fst (get_or_create_region (init_state "World") (HSeq ["World"; "DEU"; "BER"])).
Definition named (n : hname) : option (list string) :=
  match get_or_create_region regions n with (s, Ok r) => region_full_name 10 s r | _ => None end.
Example region_names : snd (get_or_create_region regions (HSeq [])) = Err EValueError /\
  named (HStr "World") = Some ["World"] /\ named (HSeq ["World"]) = Some ["World"] /\ named (HSeq ["World"; "DEU"]) = Some ["World"; "DEU"] /\
  named (HSeq ["World"; "DEU"; "BER"]) = Some ["World"; "DEU"; "BER"] /\ get_region regions (HSeq ["INVALID"; "DEU"; "BER"]) = Ok None.
Proof. repeat split. Qed.
(** [attempt_aggregate] (regions.py 54-59), which the test calls on DEU *)
Definition aggregated : state :=
  set_region regions 1 (mkRegion "DEU" (Some 0%nat) [("BER", 2%nat)] [] true).
Example region_aggregated : nth_error (st_regions regions) 1 = Some (mkRegion "DEU" (Some 0%nat) [("BER", 2%nat)] [] false) /\
  snd (get_or_create_region aggregated (HSeq ["World"; "DEU"; "BRB"])) = Err ERegionAggregated.
Proof. split; reflexivity. Qed.
Example root_names : snd (get_or_create_region (init_state "World") (HSeq ["World"])) = Ok 0%nat /\
  snd (get_or_create_region (init_state "World") (HStr "Earth")) = Err EValueError /\
  snd (get_or_create_region (init_state "Earth") (HSeq ["Earth"])) = Ok 0%nat.
Proof. repeat split. Qed.
Example region_strings : let s := fst (get_or_create_region (fst (get_or_create_region (init_state "World") (HStr "World|Test"))) (HStr "World|Second test|Lower")) in
  match get_region s (HStr "World|Test") with Ok (Some r) => region_full_name 10 s r | _ => None end = Some ["World"; "Test"] /\
  match get_subregion s 0 (hcomponents (HStr "Second test|Lower")) with Some r => region_full_name 10 s r | _ => None end = Some ["World"; "Second test"; "Lower"].
Proof. split; reflexivity. Qed.

(** ** Parameters (111-184) *)
Definition ber : hname := HSeq ["World"; "DEU"; "BER"].
Definition co2 : state := fst (get_or_create_parameter regions (HSeq ["Emissions"; "CO2"]) 2).
Example parameter_names : snd (get_or_create_parameter regions (HSeq []) 2) = Err EValueError /\
  snd (get_or_create_parameter regions (HSeq ["Emissions"; "CO2"]) 2) = Ok 1%nat /\ get_subparameter co2 1 [] = Some 1%nat /\
  get_subparameter co2 0 ["CO2"] = Some 1%nat /\ get_subparameter co2 0 (hcomponents (HStr "CO2")) = Some 1%nat /\
  get_parameter co2 2 (HSeq ["Emissions"; "CO2"]) = Ok (Some 1%nat) /\ info_name co2 1 = Some ["Emissions"; "CO2"] /\ info_region co2 1 = Some ["World"; "DEU"; "BER"] /\
  info co2 (HSeq ["Emissions"; "CO2"]) ber = Ok (Some 1%nat) /\ info co2 (HStr "Emissions") ber = Ok (Some 0%nat) /\ info co2 (HSeq ["Emissions"]) ber = Ok (Some 0%nat) /\
  info_name co2 0 = Some ["Emissions"] /\ info co2 (HSeq ["Emissions"; "NOx"]) ber = Ok None /\
  info co2 (HSeq ["Emissions"]) (HSeq ["World"; "DEU"; "BRB"]) = Ok None /\ info co2 (HSeq []) ber = Err EValueError /\
  option_map (fun p => (p_type p, p_unit p)) (nth_error (st_params co2) 0) = Some (None, None).
Proof. repeat split. Qed.
Definition industry : state := fst (get_or_create_parameter co2 (HSeq ["Emissions"; "CO2"; "Industry"]) 2).
Definition read_avg (p : param) : param * res unit := attempt_read p AVERAGE_TIMESERIES (Some "GtCO2/a") (Some (mkTP 1 [0%Z; 1%Z])).
Definition industry_read : state := fst (on_param industry 2 read_avg).
Definition co2_read : state := fst (on_param industry_read 1 read_avg).
Example parameter_access :
  info_name industry 2 = Some ["Emissions"; "CO2"; "Industry"] /\
  option_map (fun p => (p_type p, p_unit p)) (nth_error (st_params industry_read) 2) = Some (Some AVERAGE_TIMESERIES, Some "GtCO2/a") /\
  snd (on_param industry_read 1 (fun p => attempt_write p AVERAGE_TIMESERIES (Some "GtCO2/a") (Some (mkTP 1 [0%Z; 1%Z])))) = Err EParameterReadonly /\
  snd (on_param co2_read 1 (fun p => attempt_read p SCALAR (Some "GtCO2/a") None)) = Err EParameterType /\
  snd (get_or_create_parameter co2_read (HSeq ["Emissions"; "CO2"; "Landuse"]) 2) = Err EParameterRead /\
  snd (on_param co2_read 2 (fun p => attempt_write p SCALAR (Some "GtCO2/a") None)) = Err EParameterType /\
  let written := fst (on_param co2_read 2 (fun p => attempt_write p AVERAGE_TIMESERIES (Some "GtCO2/a") (Some (mkTP 1 [0%Z; 1%Z])))) in
  snd (get_or_create_parameter written (HSeq ["Emissions"; "CO2"; "Industry"; "Other"]) 2) = Err EParameterWritten.
Proof. repeat split. Qed.

(** ** Scalars (237-329) *)
Definition version (h : list op) (v : nat) : option nat := option_map p_version (param_of_view (after h) v).
Definition empty (h : list op) (v : nat) : option bool := option_map param_empty (param_of_view (after h) v).
Definition two_views : list op := [OScalar (HStr "example") "g" World; OScalar (HStr "example") "kg" World].
Example versions : version two_views 0 = Some 0%nat /\ version two_views 1 = Some 0%nat /\
  (let h := two_views ++ [OSetValue 0 (one 3)] in version h 0 = Some 1%nat /\ version h 1 = Some 1%nat) /\
  (let h := two_views ++ [OSetValue 0 (one 3); OSetValue 1 (one 12)] in version h 0 = Some 2%nat /\ version h 1 = Some 2%nat).
Proof. repeat split. Qed.
Definition sensitivity : list op := [OScalar (HStr "Climate Sensitivity") "degC" World; OScalar (HStr "Climate Sensitivity") "degF" World].
Example scalar_view : result sensitivity (OGetValue 0) = Err EParameterEmpty /\ empty sensitivity 0 = Some true /\
  (let h := sensitivity ++ [OSetValue 1 (one 68)] in is_number (result h (OGetValue 1)) 68 /\ empty h 0 = Some false /\ is_number (result h (OGetValue 0)) 20 /\
   result h (OTimeseries (HStr "Climate Sensitivity") "degC" (mkTP 1 [0%Z]) World (AStr "point") (AStr "linear") (AStr "none")) = Err EParameterType /\
   result h (OScalar (HStr "Climate Sensitivity") "kg" World) = Err EDimensionality) /\
  is_number (result (sensitivity ++ [OSetValue 1 (one 68); OSetValue 1 (one 45)]) (OGetValue 1)) 45.
Proof. split; [calc|]. split; [calc|]. split; [|number]. split; [number|]. split; [calc|]. split; [number|]. split; calc. Qed.
Definition top : list op :=
  let s n := OScalar (HSeq n) "dimensionless" World in
  [s ["Top"; "a"; "1"]; OSetValue 0 (one (6 / 10)); s ["Top"; "a"; "2"]; OSetValue 1 (one (3 / 10)); s ["Top"; "b"]; OSetValue 2 (one (1 / 10));
   s ["Top"; "a"; "1"]; s ["Top"; "a"; "2"]].
Example scalar_aggregation :
  is_number (result top (OGetValue 3)) (6 / 10) /\ is_number (result top (OGetValue 4)) (3 / 10) /\
  (exists v, result top (OScalar (HSeq ["Top"; "a"]) "dimensionless" World) = Ok (VView v) /\
     let h := top ++ [OScalar (HSeq ["Top"; "a"]) "dimensionless" World] in
     is_number (result h (OGetValue v)) (6 / 10 + 3 / 10) /\ result h (OSetValue v (one 0)) = Err EParameterReadonly) /\
  (exists v, result top (OScalar (HStr "Top") "dimensionless" World) = Ok (VView v) /\
     is_number (result (top ++ [OScalar (HStr "Top") "dimensionless" World]) (OGetValue v)) (6 / 10 + 3 / 10 + 1 / 10)).
Proof.
  split; [number|]. split; [number|]. split; eexists; (split; [calc|]); [cbv zeta; split; [number|calc]|number].
Qed.

(** ** Timeseries *)
(** Conversions here are between equal time points; they are replaced by their results (C23, C24)
    and the operations are evaluated one by one. *)
Definition days : list Z := [0; 86400; 172800; 259200]%Z.
Definition three : list Z := [0; 24; 48]%Z.
Lemma days_up : increasing days. Proof. repeat constructor; cbn; lia. Qed.
Lemma three_up : increasing three. Proof. repeat constructor; cbn; lia. Qed.
Lemma run_cons o s s' r h : step units o s = (s', r) -> run units s (o :: h) = run units s' h.
Proof. intros E. unfold run. cbn [fold_left]. rewrite E. reflexivity. Qed.
Lemma conv_id ty ex t v : timeseries ty -> increasing t -> belongs ty t v ->
  (3 <= length v)%nat -> convert_R ty ex v (map IZR t) (map IZR t) = Ok v.
Proof.
  intros T Hi Hb L. destruct (same_grid ty ex t v T Hi Hb L) as (c & Ec & E & _).
  unfold timeseries_converter in Ec. destruct t as [|t0 [|t1 t]]; try discriminate.
  destruct (t0 >? t1)%Z; [discriminate|]. inversion Ec; subst. exact E.
Qed.
Ltac ev := lazy -[Rplus Rmult Rminus Rdiv Rinv Ropp IZR pint_to uconvert_from uconvert_to convert_R].
Ltac conv := match goal with |- context [convert_R ?ty ?ex ?v ?s ?t] =>
  replace (convert_R ty ex v s t) with (Ok v) by
   (symmetry; first [apply (conv_id ty ex days); [left; reflexivity|exact days_up|split; [reflexivity|discriminate]|cbn; lia]
                    |apply (conv_id ty ex three); [right; reflexivity|exact three_up|split; [reflexivity|discriminate]|cbn; lia]]) end.
Ltac one_step := ev; repeat (conv; ev); reflexivity.
Definition avg_ (n : list string) (u : string) : op := OTimeseries (HSeq n) u (mkTP 1 days) World (AStr "average") (AStr "linear") (AStr "none").
Definition ints (l : list R) : arr := mkArr true (map Some l).
Definition floats (l : list R) : arr := mkArr false (map Some l).
Definition emissions : list op :=
  [avg_ ["Emissions"; "CO2"; "Fossil"; "Industry"] "GtC/yr"; OSetValues 0 (ints [0; 1; 2]%R);
   avg_ ["Emissions"; "CO2"; "Fossil"; "Energy"] "GtC/yr"; OSetValues 1 (ints [2; 1; 4]%R);
   avg_ ["Emissions"; "CO2"; "Land"] "MtC/yr"; OSetValues 2 (floats [50; 100; 200]%R)].
Definition sub_views : list op := emissions ++ [avg_ ["Emissions"; "CO2"; "Fossil"; "Industry"] "GtC/yr"; avg_ ["Emissions"; "CO2"; "Fossil"; "Energy"] "GtC/yr"].
Definition fossil : op := avg_ ["Emissions"; "CO2"; "Fossil"] "GtC/yr".
Definition land : op := avg_ ["Emissions"; "CO2"; "Land"] "GtC/yr".
Definition all_co2 : op := avg_ ["Emissions"; "CO2"] "GtC/yr".
Definition four_days : list op := [avg_ ["Emissions"; "CO2"] "GtC/yr"; avg_ ["Emissions"; "CO2"] "MtC/yr"].
Definition pts3 (u : string) : op := OTimeseries (HStr "example") u (mkTP 1 three) World (AStr "point") (AStr "linear") (AStr "none").
Definition currents : list op := [pts3 "A"; pts3 "mA"; OSetValues 1 (ints [0; 1; 2]%R)].
Definition sub_views_state : {s | run units (init_state "World") sub_views = s}.
Proof.
  eexists. cbv delta [sub_views emissions] beta. cbn [app]. repeat (erewrite run_cons; [|one_step]). cbn [run fold_left]. reflexivity.
Defined.
Definition with_subs : state := Eval lazy -[Rplus Rmult Rminus Rdiv Rinv Ropp IZR pint_to uconvert_from uconvert_to] in proj1_sig sub_views_state.
Lemma with_subs_eq0 : run units (init_state "World") sub_views = with_subs.
Proof.
  transitivity (proj1_sig sub_views_state); [exact (proj2_sig sub_views_state)|].
  lazy -[Rplus Rmult Rminus Rdiv Rinv Ropp IZR pint_to uconvert_from uconvert_to]. reflexivity.
Qed.
Lemma with_subs_eq h : run units (init_state "World") (sub_views ++ h) = run units with_subs h.
Proof. rewrite <- with_subs_eq0. apply fold_left_app. Qed.
Ltac steps := unfold result, version, after; rewrite ?with_subs_eq, ?with_subs_eq0; cbv delta [four_days currents] beta; cbn [app];
  repeat (erewrite run_cons; [|one_step]); cbn [run fold_left].
Ltac series := steps; eexists; split; [one_step|]; unfold uconvert_to, uconvert_from, pint_to; cbn;
  repeat match goal with |- @eq R _ _ => first [lra | field; lra] | |- @eq (list _) _ _ => f_equal | |- Some _ = Some _ => f_equal end.
Ltac evaluates := steps; one_step.
(** 380-520 *)
Example timeseries_leaves : is_array (result sub_views (OGetValues 3)) [0; 1; 2] /\ is_array (result sub_views (OGetValues 4)) [2; 1; 4].
Proof. split; series. Qed.
Example timeseries_fossil : exists v, result sub_views fossil = Ok (VView v) /\ let h := sub_views ++ [fossil] in
  is_array (result h (OGetValues v)) [0 + 2; 1 + 1; 2 + 4] /\
  result h (avg_ ["Emissions"; "CO2"; "Fossil"; "Transport"] "GtC/yr") = Err EParameterRead.
Proof. eexists. split; [evaluates|]. cbv zeta. split; [series|evaluates]. Qed.
Example timeseries_land : exists v, let h := sub_views ++ [fossil; land] in result (sub_views ++ [fossil]) land = Ok (VView v) /\
  is_array (result h (OGetValues v)) [5 / 100; 1 / 10; 2 / 10].
Proof. eexists. cbv zeta. split; [evaluates|series]. Qed.
Example timeseries_total : exists v, let h := sub_views ++ [fossil; land; all_co2] in result (sub_views ++ [fossil; land]) all_co2 = Ok (VView v) /\
  result h (OSetValues v (floats [])) = Err EParameterReadonly /\
  is_array (result h (OGetValues v)) [5 / 100 + 2 + 0; 1 / 10 + 1 + 1; 2 / 10 + 4 + 2].
Proof. eexists. cbv zeta. split; [evaluates|]. split; [evaluates|series]. Qed.
(** 335-378, with four instead of 1825 points *)
Example timeseries_view : result four_days (OGetValues 0) = Err EParameterEmpty /\ empty four_days 0 = Some true /\
  result four_days (OSetValues 1 (ints [1; 2]%R)) = Err ETimeseriesMismatch /\
  let h := four_days ++ [OSetValues 1 (ints [1; 2]%R); OSetValues 1 (ints [1; 2; 3]%R)] in
  is_array (result h (OGetValues 1)) [1; 2; 3] /\ is_array (result h (OGetValues 0)) [1 / 1000; 2 / 1000; 3 / 1000] /\
  result h (OScalar (HSeq ["Emissions"; "CO2"]) "GtC/yr" World) = Err EParameterType /\
  result h (OTimeseries (HSeq ["Emissions"; "CO2"]) "kg" (mkTP 1 [0%Z]) World (AStr "average") (AStr "linear") (AStr "none")) = Err EDimensionality.
Proof. split; [evaluates|]. split; [evaluates|]. split; [evaluates|]. cbv zeta. split; [series|]. split; [series|]. split; evaluates. Qed.

(** ** Generic parameters (523-540) *)
Definition option_ : op := OGeneric (HSeq ["Model Options"; "Generic Option"]) World.
Example generic_view : result [option_] (OGeneric (HStr "Model Options") World) = Err EParameterAggregation /\
  result [option_; OGeneric (HStr "Model Options") World] (OScalar (HStr "Model Options") "dimensionless" World) = Err EParameterType /\
  result [option_] (OGetGeneric 0) = Err EParameterEmpty /\ empty [option_] 0 = Some true /\
  (let h := [option_; option_; OSetGeneric 1 (GStr "enabled")] in
   result h (OGetGeneric 1) = Ok (VGen (GStr "enabled")) /\ empty h 0 = Some false /\ result h (OGetGeneric 0) = Ok (VGen (GStr "enabled"))) /\
  result [option_; option_; OSetGeneric 1 (GStr "enabled"); OSetGeneric 1 (GStr "enabled2")] (OGetGeneric 1) = Ok (VGen (GStr "enabled2")).
Proof. repeat split. Qed.

(** ** New writes (543-589) *)
Definition gen : op := OGeneric (HStr "example") World.
Example generic_updates :
  (let h := [gen; gen; OSetGeneric 1 (GInt 12)] in result h (OGetGeneric 0) = Ok (VGen (GInt 12)) /\ version h 0 = Some 1%nat) /\
  (let h := [gen; gen; OSetGeneric 1 (GInt 12); OSetGeneric 0 (GInt 16)] in result h (OGetGeneric 0) = Ok (VGen (GInt 16)) /\ version h 0 = Some 2%nat) /\
  (let h := [gen; gen; OSetGeneric 1 (GInt 12); OSetGeneric 0 (GInt 16); gen; OSetGeneric 2 (GStr "hello")] in
   result h (OGetGeneric 0) = Ok (VGen (GStr "hello")) /\ version h 0 = Some 3%nat).
Proof. repeat split. Qed.
Example scalar_updates : version two_views 0 = Some 0%nat /\
  (let h := two_views ++ [OSetValue 1 (one 12)] in is_number (result h (OGetValue 0)) 12000 /\ version h 0 = Some 1%nat) /\
  (let h := two_views ++ [OSetValue 1 (one 12); OSetValue 0 (one 1)] in is_number (result h (OGetValue 0)) 1 /\ version h 0 = Some 2%nat) /\
  (let h := two_views ++ [OSetValue 1 (one 12); OSetValue 0 (one 1); OScalar (HStr "example") "kg" World; OSetValue 2 (one (-3))] in
   is_number (result h (OGetValue 0)) (-3000) /\ version h 0 = Some 3%nat).
Proof. split; [calc|]. split; [split; [number|calc]|]. split; (split; [number|calc]). Qed.
Example timeseries_updates : version [pts3 "A"] 0 = Some 0%nat /\
  (is_array (result currents (OGetValues 0)) [0; 1 / 1000; 2 / 1000] /\ version currents 0 = Some 1%nat) /\
  (let h := currents ++ [OGetValues 0; OSetValues 0 (ints [0; -1; -2]%R)] in is_array (result h (OGetValues 0)) [0; -1; -2] /\ version h 0 = Some 2%nat) /\
  (let h := currents ++ [OGetValues 0; OSetValues 0 (ints [0; -1; -2]%R); pts3 "mA"; OSetValues 2 (ints [0; 3; 6]%R)] in
   is_array (result h (OGetValues 0)) [0; 3 / 1000; 6 / 1000] /\ version h 0 = Some 3%nat).
Proof. split; [calc|]. split; [split; [series|evaluates]|]. split; (split; [series|evaluates]). Qed.
(** 655-677 *)
Example view_units_scalar : is_number (result [OScalar (HStr "example") "kg" World; OSetValue 0 (one 2); OScalar (HStr "example") "g" World] (OGetValue 1)) (2 * 1000).
Proof. number. Qed.
Example view_units_timeseries : is_array (result [pts3 "kg"; OSetValues 0 (ints [0; 1; 2]%R); pts3 "g"] (OGetValues 1)) [0 * 1000; 1 * 1000; 2 * 1000].
Proof. series. Qed.

(** ** Enumerations (592-615) *)
Example enumerations : timeseries_type_to_string AVERAGE_TIMESERIES = Ok "average" /\ timeseries_type_to_string POINT_TIMESERIES = Ok "point" /\
  timeseries_type_to_string SCALAR = Err EValueError /\ from_timeseries_type (AStr "average") = Ok AVERAGE_TIMESERIES /\
  from_timeseries_type (AStr "point") = Ok POINT_TIMESERIES /\ from_timeseries_type (AStr "invalid") = Err EValueError /\
  from_timeseries_type (AEnum SCALAR) = Err EValueError.
Proof. repeat split. Qed.
