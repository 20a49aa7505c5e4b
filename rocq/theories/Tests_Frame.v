(** Validation of the model of data frames: the cases of the repository's own tests, with the
    expected results written there.  These are examples on literals, not theorems.
    /repo/tests/conftest.py, tests/unit/test_scmdataframe/test_scmdataframe.py (line numbers below
    refer to the latter if no file is given).

    Left out are tests of what the model leaves out: files, pyam, head and tail, the texts of
    messages and warnings, booleans, other separators, [pd.Series] as metadata. *)
From Coq Require Import String Ascii List ZArith QArith Qcanon Reals Bool Lia Lra.
From Verif Require Import Base Civil Core Filters Frame FrameItems FrameAppend FrameWide.
Import ListNotations.
Local Open Scope string_scope.
Local Open Scope list_scope.

Definition strs (l : list string) : parg := Many (map PStr l).
Definition num_ (q : Q) : pyval := PNum (Q2Qc q).
Definition got (r : res frame) : frame := match r with Ok f => f | Err _ => mkFrame [] [] [] [] end.
Definition somes (l : list R) : list num := map Some l.

(** conftest.py 75-121 and 193-214: [test_scm_df] *)
Definition years3 : list Z := [time_of 2005 1 1 0; time_of 2010 1 1 0; time_of 2015 1 1 0].
Definition test_ts : list (list num) := [somes [1; 6; 6]; somes [1 / 2; 3; 3]; somes [2; 7; 7]]%R.
Definition test_columns : list (string * parg) :=
  [("model", strs ["a_iam"]); ("climate_model", strs ["a_model"]); ("scenario", strs ["a_scenario"; "a_scenario"; "a_scenario2"]);
   ("region", strs ["World"]); ("variable", strs ["Primary Energy"; "Primary Energy|Coal"; "Primary Energy"]); ("unit", strs ["EJ/yr"])].
Definition test_scm_df : frame := got (from_ts years3 test_ts test_columns).
(** conftest.py 153-166 *)
Definition datetimes3 : list Z := [time_of 2005 6 17 43200; time_of 2010 1 3 0; time_of 2015 1 4 0].
Definition test_scm_datetime_df : frame := got (from_ts datetimes3 test_ts test_columns).
(** conftest.py 217-235 *)
Definition times3 : list Z := [time_of 2005 1 1 0; time_of 2010 1 1 0; time_of 2015 6 12 0].
Definition four (scenarios variables : list string) : list (string * parg) :=
  [("scenario", strs scenarios); ("variable", strs variables); ("model", strs ["a_iam"]); ("climate_model", strs ["a_model"]);
   ("region", strs ["World"]); ("unit", strs ["EJ/yr"])].
Definition scens : list string := ["a_scenario"; "a_scenario"; "a_scenario2"; "a_scenario3"].
Definition vars_ : list string := ["Primary Energy"; "Primary Energy|Coal"; "Primary Energy"; "Primary Energy"].
Definition base_values : list (list num) := [somes [1; 6; 7]; somes [1 / 2; 3; 2]; somes [2; 7; 0]; somes [-1; -2; 3]]%R.
Definition test_processing_scm_df : frame := got (from_ts times3 base_values (four scens vars_)).

Definition row (scenario variable : string) : list mval :=
  [MStr "a_iam"; MStr scenario; MStr "World"; MStr variable; MStr "EJ/yr"; MStr "a_model"].
Definition cols : list string := ["model"; "scenario"; "region"; "variable"; "unit"; "climate_model"].
(** [df[c].unique()] *)
Fixpoint once (l : list mval) : list mval := match l with [] => [] | v :: l' => v :: filter (fun w => negb (mval_same v w)) (once l') end.
Definition unique (c : string) (f : res frame) : res (list mval) := rbind f (fun f => Ok (once (column f c))).
Definition times_left (f : res frame) : res (list Z) := rbind f (fun f => Ok (fr_times f)).
Definition sel (l : list (string * parg)) (f : frame) : res frame := fr_filter true false true l f.
Definition text_ (c s : string) : string * parg := (c, One (PStr s)).

(** Equal up to arithmetic *)
Ltac numbers := repeat first [reflexivity | match goal with |- @eq R _ _ => first [lra | field; lra] | |- _ => f_equal end].
Ltac calculate := lazy -[IZR Rplus Rminus Rmult Rdiv Rinv Ropp INR Rle_dec Int_part].

(** ** Construction *)
(** 236-258, 285-289 *)
Example init_ts : test_scm_df = mkFrame years3 (combine [0; 1; 2]%Z test_ts) cols
  [(0%Z, row "a_scenario" "Primary Energy"); (1%Z, row "a_scenario" "Primary Energy|Coal"); (2%Z, row "a_scenario2" "Primary Energy")].
Proof. reflexivity. Qed.
(** 183-200 *)
Example init_ts_col_string : let f := from_ts years3 test_ts
    [text_ "model" "an_iam"; text_ "climate_model" "a_model"; ("scenario", strs ["a_scenario"; "a_scenario"; "a_scenario2"]);
     text_ "region" "World"; ("variable", strs ["Primary Energy"; "Primary Energy|Coal"; "Primary Energy"]); text_ "unit" "EJ/yr"] in
  unique "model" f = Ok [MStr "an_iam"] /\ unique "climate_model" f = Ok [MStr "a_model"] /\ unique "region" f = Ok [MStr "World"] /\
  unique "unit" f = Ok [MStr "EJ/yr"].
Proof. repeat split. Qed.
(** 203-222 *)
Example init_ts_col_wrong_length_error : from_ts years3 test_ts (("model", strs ["a_iam"; "a_iam"]) :: tl test_columns) = Err EValueError.
Proof. reflexivity. Qed.
(** 147-160 *)
Example init_ts_missing_col_error :
  from_ts years3 test_ts (filter (fun c => negb (String.eqb (fst c) "scenario")) test_columns) = Err EValueError.
Proof. reflexivity. Qed.

(** ** Items *)
(** 405-406, 409-413, 429-430 *)
Example get_item_model : unique "model" (Ok test_scm_df) = Ok [MStr "a_iam"] /\ get_item (KOne "0") (opened test_scm_df) = Err EKeyError /\
  fr_len (opened test_scm_df) = 3%nat.
Proof. repeat split. Qed.
(** 416-418 *)
Example set_item_model : let (x, r) := set_item "model" (strs ["a_iam"; "b_iam"; "c_iam"]) (opened test_scm_df) in
  r = Ok tt /\ get_item (KOne "model") x = Ok (IColumn [MStr "a_iam"; MStr "b_iam"; MStr "c_iam"]).
Proof. repeat split. Qed.
(** 421-426 *)
Example set_item_not_in_meta : snd (set_item "junk" (strs ["hi"; "bye"]) (opened test_scm_df)) = Err EValueError /\
  let (x, r) := set_item "junk" (strs ["hi"; "bye"; "ciao"]) (opened test_scm_df) in
  r = Ok tt /\ get_item (KOne "junk") x = Ok (IColumn [MStr "hi"; MStr "bye"; MStr "ciao"]).
Proof. repeat split. Qed.

(** ** Filters *)
Definition level (l : pyval) : list (string * parg) := [("level", One l)].
(** 445-448, 485-512 *)
Example variable_depth : Forall (fun p => unique "variable" (sel (level (fst p)) test_scm_df) = Ok (map MStr (snd p)))
  [(PInt 0, ["Primary Energy"]); (PStr "0-", ["Primary Energy"]); (PStr "0+", ["Primary Energy"; "Primary Energy|Coal"]);
   (PInt 1, ["Primary Energy|Coal"]); (PStr "1-", ["Primary Energy"; "Primary Energy|Coal"]); (PStr "1+", ["Primary Energy|Coal"])].
Proof. repeat (apply Forall_cons; [vm_compute; reflexivity|]). apply Forall_nil. Qed.
(** 451-476 *)
Example variable_depth_0_with_base : unique "variable" (sel [text_ "variable" "Primary Energy|*"; ("level", One (PInt 1))]
  (got (from_ts times3 base_values [("model", strs ["a_iam"]); ("climate_model", strs ["a_model"]); ("scenario", strs ["a_scenario"]);
     ("region", strs ["World"]); ("variable", strs ["Primary Energy"; "Primary Energy|Coal"; "Primary Energy|Coal|Electricity"; "Primary Energy|Gas|Heating"]);
     ("unit", strs ["EJ/yr"])]))) = Ok [MStr "Primary Energy|Coal|Electricity"; MStr "Primary Energy|Gas|Heating"].
Proof. vm_compute. reflexivity. Qed.
(** 479-482 *)
Example variable_depth_0_keep_false : unique "variable" (fr_filter false false true (level (PInt 0)) test_scm_df) = Ok [MStr "Primary Energy|Coal"].
Proof. vm_compute. reflexivity. Qed.
(** 515-520 *)
Example filter_errors : sel (level (PStr "1/")) test_scm_df = Err EValueError /\ sel [text_ "foo" "foo"] test_scm_df = Err EValueError.
Proof. split; vm_compute; reflexivity. Qed.

Definition june : Z := time_of 2005 6 17 43200.
Definition ints (a b : Z) : parg := Many (map PInt (int_range a b)).
(** 523-583, 596-601, 612-629, 654-659, 674-684 *)
Example filter_times : Forall (fun l => times_left (sel l test_scm_datetime_df) = Ok [june]) [
  [("year", One (PInt 2005))]; [("month", One (PInt 6))]; [text_ "month" "June"]; [text_ "month" "Jun"]; [text_ "month" "jun"]; [("month", strs ["Jun"; "jun"])];
  [("year", One (PInt 2005)); ("month", One (PInt 6))]; [("year", One (PInt 2005)); text_ "month" "Jun"]; [("year", One (PInt 2005)); text_ "month" "jun"];
  [("year", One (PInt 2005)); ("month", strs ["Jun"; "jun"])];
  [("day", One (PInt 17))]; [text_ "day" "Fri"]; [text_ "day" "Friday"]; [text_ "day" "friday"]; [("day", strs ["Fri"; "fri"])];
  [("hour", One (PInt 12))]; [("hour", Many [PInt 12; PInt 13])]; [("time", One (PDate june))]; [("year", ints 2000 2007)];
  [("month", ints 3 6)]; [text_ "month" "Mar-Jun"]; [("day", ints 14 19)]; [text_ "day" "Thu-Sat"]; [("hour", ints 10 13)] ].
Proof. repeat (apply Forall_cons; [vm_compute; reflexivity|]). apply Forall_nil. Qed.
(** 586-593 *)
Example filter_hour_multiple : times_left (sel [("hour", One (PInt 0))] test_scm_datetime_df) = Ok [time_of 2010 1 3 0; time_of 2015 1 4 0].
Proof. vm_compute. reflexivity. Qed.
(** 532-535, 692-701 *)
Example filter_type_errors : Forall (fun l => sel l test_scm_datetime_df = Err ETypeError)
  [ [("year", One (num_ 2005))]; [("time", One (PInt 2005))]; [("time", ints 2000 2007)] ].
Proof. repeat (apply Forall_cons; [vm_compute; reflexivity|]). apply Forall_nil. Qed.
(** 632-651, 662-670 *)
Example filter_value_errors : Forall (fun l => sel l test_scm_datetime_df = Err EValueError)
  [ [text_ "month" "Marb-Jun"]; [("month", strs ["Mar-Jun"; "Nov-Feb"])]; [text_ "day" "Thud-Sat"] ].
Proof. repeat (apply Forall_cons; [vm_compute; reflexivity|]). apply Forall_nil. Qed.
(** 687-689 *)
Example filter_time_no_match : rbind (sel [("time", One (PDate (time_of 2004 6 18 0)))] test_scm_datetime_df) (fun f => Ok (fr_data f)) = Ok [].
Proof. vm_compute. reflexivity. Qed.
(** 704-706, 715-717 *)
Example filter_as_kwarg : unique "scenario" (sel [text_ "variable" "Primary Energy|Coal"] test_scm_df) = Ok [MStr "a_scenario"] /\
  unique "scenario" (fr_filter true true true [text_ "scenario" "a_scenari.$"] test_scm_df) = Ok [MStr "a_scenario"].
Proof. split; vm_compute; reflexivity. Qed.
(** 709-712 *)
Example filter_keep_false : rbind (fr_filter false false true [text_ "variable" "Primary Energy|Coal"; ("year", One (PInt 2005))] test_scm_df) (fun df =>
  rbind (sel [text_ "scenario" "a_scenario"] df) (fun g => rbind (wide g) (fun ts => Ok (concat (map snd ts))))) =
  Ok [Some 1; Some 6; Some 6; None; Some 3; Some 3]%R.
Proof. vm_compute. reflexivity. Qed.
(** 720-742 *)
Example filter_timeseries_different_length :
  let df := got (from_ts [time_of 2000 1 1 0; time_of 2001 1 1 0; time_of 2002 1 1 0] [somes [1; 2; 3]%R; [Some 4; Some 5; None]%R]
    [("model", strs ["a_iam"]); ("climate_model", strs ["a_model"]); ("scenario", strs ["a_scenario"; "a_scenario2"]); ("region", strs ["World"]);
     ("variable", strs ["Primary Energy"]); ("unit", strs ["EJ/yr"])]) in
  rbind (sel [text_ "scenario" "a_scenario2"] df) (fun g => Ok (map snd (fr_data g))) = Ok [somes [4; 5]%R] /\
  rbind (sel [("year", One (PInt 2002))] df) (fun g => Ok (map snd (fr_data g))) = Ok [somes [3]%R] /\
  unique "scenario" (sel [("year", One (PInt 2002))] df) = Ok [MStr "a_scenario"] /\
  rbind (sel [text_ "scenario" "a_scenario2"; ("year", One (PInt 2002))] df) (fun g => Ok (fr_data g)) = Ok [].
Proof. repeat split; vm_compute; reflexivity. Qed.
(** 745-789 *)
Example filter_timeseries_nan_meta :
  let df := got (from_ts [time_of 2000 1 1 0; time_of 2001 1 1 0] [somes [1; 2]%R; somes [4; 5]%R; somes [7; 8]%R]
    [("model", strs ["a_iam"]); ("climate_model", strs ["a_model"]); ("scenario", Many [PStr "a_scenario"; PStr "a_scenario2"; PNaN]); ("region", strs ["World"]);
     ("variable", strs ["Primary Energy"]); ("unit", strs ["EJ/yr"])]) in
  fr_filter true false false [text_ "scenario" "*"] df = Err ETypeError /\ fr_filter true false false [text_ "scenario" ""] df = Err ETypeError /\
  unique "scenario" (sel [text_ "scenario" "*"] df) = Ok [MStr "a_scenario"; MStr "a_scenario2"; MNaN] /\
  unique "scenario" (sel [text_ "scenario" ""] df) = Ok [MNaN].
Proof. repeat split; vm_compute; reflexivity. Qed.
(** 792-805 *)
Example timeseries_values : rbind (sel [text_ "variable" "Primary Energy"; text_ "scenario" "a_scenario"] test_scm_df) wide =
  Ok [(row "a_scenario" "Primary Energy", somes [1; 6; 6]%R)].
Proof. vm_compute. reflexivity. Qed.

(** ** Statistics *)
Definition over (cols : list string) (op : operation) : res (list (list mval * list num)) :=
  rbind (process_over cols op test_processing_scm_df) (fun g => Ok (combine (map snd (fr_meta g)) (map snd (fr_data g)))).
Definition key (variable : string) : list mval := [MStr "a_iam"; MStr "World"; MStr variable; MStr "EJ/yr"; MStr "a_model"].
Definition short_key (variable : string) : list mval := [MStr "World"; MStr variable; MStr "EJ/yr"; MStr "a_model"].
(** 869-905 *)
Example mean_over : over ["scenario"] Mean = Ok [(key "Primary Energy", somes [2 / 3; 11 / 3; 10 / 3]%R); (key "Primary Energy|Coal", somes [1 / 2; 3; 2]%R)].
Proof. calculate. cbn [INR]. numbers. Qed.
Ltac sorted_ := repeat match goal with |- context [Rle_dec ?a ?b] => destruct (Rle_dec a b); [try (exfalso; lra)|try (exfalso; lra)] end.
(** 908-935 *)
Example median_over : over ["scenario"] Median = Ok [(key "Primary Energy", somes [1; 6; 3]%R); (key "Primary Energy|Coal", somes [1 / 2; 3; 2]%R)].
Proof. calculate. sorted_. calculate. numbers. Qed.
Lemma Int_part_IZR z : Int_part (IZR z) = z.
Proof. symmetry. unfold Int_part. rewrite <- (tech_up (IZR z) (z + 1)); [lia| |]; rewrite plus_IZR; lra. Qed.
(** 819-846 *)
Example quantile_over_lower : over ["scenario"] (Quantile 0) =
  Ok [(key "Primary Energy", somes [-1; -2; 0]%R); (key "Primary Energy|Coal", somes [1 / 2; 3; 2]%R)].
Proof.
  calculate. sorted_. calculate. cbn [INR]. replace ((1 + 1) * 0)%R with (IZR 0) by lra. replace (0 * 0)%R with (IZR 0) by lra.
  rewrite !Int_part_IZR. calculate. numbers.
Qed.
(** 849-866 *)
Example quantile_over_upper : over ["model"; "scenario"] (Quantile 1) =
  Ok [(short_key "Primary Energy", somes [2; 7; 7]%R); (short_key "Primary Energy|Coal", somes [1 / 2; 3; 2]%R)].
Proof.
  calculate. sorted_. calculate. cbn [INR]. replace ((1 + 1) * 1)%R with (IZR 2) by lra. replace (0 * 1)%R with (IZR 0) by lra.
  rewrite !Int_part_IZR. calculate. numbers.
Qed.
(** 938-941 *)
Example process_over_unrecognised_operation_error : process_over ["scenario"] Other test_scm_df = Err EValueError.
Proof. vm_compute. reflexivity. Qed.

(** ** Relative to a reference period *)
Definition dates (a b : Z) : parg := Many (map (fun y => PDate (time_of y 1 1 0)) (int_range a b)).
(** 947-1027 *)
Example relative_to_ref_period : Forall (fun c => let '(filter_, append_str, exp_append) := c in
  rbind (relative_to_ref_period_mean append_str true false true filter_ test_processing_scm_df) (fun g =>
    Ok (combine (map snd (fr_meta g)) (map snd (fr_data g)))) =
  Ok [(row "a_scenario" ("Primary Energy " ++ exp_append), somes [-5 / 2; 5 / 2; 7 / 2]%R);
      (row "a_scenario" ("Primary Energy|Coal " ++ exp_append), somes [-5 / 4; 5 / 4; 1 / 4]%R);
      (row "a_scenario2" ("Primary Energy " ++ exp_append), somes [-5 / 2; 5 / 2; -9 / 2]%R);
      (row "a_scenario3" ("Primary Energy " ++ exp_append), somes [1 / 2; -1 / 2; 9 / 2]%R)])
  [ ([("time", dates 2005 2010)], None, "(ref. period time: 2005-01-01 00:00:00 - 2010-01-01 00:00:00)");
    ([("month", Many [PInt 1; PInt 2; PInt 3])], Some "(Jan - Mar)", "(Jan - Mar)");
    ([("day", Many [PInt 1; PInt 2; PInt 3])], None, "(ref. period day: 1 - 3)") ].
Proof. repeat (apply Forall_cons; [calculate; cbn [INR]; numbers|]). apply Forall_nil. Qed.

(** ** Appending *)
Definition joined (r : res appended) : res (list Z * list (list mval * list num)) :=
  rbind r (fun a => match a with
                    | Joined g => Ok (fr_times g, combine (map snd (fr_meta g)) (map snd (fr_data g)))
                    | Inspect _ => Err EInvalid
                    end).
(** Rows as many as this are returned by "return", if there are duplicates *)
Definition inspected (r : res appended) : option nat := match r with Ok (Inspect rows) => Some (length rows) | _ => None end.
(** 1030-1072 *)
Example append_test : let df := got (set_meta "col1" (Many [PInt 5; PInt 6; PInt 7]) test_scm_df) in
  let other := fst (rename [("variable", [("Primary Energy", "Primary Energy clone")])] (got (sel [text_ "scenario" "a_scenario2"] df))) in
  let other := got (set_meta "col2" (One (PStr "b")) (got (set_meta "col1" (One (PInt 2)) other))) in
  let n z := MNum (Q2Qc (inject_Z z)) in
  joined (fr_append DWarn df other) = Ok (years3,
    [(row "a_scenario" "Primary Energy" ++ [n 5%Z; MNaN], somes [1; 6; 6]%R); (row "a_scenario" "Primary Energy|Coal" ++ [n 6%Z; MNaN], somes [1 / 2; 3; 3]%R);
     (row "a_scenario2" "Primary Energy" ++ [n 7%Z; MNaN], somes [2; 7; 7]%R);
     (row "a_scenario2" "Primary Energy clone" ++ [n 2%Z; MStr "b"], somes [2; 7; 7]%R)]) /\
  joint_cols [df; other] = cols ++ ["col1"; "col2"].
Proof. split; [calculate; cbn [INR]; numbers|vm_compute; reflexivity]. Qed.
(** 1075-1082 *)
Example append_exact_duplicates : joined (fr_append DWarn test_scm_df test_scm_df) = rbind (wide test_scm_df) (fun ts => Ok (years3, ts)).
Proof. calculate; cbn [INR]; numbers. Qed.
Definition later3 : list Z := [time_of 2020 1 1 0; time_of 2030 1 1 0; time_of 2040 1 1 0].
(** 1085-1096; integers assigned to "time" are given as datetimes here *)
Example append_duplicates : let other := it_frame (fst (set_item "time" (Many (map PDate later3)) (opened test_scm_df))) in
  rbind (joined (fr_append DWarn test_scm_df other)) (fun p => Ok (fst p, map snd (snd p))) =
  Ok (years3 ++ later3, [somes [1; 6; 6; 1; 6; 6]%R; somes [1 / 2; 3; 3; 1 / 2; 3; 3]%R; somes [2; 7; 7; 2; 7; 7]%R]) /\
  joined (fr_append DWarn test_scm_df other) = joined (fr_append DOther test_scm_df other).
Proof. split; [calculate; cbn [INR]; numbers|vm_compute; reflexivity]. Qed.
(** 1099-1111 *)
Example append_duplicates_order_doesnt_matter : let other := mkFrame later3
    [(0%Z, somes [1; 6; 6]%R); (1%Z, somes [1 / 2; 3; 3]%R); (2%Z, somes [2; 7; 5]%R)] (fr_cols test_scm_df) (fr_meta test_scm_df) in
  rbind (joined (fr_append DWarn other test_scm_df)) (fun p => Ok (fst p, nth 2 (map snd (snd p)) [])) =
  Ok (years3 ++ later3, somes [2; 7; 7; 2; 7; 5]%R).
Proof. calculate; cbn [INR]; numbers. Qed.
(** conftest.py 243-379 and 1114-1150: the four pairs.  (The order of the rows is not part of the claim.) *)
Definition other1 : frame := got (from_ts times3 [somes [-1; 0; 1]%R] (four ["a_scenario"] ["Primary Energy"])).
Definition other2 : frame := got (from_ts times3 [somes [3; 7 / 2; 37 / 10]%R; somes [1; 7; 11]%R; somes [-2; 1; -14 / 10]%R]
  (four ["a_scenario"; "b_scenario"; "b_scenario2"] ["Primary Energy"; "Primary Energy|Coal"; "Primary Energy"])).
Definition other3 : frame := got (from_ts times3 [somes [3; 7 / 2; 37 / 10]%R; somes [1; 7; 11]%R; somes [-2; 1; -14 / 10]%R; somes [-3; -4; -5]%R]
  (four ["a_scenario"; "b_scenario"; "b_scenario2"; "a_scenario3"] ["Primary Energy"; "Primary Energy|Coal"; "Primary Energy"; "Primary Energy"])).
Definition other4 : frame := got (from_ts times3 [somes [-1; 0; 1]%R; somes [3; 4; 9 / 2]%R; somes [1 / 10; 2 / 10; 3 / 10]%R; somes [-4; -8; 10]%R] (four scens vars_)).
Definition base_rows (v1 v2 v3 v4 : list R) : list (list mval * list num) :=
  [(row "a_scenario" "Primary Energy", somes v1); (row "a_scenario" "Primary Energy|Coal", somes v2);
   (row "a_scenario2" "Primary Energy", somes v3); (row "a_scenario3" "Primary Energy", somes v4)].
Definition b_rows : list (list mval * list num) :=
  [(row "b_scenario" "Primary Energy|Coal", somes [1; 7; 11]%R); (row "b_scenario2" "Primary Energy", somes [-2; 1; -14 / 10]%R)].
Example append_duplicate_times msg : msg = DWarn \/ msg = DFalse ->
  joined (fr_append msg test_processing_scm_df other1) = Ok (times3, base_rows [0; 3; 4]%R [1 / 2; 3; 2]%R [2; 7; 0]%R [-1; -2; 3]%R) /\
  joined (fr_append msg test_processing_scm_df other2) =
    Ok (times3, base_rows [2; 475 / 100; 535 / 100]%R [1 / 2; 3; 2]%R [2; 7; 0]%R [-1; -2; 3]%R ++ b_rows) /\
  joined (fr_append msg test_processing_scm_df other3) =
    Ok (times3, base_rows [2; 475 / 100; 535 / 100]%R [1 / 2; 3; 2]%R [2; 7; 0]%R [-2; -3; -1]%R ++ b_rows) /\
  joined (fr_append msg test_processing_scm_df other4) =
    Ok (times3, base_rows [0; 3; 4]%R [175 / 100; 35 / 10; 325 / 100]%R [105 / 100; 36 / 10; 15 / 100]%R [-25 / 10; -5; 65 / 10]%R).
Proof.
  intros H. assert (E : forall o, fr_append msg test_processing_scm_df o = fr_append DWarn test_processing_scm_df o) by (destruct H as [-> | ->]; reflexivity).
  rewrite !E. repeat split; calculate; cbn [INR]; numbers.
Qed.
(** 1139-1146: all rows of both frames are returned *)
Example append_duplicate_times_return : map (fun o => inspected (fr_append DReturn test_processing_scm_df o)) [other1; other2; other3; other4] =
  [Some 5; Some 7; Some 8; Some 8]%nat.
Proof. vm_compute. reflexivity. Qed.
(** 1153-1171: no duplicates are found ("return" would give the table, junk would be an error) *)
Example append_doesnt_warn : Forall (fun o =>
    let base := got (sel [("year", ints 1 2010)] test_processing_scm_df) in let other := got (sel [("year", ints 2011 2100)] o) in
    inspected (fr_append DReturn base other) = None /\ exists g, fr_append DOther base other = Ok (Joined g)) [other1; other2; other3; other4] /\
  inspected (fr_append DReturn (got (sel [text_ "scenario" "a_scenario"] test_processing_scm_df)) (got (sel [text_ "scenario" "a_scenario2"] test_processing_scm_df))) = None.
Proof.
  split; [|vm_compute; reflexivity].
  repeat (apply Forall_cons; [cbv zeta; split; [vm_compute; reflexivity|eexists; vm_compute; reflexivity]|]). apply Forall_nil.
Qed.
Definition doubled (f : frame) : frame := mkFrame (fr_times f) (map (fun c => (fst c, map (option_map (Rmult 2)) (snd c))) (fr_data f)) (fr_cols f) (fr_meta f).
(** 1174-1180 *)
Example append_duplicate_times_error_msg : fr_append DOther test_scm_df (doubled test_scm_df) = Err EValueError.
Proof. vm_compute. reflexivity. Qed.
(** 1183-1199 *)
Example append_inplace : rbind (joined (fr_append DWarn test_scm_df (doubled test_scm_df))) (fun p => Ok (nth 2 (map snd (snd p)) [])) =
  Ok (somes [(2 + 4) / 2; (7 + 14) / 2; (7 + 14) / 2]%R).
Proof. calculate; cbn [INR]; numbers. Qed.
(** 1202-1306: three frames with different columns and times *)
Definition runs : frame := got (set_meta "runmodus" (One (PStr "co2_only")) test_scm_df).
Definition gas_run : frame := mkFrame [time_of 2002 1 1 0; time_of 2008 1 1 0; time_of 2009 1 1 0] (fr_data runs) (fr_cols runs)
  (map (fun r => (fst r, if Z.eqb (fst r) 1 then map_cell (fr_cols runs) "variable" (fun _ => MStr "Primary Energy|Gas") (snd r) else snd r)) (fr_meta runs)).
Definition coal_run : frame := got (set_meta "climate_model" (One (PStr "a_model2"))
  (got (set_meta "ecs" (One (num_ 3)) (got (sel [text_ "variable" "Primary Energy|Coal"] test_scm_df))))).
Definition run_row (scenario variable model : string) (ecs runmodus : mval) : list mval :=
  [MStr "a_iam"; MStr scenario; MStr "World"; MStr variable; MStr "EJ/yr"; MStr model; ecs; runmodus].
Definition run_times : list Z := [time_of 2002 1 1 0; time_of 2005 1 1 0; time_of 2008 1 1 0; time_of 2009 1 1 0; time_of 2010 1 1 0; time_of 2015 1 1 0].
Definition run_rows : list (list mval * list num) :=
  [(run_row "a_scenario" "Primary Energy" "a_model" MNaN (MStr "co2_only"), somes [1; 1; 6; 6; 6; 6]%R);
   (run_row "a_scenario" "Primary Energy|Coal" "a_model" MNaN (MStr "co2_only"), [None; Some (1 / 2); None; None; Some 3; Some 3]%R);
   (run_row "a_scenario2" "Primary Energy" "a_model" MNaN (MStr "co2_only"), somes [2; 2; 7; 7; 7; 7]%R);
   (run_row "a_scenario" "Primary Energy|Gas" "a_model" MNaN (MStr "co2_only"), [Some (1 / 2); None; Some 3; Some 3; None; None]%R);
   (run_row "a_scenario" "Primary Energy|Coal" "a_model2" (mval_of (num_ 3)) MNaN, [None; Some (1 / 2); None; None; Some 3; Some 3]%R)].
Definition frame_of (r : res appended) : frame := match r with Ok (Joined g) => g | _ => mkFrame [] [] [] [] end.
Example append_column_order_time_interpolation : joined (df_append DWarn [runs; gas_run; coal_run]) = Ok (run_times, run_rows) /\
  joined (fr_append DWarn (frame_of (fr_append DWarn runs gas_run)) coal_run) = Ok (run_times, run_rows).
Proof. split; calculate; cbn [INR]; numbers. Qed.
(** 1309-1329: a column that is missing everywhere *)
Example append_inplace_preexisting_nan :
  let other := got (set_meta "junk" (One PNaN) (got (set_meta "climate_model" (One (PStr "a_model2")) (doubled test_scm_df)))) in
  let r m s v := [MStr "a_iam"; MStr s; MStr "World"; MStr v; MStr "EJ/yr"; MStr m; MNaN] in
  joined (fr_append DWarn test_scm_df other) = Ok (years3,
    [(r "a_model" "a_scenario" "Primary Energy", somes [1; 6; 6]%R); (r "a_model" "a_scenario" "Primary Energy|Coal", somes [1 / 2; 3; 3]%R);
     (r "a_model" "a_scenario2" "Primary Energy", somes [2; 7; 7]%R);
     (r "a_model2" "a_scenario" "Primary Energy", somes [2; 12; 12]%R); (r "a_model2" "a_scenario" "Primary Energy|Coal", somes [1; 6; 6]%R);
     (r "a_model2" "a_scenario2" "Primary Energy", somes [4; 14; 14]%R)]).
Proof. calculate; cbn [INR]; numbers. Qed.

(** ** Metadata *)
(** 1553-1600 *)
Example set_meta_one : Forall (fun p => exists g, set_meta (fst p) (One (snd p)) test_scm_df = Ok g /\
    column g (fst p) = [mval_of (snd p); mval_of (snd p); mval_of (snd p)] /\ fr_cols g = cols ++ [fst p])
  [("meta_int", num_ (32 # 10)); ("meta_str", PStr "testing")].
Proof. repeat (apply Forall_cons; [eexists; split; [reflexivity|split; reflexivity]|]). apply Forall_nil. Qed.
(** 1603-1606, 1648-1651 *)
Example set_meta_filter :
  unique "scenario" (rbind (set_meta "category" (strs ["testing"; "testing2"; "testing2"]) test_scm_df) (sel [text_ "category" "testing"])) = Ok [MStr "a_scenario"] /\
  unique "scenario" (rbind (set_meta "test" (Many [PInt 1; PInt 2; PInt 3]) test_scm_df) (sel [("test", One (PInt 1))])) = Ok [MStr "a_scenario"].
Proof. split; vm_compute; reflexivity. Qed.
(** 1654-1687 *)
Example rename_variable : let (g, r) := rename [("variable", [("Primary Energy", "Primary Energy|Total"); ("Primary Energy|Coal", "Primary Energy|Fossil")])] test_scm_df in
  r = Ok tt /\ column g "variable" = [MStr "Primary Energy|Total"; MStr "Primary Energy|Fossil"; MStr "Primary Energy|Total"].
Proof. split; vm_compute; reflexivity. Qed.
(** 1690-1700 *)
Example rename_fail : snd (rename [("scenario", [("a_scenario", "a_scenario2")])] test_scm_df) = Err EValueError /\
  snd (rename [("junk", [("hi", "bye")])] test_scm_df) = Err EValueError.
Proof. split; vm_compute; reflexivity. Qed.
