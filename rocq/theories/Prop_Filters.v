(** C55-C57, C62: filters and guesses of parameter types.  Vocabulary: [Spec_Filters.v],
    [Spec_Guess.v]. *)
From Coq Require Import String Ascii List ZArith QArith Qcanon Bool Lia.
From Verif Require Import Base Units TimeModel Filters ParameterType Spec_Filters Spec_Guess
  FiltersProps FiltersTimes GuessProps.
Import ListNotations.
Local Open Scope string_scope.
Local Open Scope list_scope.

(** ** C55 *)

(** Exactly what patterns without the five characters that are not escaped match: a star stands
    for text without newline, and one newline at the end of the value is ignored.  Missing values
    count as empty text; a value is kept if one of the patterns matches it. *)
Theorem C55_plain_patterns col ss ps sep : strs col ss -> (forall p, In p ps -> plain p) ->
  exists bs, pattern_match col (map MStr ps) None false true sep = Ok bs /\ length bs = length col /\
    forall i v, nth_error ss i = Some v ->
      (nth_error bs i = Some true <-> exists p, In p ps /\ line_end p v).
Proof. exact (C55_proof col ss ps sep). Qed.
Print Assumptions C55_plain_patterns.

(** The property itself, for values without newline and patterns without these characters. *)
Theorem C55_literal_partial col ss ps sep : strs col ss -> (forall p, In p ps -> plain p) -> (forall v, In v ss -> one_line v) ->
  exists bs, pattern_match col (map MStr ps) None false true sep = Ok bs /\ length bs = length col /\
    forall i v, nth_error ss i = Some v ->
      (nth_error bs i = Some true <-> exists p, In p ps /\ wild any_text p v).
Proof.
  intros S P L. destruct (C55_proof col ss ps sep S P) as (bs & E & N & H). exists bs. split; [exact E|]. split; [exact N|].
  intros i v V. rewrite (H i v V). assert (O : one_line v) by (apply L; eapply nth_error_In; exact V).
  split; intros (p & I & W); exists p; (split; [exact I|]); apply (line_end_one_line p v O); exact W.
Qed.
Print Assumptions C55_literal_partial.

Example C55_case : strs [MStr "Emissions|CO2 (x)"; MNaN; MStr "a.b"] ["Emissions|CO2 (x)"; ""; "a.b"] /\
  (forall p, In p ["Emissions|*(x)"; "a+b"; "a.*$"] -> plain p) /\ (forall v, In v ["Emissions|CO2 (x)"; ""; "a.b"] -> one_line v) /\
  wild any_text "Emissions|*(x)" "Emissions|CO2 (x)" /\
  pattern_match [MStr "Emissions|CO2 (x)"; MNaN; MStr "a.b"] (map MStr ["Emissions|*(x)"; "a+b"; "a.*$"]) None false true "|" = Ok [true; false; false].
Proof.
  split; [reflexivity|]. split.
  { intros p Hp c Hc O. cbn in Hp, Hc. repeat destruct Hp as [<-|Hp]; try destruct Hp; cbn in O;
      repeat destruct Hc as [<-|Hc]; try destruct Hc; repeat (destruct O as [O|O]; [discriminate O|]); destruct O. }
  split.
  { intros v Hv O. cbn in Hv. repeat destruct Hv as [<-|Hv]; try destruct Hv; cbn in O;
      repeat (destruct O as [O|O]; [discriminate O|]); destruct O. }
  split; [|vm_compute; reflexivity].
  repeat (apply wild_char; [discriminate|]). apply (wild_star any_text "(x)" "CO2 " "(x)" I).
  repeat (apply wild_char; [discriminate|]). constructor.
Qed.

(** Without these conditions the property is false. *)
Theorem C55_literal_refuted :
  (exists p v bs, wild any_text p v /\ pattern_match [MStr v] [MStr p] None false true "|" = Ok bs /\ nth_error bs 0 = Some false) /\
  (exists p v bs, ~ wild any_text p v /\ pattern_match [MStr v] [MStr p] None false true "|" = Ok bs /\ nth_error bs 0 = Some true) /\
  (exists p v, plain p /\ wild any_text p v /\ pattern_match [MStr v] [MStr p] None false true "|" = Ok [false]) /\
  (exists p v, plain p /\ ~ wild any_text p v /\ pattern_match [MStr v] [MStr p] None false true "|" = Ok [true]) /\
  (exists p v e, wild any_text p v /\ pattern_match [MStr v] [MStr p] None false true "|" = Err e).
Proof.
  split; [|split; [|split; [|split]]].
  - (* a question mark does not match itself *)
    exists "a?b", "a?b". eexists. split; [repeat (apply wild_char; [discriminate|]); constructor|].
    split; [vm_compute; reflexivity|reflexivity].
  - (* and makes the character before it optional *)
    exists "a?", "a". eexists. split; [|split; [vm_compute; reflexivity|reflexivity]].
    intros W. inversion W as [|c p v N W'|]; subst. inversion W'.
  - (* a star does not stand for a newline *)
    exists "*", ("a" ++ String newline "b")%string. split; [|split; [|vm_compute; reflexivity]].
    + intros c Hc O. cbn in Hc, O. destruct O as [<-|[]]. repeat (destruct Hc as [Hc|Hc]; [discriminate Hc|]). destruct Hc.
    + exact (wild_star any_text "" ("a" ++ String newline "b") "" I (wild_end _)).
  - (* a newline at the end is ignored *)
    exists "a", ("a" ++ String newline "")%string. split; [|split; [|vm_compute; reflexivity]].
    + intros c Hc O. cbn in Hc, O. destruct O as [<-|[]]. repeat (destruct Hc as [Hc|Hc]; [discriminate Hc|]). destruct Hc.
    + intros W. inversion W as [|c p v N W'|]; subst. inversion W'.
  - (* an opening bracket is an error *)
    exists "a[", "a[", EInvalid. split; [repeat (apply wild_char; [discriminate|]); constructor|vm_compute; reflexivity].
Qed.
Print Assumptions C55_literal_refuted.

(** ** C56 *)

(** A pattern that is a text followed by a star, with a level: exactly the values are kept that
    start with the text and have the wanted number of separators in the rest.  Missing: other
    patterns; values in which the text occurs a second time, see below. *)
Theorem C56_levels_partial col ss p l P sep : strs col ss -> plain p -> ~ occurs "*" p -> level_says l P ->
  (forall v, In v ss -> one_line v) -> (forall rest, p <> "" -> In (p ++ rest)%string ss -> ~ contains rest p) ->
  exists bs, pattern_match col [MStr (p ++ "*")] (Some l) false true sep = Ok bs /\ length bs = length col /\
    forall i v, nth_error ss i = Some v ->
      (nth_error bs i = Some true <-> exists rest, v = (p ++ rest)%string /\ P (separators sep rest)).
Proof. exact (C56_proof col ss p l P sep). Qed.
Print Assumptions C56_levels_partial.

Example C56_case : level_says (LStr "1-") (fun k => k <= 1)%nat /\
  pattern_match [MStr "E|CO2"; MStr "E|CO2|a"; MStr "E|CO2|a|b"] [MStr ("E|" ++ "*")] (Some (LStr "1-")) false true "|" = Ok [true; true; false].
Proof. split; [exact (says_most 1)|vm_compute; reflexivity]. Qed.

(** The text is removed wherever it occurs: the separators in later occurrences do not count. *)
Theorem C56_repeated_text_refuted : exists p rest n, plain p /\ ~ occurs "*" p /\ separators "|" rest <> n /\
  pattern_match [MStr (p ++ rest)] [MStr (p ++ "*")] (Some (LInt (Z.of_nat n))) false true "|" = Ok [true].
Proof.
  exists "E|", "CO2|E|x", 1%nat. split; [|split; [|split; [discriminate|vm_compute; reflexivity]]].
  - intros c Hc O. cbn in Hc, O. repeat destruct Hc as [<-|Hc]; try destruct Hc; repeat (destruct O as [O|O]; [discriminate O|]); destruct O.
  - intros O. cbn in O. repeat (destruct O as [O|O]; [discriminate O|]); destruct O.
Qed.
Print Assumptions C56_repeated_text_refuted.

(** ** C57 *)

(** Lists of numbers. *)
Theorem C57_numbers data l : l <> [] ->
  exists bs, length bs = length data /\
    month_match (map TInt data) (TList (map TInt l)) = (TList (map TInt l), Ok bs) /\
    day_match (map TInt data) (TList (map TInt l)) = (TList (map TInt l), Ok bs) /\
    hour_match (map TInt data) (TList (map TInt l)) = Ok bs /\ years_match (map TInt data) (TList (map TInt l)) = Ok bs /\
    forall k z, nth_error data k = Some z -> (nth_error bs k = Some true <-> In z l).
Proof.
  intros N. exists (is_in (map TInt data) (map TInt l)). split; [unfold is_in; rewrite !map_length; reflexivity|].
  split; [exact (numbers_match data l _ _ N)|]. split; [exact (numbers_match data l _ _ N)|].
  split; [exact (hour_numbers data l)|]. split; [exact (years_numbers data l)|]. intros k z. exact (is_in_ints data l k z).
Qed.
Print Assumptions C57_numbers.

(** Names, all short or all full, and at most one range: exactly the union is kept. *)
Theorem C57_months_partial data short ss Ps : ss <> [] -> Forall2 (item months short) ss Ps -> (length (filter is_range ss) <= 1)%nat ->
  exists bs, snd (month_match (map TInt data) (TList (map TStr ss))) = Ok bs /\ length bs = length data /\
    forall k z, nth_error data k = Some z -> (nth_error bs k = Some true <-> exists P, In P Ps /\ P z).
Proof. intros N F H. unfold month_match. rewrite months_code. exact (one_range months 1 good_months agree_months data short ss Ps N F H). Qed.
Print Assumptions C57_months_partial.

Theorem C57_weekdays_partial data short ss Ps : ss <> [] -> Forall2 (item weekdays short) ss Ps -> (length (filter is_range ss) <= 1)%nat ->
  exists bs, snd (day_match (map TInt data) (TList (map TStr ss))) = Ok bs /\ length bs = length data /\
    forall k z, nth_error data k = Some z -> (nth_error bs k = Some true <-> exists P, In P Ps /\ P z).
Proof. intros N F H. unfold day_match. rewrite days_code. exact (one_range weekdays 0 good_weekdays agree_days data short ss Ps N F H). Qed.
Print Assumptions C57_weekdays_partial.

(** Lists of names without ranges are not modified. *)
Theorem C57_list_kept_partial data ss : (forall s, In s ss -> is_range s = false) ->
  fst (month_match data (TList (map TStr ss))) = TList (map TStr ss) /\
  fst (day_match data (TList (map TStr ss))) = TList (map TStr ss).
Proof. intros H. split; exact (unchanged data ss _ _ H). Qed.
Print Assumptions C57_list_kept_partial.

Example C57_case : exists Ps, Forall2 (item months true) ["Jan"; "mar-JUN"; "Dec"] Ps /\
  month_match (map TInt [1; 2; 4; 12]%Z) (TList (map TStr ["Jan"; "mar-JUN"; "Dec"])) = (TList (map TStr ["Jan"; "Dec"]), Ok [true; false; true; true]).
Proof.
  eexists. split; [|vm_compute; reflexivity].
  constructor; [apply (item_name months true "Jan" 1); do 2 eexists; split; [now left|reflexivity]|].
  constructor; [apply (item_range months true true "mar" "JUN" 3 6); [do 2 eexists; split; [|reflexivity]; cbn; auto 9|do 2 eexists; split; [|reflexivity]; cbn; auto 12|lia]|].
  constructor; [apply (item_name months true "Dec" 12); do 2 eexists; split; [|reflexivity]; cbn; auto 20|]. constructor.
Qed.

(** Two ranges always fail, whatever the items are. *)
Theorem C57_two_ranges_refuted :
  (forall data ss, (2 <= length (filter is_range ss))%nat ->
    (exists e, snd (month_match data (TList (map TStr ss))) = Err e) /\ exists e, snd (day_match data (TList (map TStr ss))) = Err e) /\
  exists ss Ps, Forall2 (item months true) ss Ps /\ (2 <= length (filter is_range ss))%nat.
Proof.
  split.
  - intros data ss H. unfold month_match, day_match. rewrite months_code, days_code.
    split; [exact (two_ranges months 1 good_months data ss H)|exact (two_ranges weekdays 0 good_weekdays data ss H)].
  - exists ["Nov-Dec"; "Jan-Feb"]. eexists. split; [|cbn; lia].
    constructor; [apply (item_range months true true "Nov" "Dec" 11 12); [do 2 eexists; split; [|reflexivity]; cbn; auto 20|do 2 eexists; split; [|reflexivity]; cbn; auto 20|lia]|].
    constructor; [apply (item_range months true true "Jan" "Feb" 1 2); [do 2 eexists; split; [|reflexivity]; cbn; auto 20|do 2 eexists; split; [|reflexivity]; cbn; auto 20|lia]|]. constructor.
Qed.
Print Assumptions C57_two_ranges_refuted.

(** Short and full names cannot be mixed; a range changes the caller's list, so that the same call
    gives another result the second time; more than two names joined by hyphens mean the first two. *)
Theorem C57_other_refuted :
  snd (month_match [TInt 1; TInt 2] (TList [TStr "Jan"; TStr "February"])) = Err EValueError /\
  (exists l l', month_match [TInt 1; TInt 2; TInt 3] (TList l) = (TList l', Ok [true; true; true]) /\
     month_match [TInt 1; TInt 2; TInt 3] (TList l') = (TList l', Ok [false; false; true])) /\
  snd (month_match [TInt 1; TInt 2; TInt 3] (TList [TStr "Jan-Feb-Mar"])) = Ok [true; true; false].
Proof.
  split; [vm_compute; reflexivity|]. split; [|vm_compute; reflexivity].
  exists [TStr "Jan-Feb"; TStr "Mar"], [TStr "Mar"]. split; vm_compute; reflexivity.
Qed.
Print Assumptions C57_other_refuted.

(** ** C62 *)

(** Without a (known) unit the name decides; all other names are points. *)
Theorem C62_by_name env v u : one_line v -> no_unit env u ->
  exists t, guess_parameter_type env v u = Ok t /\ (t = AVERAGE_TIMESERIES <-> average_name v) /\ (t = POINT_TIMESERIES <-> ~ average_name v).
Proof. exact (guess_missing env v u). Qed.
Print Assumptions C62_by_name.

(** A known unit decides: averages are those with time among the dimensions. *)
Theorem C62_by_unit env v u d : u <> "" -> ~ number u -> env u = Some d ->
  exists t, guess_parameter_type env v (Some u) = Ok t /\
    (t = AVERAGE_TIMESERIES <-> involves_time d) /\ (t = POINT_TIMESERIES <-> ~ involves_time d).
Proof. exact (guess_known env v u d). Qed.
Print Assumptions C62_by_unit.

Example C62_case : average_name "Emissions|CO2" /\ average_name "CO2_GWPEMIS" /\ average_name "Heat Flux" /\ one_line "Surface Temperature" /\
  ~ average_name "Surface Temperature" /\ guess_parameter_type (fun _ => None) "Surface Temperature" (Some "foo") = Ok POINT_TIMESERIES.
Proof.
  split; [left; reflexivity|]. split; [do 3 right; exists "_GWPEMIS"; split; [cbn; auto|exists "CO2", ""; reflexivity]|].
  split; [do 3 right; exists "Flux"; split; [cbn; auto|exists "Heat ", ""; reflexivity]|].
  assert (O : one_line "Surface Temperature") by (intros O; cbn in O; repeat (destruct O as [O|O]; [discriminate O|]); destruct O).
  split; [exact O|]. split; [|vm_compute; reflexivity].
  destruct (guess_missing (fun _ => None) "Surface Temperature" None O (or_introl eq_refl)) as (t & E & A & B).
  vm_compute in E. injection E as <-. apply B. reflexivity.
Qed.

(** It is not total: a number as unit raises AttributeError.  Units of energy and power have time
    among their dimensions, too. *)
Theorem C62_total_refuted : (forall env v u, number u -> guess_parameter_type env v (Some u) = Err EAttributeError) /\
  number "1" /\ number "100".
Proof.
  split; [exact guess_number|]. split; (split; [discriminate|]); intros c O; cbn in O; cbn;
    repeat (destruct O as [<-|O]; [tauto|]); destruct O.
Qed.
Print Assumptions C62_total_refuted.
