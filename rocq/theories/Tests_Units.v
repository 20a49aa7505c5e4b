(** Validation of the model of units: the cases of the repository's own tests.  Examples on
    literals, not theorems.  /repo/tests/unit/test_units.py, test_unit_converter.py and, for
    [convert_unit] of data frames, tests/unit/test_scmdataframe/test_scmdataframe.py 1703-1798. *)
From Coq Require Import String Ascii List ZArith QArith Qcanon Qreals Reals Bool Lia Lra.
From Verif Require Import Base Units Core Gases Spec_Units GasTable MetricProps Civil Filters Frame FrameItems Tests_Frame.
Import ListNotations.
Local Open Scope string_scope.
Local Open Scope list_scope.

(** ** Plain conversions *)
(** One [u] is [q] [w]: evaluated with rational numbers *)
Definition converts (u w : string) (q : Q) : bool :=
  match parse_unit u, parse_unit w with
  | Some a, Some b =>
    match resolve std_registry a, resolve std_registry b with
    | Some (k1, d1), Some (k2, d2) => check_unit u d1 k1 && check_unit w d1 k2 && Qeq_bool (k1 / k2) q && negb (Qeq_bool q 0)
    | _, _ => false
    end
  | _, _ => false
  end.
Lemma converts_sound u w q : converts u w q = true -> exists c, unit_converter std_env (Some u) (Some w) = Ok c /\
  uconvert_from c 1 = Q2R q /\ uconvert_to c 1 = (/ Q2R q)%R.
Proof.
  unfold converts. destruct (parse_unit u) as [a|]; [|discriminate]. destruct (parse_unit w) as [b|]; [|discriminate].
  destruct (resolve std_registry a) as [[k1 d1]|]; [|discriminate]. destruct (resolve std_registry b) as [[k2 d2]|]; [|discriminate].
  intros H. apply andb_prop in H. destruct H as [H N]. apply andb_prop in H. destruct H as [H E]. apply andb_prop in H. destruct H as [A B].
  apply check_unit_sound in A, B. apply Qeq_bool_iff in E. destruct (units_convert u w d1 k1 k2 A B) as (c & C & F).
  exists c. split; [exact C|]. split; [rewrite F, (Qeq_eqR _ _ E); ring|].
  assert (O : uc_offset c = 0%R). { pose proof (F 0%R) as G. unfold uconvert_from in G. rewrite Rmult_0_l, Rplus_0_r, Rmult_0_l in G. exact G. }
  assert (S : uc_scaling c = Q2R q). { pose proof (F 1%R) as G. unfold uconvert_from in G. rewrite O in G. rewrite (Qeq_eqR _ _ E) in G. lra. }
  unfold uconvert_to. rewrite O, S. unfold Rdiv. rewrite Rminus_0_r, Rmult_1_l. reflexivity.
Qed.
(** test_units.py 8-27, 61-95, test_unit_converter.py 10-15 *)
Example plain_conversions : Forall (fun c => let '(u, w, q) := c in exists c, unit_converter std_env (Some u) (Some w) = Ok c /\
    uconvert_from c 1 = Q2R q /\ uconvert_to c 1 = (/ Q2R q)%R)
  [ ("CO2", "C", 12 # 44); ("carbon_dioxide", "C", 12 # 44); ("carbon", "C", 1 # 1); ("N", "N2ON", 28 # 14); ("ppm", "ppb", 1000 # 1);
    ("ppt", "ppb", 1 # 1000); ("tC", "tCO2", 44 # 12); ("tC", "gC", (10 ^ 6) # 1); ("HFC4310MEE", "HFC4310mee", 1 # 1);
    ("tOC/day", "tOC/hr", 1 # 24); ("kt", "t", 1000 # 1); ("h", "min", 60 # 1); ("a", "day", 36524219878 # 100000000); ("kg", "t", 1 # 1000) ]%Q.
Proof. repeat (apply Forall_cons; [apply converts_sound; vm_compute; reflexivity|]). apply Forall_nil. Qed.
(** test_units.py 30-33, 43-46, 130-133, test_unit_converter.py 41-43 *)
Example plain_dimensionality_errors : Forall (fun c => unit_converter std_env (Some (fst c)) (Some (snd c)) = Err EDimensionality)
  [("NOx", "N"); ("CH4", "C"); ("CO2", "N"); ("kg SF5CF3 / yr", "kg CO2 / yr")].
Proof.
  repeat (apply Forall_cons; [|]); [..|apply Forall_nil]; cbn [fst snd]; unfold unit_converter, std_env, registry_env;
  match goal with |- context [parse_unit ?u] => let e := eval vm_compute in (parse_unit u) in change (parse_unit u) with e end;
  match goal with |- context [parse_unit ?u] => let e := eval vm_compute in (parse_unit u) in change (parse_unit u) with e end; cbv iota;
  match goal with |- context [resolve std_registry ?u] =>
    let e := eval vm_compute in (resolve std_registry u) in replace (resolve std_registry u) with e by (vm_compute; reflexivity) end; cbv iota;
  match goal with |- context [resolve std_registry ?u] =>
    let e := eval vm_compute in (resolve std_registry u) in replace (resolve std_registry u) with e by (vm_compute; reflexivity) end; reflexivity.
Qed.
(** test_unit_converter.py 18-34; degC and degF with the sizes and offsets of pint's registry *)
Definition temperatures : uenv := fun s =>
  if String.eqb s "degC" then Some (mkUdef [("temperature", 1%Z)] 1 (27315 / 100))
  else if String.eqb s "degF" then Some (mkUdef [("temperature", 1%Z)] (5 / 9) (45967 / 100 * (5 / 9)))
  else if String.eqb s "kg" then Some (mkUdef [("mass", 1%Z)] 1000 0) else None.
Example conversion_with_offset : exists c, unit_converter temperatures (Some "degC") (Some "degF") = Ok c /\
  uconvert_from c 1 = (338 / 10)%R /\ (-17.22222 - 1 / 10000 <= uconvert_to c 1 <= -17.22222 + 1 / 10000)%R.
Proof.
  eexists. split; [reflexivity|]. unfold uconvert_from, uconvert_to, pint_to. cbn [uc_scaling uc_offset u_scale u_offset].
  split; [field|]. match goal with |- (_ <= ?x <= _)%R => replace x with (- 310 / 18)%R by field end. lra.
Qed.
Example conversion_errors : unit_converter temperatures (Some "UNKOWN") (Some "degF") = Err EUndefinedUnit /\
  unit_converter temperatures (Some "kg") (Some "degF") = Err EDimensionality.
Proof. split; reflexivity. Qed.

(** ** Contexts *)
(** The factor of the transformations along a path, with rational numbers *)
Fixpoint qwalk (c : context) (p : list dim) (x : option Q * dim) : option Q * dim :=
  match p with
  | a :: ((b :: _) as p') =>
    match find_tr c a b with
    | Some t => qwalk c p' (match fst x, tr_num t with Some m, Some k => Some (m * (fst (tr_unit t) * k))%Q | _, _ => None end,
                            dim_mul 1 (snd (tr_unit t)) (snd x))
    | None => x
    end
  | _ => x
  end.
Lemma walk_q c : forall p m q d, fst (walk c p (option_map (fun q => m * Q2R q)%R q, d)) = option_map (fun q => m * Q2R q)%R (fst (qwalk c p (q, d))) /\
  snd (walk c p (option_map (fun q => m * Q2R q)%R q, d)) = snd (qwalk c p (q, d)).
Proof.
  induction p as [|a p IH]; intros m q d; [split; reflexivity|]. destruct p as [|b p]; [split; reflexivity|].
  cbn [walk qwalk]. destruct (find_tr c a b) as [t|]; [|split; reflexivity]. cbn [fst snd].
  set (q' := match q, tr_num t with Some m0, Some k => Some (m0 * (fst (tr_unit t) * k))%Q | _, _ => None end).
  specialize (IH m q' (dim_mul 1 (snd (tr_unit t)) d)).
  replace (apply_tr t (option_map (fun q => m * Q2R q)%R q, d)) with (option_map (fun q => m * Q2R q)%R q', dim_mul 1 (snd (tr_unit t)) d); [exact IH|].
  unfold apply_tr, q'. cbn [fst snd]. destruct q as [q|], (tr_num t) as [k|]; cbn [option_map]; try reflexivity.
  f_equal. f_equal. rewrite !Q2R_mult. ring.
Qed.
(** The factor between two units in a context; [Some None] is NaN, [None] an error *)
Definition ctx_factor (ctx : res context) (u w : string) : option (option Q) :=
  match parse_unit u, parse_unit w with
  | Some a, Some b =>
    match resolve std_registry a, resolve std_registry b, ctx with
    | Some (k1, d1), Some (k2, d2), Ok c =>
      let x := match find_path c (Datatypes.S (length c)) [] d1 d2 with Some p => qwalk c p (Some k1, d1) | None => (Some k1, d1) end in
      if dim_eqb (snd x) d2 && negb (Qeq_bool k2 0) then Some (option_map (fun k => Qred (k / k2)) (fst x)) else None
    | _, _, _ => None
    end
  | _, _ => None
  end.
Lemma quotient m k k2 : Qeq_bool k2 0 = false -> (m * Q2R (Qred (k / k2)) = m * Q2R k / Q2R k2)%R.
Proof.
  intros N. rewrite (Qeq_eqR _ _ (Qred_correct _)), Q2R_div; [unfold Rdiv; ring|]. intros E. apply Qeq_bool_iff in E. congruence.
Qed.
Lemma ctx_factor_sound ctx u w f : ctx_factor (get_context std_registry ctx) u w = Some f ->
  exists c, ctx_converter std_registry ctx u w = Ok c /\ forall x, nconvert_from c x = option_map (fun k => x * Q2R k)%R f.
Proof.
  unfold ctx_factor, ctx_converter. destruct (parse_unit u) as [a|]; [|discriminate]. destruct (parse_unit w) as [b|]; [|discriminate].
  destruct (resolve std_registry a) as [[k1 d1]|]; [|discriminate]. destruct (resolve std_registry b) as [[k2 d2]|]; [|discriminate].
  destruct (get_context std_registry ctx) as [c|e]; [|discriminate]. intros H.
  assert (P : forall m, pint_to_ctx c (k1, d1) (k2, d2) m = Ok (option_map (fun k => m * Q2R k)%R f)).
  { intros m. unfold pint_to_ctx. cbn [fst snd]. revert H. destruct (find_path c (Datatypes.S (length c)) [] d1 d2) as [p|].
    - pose proof (walk_q c p m (Some k1) d1) as [A B]. cbn [option_map] in A, B. cbn zeta. rewrite B, A.
      destruct (dim_eqb (snd (qwalk c p (Some k1, d1))) d2); [|discriminate]. cbn [andb]. destruct (Qeq_bool k2 0) eqn:N; [discriminate|].
      intros H. cbn [negb] in H. apply (f_equal (fun o => match o with Some f => f | None => None end)) in H. cbv beta iota in H. subst f. destruct (fst (qwalk c p (Some k1, d1))) as [k|]; [|reflexivity]. cbn [option_map]. rewrite quotient by exact N. reflexivity.
    - cbn [fst snd]. destruct (dim_eqb d1 d2); [|discriminate]. cbn [andb]. destruct (Qeq_bool k2 0) eqn:N; [discriminate|].
      intros H. cbn [negb] in H. apply (f_equal (fun o => match o with Some f => f | None => None end)) in H. cbv beta iota in H. subst f. cbn [option_map]. rewrite quotient by exact N. reflexivity. }
  rewrite !P. eexists. split; [reflexivity|]. intros x. unfold nconvert_from. cbn [nu_scaling nu_offset].
  destruct f as [k|]; cbn [option_map olift2]; [|reflexivity]. f_equal. field.
Qed.
(** [u] and [w] in context: the factor there and back *)
Definition exchanged (ctx u w : string) (q : Q) : Prop :=
  (exists c, ctx_converter std_registry ctx u w = Ok c /\ forall x, nconvert_from c x = Some (x * Q2R q)%R) /\
  (exists c, ctx_converter std_registry ctx w u = Ok c /\ forall x, nconvert_from c x = Some (x * Q2R (/ q))%R).
Definition exchange (ctx : res context) (u w : string) (q : Q) : bool :=
  match ctx_factor ctx u w, ctx_factor ctx w u with
  | Some (Some a), Some (Some b) => Qeq_bool a q && Qeq_bool b (/ q)
  | _, _ => false
  end.
Lemma exchange_sound ctx u w q : exchange (get_context std_registry ctx) u w q = true -> exchanged ctx u w q.
Proof.
  unfold exchange, exchanged. destruct (ctx_factor (get_context std_registry ctx) u w) as [[a|]|] eqn:A; try discriminate.
  destruct (ctx_factor (get_context std_registry ctx) w u) as [[b|]|] eqn:B; try discriminate. intros H. apply andb_prop in H. destruct H as [E F].
  apply Qeq_bool_iff in E, F. apply Qeq_eqR in E, F.
  apply ctx_factor_sound in A, B. destruct A as (c & C & G), B as (c' & C' & G').
  split; [exists c|exists c']; (split; [assumption|]); intros x; [rewrite G, <- E|rewrite G', <- F]; reflexivity.
Qed.
(** test_units.py 30-58, 94-127 *)
Example context_conversions : Forall (fun c => let '(ctx, u, w, q) := c in exchanged ctx u w q)
  [ ("NOx_conversions", "NOx", "N", 14 # 46); ("NOx_conversions", "NOx", "N2O", 44 # 46);
    ("CH4_conversions", "CH4", "C", 12 # 16); ("CH4_conversions", "CH4", "CO2", 44 # 16);
    ("AR4GWP100", "CO2", "N", 14 # (44 * 298)); ("AR4GWP100", "kg CO2 / yr", "kg N / yr", 14 # (44 * 298)) ]%Q.
Proof. repeat (apply Forall_cons; [apply exchange_sound; vm_compute; reflexivity|]). apply Forall_nil. Qed.
(** test_units.py 136-169, test_unit_converter.py 35-38: a metric gives the same factor in all four forms of units *)
Definition four_forms (s : string) : list string := [s; "kg " ++ s ++ " / yr"; "kg " ++ s; s ++ " / yr"]%string.
Definition around : list (uexpr * uexpr) := [([], []); ([("kg", 1%Z)], [("yr", (-1)%Z)]); ([("kg", 1%Z)], []); ([], [("yr", (-1)%Z)])].
Lemma around_forms : Forall (fun p => exists k d, resolve std_registry (fst p ++ snd p) = Some (k, d) /\ emission_form d /\ 0 < k)%Q around.
Proof.
  repeat (apply Forall_cons; [do 2 eexists; split; [vm_compute; reflexivity|split; [unfold emission_form; tauto|reflexivity]]|]). apply Forall_nil.
Qed.
Definition in_forms (gas : string) : Prop := Forall2 (fun s p => parse_unit s = Some (fst p ++ (gas, 1%Z) :: snd p)) (four_forms gas) around.
Lemma forms_of_co2 : in_forms "CO2".
Proof. repeat (apply Forall2_cons; [reflexivity|]). apply Forall2_nil. Qed.
Lemma metric_sound metric species v : tabulated metric species (Some v) -> ~ (v == 0)%Q -> in_forms species ->
  Forall2 (fun s t => exchanged metric s t v) (four_forms species) (four_forms "CO2").
Proof.
  intros T N F. pose proof forms_of_co2 as G. unfold in_forms in *.
  assert (A : Forall (fun p => forall s t, parse_unit s = Some (fst p ++ (species, 1%Z) :: snd p) -> parse_unit t = Some (fst p ++ ("CO2", 1%Z) :: snd p) ->
    exchanged metric s t v) around).
  { eapply Forall_impl; [|exact around_forms]. cbv beta. intros p (k & d & R & E & P) s t S' T'.
    assert (Us : unit_for std_registry s species d k) by (exists (fst p), (snd p); auto).
    assert (Ut : unit_for std_registry t "CO2" d k) by (exists (fst p), (snd p); auto). split.
    - destruct (same_form _ _ _ _ _ _ _ T E Us Ut) as (c & C & H). exists c. split; [exact C|]. intros x. apply H.
    - destruct (from_co2 _ _ _ _ _ _ _ _ T E Ut Us) as (c & C & H). exists c. split; [exact C|]. intros x. rewrite H. cbn [option_map oscale]. do 2 f_equal.
      apply Qeq_eqR. field. split; [exact N|]. intros Z. rewrite Z in P. now apply Qlt_irrefl in P. }
  revert F G A. generalize (four_forms species), (four_forms "CO2"), around. clear. induction l as [|s l IH]; intros l' ar F G A; inversion F; subst; inversion G; subst; [constructor|].
  inversion A; subst. constructor; eauto.
Qed.
Lemma row_tabulated i metric species v : nth_error metric_names i = Some metric ->
  match find (fun row => String.eqb (fst row) species) metric_rows with Some row => nth_error (snd row) i | None => None end = Some v ->
  tabulated metric species v.
Proof.
  intros M H. destruct (find _ metric_rows) as [[n row]|] eqn:F; [|discriminate]. apply find_some in F. destruct F as [I E].
  apply String.eqb_eq in E. cbn in E. subst n. exists i, row. auto.
Qed.
Ltac listed i := apply metric_sound;
  [apply (row_tabulated i); vm_compute; reflexivity|discriminate|repeat (apply Forall2_cons; [reflexivity|]); apply Forall2_nil].
Example metric_conversions_AR4 : Forall (fun row => Forall2 (fun s t => exchanged "AR4GWP100" s t (snd row)) (four_forms (fst row)) (four_forms "CO2"))
  [ ("CH4", 25 # 1); ("N2O", 298 # 1); ("CCl4", 1400 # 1); ("HFC32", 675 # 1); ("SF6", 22800 # 1); ("C2F6", 12200 # 1);
    ("HCFC142b", 2310 # 1); ("cC4F8", 10300 # 1); ("HFE356pcc3", 413 # 1); ("CH2Cl2", 87 # 10); ("SF5CF3", 17700 # 1) ]%Q.
Proof. repeat (apply Forall_cons; [listed 1%nat|]). apply Forall_nil. Qed.
Example metric_conversions_SAR : Forall (fun row => Forall2 (fun s t => exchanged "SARGWP100" s t (snd row)) (four_forms (fst row)) (four_forms "CO2"))
  [ ("CH4", 21 # 1); ("N2O", 310 # 1); ("HFC32", 650 # 1); ("SF6", 23900 # 1); ("CF4", 6500 # 1); ("C2F6", 9200 # 1) ]%Q.
Proof. repeat (apply Forall_cons; [listed 0%nat|]). apply Forall_nil. Qed.
(** test_unit_converter.py 46-59: an empty cell of the table *)
Example metric_nan : exists c, ctx_converter std_registry "AR4GWP100" "CHCl3" "CO2" = Ok c /\ forall x, nconvert_from c x = None.
Proof.
  destruct (empty_cell "AR4GWP100" "CHCl3" "CHCl3" "CO2" [] 1 1) as (c & C & H).
  - apply (row_tabulated 1%nat); vm_compute; reflexivity.
  - unfold emission_form. tauto.
  - exists [], []. split; reflexivity.
  - exists [], []. split; reflexivity.
  - exists c. split; [exact C|]. intros x. apply H.
Qed.

(** ** Data frames *)
(** Sizes of the units of the tests, of a power in PJ/yr *)
Definition energy : uenv := fun s =>
  let power := [("energy", 1%Z); ("time", (-1)%Z)] in
  if String.eqb s "EJ/yr" then Some (mkUdef power 1000 0) else if String.eqb s "PJ/yr" then Some (mkUdef power 1 0)
  else if String.eqb s "TJ/yr" then Some (mkUdef power (1 / 1000) 0)
  else if String.eqb s "Gt C / yr" then Some (mkUdef [("carbon", 1%Z); ("mass", 1%Z); ("time", (-1)%Z)] 1 0)
  else if String.eqb s "kelvin" then Some (mkUdef [("temperature", 1%Z)] 1 0) else None.
Definition with_units (us : parg) : frame := it_frame (fst (set_item "unit" us (opened test_scm_df))).
Definition units_and_2005 (r : frame * res Datatypes.unit) : res (list mval * list num) :=
  match r with
  | (f, Ok tt) => Ok (column f "unit", map (fun s => nth 0 (snd s) None) (fr_data f))
  | (_, Err e) => Err e
  end.
Definition converted_to (unit : string) (filters : list (string * parg)) (f : frame) :=
  units_and_2005 (convert_unit (plain_converter energy unit) unit None true false true filters f).
Ltac values := calculate; unfold uconvert_from, pint_to; calculate; repeat (f_equal; try field).
(** 1703-1739 *)
Example convert_same : exists vs, converted_to "EJ/yr" [] (with_units (One (PStr "EJ/yr"))) = Ok (map MStr ["EJ/yr"; "EJ/yr"; "EJ/yr"], vs) /\ vs = somes [1; 1 / 2; 2]%R.
Proof. eexists. split; [reflexivity|]. values. Qed.
Example convert_all : exists vs, converted_to "PJ/yr" [] (with_units (One (PStr "EJ/yr"))) = Ok (map MStr ["PJ/yr"; "PJ/yr"; "PJ/yr"], vs) /\ vs = somes [1000; 500; 2000]%R.
Proof. eexists. split; [reflexivity|]. values. Qed.
Example convert_scenario : exists vs, converted_to "PJ/yr" [text_ "scenario" "a_scenario2"] (with_units (One (PStr "EJ/yr"))) =
  Ok (map MStr ["EJ/yr"; "EJ/yr"; "PJ/yr"], vs) /\ vs = somes [1; 1 / 2; 2000]%R.
Proof. eexists. split; [reflexivity|]. values. Qed.
Example convert_variable : exists vs, converted_to "PJ/yr" [text_ "variable" "Primary Energy|Coal"] (with_units (strs ["EJ/yr"; "TJ/yr"; "Gt C / yr"])) =
  Ok (map MStr ["EJ/yr"; "PJ/yr"; "Gt C / yr"], vs) /\ vs = somes [1; 1 / 2 * (1 / 1000); 2]%R.
Proof. eexists. split; [reflexivity|]. values. Qed.
(** 1742-1758 *)
Example convert_errors : converted_to "EJ/yr" [] (with_units (One (PStr "Unknown"))) = Err EUndefinedUnit /\
  converted_to "kelvin" [] test_scm_df = Err EDimensionality.
Proof. split; reflexivity. Qed.
(** 1773-1813: a metric *)
Definition metric_converter (metric unit orig : string) : res (num -> num) :=
  rbind (ctx_converter std_registry metric orig unit) (fun c => Ok (fun x => match x with Some v => nconvert_from c v | None => None end)).
Definition set_text (c v : string) (f : frame) : frame := it_frame (fst (set_item c (One (PStr v)) (opened f))).
Definition sf5cf3 : frame := set_text "variable" "SF5CF3" (set_text "unit" "kg SF5CF3 / yr" (got (sel [text_ "variable" "Primary Energy"] test_scm_df))).
Definition sf5cf3_converted (f : frame) : Prop :=
  exists g, convert_unit (metric_converter "AR4GWP100" "kg CO2 / yr") "kg CO2 / yr" (Some "AR4GWP100") true false true [] f = (g, Ok tt) /\
    map (fun s => nth 0 (snd s) None) (fr_data g) = somes [17700; 2 * 17700]%R /\
    column g "unit" = [MStr "kg CO2 / yr"; MStr "kg CO2 / yr"] /\ column g "unit_context" = [MStr "AR4GWP100"; MStr "AR4GWP100"].
Lemma sf5cf3_case f : f = sf5cf3 \/ f = got (set_meta "unit_context" (One (PStr "AR4GWP100")) sf5cf3) -> sf5cf3_converted f.
Proof.
  intros C. assert (T : exists c, ctx_converter std_registry "AR4GWP100" "kg SF5CF3 / yr" "kg CO2 / yr" = Ok c /\ forall x, nconvert_from c x = Some (x * 17700)%R).
  { pose proof metric_conversions_AR4 as A. rewrite Forall_forall in A. specialize (A ("SF5CF3", 17700 # 1)%Q ltac:(cbn; tauto)). cbn [fst snd] in A.
    unfold four_forms in A.
    inversion A as [|? ? ? ? _ A1]; subst. inversion A1 as [|? ? ? ? B1 _]; subst. destruct B1 as [(c & E & F) _]. cbn [append] in E. exists c. split; [exact E|]. intros x. rewrite F. do 2 f_equal. unfold Q2R. cbn. lra. }
  destruct T as (c & E & F). unfold sf5cf3_converted, convert_unit.
  assert (M : metric_converter "AR4GWP100" "kg CO2 / yr" "kg SF5CF3 / yr" = Ok (fun x => match x with Some v => nconvert_from c v | None => None end))
    by (unfold metric_converter; rewrite E; reflexivity).
  revert M. generalize (metric_converter "AR4GWP100" "kg CO2 / yr"). intros mk M.
  destruct C as [-> | ->]; match goal with |- context [fr_filter true false true [] ?f] => let f' := eval lazy in f in change f with f' end;
    match goal with |- context [fr_filter true false true [] ?f] => change (fr_filter true false true [] f) with (Ok f) end; cbv iota;
    match goal with |- context [units_of ?f] => change (units_of f) with (@Ok (list string) ["kg SF5CF3 / yr"]) end; cbv iota; cbn [convert_groups]; rewrite M;
    (eexists; split; [reflexivity|]); (split; [|split; reflexivity]); cbn -[nconvert_from]; rewrite !F; unfold somes; cbn; repeat (f_equal; try lra).
Qed.
Example convert_unit_context : sf5cf3_converted sf5cf3.
Proof. apply sf5cf3_case. left. reflexivity. Qed.
Example convert_existing_unit_context : sf5cf3_converted (got (set_meta "unit_context" (One (PStr "AR4GWP100")) sf5cf3)).
Proof. apply sf5cf3_case. right. reflexivity. Qed.
Example convert_unit_no_context : snd (convert_unit (plain_converter std_env "kg CO2 / yr") "kg CO2 / yr" None true false true [] sf5cf3) = Err EDimensionality.
Proof.
  pose proof plain_dimensionality_errors as D. rewrite Forall_forall in D. specialize (D ("kg SF5CF3 / yr", "kg CO2 / yr") ltac:(cbn; tauto)). cbn [fst snd] in D.
  assert (M : plain_converter std_env "kg CO2 / yr" "kg SF5CF3 / yr" = Err EDimensionality) by (unfold plain_converter; rewrite D; reflexivity).
  revert M. generalize (plain_converter std_env "kg CO2 / yr"). intros mk M. unfold convert_unit.
  match goal with |- context [fr_filter true false true [] ?f] => let f' := eval lazy in f in change f with f' end.
  match goal with |- context [fr_filter true false true [] ?f] => change (fr_filter true false true [] f) with (Ok f) end. cbv iota.
  match goal with |- context [units_of ?f] => change (units_of f) with (@Ok (list string) ["kg SF5CF3 / yr"]) end. cbv iota. cbn [convert_groups]. rewrite M. reflexivity.
Qed.
