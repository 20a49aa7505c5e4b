(** C34-C38: unit conversion, gas units, metric contexts.  Vocabulary: [Spec_Units.v];
    [same_quantity], [good_env] (no unit has size 0), [answer], [requests], [reports],
    [leaf_of]: [Spec_Core.v]. *)
From Coq Require Import String List ZArith QArith Qreals Reals Bool Lia Lra.
From Verif Require Import Base Units TimeModel Core Spec_Core CoreP2 Gases GasesFacts Spec_Units
  UnitsProps GasTable GasAny MetricTable MetricProps Examples.
Import ListNotations.
Local Open Scope string_scope.
Local Open Scope list_scope.

(** ** C34 *)
(** Whatever the affine relation of the two units is, [convert_from] gives the same physical
    quantity in the target unit, [convert_to] the same in the source unit. *)
Theorem C34_converter_is_physical env a b c :
  good_env env -> unit_converter env (Some a) (Some b) = Ok c ->
  forall x, same_quantity env a x b (uconvert_from c x) /\ same_quantity env b x a (uconvert_to c x).
Proof. exact (uconv_phys env a b c). Qed.
Print Assumptions C34_converter_is_physical.

(** The standard registry satisfies the condition on the sizes of units. *)
Theorem C34_standard_registry : good_env std_env.
Proof. exact std_env_good. Qed.
Print Assumptions C34_standard_registry.

Example C34_instance : good_env ex_env /\
  exists c, unit_converter ex_env (Some "degC") (Some "mK") = Ok c /\
    uconvert_from c 10 = ((10 + 273) * 1000)%R.
Proof.
  split; [exact ex_good|]. destruct (proj2 (proj1 (C36_converter_proof ex_env "degC" "mK"))) as (c & C).
  { do 2 eexists. split; [reflexivity|]. split; reflexivity. }
  exists c. split; auto. destruct (uconv_phys _ _ _ _ ex_good C 10) as ((a & b & A & B & E) & _).
  cbv [ex_env String.eqb Ascii.eqb Bool.eqb] in A, B. injection A as <-. injection B as <-. cbn [u_scale u_offset] in E. lra.
Qed.

(** ** C35 *)
Theorem C35_inverse env a b c x : good_env env -> unit_converter env (Some a) (Some b) = Ok c ->
  uconvert_to c (uconvert_from c x) = x /\ uconvert_from c (uconvert_to c x) = x.
Proof. exact (C35_inverse_proof env a b c x). Qed.
Print Assumptions C35_inverse.

Theorem C35_reverse env a b c c' x : good_env env ->
  unit_converter env (Some a) (Some b) = Ok c -> unit_converter env (Some b) (Some a) = Ok c' ->
  uconvert_from c' x = uconvert_to c x.
Proof. exact (C35_reverse_proof env a b c c' x). Qed.
Print Assumptions C35_reverse.

Theorem C35_chain env a b d c1 c2 : good_env env ->
  unit_converter env (Some a) (Some b) = Ok c1 -> unit_converter env (Some b) (Some d) = Ok c2 ->
  exists c3, unit_converter env (Some a) (Some d) = Ok c3 /\
    forall x, uconvert_from c2 (uconvert_from c1 x) = uconvert_from c3 x /\
              uconvert_to c1 (uconvert_to c2 x) = uconvert_to c3 x.
Proof. exact (C35_chain_proof env a b d c1 c2). Qed.
Print Assumptions C35_chain.

Example C35_instance : good_env ex_env /\
  (exists c, unit_converter ex_env (Some "degC") (Some "K") = Ok c) /\
  (exists c, unit_converter ex_env (Some "K") (Some "mK") = Ok c) /\
  (exists c, unit_converter ex_env (Some "K") (Some "degC") = Ok c).
Proof.
  split; [exact ex_good|].
  split; [|split]; apply C36_converter_proof; do 2 eexists; (split; [reflexivity|split; reflexivity]).
Qed.

(** ** C36 *)
Theorem C36_converter env a b :
  ((exists c, unit_converter env (Some a) (Some b) = Ok c) <-> commensurable env a b) /\
  (unit_converter env (Some a) (Some b) = Err EUndefinedUnit <-> unknown env a \/ unknown env b) /\
  (unit_converter env (Some a) (Some b) = Err EDimensionality <-> incommensurable env a b).
Proof. exact (C36_converter_proof env a b). Qed.
Print Assumptions C36_converter.

(** Views of a parameter [q] whose unit is [w] and that has no sub-parameters, requested with
    unit [u]. *)
Theorem C36_view env s o n r t u tp q w :
  reports env s n r q -> p_type q = Some t -> p_unit q = Some w -> p_children q = [] ->
  requests o n r t (Some u) tp ->
  (answer env o s = Err EUndefinedUnit <-> unknown env w \/ unknown env u) /\
  (answer env o s = Err EDimensionality <-> incommensurable env w u).
Proof. exact (C36_view_proof env s o n r t u tp q w). Qed.
Print Assumptions C36_view.

(** Aggregated scalar views. *)
Theorem C36_aggregate env s n r p q u w :
  reachable env s -> answer env (OInfo n r) s = Ok (VInfo (Some p)) -> nth_error (st_params s) p = Some q ->
  p_type q = Some SCALAR -> p_unit q = Some w -> p_children q <> [] ->
  succeeds env (OScalar n u r) s <->
  commensurable env w u /\
  forall i qi, leaf_of s p i -> nth_error (st_params s) i = Some qi ->
    exists wi, p_unit qi = Some wi /\ commensurable env wi u.
Proof. exact (C36_aggregate_proof env s n r p q u w). Qed.
Print Assumptions C36_aggregate.

Example C36_instance :
  let s := ex [OScalar (HStr "A") "K" W_; OScalar (HStr "B|b") "mK" W_; OScalar (HStr "B") "K" W_] in
  (exists q, reports ex_env s (HStr "A") W_ q /\ p_type q = Some SCALAR /\ p_unit q = Some "K" /\ p_children q = []) /\
  answer ex_env (OScalar (HStr "A") "W" W_) s = Err EDimensionality /\
  answer ex_env (OScalar (HStr "A") "furlong" W_) s = Err EUndefinedUnit /\
  succeeds ex_env (OScalar (HStr "A") "degC" W_) s /\
  (exists p q, answer ex_env (OInfo (HStr "B") W_) s = Ok (VInfo (Some p)) /\
    nth_error (st_params s) p = Some q /\ p_type q = Some SCALAR /\ p_unit q = Some "K" /\ p_children q <> []) /\
  succeeds ex_env (OScalar (HStr "B") "degC" W_) s /\
  answer ex_env (OScalar (HStr "B") "W" W_) s = Err EDimensionality.
Proof.
  cbv zeta. split.
  { eexists. split; [eexists; split; [calc|calc]|]. split; [reflexivity|]. split; reflexivity. }
  split; [calc|]. split; [calc|]. split; [eexists; calc|]. split.
  { do 2 eexists. split; [calc|]. split; [calc|]. split; [reflexivity|]. split; [reflexivity|discriminate]. }
  split; [eexists; calc|calc].
Qed.

(** ** C37 *)
(** C37 does not hold of the whole table: the entry "S" refers to the unit "sulfur", which is
    not defined anywhere; "S", "SO2" and "SOx" cannot be used, under none of their names. *)
Theorem C37_defined_refuted : exists s g, In (s, g) standard_gases /\ unknown std_env s.
Proof.
  exists "S", (GDerived 1 "sulfur" []).
  assert (I : In ("S", GDerived 1 "sulfur" []) standard_gases) by (simpl; tauto).
  split; [exact I|]. apply (proj1 (C37_sulfur_proof _ _ I (or_introl eq_refl))). now left.
Qed.
Print Assumptions C37_defined_refuted.

Theorem C37_sulfur_unusable s g : In (s, g) standard_gases -> sulfurous s ->
  (forall n, In n (gas_names (s, g)) -> unknown std_env n) /\
  (forall m n, m = "g" \/ m = "t" -> In n (joinable (s, g)) -> unknown std_env (m ++ n)).
Proof. exact (C37_sulfur_proof s g). Qed.
Print Assumptions C37_sulfur_unusable.

(** All other gases: every name, its joint forms with gram and tonne, and these with any
    prefix, are units with the size that the table prescribes.  What is missing: sulfur. *)
Theorem C37_names_partial s g : In (s, g) standard_gases -> ~ sulfurous s ->
  exists b k, mass_ratio standard_gases s b k /\
    (forall n, In n (gas_names (s, g)) ->
      unit_is std_env n [(b, 1%Z)] k /\
      forall p f, In (p, f) prefixes -> unit_is std_env (p ++ n) [(b, 1%Z)] (f * k)) /\
    (forall n, In n (joinable (s, g)) ->
      unit_is std_env ("g" ++ n) (mass_of b) k /\
      unit_is std_env ("t" ++ n) (mass_of b) (1000000 * k) /\
      forall p f, In (p, f) prefixes ->
        unit_is std_env (p ++ "g" ++ n) (mass_of b) (f * k) /\
        unit_is std_env (p ++ "t" ++ n) (mass_of b) (f * (1000000 * k))).
Proof. exact (C37_names_proof s g). Qed.
Print Assumptions C37_names_partial.

(** Gases with the same base gas convert with the quotient of the tabulated ratios, gases with
    different base gases are rejected. *)
Theorem C37_conversion_partial s1 g1 s2 g2 b1 b2 k1 k2 :
  In (s1, g1) standard_gases -> In (s2, g2) standard_gases -> ~ sulfurous s1 -> ~ sulfurous s2 ->
  mass_ratio standard_gases s1 b1 k1 -> mass_ratio standard_gases s2 b2 k2 ->
  (b1 = b2 ->
    (forall n1 n2, In n1 (gas_names (s1, g1)) -> In n2 (gas_names (s2, g2)) ->
      exists c, unit_converter std_env (Some n1) (Some n2) = Ok c /\
        forall x, uconvert_from c x = (x * Q2R (k1 / k2))%R) /\
    (forall m n1 n2, m = "g" \/ m = "t" -> In n1 (joinable (s1, g1)) -> In n2 (joinable (s2, g2)) ->
      exists c, unit_converter std_env (Some (m ++ n1)%string) (Some (m ++ n2)%string) = Ok c /\
        forall x, uconvert_from c x = (x * Q2R (k1 / k2))%R)) /\
  (b1 <> b2 ->
    (forall n1 n2, In n1 (gas_names (s1, g1)) -> In n2 (gas_names (s2, g2)) ->
      unit_converter std_env (Some n1) (Some n2) = Err EDimensionality) /\
    (forall m n1 n2, m = "g" \/ m = "t" -> In n1 (joinable (s1, g1)) -> In n2 (joinable (s2, g2)) ->
      unit_converter std_env (Some (m ++ n1)%string) (Some (m ++ n2)%string) = Err EDimensionality)).
Proof. exact (C37_convert_proof s1 g1 s2 g2 b1 b2 k1 k2). Qed.
Print Assumptions C37_conversion_partial.

(** The same for any table and registry, one entry at a time, provided no later entry takes
    one of its names: a base gas is a new base unit, a derived gas is the given factor times
    the unit it refers to (if that has a meaning), other names mean the same as the symbol,
    and joint names the product. *)
Theorem C37_any_table reg gs1 s g gs2 :
  let reg' := add_gases reg (gs1 ++ (s, g) :: gs2) in
  good_registry reg' ->
  NoDup (defined_names (s, g)) ->
  (forall e, In e gs2 -> forall n, In n (defined_names (s, g)) -> ~ In n (defined_names e)) ->
  (forall v, g = GBase v -> means reg' s 1 [(v, 1%Z)]) /\
  (forall k r al q d, g = GDerived k r al -> means reg' r q d -> means reg' s (k * q) d) /\
  (forall n q d, In n (gas_names (s, g)) -> means reg' s q d -> means reg' n q d) /\
  (forall m n qm dm q d, m = "g" \/ m = "t" -> In n (joinable (s, g)) ->
     means reg' m qm dm -> means reg' s q d -> means reg' (m ++ n) (qm * q) (dim_mul 1 dm d)).
Proof. exact (C37_any_proof reg gs1 s g gs2). Qed.
Print Assumptions C37_any_table.

Example C37_instance :
  In ("CO2", GDerived (12 # 44) "C" ["carbon_dioxide"]) standard_gases /\ ~ sulfurous "CO2" /\
  mass_ratio standard_gases "CO2" "carbon" ((12 # 44) * 1) /\
  In ("C", GBase "carbon") standard_gases /\ mass_ratio standard_gases "C" "carbon" 1 /\
  In "carbon_dioxide" (gas_names ("CO2", GDerived (12 # 44) "C" ["carbon_dioxide"])).
Proof.
  assert (A : In ("CO2", GDerived (12 # 44) "C" ["carbon_dioxide"]) standard_gases) by (simpl; tauto).
  assert (B : In ("C", GBase "carbon") standard_gases) by (simpl; tauto).
  split; [exact A|]. split; [intros [H|[H|H]]; discriminate|].
  assert (M : mass_ratio standard_gases "C" "carbon" 1) by now constructor.
  split; [now apply (ratio_derived _ _ _ _ _ _ _ A)|]. split; [exact B|]. split; [exact M|simpl; tauto].
Qed.

Example C37_any_instance :
  good_registry (add_gases pint_defaults ([("C", GBase "carbon")] ++ ("CO2", GDerived (12 # 44) "C" ["carbon_dioxide"]) :: [("Xy", GBase "Xy")])) /\
  NoDup (defined_names ("CO2", GDerived (12 # 44) "C" ["carbon_dioxide"])) /\
  (forall e, In e [("Xy", GBase "Xy")] ->
     forall n, In n (defined_names ("CO2", GDerived (12 # 44) "C" ["carbon_dioxide"])) -> ~ In n (defined_names e)).
Proof.
  split; [apply good_registryb; vm_compute; reflexivity|].
  split; [apply nodupb_sound; vm_compute; reflexivity|].
  intros e [<-|[]] n I J. simpl in I, J.
  repeat (destruct I as [<-|I]; [repeat (destruct J as [J|J]; [discriminate|]); exact J|]). exact I.
Qed.

(** ** C38 *)
(** In a metric context an amount [x] of a unit that contains the species (times [k1] units of
    some mass, mass per time, ...) is [x] times the tabulated value, times [k1/k2], of the unit
    that contains CO2 (times [k2] of the same). *)
Theorem C38_species_to_CO2 metric species v s t d k1 k2 :
  tabulated metric species (Some v) -> emission_form d ->
  unit_for std_registry s species d k1 -> unit_for std_registry t "CO2" d k2 ->
  exists cv, ctx_converter std_registry metric s t = Ok cv /\
    forall x, nconvert_from cv x = Some (x * Q2R (v * (k1 / k2)))%R /\
              nconvert_to cv x = Some (x / Q2R (v * (k1 / k2)))%R.
Proof. exact (species_to_co2 metric species v s t d k1 k2). Qed.
Print Assumptions C38_species_to_CO2.

(** In particular, with the same mass and time units on both sides. *)
Theorem C38_same_form metric species v s t d k :
  tabulated metric species (Some v) -> emission_form d ->
  unit_for std_registry s species d k -> unit_for std_registry t "CO2" d k ->
  exists cv, ctx_converter std_registry metric s t = Ok cv /\
    forall x, nconvert_from cv x = Some (x * Q2R v)%R /\ nconvert_to cv x = Some (x / Q2R v)%R.
Proof. exact (same_form metric species v s t d k). Qed.
Print Assumptions C38_same_form.

Theorem C38_CO2_to_species metric species v s t d k1 k2 :
  tabulated metric species (Some v) -> emission_form d ->
  unit_for std_registry s "CO2" d k1 -> unit_for std_registry t species d k2 ->
  exists cv, ctx_converter std_registry metric s t = Ok cv /\
    forall x, nconvert_from cv x = Some (x * Q2R (/ v * (k1 / k2)))%R.
Proof. exact (from_co2 metric species (Some v) s t d k1 k2). Qed.
Print Assumptions C38_CO2_to_species.

Theorem C38_between_species metric sp1 sp2 v1 v2 s t d k1 k2 :
  tabulated metric sp1 (Some v1) -> tabulated metric sp2 (Some v2) -> emission_form d ->
  unit_for std_registry s sp1 d k1 -> unit_for std_registry t sp2 d k2 ->
  exists cv, ctx_converter std_registry metric s t = Ok cv /\
    forall x, nconvert_from cv x = Some (x * Q2R (v1 / v2 * (k1 / k2)))%R.
Proof. exact (between metric sp1 sp2 v1 v2 s t d k1 k2). Qed.
Print Assumptions C38_between_species.

(** Without a context the same conversions are rejected. *)
Theorem C38_rejected_without_context metric species v s t d k1 k2 :
  tabulated metric species v -> emission_form d ->
  unit_for std_registry s species d k1 -> unit_for std_registry t "CO2" d k2 ->
  unit_converter std_env (Some s) (Some t) = Err EDimensionality /\
  unit_converter std_env (Some t) (Some s) = Err EDimensionality.
Proof. exact (outside metric species v s t d k1 k2). Qed.
Print Assumptions C38_rejected_without_context.

(** An empty cell of the table: no error, every result is NaN. *)
Theorem C38_empty_cell_is_nan metric species s t d k1 k2 :
  tabulated metric species None -> emission_form d ->
  unit_for std_registry s species d k1 -> unit_for std_registry t "CO2" d k2 ->
  exists cv, ctx_converter std_registry metric s t = Ok cv /\
    forall x, nconvert_from cv x = None /\ nconvert_to cv x = None.
Proof. exact (empty_cell metric species s t d k1 k2). Qed.
Print Assumptions C38_empty_cell_is_nan.

(** Gases whose base gas the metric table does not contain are rejected in a context as well. *)
Theorem C38_unlisted_gas_rejected metric gas g b k s t d k1 k2 :
  In metric metric_names -> In (gas, g) standard_gases -> ~ sulfurous gas ->
  mass_ratio standard_gases gas b k -> b <> "carbon" ->
  (forall species v k', In (species, v) metric_rows -> ~ mass_ratio standard_gases species b k') ->
  emission_form d ->
  unit_for std_registry s gas d k1 -> unit_for std_registry t "CO2" d k2 ->
  ctx_converter std_registry metric s t = Err EDimensionality /\
  ctx_converter std_registry metric t s = Err EDimensionality.
Proof. exact (unlisted metric gas g b k s t d k1 k2). Qed.
Print Assumptions C38_unlisted_gas_rejected.

Example C38_instance :
  tabulated "AR4GWP100" "CH4" (Some (25 # 1)) /\ tabulated "AR5GWP100" "HFC365mfc" (Some (804 # 1)) /\
  tabulated "AR4GWP100" "Halon1202" None /\
  emission_form [("mass", 1%Z); ("time", (-1)%Z)] /\
  exists k k', unit_for std_registry "kg CH4 / yr" "CH4" [("mass", 1%Z); ("time", (-1)%Z)] k /\
    unit_for std_registry "kg CO2 / yr" "CO2" [("mass", 1%Z); ("time", (-1)%Z)] k /\
    unit_for std_registry "Mt CO2/day" "CO2" [("mass", 1%Z); ("time", (-1)%Z)] k'.
Proof.
  split; [exists 1%nat; eexists; split; [reflexivity|split; [simpl; tauto|reflexivity]]|].
  split; [exists 2%nat; eexists; split; [reflexivity|split; [simpl; tauto|reflexivity]]|].
  split; [exists 1%nat; eexists; split; [reflexivity|split; [simpl; tauto|reflexivity]]|].
  split; [unfold emission_form; tauto|].
  do 2 eexists. split; [|split].
  - exists [("kg", 1%Z)], [("yr", (-1)%Z)]. split; [reflexivity|vm_compute; reflexivity].
  - exists [("kg", 1%Z)], [("yr", (-1)%Z)]. split; [reflexivity|vm_compute; reflexivity].
  - exists [("Mt", 1%Z)], [("day", (-1)%Z)]. split; [reflexivity|vm_compute; reflexivity].
Qed.

Example C38_unlisted_instance :
  In "AR4GWP100" metric_names /\ In ("BC", GBase "black_carbon") standard_gases /\
  mass_ratio standard_gases "BC" "black_carbon" 1 /\
  (forall species v k', In (species, v) metric_rows -> ~ mass_ratio standard_gases species "black_carbon" k').
Proof.
  split; [simpl; tauto|]. assert (I : In ("BC", GBase "black_carbon") standard_gases) by (simpl; tauto).
  split; [exact I|]. split; [now constructor|].
  intros species v k' J M. 
  assert (T : forallb (fun r => match ratio_of standard_gases 10 (fst r) with
     | Some (b, _) => negb (String.eqb b "black_carbon") | None => false end) metric_rows = true)
    by (vm_compute; reflexivity).
  rewrite forallb_forall in T. apply T in J. change (fst (species, v)) with species in J.
  destruct (ratio_of standard_gases 10 species) as [[b k]|] eqn:R; [|discriminate].
  apply ratio_of_sound in R. destruct (mass_ratio_fun _ _ _ _ _ _ std_keys M R) as [<- _]. discriminate.
Qed.
