(** Proofs of C38: conversions in metric contexts. *)
From Coq Require Import String Ascii List ZArith QArith Qpower Qreals Reals Bool Lia Lra Field.
From Verif Require Import Base Units Gases GasesFacts Spec_Core Spec_Units UnitsProps GasTable MetricTable.
Import ListNotations.
Local Open Scope string_scope.
Local Open Scope list_scope.

Lemma metric_index i m : nth_error metric_names i = Some m -> In i [0; 1; 2]%nat.
Proof. destruct i as [|[|[|i]]]; simpl; auto. destruct i; discriminate. Qed.

Lemma get_metric reg i m : nth_error metric_names i = Some m ->
  get_context reg m = metric_context reg (metric_column i) [].
Proof.
  destruct i as [|[|[|i]]]; simpl nth_error; intros H; try (apply some_inj in H; subst m).
  - reflexivity.
  - reflexivity.
  - reflexivity.
  - destruct i; discriminate.
Qed.

Lemma check_tr_sound c a b k : check_tr c a b k = true ->
  exists t, find_tr c a b = Some t /\ fst (tr_unit t) == 1 /\ dim_mul 1 (snd (tr_unit t)) a = b /\
    match tr_num t, k with Some x, Some y => x == y | None, None => True | _, _ => False end.
Proof.
  unfold check_tr. destruct (find_tr c a b) as [t|]; [|discriminate].
  intros H. apply andb_prop in H. destruct H as [H N]. apply andb_prop in H. destruct H as [A B].
  exists t. split; auto. split; [now apply Qeq_bool_iff|]. split; [now apply dim_eqb_true|].
  unfold onum_eqb in N. destruct (tr_num t), k; try discriminate; auto. now apply Qeq_bool_iff.
Qed.

(** What is known about a context. *)
Definition star_ctx (c : context) : Prop :=
  (2 <= length c)%nat /\
  forall sh nd, In nd (neighbours c (hub_of sh)) -> nd <> hub_of sh /\ neighbours c nd = [hub_of sh].

Lemma resolve_one reg n r : good_registry reg ->
  resolve reg [(n, 1%Z)] = Some r -> exists r', resolve_name reg fuel n = Some r' /\ req r r'.
Proof.
  intros G. unfold resolve. cbn [resolve_with].
  destruct (resolve_name reg fuel n) as [a|] eqn:E; [|congruence].
  intros H. apply some_inj in H. subst r. exists a. split; auto.
  apply (good_name reg G) in E. destruct E as [_ C].
  split; cbn [root_mul fst snd root_one].
  - rewrite Qred_correct. change (Qpower (fst a) 1) with (fst a). ring.
  - apply canon_ext; auto.
    + apply canon_mul. exact I.
    + intros m. rewrite coef_mul. cbn [coef]. lia.
Qed.

Lemma tabulated_column metric species v : tabulated metric species v ->
  exists i, nth_error metric_names i = Some metric /\ In (species, v) (metric_column i).
Proof.
  intros (i & row & M & I & N). exists i. split; [exact M|]. unfold metric_column. apply in_map_iff.
  exists (species, row). split; [|exact I]. cbn [fst snd]. now rewrite N.
Qed.
Opaque std_registry metric_context metric_column resolve.
Lemma species_facts metric species v : tabulated metric species v ->
  exists c q b, get_context std_registry metric = Ok c /\ star_ctx c /\
    (exists q', resolve_name std_registry fuel species = Some (q', [(b, 1%Z)]) /\ q == q') /\
    (forall x, v = Some x -> ~ x == 0) /\ b <> "carbon" /\
    forall sh, let a := shape_dim sh b in
      let k := match v with Some v => Some (v * (12 # 44) / q) | None => None end in
      neighbours c a = [hub_of sh] /\ a <> hub_of sh /\ In a (neighbours c (hub_of sh)) /\
      check_tr c a (hub_of sh) k = true /\
      check_tr c (hub_of sh) a (match k with Some x => Some (/ x) | None => None end) = true.
Proof.
  intros TB. apply tabulated_column in TB. destruct TB as (i & M & I). pose proof ctx_checked as T. rewrite forallb_forall in T.
  specialize (T i (metric_index i metric M)). rewrite (get_metric std_registry i metric M).
  unfold check_ctx in T.
  destruct (metric_context std_registry (metric_column i) []) as [c|e]; [|discriminate].
  apply andb_prop in T. destruct T as [T T3]. apply andb_prop in T. destruct T as [T1 T2].
  rewrite forallb_forall in T2. apply T2 in I. unfold check_row in I.
  change (fst (species, v)) with species in I. change (snd (species, v)) with v in I.
  destruct (unit_of std_registry species) as [[q d]|e] eqn:U; [|discriminate].
  destruct d as [|[b z] d]; [discriminate|].
  destruct z as [|[z|z|]|z]; try discriminate. destruct d; [|discriminate].
  apply andb_prop in I. destruct I as [I I3]. apply andb_prop in I. destruct I as [I1 I2].
  rewrite forallb_forall in I2. exists c, q, b. split; auto. split; [split|].
  { now apply Nat.leb_le. }
  { intros sh nd J. rewrite forallb_forall in T3. specialize (T3 sh (shapes_all sh)).
    unfold check_hub in T3. rewrite forallb_forall in T3. apply T3 in J.
    apply andb_prop in J. destruct J as [J1 J2]. apply negb_true_iff in J1. split; [now apply dim_eqb_false|].
    destruct (neighbours c nd) as [|h [|]]; try discriminate. apply dim_eqb_true in J2. now subst. }
  split.
  { unfold unit_of in U. destruct (resolve std_registry [(species, 1%Z)]) as [r|] eqn:R; [|discriminate].
    injection U as ->. destruct (resolve_one _ _ _ std_good R) as (r' & R' & E1 & E2).
    destruct r' as [q' d']. simpl in E1, E2. subst d'. eauto. }
  split.
  { intros x ->. intros Z. apply Qeq_bool_iff in Z. rewrite Z in I3. discriminate. }
  split.
  { apply negb_true_iff, String.eqb_neq in I1. exact I1. }
  intros sh. specialize (I2 sh (shapes_all sh)). cbv zeta in I2 |- *.
  apply andb_prop in I2. destruct I2 as [I2 K5]. apply andb_prop in I2. destruct I2 as [I2 K4].
  apply andb_prop in I2. destruct I2 as [I2 K3]. apply andb_prop in I2. destruct I2 as [K1 K2].
  repeat split; auto.
  - destruct (neighbours c (shape_dim sh b)) as [|h [|]]; try discriminate. apply dim_eqb_true in K1. now subst.
  - apply negb_true_iff, dim_eqb_false in K2. exact K2.
  - now apply dim_in_true.
Qed.

Transparent std_registry metric_context metric_column resolve.

(** ** Units with a gas *)

Definition form_of (sh : shape) : dim :=
  match sh with
  | Amount => [] | Mass => [("mass", 1%Z)]
  | MassFlux => [("mass", 1%Z); ("time", (-1)%Z)] | Flux => [("time", (-1)%Z)]
  end.

Lemma form_shape d : emission_form d -> exists sh, d = form_of sh.
Proof.
  intros [-> | [-> | [-> | ->]]]; [exists Amount|exists Mass|exists MassFlux|exists Flux]; reflexivity.
Qed.

Lemma shape_form sh b : dim_mul 1 [(b, 1%Z)] (form_of sh) = shape_dim sh b.
Proof.
  apply canon_ext.
  - apply canon_mul. destruct sh; simpl; repeat split; auto; try discriminate;
      repeat constructor; reflexivity.
  - destruct sh; apply canon_mul; exact I.
  - intros n. rewrite coef_mul. destruct sh; cbn [shape_dim]; rewrite coef_mul; cbn [coef form_of];
      destruct (String.eqb n b), (String.eqb n "mass"), (String.eqb n "time"); reflexivity.
Qed.

Lemma unit_for_root u gas sh k q b : unit_for std_registry u gas (form_of sh) k ->
  resolve_name std_registry fuel gas = Some (q, [(b, 1%Z)]) ->
  exists e qu, parse_unit u = Some e /\ resolve std_registry e = Some (qu, shape_dim sh b) /\
    qu == q * k /\ 0 < q /\ 0 < k.
Proof.
  intros (pre & post & P & R) G.
  destruct (resolve_with_insert (resolve_name std_registry fuel) gas (q, [(b, 1%Z)]) pre post (k, form_of sh))
    as ([qu du] & A & B1 & B2).
  - intros n x. apply good_name. apply std_good.
  - exact G.
  - exact R.
  - exists (pre ++ (gas, 1%Z) :: post), qu. split; auto.
    cbn [root_mul fst snd] in B1, B2. rewrite shape_form in B2. subst du. split; [exact A|].
    split; [rewrite B1, Qred_correct; reflexivity|]. split.
    + apply (good_name _ std_good) in G. apply G.
    + apply (good_resolve _ _ _ std_good) in R. apply R.
Qed.

Lemma CO2_root : resolve_name std_registry fuel "CO2" = Some (3 # 11, [("carbon", 1%Z)]).
Proof. vm_cast_no_check (eq_refl (Some (3 # 11, [("carbon", 1%Z)]))). Qed.

(** ** One conversion *)

Lemma Q2R_nz q : 0 < q -> Q2R q <> 0%R.
Proof. intros H E. apply Q2R_pos in H. rewrite E in H. now apply Rlt_irrefl in H. Qed.

Lemma fit_linear (f : option R) (t1 t2 : option R) :
  t1 = match f with Some k => Some (1 * k)%R | None => None end ->
  t2 = match f with Some k => Some (-1 * k)%R | None => None end ->
  let scaling := olift2 (fun x y => (x - y) / (-1 - 1))%R t2 t1 in
  let offset := olift2 (fun x s => x - s * 1)%R t1 scaling in
  forall x, nconvert_from (mkNuconv scaling offset) x =
              match f with Some k => Some (x * k)%R | None => None end /\
            (forall k, f = Some k -> k <> 0%R -> nconvert_to (mkNuconv scaling offset) x = Some (x / k)%R) /\
            (f = None -> nconvert_to (mkNuconv scaling offset) x = None).
Proof.
  intros -> -> scaling offset x. subst scaling offset. destruct f as [k|]; simpl.
  - split; [|split; [|discriminate]].
    + unfold nconvert_from. simpl. f_equal. field.
    + intros k' E N. injection E as <-. unfold nconvert_to. simpl. f_equal. field. lra.
  - repeat split; auto. intros k E. discriminate.
Qed.

Definition oscale (k : option Q) (x : R) : option R :=
  match k with Some k => Some (x * Q2R k)%R | None => None end.

Lemma apply_checked c a b k t m : check_tr c a b k = true -> find_tr c a b = Some t ->
  apply_tr t (m, a) = (match m with Some x => oscale k x | None => None end, b).
Proof.
  intros H F. destruct (check_tr_sound _ _ _ _ H) as (t' & F' & U & D & N).
  assert (t' = t) by congruence. subst t'. unfold apply_tr. cbn [fst snd]. rewrite D. f_equal.
  destruct m as [m|], (tr_num t) as [x|], k as [y|]; try contradiction; auto.
  unfold oscale. rewrite (Qeq_eqR _ _ U), (Qeq_eqR _ _ N). f_equal. unfold Q2R at 1. simpl. field.
Qed.

Lemma walk1 c a b k m : check_tr c a b k = true ->
  walk c [a; b] (m, a) = (match m with Some x => oscale k x | None => None end, b).
Proof.
  intros H. destruct (check_tr_sound _ _ _ _ H) as (t & F & _).
  cbn [walk]. rewrite F. now rewrite (apply_checked c a b k t m H F).
Qed.

Lemma walk2 c a h b k1 k2 m : check_tr c a h k1 = true -> check_tr c h b k2 = true ->
  walk c [a; h; b] (m, a) =
  (match m with Some x => match oscale k1 x with Some y => oscale k2 y | None => None end | None => None end, b).
Proof.
  intros H1 H2. destruct (check_tr_sound _ _ _ _ H1) as (t & F & _).
  change (walk c [a; h; b] (m, a)) with
    (match find_tr c a h with Some t => walk c [h; b] (apply_tr t (m, a)) | None => (m, a) end).
  rewrite F, (apply_checked c a h k1 t m H1 F), (walk1 c h b k2 _ H2).
  destruct m; auto.
Qed.

(** A converter in a context, from what pint does with the two samples. *)
Lemma fitted metric c s t es et u v (f : option R) :
  get_context std_registry metric = Ok c ->
  parse_unit s = Some es -> parse_unit t = Some et ->
  resolve std_registry es = Some u -> resolve std_registry et = Some v ->
  (forall m, pint_to_ctx c u v m = Ok (match f with Some k => Some (m * k)%R | None => None end)) ->
  exists cv, ctx_converter std_registry metric s t = Ok cv /\
    forall x, nconvert_from cv x = match f with Some k => Some (x * k)%R | None => None end /\
            (forall k, f = Some k -> k <> 0%R -> nconvert_to cv x = Some (x / k)%R) /\
            (f = None -> nconvert_to cv x = None).
Proof.
  intros G Ps Pt Rs Rt H. unfold ctx_converter. rewrite Ps, Pt, Rs, Rt, G, (H 1%R), (H (-1)%R).
  eexists. split; [reflexivity|]. now apply fit_linear.
Qed.

Lemma Sn2 c : star_ctx c -> exists n, S (length c) = S (S (S n)).
Proof. intros [H _]. destruct (length c) as [|[|n]]; try lia. exists n. reflexivity. Qed.

(** From a species to CO2. *)
Lemma to_co2 metric species v s t d k1 k2 :
  tabulated metric species v -> emission_form d ->
  unit_for std_registry s species d k1 -> unit_for std_registry t "CO2" d k2 ->
  exists cv, ctx_converter std_registry metric s t = Ok cv /\
    forall x, nconvert_from cv x = oscale (option_map (fun v => v * (k1 / k2)) v) x /\
      (forall v', v = Some v' -> nconvert_to cv x = Some (x / Q2R (v' * (k1 / k2)))%R) /\
      (v = None -> nconvert_to cv x = None).
Proof.
  intros Tb Ef Us Ut. destruct (form_shape d Ef) as (sh & ->).
  destruct (species_facts _ _ _ Tb) as (c & q & b & G & St & (q' & Rn & Eq) & Nz & Nb & Sp).
  destruct (unit_for_root _ _ _ _ _ _ Us Rn) as (es & qs & Ps & Rs & Es & Pq & Pk1).
  destruct (unit_for_root _ _ _ _ _ _ Ut CO2_root) as (et & qt & Pt & Rt & Et & _ & Pk2).
  destruct (Sp sh) as (N & Ne & In_ & C1 & C2). clear Sp.
  set (f := option_map (fun v => v * (k1 / k2)) v).
  assert (Nq : ~ q == 0) by (rewrite Eq; intros Z; rewrite Z in Pq; now apply Qlt_irrefl in Pq).
  assert (Nk1 : ~ k1 == 0) by (intros Z; rewrite Z in Pk1; now apply Qlt_irrefl in Pk1).
  assert (Nk2 : ~ k2 == 0) by (intros Z; rewrite Z in Pk2; now apply Qlt_irrefl in Pk2).
  destruct (fitted metric c s t es et _ _ (option_map Q2R f) G Ps Pt Rs Rt) as (cv & Cv & F).
  - intros m. unfold pint_to_ctx. cbn [fst snd].
    destruct (Sn2 c St) as (n & ->). change (shape_dim sh "carbon") with (hub_of sh).
    rewrite (to_hub c (hub_of sh) (S n) _ N Ne). rewrite (walk1 _ _ _ _ _ C1).
    cbn [fst snd]. rewrite dim_eqb_refl.
    subst f. destruct v as [v|]; cbn [option_map oscale]; auto. f_equal. f_equal.
    rewrite (Qeq_eqR _ _ Es), (Qeq_eqR _ _ Et).
    assert (E : Q2R (v * (k1 / k2)) = (Q2R (q' * k1) * Q2R (v * (12 # 44) / q) / Q2R ((3 # 11) * k2))%R).
    { rewrite <- Q2R_mult, <- Q2R_div.
      - apply Qeq_eqR. rewrite <- Eq. field. auto.
      - intros Z. apply Qmult_integral in Z. destruct Z as [Z|Z]; [discriminate|contradiction]. }
    rewrite E. field. apply Q2R_nz. apply Qmult_lt_0_compat; [reflexivity|exact Pk2].
  - exists cv. split; auto. intros x. destruct (F x) as (F1 & F2 & F3). subst f.
    repeat split.
    + rewrite F1. now destruct v.
    + intros v' ->. apply F2; auto. rewrite <- RMicromega.Q2R_0. intros Z. apply eqR_Qeq in Z.
      apply Qmult_integral in Z. destruct Z as [Z|Z]; [now apply (Nz v')|].
      unfold Qdiv in Z. apply Qmult_integral in Z. destruct Z as [Z|Z]; [contradiction|].
      apply (Qinv_lt_0_compat k2) in Pk2. rewrite Z in Pk2. now apply Qlt_irrefl in Pk2.
    + intros ->. now apply F3.
Qed.

(** From CO2 to a species. *)
Lemma from_co2 metric species v s t d k1 k2 :
  tabulated metric species v -> emission_form d ->
  unit_for std_registry s "CO2" d k1 -> unit_for std_registry t species d k2 ->
  exists cv, ctx_converter std_registry metric s t = Ok cv /\
    forall x, nconvert_from cv x = oscale (option_map (fun v => / v * (k1 / k2)) v) x.
Proof.
  intros Tb Ef Us Ut. destruct (form_shape d Ef) as (sh & ->).
  destruct (species_facts _ _ _ Tb) as (c & q & b & G & St & (q' & Rn & Eq) & Nz & Nb & Sp).
  destruct (unit_for_root _ _ _ _ _ _ Us CO2_root) as (es & qs & Ps & Rs & Es & _ & Pk1).
  destruct (unit_for_root _ _ _ _ _ _ Ut Rn) as (et & qt & Pt & Rt & Et & Pq & Pk2).
  destruct (Sp sh) as (N & Ne & In_ & C1 & C2). clear Sp.
  set (f := option_map (fun v => / v * (k1 / k2)) v).
  assert (Nq : ~ q == 0) by (rewrite Eq; intros Z; rewrite Z in Pq; now apply Qlt_irrefl in Pq).
  assert (Nk1 : ~ k1 == 0) by (intros Z; rewrite Z in Pk1; now apply Qlt_irrefl in Pk1).
  assert (Nk2 : ~ k2 == 0) by (intros Z; rewrite Z in Pk2; now apply Qlt_irrefl in Pk2).
  destruct (fitted metric c s t es et _ _ (option_map Q2R f) G Ps Pt Rs Rt) as (cv & Cv & F).
  - intros m. unfold pint_to_ctx. cbn [fst snd].
    destruct (Sn2 c St) as (n & ->). change (shape_dim sh "carbon") with (hub_of sh).
    rewrite (from_hub c (hub_of sh) (proj2 St sh) (S n)); auto.
    2: { intros [E|[]]. congruence. }
    rewrite (walk1 _ _ _ _ _ C2).
    cbn [fst snd]. rewrite dim_eqb_refl.
    subst f. destruct v as [v|]; cbn [option_map oscale]; auto. f_equal. f_equal.
    pose proof (Nz v eq_refl) as Nv.
    rewrite (Qeq_eqR _ _ Es), (Qeq_eqR _ _ Et).
    assert (E : Q2R (/ v * (k1 / k2)) = (Q2R ((3 # 11) * k1) * Q2R (/ (v * (12 # 44) / q)) / Q2R (q' * k2))%R).
    { rewrite <- Q2R_mult, <- Q2R_div.
      - apply Qeq_eqR. rewrite <- Eq. field. repeat split; auto; try discriminate.
      - rewrite <- Eq. intros Z. apply Qmult_integral in Z. tauto. }
    rewrite E. field. apply Q2R_nz. now apply Qmult_lt_0_compat.
  - exists cv. split; auto. intros x. destruct (F x) as (F1 & _). subst f.
    rewrite F1. now destruct v.
Qed.

Lemma coef_shape sh b n : coef (shape_dim sh b) n = ((if String.eqb n b then 1 else 0) + coef (form_of sh) n)%Z.
Proof.
  rewrite <- shape_form, coef_mul. cbn [coef]. destruct (String.eqb n b); lia.
Qed.

Lemma shape_inj sh a b : shape_dim sh a = shape_dim sh b -> a = b.
Proof.
  intros H. assert (C := coef_shape sh a a). rewrite H, coef_shape, String.eqb_refl in C.
  destruct (String.eqb_spec a b); auto. lia.
Qed.

(** From one species to another. *)
Lemma between metric sp1 sp2 v1 v2 s t d k1 k2 :
  tabulated metric sp1 (Some v1) -> tabulated metric sp2 (Some v2) -> emission_form d ->
  unit_for std_registry s sp1 d k1 -> unit_for std_registry t sp2 d k2 ->
  exists cv, ctx_converter std_registry metric s t = Ok cv /\
    forall x, nconvert_from cv x = Some (x * Q2R (v1 / v2 * (k1 / k2)))%R.
Proof.
  intros T1 T2 Ef Us Ut. destruct (form_shape d Ef) as (sh & ->).
  destruct (species_facts _ _ _ T1) as (c & q1 & b1 & G & St & (q1' & R1 & E1) & Nz1 & Nb1 & Sp1).
  destruct (species_facts _ _ _ T2) as (c' & q2 & b2 & G' & _ & (q2' & R2 & E2) & Nz2 & Nb2 & Sp2).
  rewrite G in G'. assert (c' = c) by congruence. subst c'. clear G'.
  destruct (unit_for_root _ _ _ _ _ _ Us R1) as (es & qs & Ps & Rs & Es & Pq1 & Pk1).
  destruct (unit_for_root _ _ _ _ _ _ Ut R2) as (et & qt & Pt & Rt & Et & Pq2 & Pk2).
  destruct (Sp1 sh) as (N1 & Ne1 & In1 & C1 & D1). destruct (Sp2 sh) as (N2 & Ne2 & In2 & C2 & D2).
  clear Sp1 Sp2.
  assert (nz : forall q, 0 < q -> ~ q == 0) by (intros q P Z; rewrite Z in P; now apply Qlt_irrefl in P).
  assert (Nq1 : ~ q1 == 0) by (rewrite E1; auto).
  assert (Nq2 : ~ q2 == 0) by (rewrite E2; auto).
  pose proof (nz _ Pk1) as Nk1. pose proof (nz _ Pk2) as Nk2.
  pose proof (Nz1 v1 eq_refl) as Nv1. pose proof (Nz2 v2 eq_refl) as Nv2.
  set (f := v1 / v2 * (k1 / k2)).
  assert (Pt2 : Q2R (q2' * k2) <> 0%R) by (apply Q2R_nz; now apply Qmult_lt_0_compat).
  destruct (fitted metric c s t es et _ _ (Some (Q2R f)) G Ps Pt Rs Rt) as (cv & Cv & F).
  - intros m. unfold pint_to_ctx. cbn [fst snd].
    destruct (Sn2 c St) as (n & ->).
    destruct (string_dec b1 b2) as [Eb|Nb].
    + subst b2. rewrite to_self. cbn [walk fst snd]. rewrite dim_eqb_refl. f_equal. f_equal.
      rewrite (Qeq_eqR _ _ Es), (Qeq_eqR _ _ Et).
      assert (K : v1 * (12 # 44) / q1 == v2 * (12 # 44) / q2).
      { destruct (check_tr_sound _ _ _ _ C1) as (t1 & F1 & _ & _ & A1).
        destruct (check_tr_sound _ _ _ _ C2) as (t2 & F2 & _ & _ & A2).
        assert (t1 = t2) by congruence. subst t2. destruct (tr_num t1); [|contradiction].
        rewrite <- A1, <- A2. reflexivity. }
      assert (V : v1 == v2 * q1 / q2).
      { assert (v1 == v1 * (12 # 44) / q1 * q1 * (44 # 12)) by (field; auto).
        rewrite H, K. field. auto. }
      assert (E : Q2R f = (Q2R (q1' * k1) / Q2R (q2' * k2))%R).
      { rewrite <- Q2R_div.
        - apply Qeq_eqR. unfold f. rewrite V, <- E1, <- E2. field. auto.
        - rewrite <- E2. intros Z. apply Qmult_integral in Z. tauto. }
      rewrite E. field. exact Pt2.
    + rewrite (through_hub c (hub_of sh) (proj2 St sh) n); auto.
      2: { intros E. apply Nb. eapply shape_inj; eauto. }
      rewrite (walk2 _ _ _ _ _ _ _ C1 D2).
      cbn [fst snd]. rewrite dim_eqb_refl. cbn [oscale]. f_equal. f_equal.
      rewrite (Qeq_eqR _ _ Es), (Qeq_eqR _ _ Et).
      assert (E : Q2R f = (Q2R (q1' * k1) * Q2R (v1 * (12 # 44) / q1) * Q2R (/ (v2 * (12 # 44) / q2)) / Q2R (q2' * k2))%R).
      { rewrite <- !Q2R_mult, <- Q2R_div.
        - apply Qeq_eqR. unfold f. rewrite <- E1, <- E2. field. repeat split; auto; try discriminate.
        - rewrite <- E2. intros Z. apply Qmult_integral in Z. tauto. }
      rewrite E. field. exact Pt2.
  - exists cv. split; auto. intros x. destruct (F x) as (F1 & _). now rewrite F1.
Qed.

(** ** Without a context, and for gases the table does not know *)

Lemma outside metric species v s t d k1 k2 :
  tabulated metric species v -> emission_form d ->
  unit_for std_registry s species d k1 -> unit_for std_registry t "CO2" d k2 ->
  unit_converter std_env (Some s) (Some t) = Err EDimensionality /\
  unit_converter std_env (Some t) (Some s) = Err EDimensionality.
Proof.
  intros Tb Ef Us Ut. destruct (form_shape d Ef) as (sh & ->).
  destruct (species_facts _ _ _ Tb) as (c & q & b & G & St & (q' & Rn & Eq) & Nz & Nb & _).
  destruct (unit_for_root _ _ _ _ _ _ Us Rn) as (es & qs & Ps & Rs & _).
  destruct (unit_for_root _ _ _ _ _ _ Ut CO2_root) as (et & qt & Pt & Rt & _).
  assert (A : std_env s = Some (mkUdef (shape_dim sh b) (Q2R qs) 0)) by (unfold std_env, registry_env; now rewrite Ps, Rs).
  assert (B : std_env t = Some (mkUdef (shape_dim sh "carbon") (Q2R qt) 0)) by (unfold std_env, registry_env; now rewrite Pt, Rt).
  split; apply C36_converter_proof.
  - exists (mkUdef (shape_dim sh b) (Q2R qs) 0), (mkUdef (shape_dim sh "carbon") (Q2R qt) 0). split; [exact A|split; [exact B|]].
    simpl. intros E. apply shape_inj in E. contradiction.
  - exists (mkUdef (shape_dim sh "carbon") (Q2R qt) 0), (mkUdef (shape_dim sh b) (Q2R qs) 0). split; [exact B|split; [exact A|]].
    simpl. intros E. apply shape_inj in E. congruence.
Qed.

Lemma fold_none c hub n vis goal l :
  (forall nd, In nd (neighbours c hub) -> nd <> hub /\ neighbours c nd = [hub]) ->
  (forall nd, In nd l -> In nd (neighbours c hub)) -> ~ In goal l ->
  fold_left (step_hub c hub (S n) vis goal) l None = None.
Proof.
  intros St. induction l as [|nd l IH]; intros H N; simpl; auto.
  assert (step_hub c hub (S n) vis goal None nd = None) as ->.
  { unfold step_hub. destruct (dim_in nd (hub :: vis)); auto.
    destruct (St nd) as [Ne E]; [apply H; now left|].
    rewrite dead_end with (hub := hub); auto; [now left|]. intros ->. apply N. now left. }
  apply IH; [intros x I; apply H; now right|intros I; apply N; now right].
Qed.

Lemma hub_none c hub n goal :
  (forall nd, In nd (neighbours c hub) -> nd <> hub /\ neighbours c nd = [hub]) ->
  ~ In goal (neighbours c hub) -> hub <> goal -> find_path c (S (S n)) [] hub goal = None.
Proof.
  intros St N Ne. change (find_path c (S (S n)) [] hub goal) with
    (if dim_eqb hub goal then Some [hub]
     else fold_left (step_hub c hub (S n) [] goal) (neighbours c hub) None).
  apply dim_eqb_false in Ne. rewrite Ne. now apply fold_none.
Qed.

(** Base gases of the metric table. *)
Definition metric_bases : list string :=
  map (fun r => match ratio_of standard_gases 10 (fst r) with Some (b, _) => b | None => "" end) metric_rows.

Definition check_unlisted (i : nat) : bool :=
  match metric_context std_registry (metric_column i) [] with
  | Err _ => false
  | Ok c =>
    (2 <=? length c)%nat &&  forallb (check_hub c) shapes &&
    forallb (fun e =>
      is_sulfurous (fst e) ||
      match ratio_of standard_gases 10 (fst e) with
      | None => false
      | Some (b, k) =>
        String.eqb b "carbon" || existsb (String.eqb b) metric_bases ||
        forallb (fun sh => match neighbours c (shape_dim sh b) with [] => true | _ => false end &&
                           negb (dim_in (shape_dim sh b) (neighbours c (hub_of sh)))) shapes
      end) standard_gases
  end.

Lemma unlisted_checked : forallb check_unlisted [0; 1; 2]%nat = true.
Proof. vm_cast_no_check (eq_refl true). Qed.

Lemma metric_bases_sound :
  forallb (fun r => match ratio_of standard_gases 10 (fst r) with Some _ => true | None => false end) metric_rows = true.
Proof. vm_compute. reflexivity. Qed.

Lemma gas_root s g b k : In (s, g) standard_gases -> ~ sulfurous s -> mass_ratio standard_gases s b k ->
  exists q, resolve_name std_registry fuel s = Some (q, [(b, 1%Z)]) /\ q == k.
Proof.
  intros I N M.
  assert (T : forallb (fun e => is_sulfurous (fst e) ||
     match ratio_of standard_gases 10 (fst e), resolve_name std_registry fuel (fst e) with
     | Some (b, k), Some (q, d) => Qeq_bool q k && dim_eqb d [(b, 1%Z)]
     | _, _ => false
     end) standard_gases = true) by (vm_cast_no_check (eq_refl true)).
  rewrite forallb_forall in T. apply T in I. change (fst (s, g)) with s in I.
  apply orb_prop in I. destruct I as [I|I]; [apply is_sulfurous_spec in I; contradiction|].
  destruct (ratio_of standard_gases 10 s) as [[b' k']|] eqn:R; [|discriminate].
  destruct (resolve_name std_registry fuel s) as [[q d]|]; [|discriminate].
  apply andb_prop in I. destruct I as [A B]. apply Qeq_bool_iff in A. apply dim_eqb_true in B.
  apply ratio_of_sound in R. destruct (mass_ratio_fun _ _ _ _ _ _ std_keys M R) as [<- E].
  exists q. subst d. split; auto. rewrite A. now symmetry.
Qed.

Opaque std_registry metric_context metric_column resolve ratio_of standard_gases.
Lemma unlisted metric gas g b k s t d k1 k2 :
  In metric metric_names -> In (gas, g) standard_gases -> ~ sulfurous gas ->
  mass_ratio standard_gases gas b k -> b <> "carbon" ->
  (forall species v k', In (species, v) metric_rows -> ~ mass_ratio standard_gases species b k') ->
  emission_form d ->
  unit_for std_registry s gas d k1 -> unit_for std_registry t "CO2" d k2 ->
  ctx_converter std_registry metric s t = Err EDimensionality /\
  ctx_converter std_registry metric t s = Err EDimensionality.
Proof.
  intros Im I N M Nb Un Ef Us Ut. destruct (form_shape d Ef) as (sh & ->).
  destruct (In_nth_error _ _ Im) as (i & Mi).
  pose proof unlisted_checked as T. rewrite forallb_forall in T.
  specialize (T i (metric_index i metric Mi)). unfold check_unlisted in T.
  pose proof (get_metric std_registry i metric Mi) as G.
  destruct (metric_context std_registry (metric_column i) []) as [c|e]; [|discriminate].
  apply andb_prop in T. destruct T as [T T3]. apply andb_prop in T. destruct T as [T1 T2].
  apply Nat.leb_le in T1.
  assert (Star : forall nd, In nd (neighbours c (hub_of sh)) -> nd <> hub_of sh /\ neighbours c nd = [hub_of sh]).
  { intros nd J. rewrite forallb_forall in T2. specialize (T2 sh (shapes_all sh)).
    unfold check_hub in T2. rewrite forallb_forall in T2. apply T2 in J.
    apply andb_prop in J. destruct J as [J1 J2]. apply negb_true_iff in J1. split; [now apply dim_eqb_false|].
    destruct (neighbours c nd) as [|h [|]]; try discriminate. apply dim_eqb_true in J2. now subst. }
  destruct (gas_root _ _ _ _ I N M) as (q & Rn & Eq).
  rewrite forallb_forall in T3. apply T3 in I. change (fst (gas, g)) with gas in I.
  apply orb_prop in I. destruct I as [I|I]; [apply is_sulfurous_spec in I; contradiction|].
  destruct (ratio_of standard_gases 10 gas) as [[b' k']|] eqn:R; [|discriminate].
  apply ratio_of_sound in R. destruct (mass_ratio_fun _ _ _ _ _ _ std_keys M R) as [<- _].
  apply orb_prop in I. destruct I as [I|I]; [apply orb_prop in I; destruct I as [I|I]|].
  { apply String.eqb_eq in I. contradiction. }
  { apply existsb_exists in I. destruct I as (b' & J & E). apply String.eqb_eq in E. subst b'.
    unfold metric_bases in J. apply in_map_iff in J. destruct J as ([sp v] & E & J).
    pose proof metric_bases_sound as S. rewrite forallb_forall in S. specialize (S _ J).
    change (fst (sp, v)) with sp in *. destruct (ratio_of standard_gases 10 sp) as [[b' k'']|] eqn:R'; [|discriminate].
    subst b'. apply ratio_of_sound in R'. exfalso. eapply Un; eauto. }
  rewrite forallb_forall in I. specialize (I sh (shapes_all sh)). apply andb_prop in I. destruct I as [I1 I2].
  apply negb_true_iff, dim_in_false in I2.
  assert (N0 : neighbours c (shape_dim sh b) = []) by (destruct (neighbours c (shape_dim sh b)); [auto|discriminate]).
  destruct (unit_for_root _ _ _ _ _ _ Us Rn) as (es & qs & Ps & Rs & _).
  destruct (unit_for_root _ _ _ _ _ _ Ut CO2_root) as (et & qt & Pt & Rt & _).
  assert (Ne : shape_dim sh b <> shape_dim sh "carbon") by (intros E; apply shape_inj in E; contradiction).
  assert (P1 : forall m, pint_to_ctx c (qs, shape_dim sh b) (qt, shape_dim sh "carbon") m = Err EDimensionality).
  { intros m. unfold pint_to_ctx. cbn [fst snd]. rewrite no_way by auto. cbn [fst snd].
    apply dim_eqb_false in Ne. now rewrite Ne. }
  assert (P2 : forall m, pint_to_ctx c (qt, shape_dim sh "carbon") (qs, shape_dim sh b) m = Err EDimensionality).
  { intros m. unfold pint_to_ctx. cbn [fst snd]. destruct (length c) as [|n]; [lia|].
    change (shape_dim sh "carbon") with (hub_of sh) in *.
    rewrite (hub_none c (hub_of sh) n); auto. cbn [fst snd].
    assert (dim_eqb (hub_of sh) (shape_dim sh b) = false) as -> by (apply dim_eqb_false; congruence). reflexivity. }
  unfold ctx_converter. rewrite Ps, Pt, Rs, Rt, G, !P1, !P2. auto.
Qed.
Transparent std_registry metric_context metric_column resolve ratio_of standard_gases.

Lemma same_form metric species v s t d k :
  tabulated metric species (Some v) -> emission_form d ->
  unit_for std_registry s species d k -> unit_for std_registry t "CO2" d k ->
  exists cv, ctx_converter std_registry metric s t = Ok cv /\
    forall x, nconvert_from cv x = Some (x * Q2R v)%R /\ nconvert_to cv x = Some (x / Q2R v)%R.
Proof.
  intros Tb Ef Us Ut.
  assert (Pk : 0 < k).
  { destruct Ut as (pre & post & _ & R). apply (good_resolve _ _ _ std_good) in R. apply R. }
  assert (E : Q2R (v * (k / k)) = Q2R v).
  { apply Qeq_eqR. field. intros Z. rewrite Z in Pk. now apply Qlt_irrefl in Pk. }
  destruct (to_co2 _ _ _ _ _ _ _ _ Tb Ef Us Ut) as (cv & C & F). exists cv. split; auto.
  intros x. destruct (F x) as (A & B & _). specialize (B v eq_refl).
  cbn [option_map oscale] in A. rewrite E in A, B. auto.
Qed.

Lemma species_to_co2 metric species v s t d k1 k2 :
  tabulated metric species (Some v) -> emission_form d ->
  unit_for std_registry s species d k1 -> unit_for std_registry t "CO2" d k2 ->
  exists cv, ctx_converter std_registry metric s t = Ok cv /\
    forall x, nconvert_from cv x = Some (x * Q2R (v * (k1 / k2)))%R /\
              nconvert_to cv x = Some (x / Q2R (v * (k1 / k2)))%R.
Proof.
  intros Tb Ef Us Ut. destruct (to_co2 _ _ _ _ _ _ _ _ Tb Ef Us Ut) as (cv & C & F). exists cv.
  split; auto. intros x. destruct (F x) as (A & B & _). specialize (B v eq_refl).
  cbn [option_map oscale] in A. auto.
Qed.

Lemma empty_cell metric species s t d k1 k2 :
  tabulated metric species None -> emission_form d ->
  unit_for std_registry s species d k1 -> unit_for std_registry t "CO2" d k2 ->
  exists cv, ctx_converter std_registry metric s t = Ok cv /\
    forall x, nconvert_from cv x = None /\ nconvert_to cv x = None.
Proof.
  intros Tb Ef Us Ut. destruct (to_co2 _ _ _ _ _ _ _ _ Tb Ef Us Ut) as (cv & C & F). exists cv.
  split; auto. intros x. destruct (F x) as (A & _ & B). specialize (B eq_refl).
  cbn [option_map oscale] in A. auto.
Qed.
