(** C51 and C52: renaming and unit conversion of data frames.  Vocabulary: [Spec_Frame.v]. *)
From Coq Require Import String Ascii List ZArith QArith Qcanon Reals Bool Lia Lra.
From Verif Require Import Base Units TimeModel Core Spec_Core CoreP2 Examples UnitsProps Spec_Units Filters Frame Spec_Frame FrameFilter FrameSelect FrameEdit Prop_Frame.
Import ListNotations.
Local Open Scope string_scope.
Local Open Scope list_scope.

(** ** C51 *)

(** A successful renaming changes exactly the listed values of the listed columns; the result has no
    two timeseries with the same metadata. *)
Theorem C51_renames mapping f f' : aligned f -> NoDup (map fst mapping) -> (forall p, In p mapping -> NoDup (map fst (snd p))) ->
  rename mapping f = (f', Ok tt) ->
  fr_times f' = fr_times f /\ fr_data f' = fr_data f /\ fr_cols f' = fr_cols f /\ map fst (fr_meta f') = map fst (fr_meta f) /\
  renamed_rows mapping (fr_cols f) (map snd (fr_meta f)) (map snd (fr_meta f')) /\
  (mapping <> [] -> unique_rows (map snd (fr_meta f'))).
Proof.
  intros AL N D H. destruct (rename_cases _ _ _ _ H) as [(_ & _ & T & Da & C & L & M & U)|(X & _)]; [|discriminate].
  repeat (split; [assumption|]). split; [|exact U]. apply renamed_rows_iff; auto.
  apply Forall_forall. intros r Hr. apply in_map_iff in Hr as ([l r0] & <- & Hr). exact (row_length f l r0 AL Hr).
Qed.
Print Assumptions C51_renames.

(** It succeeds exactly if all columns exist and the new metadata tell all timeseries apart;
    otherwise it is a ValueError. *)
Theorem C51_accepts mapping f : aligned f -> NoDup (map fst mapping) -> (forall p, In p mapping -> NoDup (map fst (snd p))) ->
  exists rows, renamed_rows mapping (fr_cols f) (map snd (fr_meta f)) rows /\
    (snd (rename mapping f) = Ok tt <-> incl (map fst mapping) (fr_cols f) /\ (mapping = [] \/ unique_rows rows)) /\
    (snd (rename mapping f) = Err EValueError <-> ~ (incl (map fst mapping) (fr_cols f) /\ (mapping = [] \/ unique_rows rows))).
Proof.
  intros AL N D. exists (replace_rows (fr_cols f) mapping (map snd (fr_meta f))). split.
  - apply renamed_rows_iff; auto. apply Forall_forall. intros r Hr. apply in_map_iff in Hr as ([l r0] & <- & Hr). exact (row_length f l r0 AL Hr).
  - destruct (rename mapping f) as [f' r] eqn:H. cbn [snd].
    destruct (rename_cases _ _ _ _ H) as [(-> & I & T & Da & C & L & M & U)|(-> & X)]; split.
    + split; [|reflexivity]. intros _. split; auto. destruct mapping as [|p mp]; [now left|right]. rewrite <- M. apply U. discriminate.
    + split; [discriminate|]. intros NN. exfalso. apply NN. split; auto. destruct mapping as [|p mp]; [now left|right]. rewrite <- M. apply U. discriminate.
    + split; [discriminate|]. intros (I & [E|U]); exfalso; destruct X as [X|(X & Y)]; auto.
    + split; [|reflexivity]. intros _ (I & [E|U]); destruct X as [X|(X & Y)]; auto.
Qed.
Print Assumptions C51_accepts.

Definition case_mapping : list (string * list (string * string)) :=
  [("variable", [("Primary Energy", "PE"); ("Primary Energy|Coal", "Primary Energy")]); ("unit", [("TJ/yr", "x")])].
Example C51_case : aligned case_frame /\ NoDup (map fst case_mapping) /\ (forall p, In p case_mapping -> NoDup (map fst (snd p))) /\
  rename case_mapping case_frame = (mkFrame case_times (fr_data case_frame) case_cols
    [(0%Z, case_row "PE" "EJ/yr"); (1%Z, case_row "Primary Energy" "EJ/yr")], Ok tt) /\
  snd (rename [("variable", [("Primary Energy|Coal", "Primary Energy")])] case_frame) = Err EValueError.
Proof.
  split; [apply C48_case|]. split; [cbn; repeat constructor; cbn; intuition discriminate|].
  split; [intros p [<-|[<-|[]]]; cbn; repeat constructor; cbn; intuition discriminate|]. split; vm_compute; reflexivity.
Qed.

(** In place, a failing renaming leaves a changed frame, here one with two equal timeseries. *)
Theorem C51_inplace_refuted : exists mapping f, aligned f /\ unique_rows (map snd (fr_meta f)) /\
  snd (rename mapping f) = Err EValueError /\ ~ unique_rows (map snd (fr_meta (fst (rename mapping f)))).
Proof.
  exists [("variable", [("Primary Energy|Coal", "Primary Energy")])], case_frame. split; [apply C48_case|].
  split; [apply has_dup_iff; vm_compute; reflexivity|]. split; [vm_compute; reflexivity|]. intros U. apply has_dup_iff in U. vm_compute in U. discriminate.
Qed.
Print Assumptions C51_inplace_refuted.

(** ** C52 *)

(** There is a test of metadata and time such that the timeseries converted are those with a value
    that passes.  Their values are converted from their own unit, their unit and context replaced and
    all other metadata kept; all other timeseries stay as they are.  ([mk u] is the conversion from
    [u] to the new unit; a missing column "unit_context" is added, without value.) *)
Theorem C52_converts mk unit ctx keep rx hn fl f f' : aligned f -> convert_unit mk unit ctx keep rx hn fl f = (f', Ok tt) ->
  exists (selected : Z -> bool) (test : list mval -> Z -> bool),
    (forall l, selected l = true <-> exists row vs i t x,
      In (l, row) (fr_meta (with_context f)) /\ In (l, vs) (fr_data f) /\ nth_error (fr_times f) i = Some t /\ nth_error vs i = Some (Some x) /\ test row t = true) /\
    aligned f' /\ fr_times f' = fr_times f /\ map fst (fr_data f') = map fst (fr_data f) /\
    forall l vs, In (l, vs) (fr_data f) ->
      (forall u, selected l = true -> meta_of f l "unit" (MStr u) ->
        exists conv, mk u = Ok conv /\ In (l, map conv vs) (fr_data f') /\
          meta_of f' l "unit" (MStr unit) /\ meta_of f' l "unit_context" (match ctx with Some c => MStr c | None => MNone end) /\
          forall c v, c <> "unit" -> c <> "unit_context" -> meta_of f l c v -> meta_of f' l c v) /\
      (selected l = false \/ (forall u, ~ meta_of f l "unit" (MStr u)) ->
        In (l, vs) (fr_data f') /\ (forall c v, meta_of f l c v -> meta_of f' l c v) /\
        (~ In "unit_context" (fr_cols f) -> meta_of f' l "unit_context" MNone)).
Proof.
  intros AL H. destruct (convert_ok mk unit ctx keep rx hn fl f f' AL H) as (g & FG & AL' & T & LD & C & HC).
  destruct (with_context_ok f AL) as (AL0 & T0 & D0 & _ & L0 & M0). destruct (filter_selects _ _ _ _ _ _ AL0 FG) as (test & ALg & Cg & SG).
  exists (fun l => has_label l (map fst (fr_meta g))), test. split; [|split; [exact AL'|split; [exact T|split; [exact LD|]]]].
  - intros l. rewrite has_label_iff, in_map_iff. rewrite D0, T0 in SG. split.
    + intros ([l0 row] & E & I). cbn in E. subst l0. apply SG in I as (I & vs & i & t & x & X). exists row, vs, i, t, x. tauto.
    + intros (row & vs & i & t & x & I & X). exists (l, row). split; [reflexivity|]. apply SG. split; [exact I|]. exists vs, i, t, x. exact X.
  - intros l vs I. destruct (HC l vs I) as (H1 & H2). split; [intros u S; apply H1; now apply has_label_iff|]. intros NS.
    destruct H2 as (A & B); [destruct NS as [NS|NS]; [left|now right]; intros X; apply has_label_iff in X; congruence|]. split; [exact A|]. split.
    + intros c v M. apply B, M0. now left.
    + intros NU. apply B, M0. right. split; [exact NU|]. split; [reflexivity|]. split; [reflexivity|]. rewrite <- (al_labels _ AL). apply in_map_iff. now exists (l, vs).
Qed.
Print Assumptions C52_converts.

(** Without context, the quantity is the same: every timeseries keeps unit and values or gets the new
    unit and the values of the same quantities. *)
Theorem C52_physical env unit ctx keep rx hn fl f f' l vs u : good_env env -> aligned f ->
  convert_unit (plain_converter env unit) unit ctx keep rx hn fl f = (f', Ok tt) ->
  In (l, vs) (fr_data f) -> meta_of f l "unit" (MStr u) ->
  exists vs' u', In (l, vs') (fr_data f') /\ meta_of f' l "unit" (MStr u') /\
    ((u' = u /\ vs' = vs) \/ (u' = unit /\ Forall2 (fun x y => same_num env u x unit y) vs vs')).
Proof.
  intros G AL H I MU. destruct (C52_converts _ _ _ _ _ _ _ _ _ AL H) as (sel & _ & _ & AL' & _ & _ & HC). destruct (HC l vs I) as (H1 & H2).
  destruct (sel l) eqn:S.
  - destruct (H1 u eq_refl MU) as (conv & MK & J & JU & _). exists (map conv vs), unit. split; [exact J|]. split; [exact JU|]. right. split; [reflexivity|].
    unfold plain_converter in MK. apply rbind_ok in MK as (c & UC & E). injection E as <-.
    clear - G UC. induction vs as [|[x|] vs IH]; cbn [map]; constructor; auto; cbn; auto. now apply (uconv_phys env u unit c).
  - destruct (H2 (or_introl eq_refl)) as (J & B & _). exists vs, u. split; [exact J|]. split; [now apply B|]. now left.
Qed.
Print Assumptions C52_physical.

(** It succeeds if the filter does and all units of the selection can be converted. *)
Theorem C52_accepts mk unit ctx keep rx hn fl f g us : aligned f -> fr_filter keep rx hn fl (with_context f) = Ok g -> units_of g = Ok us ->
  (snd (convert_unit mk unit ctx keep rx hn fl f) = Ok tt <->
   forall l u, In l (map fst (fr_meta g)) -> meta_of g l "unit" (MStr u) -> exists conv, mk u = Ok conv).
Proof.
  intros AL FG UG. destruct (with_context_ok f AL) as (AL0 & _). destruct (filter_selects _ _ _ _ _ _ AL0 FG) as (_ & ALg & _).
  destruct (units_ok g us UG) as (_ & HU & _). unfold convert_unit. rewrite FG, UG, convert_groups_accepts. split.
  - intros H l u _ (row & I & M). apply H, HU. exists (l, row). split; [exact I|]. apply in_cell; [apply ALg|exact M].
  - intros H u U. apply HU in U as ([l row] & I & E). apply (H l u); [apply in_map_iff; now exists (l, row)|]. exists row. split; [exact I|].
    apply cell_iff; [apply ALg|eapply row_length; eauto|]. split; [|symmetry; exact E]. apply (al_required _ ALg). cbn. tauto.
Qed.
Print Assumptions C52_accepts.

(** "K" and "mK"; the second timeseries is selected. *)
Definition warm_frame : frame := mkFrame case_times
  [(0%Z, [Some 1%R; Some 6%R; Some 7%R]); (1%Z, [Some 3%R; None; Some 8%R]); (2%Z, [None; None; None])] case_cols
  [(0%Z, case_row "T" "K"); (1%Z, case_row "T|x" "mK"); (2%Z, case_row "T|y" "mK")].
Lemma warm_aligned : aligned warm_frame.
Proof.
  split; try reflexivity.
  - cbn. repeat constructor; cbn; intuition discriminate.
  - repeat constructor.
  - repeat constructor.
  - cbn. repeat constructor; cbn; intuition discriminate.
  - intros c H. exact H.
Qed.
Definition coldest : list (string * parg) := [("variable", One (PStr "T|*"))].
Example C52_case : good_env ex_env /\ aligned warm_frame /\ In (1%Z, [Some 3%R; None; Some 8%R]) (fr_data warm_frame) /\
  meta_of warm_frame 1 "unit" (MStr "mK") /\
  exists f', convert_unit (plain_converter ex_env "K") "K" None true false true coldest warm_frame = (f', Ok tt).
Proof.
  split; [exact ex_good|]. split; [exact warm_aligned|]. split; [cbn; tauto|]. split; [eexists; split; [right; left; reflexivity|cbn; tauto]|].
  destruct (convert_unit (plain_converter ex_env "K") "K" None true false true coldest warm_frame) as [f' r] eqn:E. exists f'. f_equal.
  change r with (snd (f', r)). rewrite <- E. eapply C52_accepts; [exact warm_aligned|vm_compute; reflexivity|vm_compute; reflexivity|].
  intros l u [<-|[]] (row & [[= <-]|[]] & M). cbn in M. assert (U : u = "mK").
  { destruct M as [M|[M|[M|[M|[M|[M|[]]]]]]]; try discriminate M. now injection M. }
  subst u. unfold plain_converter. destruct (proj2 (proj1 (C36_converter_proof ex_env "mK" "K"))) as (c & C); [do 2 eexists; split; [reflexivity|split; reflexivity]|].
  rewrite C. cbn [rbind]. eauto.
Qed.

(** A timeseries without any value is not converted although its metadata are selected: it keeps
    its unit. *)
Theorem C52_missing_refuted : exists f f', aligned f /\ convert_unit (plain_converter ex_env "K") "K" None true false true coldest f = (f', Ok tt) /\
  meta_of f 2 "variable" (MStr "T|y") /\ meta_of f 2 "unit" (MStr "mK") /\ meta_of f' 2 "unit" (MStr "mK").
Proof.
  destruct C52_case as (_ & AL & _ & _ & f' & H). exists warm_frame, f'. split; [exact AL|]. split; [exact H|].
  assert (V : meta_of warm_frame 2 "unit" (MStr "mK")) by (eexists; split; [right; right; left; reflexivity|cbn; tauto]).
  split; [eexists; split; [right; right; left; reflexivity|cbn; tauto]|]. split; [exact V|].
  destruct (C52_converts _ _ _ _ _ _ _ _ _ AL H) as (sel & test & HS & _ & _ & _ & HC). destruct (HC 2%Z [None; None; None]) as (_ & H2); [cbn; tauto|].
  apply H2; [|exact V]. left. destruct (sel 2%Z) eqn:S; [|reflexivity]. apply HS in S as (row & vs & i & t & x & _ & I & _ & J & _).
  cbn in I. destruct I as [I|[I|[I|[]]]]; try discriminate I. injection I as <-. destruct i as [|[|[|[|i]]]]; discriminate J.
Qed.
Print Assumptions C52_missing_refuted.

(** In place, a failing conversion leaves the units before the failing one converted. *)
Definition mixed_frame : frame := mkFrame [0%Z] [(0%Z, [Some 1%R]); (1%Z, [Some 3%R])] case_cols
  [(0%Z, case_row "T" "K"); (1%Z, case_row "F" "W")].
Theorem C52_inplace_refuted : exists f f', aligned f /\ convert_unit (plain_converter ex_env "mK") "mK" None true false true [] f = (f', Err EDimensionality) /\
  meta_of f 0 "unit" (MStr "K") /\ meta_of f' 0 "unit" (MStr "mK").
Proof.
  destruct (proj2 (proj1 (C36_converter_proof ex_env "K" "mK"))) as (c & C); [do 2 eexists; split; [reflexivity|split; reflexivity]|].
  exists mixed_frame. eexists. split.
  { split; try reflexivity.
    - cbn. repeat constructor; cbn; intuition discriminate.
    - repeat constructor.
    - repeat constructor.
    - cbn. repeat constructor; cbn; intuition discriminate.
    - intros x H. exact H. }
  split.
  - unfold convert_unit.
    assert (F : fr_filter true false true [] (with_context mixed_frame) = Ok (with_context mixed_frame)) by (vm_compute; reflexivity). rewrite F.
    assert (U : units_of (with_context mixed_frame) = Ok ["K"; "W"]) by (vm_compute; reflexivity). rewrite U. cbn [convert_groups].
    assert (W : unit_converter ex_env (Some "W") (Some "mK") = Err EDimensionality)
      by (apply C36_converter_proof; do 2 eexists; split; [reflexivity|split; [reflexivity|discriminate]]).
    unfold plain_converter. rewrite C, W. cbn [rbind]. reflexivity.
  - split; [eexists; split; [left; reflexivity|cbn; tauto]|]. eexists. split; [left; reflexivity|]. vm_compute. tauto.
Qed.
Print Assumptions C52_inplace_refuted.
