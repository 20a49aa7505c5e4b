(** C95: sequences of unit conversions of data frames.  Vocabulary: [Spec_Frame.v], [Spec_Convert.v]. *)
From Coq Require Import String Ascii List ZArith QArith Qcanon Reals Bool Lia Lra.
From Verif Require Import Base Units TimeModel Core Spec_Core Examples Spec_Units UnitsProps Filters Frame Spec_Frame FrameEdit Spec_Convert ConvertProps Prop_Frame Prop_FrameEdit.
Import ListNotations.
Local Open Scope string_scope.
Local Open Scope list_scope.

(** After any calls of [convert_unit], successful or not, with any filters, every timeseries still has the
    same quantities, and all other metadata; in the unit of the beginning it has the same values. *)
Theorem C95_sequences env f g : good_env env -> aligned f -> converted env f g ->
  aligned g /\ fr_times g = fr_times f /\ map fst (fr_data g) = map fst (fr_data f) /\
  forall l vs u, In (l, vs) (fr_data f) -> meta_of f l "unit" (MStr u) ->
    (forall c v, c <> "unit" -> c <> "unit_context" -> meta_of f l c v -> meta_of g l c v) /\
    exists u' vs', meta_of g l "unit" (MStr u') /\ In (l, vs') (fr_data g) /\ same_series env u vs u' vs' /\ (u' = u -> vs' = vs).
Proof.
  intros G AL C. destruct (converted_holds env f g G AL C) as (A & T & L & H). split; [exact A|]. split; [exact T|]. split; [exact L|].
  intros l vs u I M. destruct (H l vs I) as (H1 & H2 & _). split; [exact H1|]. destruct (H2 u M) as (u' & vs' & M' & I' & S). exists u', vs'.
  split; [exact M'|]. split; [exact I'|]. split; [exact S|]. intros ->. exact (series_back env u vs vs' G S).
Qed.
Print Assumptions C95_sequences.

(** Timeseries without a unit stay as they are. *)
Theorem C95_no_unit env f g l vs : good_env env -> aligned f -> converted env f g ->
  In (l, vs) (fr_data f) -> (forall u, ~ meta_of f l "unit" (MStr u)) ->
  In (l, vs) (fr_data g) /\ forall c v, c <> "unit_context" -> meta_of f l c v -> meta_of g l c v.
Proof.
  intros G AL C I N. destruct (converted_holds env f g G AL C) as (_ & _ & _ & H). destruct (H l vs I) as (H1 & _ & H3). destruct (H3 N) as (J & U).
  split; [exact J|]. intros c v NC M. destruct (string_dec c "unit") as [->|NU]; auto.
Qed.
Print Assumptions C95_no_unit.

(** A frame all in one unit can be converted to any unit of the same dimension and back, and then has
    the same data and metadata. *)
Theorem C95_back env u w f : good_env env -> aligned f -> fr_times f <> [] -> fr_data f <> [] -> commensurable env u w ->
  (forall l, In l (map fst (fr_data f)) -> meta_of f l "unit" (MStr u)) ->
  exists f' f'', convert_unit (plain_converter env w) w None true false true [] f = (f', Ok tt) /\
    convert_unit (plain_converter env u) u None true false true [] f' = (f'', Ok tt) /\
    fr_times f'' = fr_times f /\ fr_data f'' = fr_data f /\
    (forall l vs x, In (l, vs) (fr_data f) -> In (Some x) vs -> meta_of f' l "unit" (MStr w)) /\
    forall l c v, c <> "unit_context" -> In l (map fst (fr_data f)) -> meta_of f l c v -> meta_of f'' l c v.
Proof. exact (there_and_back env u w f). Qed.
Print Assumptions C95_back.

(** The frame of C52 after a conversion of a part and one that fails (no unit can be converted to "W"). *)
Example C95_case : good_env ex_env /\ aligned warm_frame /\ exists g,
  converted ex_env warm_frame g /\ meta_of g 1 "unit" (MStr "K") /\ meta_of warm_frame 1 "unit" (MStr "mK") /\
  snd (convert_unit (plain_converter ex_env "W") "W" None true false true [] warm_frame) <> Ok tt.
Proof.
  destruct C52_case as (G & AL & I & M & f' & H). split; [exact G|]. split; [exact AL|]. exists f'. split; [|split; [|split; [exact M|]]].
  - replace f' with (fst (convert_unit (plain_converter ex_env "K") "K" None true false true coldest warm_frame)) by (rewrite H; reflexivity).
    constructor. constructor.
  - destruct (C52_converts _ _ _ _ _ _ _ _ _ AL H) as (sel & test & HS & _ & _ & _ & HC).
    destruct (convert_ok _ _ _ _ _ _ _ _ _ AL H) as (g & FG & _ & _ & _ & _ & HG).
    destruct (HG 1%Z _ I) as (H1 & _). destruct (H1 "mK") as (conv & _ & _ & U & _); [|exact M|exact U].
    assert (X : fr_filter true false true coldest (with_context warm_frame) = Ok g) by exact FG. vm_compute in X. injection X as <-. cbn. tauto.
  - unfold convert_unit.
    assert (F : exists g, fr_filter true false true [] (with_context warm_frame) = Ok g /\ units_of g = Ok ["K"; "mK"]) by (eexists; split; vm_compute; reflexivity).
    destruct F as (g & F & U). rewrite F, U. rewrite convert_groups_accepts. intros K. destruct (K "K") as (c & C); [now left|].
    unfold plain_converter in C. assert (W : unit_converter ex_env (Some "K") (Some "W") = Err EDimensionality)
      by (apply C36_converter_proof; do 2 eexists; split; [reflexivity|split; [reflexivity|discriminate]]).
    rewrite W in C. discriminate.
Qed.
(** Temperatures in "K", of which one is missing. *)
Definition kelvin_frame : frame := mkFrame case_times
  [(0%Z, [Some 1%R; Some 6%R; Some 7%R]); (1%Z, [Some 3%R; None; Some 8%R])] case_cols
  [(0%Z, case_row "T" "K"); (1%Z, case_row "T|x" "K")].
Example C95_back_case : aligned kelvin_frame /\ fr_times kelvin_frame <> [] /\ fr_data kelvin_frame <> [] /\ commensurable ex_env "K" "mK" /\
  forall l, In l (map fst (fr_data kelvin_frame)) -> meta_of kelvin_frame l "unit" (MStr "K").
Proof.
  split.
  { split; try reflexivity.
    - cbn. repeat constructor; cbn; intuition discriminate.
    - repeat constructor.
    - repeat constructor.
    - cbn. repeat constructor; cbn; intuition discriminate.
    - intros c H. exact H. }
  split; [discriminate|]. split; [discriminate|]. split; [do 2 eexists; split; [reflexivity|split; reflexivity]|].
  intros l [<-|[<-|[]]]; eexists; (split; [cbn; eauto|cbn; tauto]).
Qed.
