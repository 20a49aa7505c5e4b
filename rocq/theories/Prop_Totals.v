(** C73 and C74: what one view writes and another shows.  Vocabulary: [Spec_Core.v],
    [Spec_Time.v], [Spec_Totals.v]. *)
From Coq Require Import String List ZArith Reals Bool Lia Lra.
From Verif Require Import Base Units TimeModel Core Spec_Core Spec_View Spec_Time TimeTotals Spec_Totals CoreTotals
  Examples Prop_Core2 Prop_Core3.
Import ListNotations.
Local Open Scope string_scope.
Local Open Scope list_scope.

(** ** C73 *)
(** Time conversion alone: between two time points that source and target have in common, the
    sum of value times period length is kept, whatever the other time points are. *)
Theorem C73_conversion ex s v t w x y :
  increasing s -> increasing t -> conversion AVERAGE_TIMESERIES ex s v t (Ok w) ->
  (x <= y)%Z -> In x s -> In y s -> In x t -> In y t ->
  total x y t w = total x y s v.
Proof. exact (average_totals ex s v t w x y). Qed.
Print Assumptions C73_conversion.

(** C73: averages [xs] are stored through view [v0] (unit [uv], time points [tv]) and read
    through [w] (unit [uw], time points [tw]).  Between any two time points common to both views
    and to the parameter's own, both have the same mean, as a physical quantity. *)
Theorem C73_mean_kept env root h1 a h2 p v0 w uv uw tv tp tw xs zs x y :
  let s3 := state_after env root h1 a h2 v0 in
  good_env env -> written_by env root h1 a h2 p v0 -> a_val a = map Some xs ->
  view_at s3 v0 uv tv -> kept_at s3 p AVERAGE_TIMESERIES tp -> ts_view s3 w p -> view_at s3 w uw tw ->
  increasing tv -> increasing tp -> increasing tw ->
  answer env (OGetValues w) s3 = Ok (VArr (map Some zs)) ->
  (x < y)%Z -> In x tv -> In y tv -> In x tp -> In y tp -> In x tw -> In y tw ->
  same_quantity env uv (mean_between x y tv xs) uw (mean_between x y tw zs).
Proof. exact (C73_proof env root h1 a h2 p v0 w uv uw tv tp tw xs zs x y). Qed.
Print Assumptions C73_mean_kept.

(** ... and if [w] covers the period of the parameter exactly, the read succeeds. *)
Theorem C73_readable env root h1 a h2 p v0 w uv uw tv tp tw xs :
  let s3 := state_after env root h1 a h2 v0 in
  good_env env -> written_by env root h1 a h2 p v0 -> a_val a = map Some xs ->
  view_at s3 v0 uv tv -> kept_at s3 p AVERAGE_TIMESERIES tp -> ts_view s3 w p -> view_at s3 w uw tw ->
  increasing tp -> increasing tw -> (4 <= length tp)%nat -> (2 <= length tw)%nat ->
  hd 0%Z tp = hd 0%Z tw -> last tp 0%Z = last tw 0%Z ->
  exists zs, answer env (OGetValues w) s3 = Ok (VArr (map Some zs)).
Proof. exact (C73_reads_proof env root h1 a h2 p v0 w uv uw tv tp tw xs). Qed.
Print Assumptions C73_readable.

(** Written in degrees Celsius for five periods, kept in kelvin for three, read for two. *)
Definition five : list Z := [0; 5; 10; 15; 20; 30]%Z.
Definition two : list Z := [0; 20; 30]%Z.
Definition three_averages : list op :=
  [avg (HStr "A") "K" yrs; avg (HStr "A") "degC" (mkTP 1 five); avg (HStr "A") "mK" (mkTP 1 two)].
Definition warm : list R := [10; 12; 14; 13; 11]%R.
Example C73_instance :
  let s3 := state_after ex_env "World" three_averages (fl warm) [OGetValues 0] 1 in
  good_env ex_env /\ written_by ex_env "World" three_averages (fl warm) [OGetValues 0] 0 1 /\
  view_at s3 1 "degC" five /\ kept_at s3 0 AVERAGE_TIMESERIES [0; 10; 20; 30]%Z /\
  ts_view s3 2 0 /\ view_at s3 2 "mK" two /\
  increasing five /\ increasing [0; 10; 20; 30]%Z /\ increasing two /\
  (exists zs, answer ex_env (OGetValues 2) s3 = Ok (VArr (map Some zs)) /\
     same_quantity ex_env "degC" (mean_between 0 20 five warm) "mK" (mean_between 0 20 two zs)) /\
  mean_between 0 20 five warm = (49 / 4)%R.
Proof.
  cbv zeta. set (s3 := state_after _ _ _ _ _ _).
  assert (Wb : written_by ex_env "World" three_averages (fl warm) [OGetValues 0] 0 1).
  { split; [unfold three_averages; tidy_all|]. split; [is_view|]. split; [calc|]. split; [split; [quiet|exact I]|].
    eexists; split; [calc|reflexivity]. }
  assert (V1 : view_at s3 1 "degC" five) by (eexists; split; [calc|split; reflexivity]).
  assert (Ka : kept_at s3 0 AVERAGE_TIMESERIES [0; 10; 20; 30]%Z) by (do 2 eexists; split; [calc|repeat split; reflexivity]).
  assert (T2 : ts_view s3 2 0) by is_view.
  assert (V2 : view_at s3 2 "mK" two) by (eexists; split; [calc|split; reflexivity]).
  assert (I1 : increasing five) by (repeat constructor; lia).
  assert (I2 : increasing [0; 10; 20; 30]%Z) by (repeat constructor; lia).
  assert (I3 : increasing two) by (repeat constructor; lia).
  destruct (C73_readable ex_env "World" three_averages (fl warm) [OGetValues 0] 0 1 2 "degC" "mK" five [0; 10; 20; 30]%Z two warm
    ex_good Wb eq_refl V1 Ka T2 V2 I2 I3) as (zs & Z); [simpl; lia|simpl; lia|reflexivity|reflexivity|].
  fold s3 in Z.
  split; [exact ex_good|]. split; [exact Wb|]. split; [exact V1|]. split; [exact Ka|]. split; [exact T2|]. split; [exact V2|].
  split; [exact I1|]. split; [exact I2|]. split; [exact I3|]. split.
  - exists zs. split; [exact Z|].
    apply (C73_mean_kept ex_env "World" three_averages (fl warm) [OGetValues 0] 0 1 2 "degC" "mK" five [0; 10; 20; 30]%Z two warm zs 0 20
      ex_good Wb eq_refl V1 Ka T2 V2 I1 I2 I3 Z); [lia|simpl; tauto..].
  - unfold mean_between, five, warm. simpl. lra.
Qed.

(** ** C74 *)
(** C74: points [xs] are stored through view [v0]; the parameter's own time points contain
    those of [v0].  At each of its time points between two neighbours of [v0], any view that can
    be read shows the value on the straight line between these, as a physical quantity. *)
Theorem C74_same_curve env root h1 a h2 p v0 w uv uw tv tp tw xs zs i k x0 x1 y0 y1 x :
  let s3 := state_after env root h1 a h2 v0 in
  good_env env -> written_by env root h1 a h2 p v0 -> a_val a = map Some xs ->
  view_at s3 v0 uv tv -> kept_at s3 p POINT_TIMESERIES tp -> ts_view s3 w p -> view_at s3 w uw tw ->
  increasing tv -> increasing tp -> (forall z, In z tv -> In z tp) ->
  answer env (OGetValues w) s3 = Ok (VArr (map Some zs)) ->
  nth_error tv i = Some x0 -> nth_error tv (S i) = Some x1 -> nth_error xs i = Some y0 -> nth_error xs (S i) = Some y1 ->
  nth_error tw k = Some x -> (x0 <= x <= x1)%Z ->
  exists z, nth_error zs k = Some z /\ same_quantity env uv (line x0 y0 x1 y1 (IZR x)) uw z.
Proof. exact (C74_proof env root h1 a h2 p v0 w uv uw tv tp tw xs zs i k x0 x1 y0 y1 x). Qed.
Print Assumptions C74_same_curve.

Definition three_points : list op :=
  [pts (HStr "A") "K" yrs; pts (HStr "A") "degC" (mkTP 1 [0; 10; 30]%Z); pts (HStr "A") "mK" (mkTP 1 [5; 20; 24]%Z)].
Example C74_instance :
  let s3 := state_after ex_env "World" three_points (fl [10; 12; 14]%R) [OGetValues 0] 1 in
  good_env ex_env /\ written_by ex_env "World" three_points (fl [10; 12; 14]%R) [OGetValues 0] 0 1 /\
  view_at s3 1 "degC" [0; 10; 30]%Z /\ kept_at s3 0 POINT_TIMESERIES [0; 10; 20; 30]%Z /\
  ts_view s3 2 0 /\ view_at s3 2 "mK" [5; 20; 24]%Z /\
  increasing [0; 10; 30]%Z /\ increasing [0; 10; 20; 30]%Z /\ (forall z, In z [0; 10; 30]%Z -> In z [0; 10; 20; 30]%Z) /\
  (exists zs, answer ex_env (OGetValues 2) s3 = Ok (VArr (map Some zs))) /\
  nth_error [0; 10; 30]%Z 1 = Some 10%Z /\ nth_error [5; 20; 24]%Z 2 = Some 24%Z /\
  line 10 12 30 14 (IZR 24) = (134 / 10)%R.
Proof.
  cbv zeta. split; [exact ex_good|]. split.
  { split; [unfold three_points; tidy_all|]. split; [is_view|]. split; [calc|]. split; [split; [quiet|exact I]|].
    eexists; split; [calc|reflexivity]. }
  split; [eexists; split; [calc|split; reflexivity]|].
  split; [do 2 eexists; split; [calc|repeat split; reflexivity]|].
  split; [is_view|]. split; [eexists; split; [calc|split; reflexivity]|].
  split; [repeat constructor; lia|]. split; [repeat constructor; lia|]. split; [simpl; tauto|].
  split; [|split; [reflexivity|split; [reflexivity|unfold line; simpl; lra]]].
  assert (A : exists a b c, answer ex_env (OGetValues 2) (state_after ex_env "World" three_points (fl [10; 12; 14]%R) [OGetValues 0] 1)
    = Ok (VArr [Some a; Some b; Some c])) by (do 3 eexists; calc).
  destruct A as (a & b & c & A). exists [a; b; c]. exact A.
Qed.
