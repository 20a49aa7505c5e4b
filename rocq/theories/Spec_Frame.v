(** Specification vocabulary for data frames (C48-C53, C59, C66): what a frame says. *)
From Coq Require Import String List ZArith Reals.
From Verif Require Import Base Core Filters Frame Spec_Filters Spec_Offsets.
Import ListNotations.

Definition required_columns : list string := ["model"; "scenario"; "region"; "variable"; "unit"]%string.
(** Data and metadata fit together: the same timeseries in the same order, a value for every time,
    a metadata value for every column, no column twice, all required columns. *)
Record aligned (f : frame) : Prop := {
  al_labels : map fst (fr_data f) = map fst (fr_meta f);
  al_unique : NoDup (map fst (fr_data f));
  al_values : Forall (fun c => length (snd c) = length (fr_times f)) (fr_data f);
  al_rows : Forall (fun r => length (snd r) = length (fr_cols f)) (fr_meta f);
  al_cols : NoDup (fr_cols f);
  al_required : incl required_columns (fr_cols f) }.

Fixpoint zlookup {A} (l : Z) (d : list (Z * A)) : option A :=
  match d with [] => None | (l', x) :: d' => if Z.eqb l l' then Some x else zlookup l d' end.

(** A data point: the metadata of the timeseries (by column), the time, the value. *)
Definition point := (list (string * mval) * Z * R)%type.

(** The points of one timeseries, and of a frame: everything that is not missing. *)
Fixpoint series_points (k : list (string * mval)) (times : list Z) (values : list num) : list point :=
  match times, values with
  | t :: times', Some x :: values' => (k, t, x) :: series_points k times' values'
  | _ :: times', None :: values' => series_points k times' values'
  | _, _ => []
  end.
Definition points (f : frame) : list point :=
  flat_map (fun c => match zlookup (fst c) (fr_meta f) with
                     | Some row => series_points (combine (fr_cols f) row) (fr_times f) (snd c)
                     | None => []
                     end) (fr_data f).

(** Filters that can be applied one after the other or together: each keyword once, and no
    [level] away from its [variable]. *)
Definition separable (a b : list (string * parg)) : Prop :=
  NoDup (map fst (a ++ b)) /\
  ~ (In "level" (map fst a) /\ In "variable" (map fst b))%string /\
  ~ (In "level" (map fst b) /\ In "variable" (map fst a))%string.

(** Keywords of a filter and their meaning: patterns for a metadata column; years, months, days
    of the month, hours; times.  [D] is the Gregorian calendar. *)
Inductive keyword :=
| Text (c : string) (patterns : list string)
| Year (l : list Z) | Month (l : list Z) | Day (l : list Z) | Hour (l : list Z)
| Times (l : list Z).
Definition argument (w : keyword) : string * parg :=
  match w with
  | Text c ps => (c, Many (map PStr ps))
  | Year l => ("year", Many (map PInt l))
  | Month l => ("month", Many (map PInt l))
  | Day l => ("day", Many (map PInt l))
  | Hour l => ("hour", Many (map PInt l))
  | Times l => ("time", Many (map PDate l))
  end%string.
Definition passes (D : Z -> Z -> Z -> Z) (pt : point) (w : keyword) : Prop :=
  let '(k, t, _) := pt in
  match w with
  | Text c ps => exists v s p, In (c, v) k /\ text_of v = Some s /\ In p ps /\ wild any_text p s
  | Year l => exists y m d s, falls D t y m d s /\ In y l
  | Month l => exists y m d s, falls D t y m d s /\ In m l
  | Day l => exists y m d s, falls D t y m d s /\ In d l
  | Hour l => exists y m d s, falls D t y m d s /\ exists h, In h l /\ (3600 * h <= s < 3600 * (h + 1))%Z
  | Times l => In t l
  end.
(** Patterns of plain characters for a column of (one-line) texts; lists of numbers that are not
    empty, where no metadata column hides the keyword. *)
Definition usable (f : frame) (w : keyword) : Prop :=
  match w with
  | Text c ps => c <> "level"%string /\ In c (fr_cols f) /\ Forall plain ps /\
      forall r v, In r (fr_meta f) -> In (c, v) (combine (fr_cols f) (snd r)) -> exists s, text_of v = Some s /\ one_line s
  | Year l | Month l | Day l | Hour l | Times l => l <> [] /\ ~ In (fst (argument w)) (fr_cols f)
  end.

(** The timeseries [l] has the value [v] in the metadata column [c]. *)
Definition meta_of (f : frame) (l : Z) (c : string) (v : mval) : Prop :=
  exists row, In (l, row) (fr_meta f) /\ In (c, v) (combine (fr_cols f) row).

(** Rows of metadata are the same if their values are; missing values are not told apart. *)
Definition missing (v : mval) : Prop := v = MNaN \/ v = MNone.
Definition same_meta (a b : list mval) : Prop := Forall2 (fun x y => x = y \/ (missing x /\ missing y)) a b.
Definition unique_rows (rows : list (list mval)) : Prop :=
  forall i j a b, nth_error rows i = Some a -> nth_error rows j = Some b -> same_meta a b -> i = j.

(** Renaming: [v] is replaced by [w] according to the dictionary of its column. *)
Definition replaced (m : list (string * string)) (v w : mval) : Prop :=
  (exists s s', v = MStr s /\ In (s, s') m /\ w = MStr s') \/
  (w = v /\ forall s s', v = MStr s -> ~ In (s, s') m).
Definition renamed (mapping : list (string * list (string * string))) (c : string) (v w : mval) : Prop :=
  (exists m, In (c, m) mapping /\ replaced m v w) \/ (w = v /\ ~ In c (map fst mapping)).
(** The rows after renaming. *)
Definition renamed_rows (mapping : list (string * list (string * string))) (cols : list string) : list (list mval) -> list (list mval) -> Prop :=
  Forall2 (fun r r' => length r' = length r /\
    forall i c v w, nth_error cols i = Some c -> nth_error r i = Some v -> nth_error r' i = Some w -> renamed mapping c v w).
