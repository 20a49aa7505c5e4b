(** Specification vocabulary for converting data frames to parameter sets and back (C54). *)
From Coq Require Import String Ascii List ZArith QArith Qcanon Reals Qreals Sorted.
From Verif Require Import Base Units Core Filters ParameterType Frame Spec_Frame FrameStore.
Import ListNotations.
Local Open Scope string_scope.
Local Open Scope list_scope.

(** The character [x] does not occur in [w]. *)
Definition without (x : ascii) (w : string) : Prop := forall a b, w <> (a ++ String x b)%string.

(** The hierarchical name [b] is [a] or lies below it. *)
Definition under (a b : string) : Prop := b = a \/ exists x, b = (a ++ "|" ++ x)%string.

(** The frame has a timeseries of this variable in this region with this unit and these values. *)
Definition has_series (f : frame) (variable region u : string) (vals : list num) : Prop :=
  exists l, In (l, vals) (fr_data f) /\ meta_of f l "variable" (MStr variable) /\
            meta_of f l "region" (MStr region) /\ meta_of f l "unit" (MStr u).

(** The same with the type of the timeseries. *)
Definition has_typed_series (f : frame) (variable region u type : string) (vals : list num) : Prop :=
  exists l, In (l, vals) (fr_data f) /\ meta_of f l "variable" (MStr variable) /\ meta_of f l "region" (MStr region) /\
            meta_of f l "unit" (MStr u) /\ meta_of f l "parameter_type" (MStr type).

(** No white space at either end. *)
Definition trimmed (w : string) : Prop :=
  (forall c b, w = String c b -> is_space c = false) /\ (forall a c, w = (a ++ String c "")%string -> is_space c = false).
(** A column named [n (u)], for numbers with a unit. *)
Definition quantity_column (c n u : string) : Prop :=
  c = (n ++ " (" ++ u ++ ")")%string /\ trimmed n /\ trimmed u /\
  without "("%char n /\ without newline n /\ without "("%char u /\ without ")"%char u /\ without newline u.

(** Columns that do not belong to a timeseries, and the names of the parameters that hold them. *)
Definition other_column (f : frame) (c : string) : Prop :=
  In c (fr_cols f) /\ ~ In c ["variable"; "region"; "unit"; "parameter_type"].
Definition held_as (c n : string) : Prop := without "("%char c /\ n = c \/ exists u, quantity_column c n u.

(** The region is the root region or one directly below it. *)
Definition near (r : string) : Prop := r = "World" \/ exists x, without "|"%char x /\ r = ("World|" ++ x)%string.

(** Frames for which the conversion is proved to lose nothing but the regions further down. *)
Record storable (env : uenv) (f : frame) : Prop := {
  st_aligned : aligned f;
  st_some : fr_data f <> [];
  st_times : StronglySorted Z.lt (fr_times f);
  st_three : (3 <= length (fr_times f))%nat;
  st_present : forall l vals, In (l, vals) (fr_data f) -> ~ In None vals;
  (** variable, region and unit are texts; the unit is known; regions are "World" or below it *)
  st_texts : forall l, In l (map fst (fr_data f)) -> exists v r u,
    meta_of f l "variable" (MStr v) /\ meta_of f l "region" (MStr r) /\ meta_of f l "unit" (MStr u) /\
    env u <> None /\ is_number u = false /\
    under "World" r;
  (** one of the timeseries is not further down *)
  st_near : exists l r, meta_of f l "region" (MStr r) /\ near r;
  (** types, if given, are the two known ones *)
  st_types : forall l v, meta_of f l "parameter_type" v -> v = MStr "average" \/ v = MStr "point";
  (** in a region no variable is that of another timeseries or lies below it *)
  st_apart : forall l l' v v' r, meta_of f l "variable" (MStr v) -> meta_of f l' "variable" (MStr v') ->
    meta_of f l "region" (MStr r) -> meta_of f l' "region" (MStr r) -> l <> l' -> ~ under v v';
  (** other metadata are the same for all timeseries *)
  st_uniform : forall c l l' v v', other_column f c -> meta_of f l c v -> meta_of f l' c v' -> v = v';
  st_input : forall l v, meta_of f l "climate_model" v -> v = MStr "unspecified";
  (** and have names that do not collide *)
  st_names : forall c, other_column f c -> c <> "df" /\ c <> "index" /\ exists n, held_as c n;
  st_quantities : forall c n u l v, other_column f c -> quantity_column c n u -> meta_of f l c v ->
    env u <> None /\ (v = MNaN \/ exists q, v = MNum q);
  st_names_apart : forall c c' n n', other_column f c -> other_column f c' -> held_as c n -> held_as c' n' ->
    c <> c' -> ~ under n n';
  st_names_series : forall c n l v, other_column f c -> held_as c n ->
    meta_of f l "variable" (MStr v) -> meta_of f l "region" (MStr "World") -> ~ under n v /\ ~ under v n }.
