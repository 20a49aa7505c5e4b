(** Model of openscm/scmdataframe/base.py: [__len__] (414-418), [__getitem__] (420-437),
    [__setitem__] (439-451) and [time_points] (536-541).

    A failing assignment to "time" sets [_time_points] but not the index of [_data], so both are kept
    here: [it_points] is [_time_points], [fr_times] of [it_frame] is [_data.index].
    Simplifications: keys are texts or lists of texts; the times assigned to "time" are datetimes
    (how texts and numbers are read as times is the subject of [Calendar.v]); datetimes as metadata
    are not modelled. *)
From Coq Require Import String List ZArith Bool.
From Verif Require Import Base Core Filters Civil Frame.
Import ListNotations.
Local Open Scope string_scope.
Local Open Scope list_scope.

(** A frame with its time points (280-286) *)
Record items := mkItems { it_points : list Z; it_frame : frame }.

(** A frame as it is made ([__init__] 390-391: the index of the data is that of the time points) *)
Definition opened (f : frame) : items := mkItems (fr_times f) f.

(** Keys (420-437) *)
Inductive ikey := KOne (c : string) | KMany (cs : list string).
(** What is read (420-437) *)
Inductive item := ITimes (ts : list Z) | IYears (ys : list Z) | IColumn (vs : list mval) | ITable (cols : list (string * list mval)).

(** [__len__] (414-418) *)
Definition fr_len (x : items) : nat := length (fr_meta (it_frame x)).

(** [time_points] (536-541) *)
Definition time_points (x : items) : list Z := it_points x.

(** [__getitem__]: [key == "time"] is false for a list. (420-437) *)
Definition get_item (key : ikey) (x : items) : res item :=
  let f := it_frame x in
  match key with
  | KOne c =>
    if String.eqb c "time" then Ok (ITimes (it_points x))
    else if String.eqb c "year" then rbind (years (it_points x)) (fun ys => Ok (IYears ys))
    else if mem c (fr_cols f) then Ok (IColumn (column f c))
    else Err EKeyError
  | KMany cs =>
    if forallb (fun c => mem c (fr_cols f)) cs then Ok (ITable (map (fun c => (c, column f c)) cs)) else Err EKeyError
  end.

(** [TimePoints(value)] (448) *)
Definition instant_of (v : pyval) : res Z := match v with PDate t => Ok t | _ => Err EInvalid end.
(** The same for all values (448) *)
Definition instants_of (a : parg) : res (list Z) := match a with Many vs => rmap instant_of vs | One _ => Err EInvalid end.
(** A datetime, which the model leaves out in metadata (439-451) *)
Definition is_date (v : pyval) : bool := match v with PDate _ => true | _ => false end.
(** The same for an argument (439-451) *)
Definition has_date (a : parg) : bool := match a with One v => is_date v | Many vs => existsb is_date vs end.

(** [self._data.index = index]: pandas refuses an index of another length. (449) *)
Definition set_index (ts : list Z) (f : frame) : res frame :=
  if Nat.eqb (length ts) (length (fr_times f)) then Ok (mkFrame ts (fr_data f) (fr_cols f) (fr_meta f)) else Err EValueError.

(** [__setitem__] (439-451) *)
Definition set_item (c : string) (a : parg) (x : items) : items * res unit :=
  if String.eqb c "time" then
    match instants_of a with
    | Err e => (x, Err e)
    | Ok ts =>
      match set_index ts (it_frame x) with
      | Ok f => (mkItems ts f, Ok tt)
      | Err e => (mkItems ts (it_frame x), Err e)
      end
    end
  else if has_date a then (x, Err EInvalid)
  else
    match set_meta c a (it_frame x) with
    | Ok f => (mkItems (it_points x) f, Ok tt)
    | Err e => (x, Err e)
    end.

(** A sequence of assignments, whether they raise or not (439-451) *)
Fixpoint set_items (l : list (string * parg)) (x : items) : items :=
  match l with [] => x | (c, a) :: l' => set_items l' (fst (set_item c a x)) end.
