(** Common vocabulary of the model: results with Python exceptions as values,
    list cells, and the Python string operations used by the code.
    Nothing in this file is specific to openscm. *)
From Coq Require Import String Ascii List ZArith Bool Arith.
Import ListNotations.
Local Open Scope string_scope.
Local Open Scope list_scope.

(** Exceptions, one constructor per Python class that the modelled code can raise
    (openscm/errors.py; builtins; pint.errors).  [EInvalid] marks model-level calls
    that have no Python counterpart (e.g. using a scalar method on a generic view);
    [EFuel] is a model artefact and is proved unreachable; [EInfinite] marks results that
    are infinite in Python (numpy division by zero), which the model does not have.
    (openscm/errors.py 1-82, "raise" statements of the cited functions) *)
Inductive err : Type :=
| EValueError | EIndexError | EKeyError | ETypeError | EAttributeError
| ENotImplemented
| EParameterType | EParameterRead | EParameterWritten | EParameterReadonly
| EParameterAggregation | EParameterEmpty | ERegionAggregated
| ETimeseriesMismatch | EInsufficientData | EAdapterNeedsModule
| EDimensionality | EUndefinedUnit
| EZeroDivision | EOverflow
| EMistyped | EInvalid | EFuel | EInfinite.

(** The outcome of a Python call: a value, or an exception (openscm/errors.py 1-82) *)
Inductive res (A : Type) : Type :=
| Ok (a : A)
| Err (e : err).
Arguments Ok {A} a.
Arguments Err {A} e.

(** A call that needs the result of another one; exceptions pass through, as in all of openscm (e.g. core/views.py 378-385) *)
Definition rbind {A B} (m : res A) (f : A -> res B) : res B :=
  match m with Ok a => f a | Err e => Err e end.

(** Apply a partial function to all elements, first error wins (Python loop that
    raises). (e.g. adapters/dice.py 142-146) *)
Fixpoint rmap {A B} (f : A -> res B) (l : list A) : res (list B) :=
  match l with
  | [] => Ok []
  | a :: l' =>
    match f a with
    | Err e => Err e
    | Ok b => match rmap f l' with Err e => Err e | Ok bs => Ok (b :: bs) end
    end
  end.

(** Overwrite cell [i] of a list; no effect if there is no such cell.
    (assignment to an attribute of an object, e.g. core/parameters.py 260-278; to an item, core/views.py 105-107) *)
Fixpoint upd {A} (l : list A) (i : nat) (x : A) : list A :=
  match l, i with
  | [], _ => []
  | _ :: l', O => x :: l'
  | a :: l', S i' => a :: upd l' i' x
  end.

(** Python dictionaries with string keys: association lists in insertion order.
    (core/parameters.py 117, core/regions.py 17-31) *)
Fixpoint alookup {A} (k : string) (d : list (string * A)) : option A :=
  match d with
  | [] => None
  | (k', v) :: d' => if String.eqb k k' then Some v else alookup k d'
  end.

(** [str.split(sep)] for a one-character separator; the result is never empty.
    (core/parameterset.py 58-59, 125-126: [name.split(HIERARCHY_SEPARATOR)]) *)
Fixpoint split (sep : ascii) (s : string) : list string :=
  match s with
  | EmptyString => [EmptyString]
  | String c s' =>
    if Ascii.eqb c sep then EmptyString :: split sep s'
    else match split sep s' with
         | [] => [String c EmptyString]
         | w :: ws => String c w :: ws
         end
  end.

(** [sep.join(words)] (scmdataframe/base.py 1309-1311) *)
Fixpoint join (sep : string) (ws : list string) : string :=
  match ws with
  | [] => EmptyString
  | [w] => w
  | w :: ws' => w ++ sep ++ join sep ws'
  end%string.

(** [str.lower] / [str.upper], ASCII letters only (non-ASCII case mapping is not
    modelled). (core/parameters.py 101-103: [.lower()]) *)
Definition lower_ascii (c : ascii) : ascii :=
  let n := nat_of_ascii c in
  if (65 <=? n)%nat && (n <=? 90)%nat then ascii_of_nat (n + 32) else c.
(** One character of [str.upper] (core/units.py 313-315) *)
Definition upper_ascii (c : ascii) : ascii :=
  let n := nat_of_ascii c in
  if (97 <=? n)%nat && (n <=? 122)%nat then ascii_of_nat (n - 32) else c.
(** A function on all characters of a text (used for core/units.py 313-315) *)
Fixpoint smap (f : ascii -> ascii) (s : string) : string :=
  match s with EmptyString => EmptyString | String c s' => String (f c) (smap f s') end.
(** [str.lower] (core/parameters.py 101-103) *)
Definition lower := smap lower_ascii.
(** [str.upper] (core/units.py 313-315, core/time.py 59, 90) *)
Definition upper := smap upper_ascii.

(** Python index normalisation for a sequence of length [n]: negative indices count
    from the end, [None] is IndexError. (core/views.py 98-107) *)
Definition pyindex (n : nat) (i : Z) : option nat :=
  let j := if (i <? 0)%Z then (i + Z.of_nat n)%Z else i in
  if (0 <=? j)%Z && (j <? Z.of_nat n)%Z then Some (Z.to_nat j) else None.

(** Time points and durations as nanoseconds per tick and ticks, for the numpy units of
    fixed length (W, D, h, m, s, ms, us, ns); the calendar units Y and M are not modelled.
    Sums are computed in the finer unit; since the units divide each other the sum is
    exact. (core/time.py 251-288, adapters/dice.py 24) *)
Record dt64 := mkDT { dt_unit : Z; dt_ticks : Z }.
(** The same in nanoseconds (core/time.py 251-288) *)
Definition dt_ns (x : dt64) : Z := (dt_unit x * dt_ticks x)%Z.
