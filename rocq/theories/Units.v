(** Model of [UnitConverter] (openscm/core/units.py 463-587).

    The pint registry is represented by an environment that maps a unit string to its
    dimension and to its affine relation with the base units of that dimension
    (scale and, for degC/degF, offset).  Parsing of unit strings is pint's business and
    is covered by the environment; the environment built by [ScmUnitRegistry] for the
    gas units is constructed in [Gases.v].  Floats are reals. *)
From Coq Require Import String List ZArith Reals Bool.
From Verif Require Import Base.
Import ListNotations.
Local Open Scope R_scope.

(** A dimension: exponents of base dimensions, e.g. [[("mass",1);("time",-1)]],
    in canonical order. *)
Definition dim := list (string * Z).

(** Equality of dimensionalities, which pint's [to] requires (units.py 512-513) *)
Definition dim_eqb (a b : dim) : bool :=
  if list_eq_dec (fun x y : string * Z =>
       match string_dec (fst x) (fst y), Z.eq_dec (snd x) (snd y) with
       | left e, left f => left (eq_trans (surjective_pairing x)
                            (eq_trans (f_equal2 pair e f) (eq_sym (surjective_pairing y))))
       | right n, _ => right (fun h => n (f_equal fst h))
       | _, right n => right (fun h => n (f_equal snd h))
       end) a b then true else false.

(** What pint knows about one unit: a quantity of magnitude [m] in this unit has
    magnitude [m * u_scale + u_offset] in base units. (the registry of units.py 454-460) *)
Record udef := mkUdef { u_dim : dim; u_scale : R; u_offset : R }.

(** The registry (units.py 454-460): unit strings and what they mean *)
Definition uenv := string -> option udef.

(** [Quantity(m, a).to(b)] of pint for units of one dimension. (units.py 512-513) *)
Definition pint_to (a b : udef) (m : R) : R :=
  (m * u_scale a + u_offset a - u_offset b) / u_scale b.

(** A fitted converter: [_scaling], [_offset] (units.py 474-478). *)
Record uconv := mkUconv { uc_scaling : R; uc_offset : R }.

(** [UnitConverter.__init__] without context (units.py 480-527): both units are looked
    up first (UndefinedUnitError), then [+1] and [-1] are converted (DimensionalityError)
    and an affine map is fitted.  The unit argument is an option because
    [parameter.unit] can be [None]; pint then raises TypeError.
    The NaN warning (519-524) is not modelled: without context no NaN arises. *)
Definition unit_converter (env : uenv) (source target : option string) : res uconv :=
  match source with
  | None => Err ETypeError
  | Some source =>
  match target with
  | None => Err ETypeError
  | Some target =>
  match env source with
  | None => Err EUndefinedUnit
  | Some a =>
  match env target with
  | None => Err EUndefinedUnit
  | Some b =>
    if dim_eqb (u_dim a) (u_dim b) then
      let s1 := 1 in
      let s2 := -1 in
      let t1 := pint_to a b s1 in
      let t2 := pint_to a b s2 in
      let scaling := (t2 - t1) / (s2 - s1) in
      let offset := t1 - scaling * s1 in
      Ok (mkUconv scaling offset)
    else Err EDimensionality
  end end end end.

(** [UnitConverter.convert_from] (units.py 529-543) and [convert_to] (545-559). *)
Definition uconvert_from (c : uconv) (v : R) : R := uc_offset c + v * uc_scaling c.
(** [convert_to] (units.py 545-559) *)
Definition uconvert_to (c : uconv) (v : R) : R := (v - uc_offset c) / uc_scaling c.
