(** Model of openscm/scmdataframe/parameter_type.py. *)
From Coq Require Import String Ascii List ZArith Bool.
From Verif Require Import Base Units TimeModel Regex.
Import ListNotations.
Local Open Scope string_scope.
Local Open Scope list_scope.

(** The patterns (parameter_type.py 13-23). *)
Definition parameter_matches : list (string * ptype) :=
  [ ("^Emissions", AVERAGE_TIMESERIES);
    (".*_(GWP)?EMIS", AVERAGE_TIMESERIES);
    (".*Flux", AVERAGE_TIMESERIES);
    (".*_(PEFF|EFF|S)?RF", AVERAGE_TIMESERIES);
    ("^Radiative Forcing", AVERAGE_TIMESERIES);
    ("HEATUPTAKE_EBALANCE_TOTAL", AVERAGE_TIMESERIES);
    ("^Atmospheric Concentrations", POINT_TIMESERIES);
    (".*_CONC", POINT_TIMESERIES);
    ("(Surface Temperature|.*TEMP)", POINT_TIMESERIES) ].

(** The loop of lines 66-71. *)
Fixpoint guess_by_name (matches : list (string * ptype)) (variable : string) : ptype :=
  match matches with
  | [] => POINT_TIMESERIES
  | (p, t) :: matches' =>
    if match compiled_match p variable with Some b => b | None => false end then t
    else guess_by_name matches' variable
  end.

(** [_unit_registry(unit)] is a plain number without [units] if [unit] is a number; only
    unsigned integers are modelled as numbers. (parameter_type.py 54-64) *)
Definition is_number (s : string) : bool :=
  match s with
  | EmptyString => false
  | _ => forallb (fun c => match digit c with Some _ => true | None => false end) (list_ascii_of_string s)
  end.

(** [guess_parameter_type] (26-71).  [unit] is [None] or a string; the empty string counts as
    missing.  The environment says which unit strings pint knows; strings that are no unit
    expressions at all (for which pint raises other errors than UndefinedUnitError) are not
    modelled apart from numbers. *)
Definition guess_parameter_type (env : uenv) (variable : string) (unit : option string) : res ptype :=
  match unit with
  | None | Some EmptyString => Ok (guess_by_name parameter_matches variable)
  | Some u =>
    if is_number u then Err EAttributeError else
    match env u with
    | Some d =>
      if existsb (fun p => String.eqb (fst p) "time") (u_dim d)
      then Ok AVERAGE_TIMESERIES else Ok POINT_TIMESERIES
    | None => Ok (guess_by_name parameter_matches variable)
    end
  end.
