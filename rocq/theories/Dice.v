(** Model of openscm/adapters/dice.py.

    The adapter works on two parameter sets (two states of [Core]) through the operations of
    the parameter store; [OpenSCM] with one and the same object as input and output set is
    not modelled.  Simplifications: floats are reals, NaN is [None] ([EInfinite] where numpy
    would give an infinity); scalar values are Python floats (division by zero raises);
    generic values of a wrong type raise TypeError. *)
From Coq Require Import String List ZArith Reals Bool.
From Flocq Require Import Core.
From Verif Require Import Base Units TimeModel Calendar Core Adapters.
Import ListNotations.
Local Open Scope string_scope.
Local Open Scope list_scope.

(** ** Arithmetic *)

(** Arithmetic of floats; with NaN it is NaN (dice.py 296-365) *)
Definition nop (f : R -> R -> R) (a b : num) : num :=
  match a, b with Some x, Some y => Some (f x y) | _, _ => None end.
(** Addition (dice.py 296-365) *)
Definition plus_ := nop Rplus.
(** Subtraction (dice.py 296-365) *)
Definition minus_ := nop Rminus.
(** Multiplication (dice.py 296-365) *)
Definition times_ := nop Rmult.
(** Python's division of floats (dice.py 233, 235, 251, 352-365) *)
Definition div_ (a b : num) : res num :=
  match b with
  | Some y => if Req_EM_T y 0 then Err EZeroDivision else Ok (nop Rdiv a b)
  | None => Ok None
  end.
(** numpy's division of floats; infinities are not modelled (dice.py 346-349) *)
Definition np_div (a b : num) : res num :=
  match b with
  | Some y => if Req_EM_T y 0 then Err EInfinite else Ok (nop Rdiv a b)
  | None => Ok None
  end.
(** Python's [max(a, b)]: [b] if [b > a], else [a]; comparisons with NaN are false. (dice.py 296-332) *)
Definition py_max (a b : num) : num :=
  match a, b with Some x, Some y => if Rlt_dec x y then b else a | _, _ => a end.
(** Python's [min(a, b)] (dice.py 321-332, 352-365) *)
Definition py_min (a b : num) : num :=
  match a, b with Some x, Some y => if Rlt_dec y x then b else a | _, _ => a end.
(** [math.log2] (dice.py 251, 346-349) *)
Definition log2 (a : num) : res num :=
  match a with
  | Some x => if Rlt_dec 0 x then Ok (Some (ln x / ln 2)%R) else Err EValueError
  | None => Ok None
  end.

(** numpy durations: difference of two times and quotient (a binary64 number), computed in
    the finer of the two units. *)
Definition dt_sub (a b : dt64) : dt64 :=
  let u := Z.min (dt_unit a) (dt_unit b) in mkDT u ((dt_ns a - dt_ns b) / u)%Z.
(** Quotient of durations (dice.py 154-160, 296-303) *)
Definition dt_quot (a b : dt64) : R :=
  let u := Z.min (dt_unit a) (dt_unit b) in
  b64 (b64 (IZR (dt_ns a / u)) / b64 (IZR (dt_ns b / u))).

(** ** Constants (dice.py 24-84) *)

Definition day_ns : Z := 86400000000000.
(** 24: [np.timedelta64(365, "D")] *)
Definition YEAR : dt64 := mkDT day_ns 365.

(** Default values (dice.py 26-84) *)
Inductive default := DNum (x : R) | DGen (g : gval) | DNone.

(** 26-72; [datetime64("2100-01-01")] is day 47482 since 1970-01-01. *)
Definition MODEL_PARAMETER_DEFAULTS : list (string * (default * option string)) :=
  [ ("mat0", (DNum (8304 / 10), Some "GtC"));
    ("mateq", (DNum 588, Some "GtC"));
    ("mat_lower", (DNum 10, Some "GtC"));
    ("ml0", (DNum 10010, Some "GtC"));
    ("mleq", (DNum 10000, Some "GtC"));
    ("ml_lower", (DNum 1000, Some "GtC"));
    ("mu0", (DNum 1527, Some "GtC"));
    ("mueq", (DNum 1350, Some "GtC"));
    ("mu_lower", (DNum 100, Some "GtC"));
    ("tatm0", (DNum (8 / 10), Some "delta_degC"));
    ("tatm_upper", (DNum 40, Some "delta_degC"));
    ("tocean0", (DNum (68 / 10000), Some "delta_degC"));
    ("tocean_lower", (DNum (-1), Some "delta_degC"));
    ("tocean_upper", (DNum 20, Some "delta_degC"));
    ("b12", (DNum (181 / 10000), Some ""));
    ("b23", (DNum (71 / 100000), Some ""));
    ("c1", (DNum (222 / 10000), Some "delta_degC*m^2/W"));
    ("c3", (DNum (9175 / 100000), Some "W/m^2/delta_degC"));
    ("c4", (DNum (487 / 100000), Some ""));
    ("fex0", (DNum (25 / 100), Some "W/m^2"));
    ("fex1", (DNum (7 / 10), Some "W/m^2"));
    ("period_length", (DGen (GDelta YEAR), None));
    ("original_rounding", (DGen (GBool true), None));
    ("forcoth_saturation_time", (DGen (GTime (mkDT day_ns 47482)), None)) ]%R.

(** 74-84 *)
Definition STANDARD_PARAMETER_DEFAULTS : list (string * (string * default * option string)) :=
  [ ("fco22x", ("Radiative Forcing Sensitivity", DNum (38 / 10), Some "W/m^2"));
    ("t2xco2", ("Equilibrium Climate Sensitivity", DNum (29 / 10), Some "delta_degC"));
    ("start_time", ("Start Time", DNone, None));
    ("stop_time", ("Stop Time", DNone, None)) ]%R.

(** ** State of the adapter *)

(** [w_views]: the attributes of [self._values] that are views; [w_coef]: those that are
    numbers (b11, ...); [w_time]: [_current_time] in nanoseconds; [w_junk]: the content of
    memory that [np.empty] is going to return. *)
Record world := mkWorld {
  w_in : state;
  w_out : state;
  w_views : list (string * nat);
  w_coef : list (string * num);
  w_time : Z;
  w_timestep : option Z;
  w_count : option Z;
  w_junk : nat -> num }.

(** A new adapter on given parameter sets ([Adapter.__init__]). (adapters/__init__.py 41-56) *)
Definition new_world (inp out : state) (junk : nat -> num) : world :=
  mkWorld inp out [] [] 0 None None junk.

(** A computation on the state of the adapter that returns or raises (any method cited below, e.g. dice.py 227-252) *)
Definition M (A : Type) := world -> world * res A.
(** A value without any action (e.g. dice.py 148-149) *)
Definition ret {A} (a : A) : M A := fun w => (w, Ok a).
(** An exception (e.g. of core/views.py 376 in dice.py 287-365) *)
Definition raise {A} (e : err) : M A := fun w => (w, Err e).
(** One statement after the other (e.g. dice.py 227-252) *)
Definition bind {A B} (m : M A) (f : A -> M B) : M B := fun w =>
  match m w with
  | (w', Ok a) => f a w'
  | (w', Err e) => (w', Err e)
  end.
(** A call that has no effects (e.g. dice.py 161-172) *)
Definition lift_res {A} (r : res A) : M A := fun w => (w, r).
Notation "x <- m ;; f" := (bind m (fun x => f)) (at level 61, m at next level, right associativity).
Notation "m ;;; f" := (bind m (fun _ => f)) (at level 61, right associativity).

Section Dice.
Variable env : uenv.

(** [self._parameters] and [self._output] (adapters/__init__.py 52-53) *)
Inductive side := In_ | Out_.

(** An operation on one of the parameter sets. (dice.py 128-140, 175-225) *)
Definition op_on (sd : side) (o : op) : M val := fun w =>
  match sd with
  | In_ => let (s, r) := step env o (w_in w) in
           (mkWorld s (w_out w) (w_views w) (w_coef w) (w_time w) (w_timestep w) (w_count w) (w_junk w), r)
  | Out_ => let (s, r) := step env o (w_out w) in
            (mkWorld (w_in w) s (w_views w) (w_coef w) (w_time w) (w_timestep w) (w_count w) (w_junk w), r)
  end.

(** Attributes of [self._values]: a missing one is a descriptor of the namedtuple class,
    which has no [value], [values], [lock] ... (dice.py 126-146) *)
Definition view_of (name : string) : M nat := fun w =>
  (w, match alookup name (w_views w) with Some v => Ok v | None => Err EAttributeError end).
(** ... and cannot be used as a number. (dice.py 232-236) *)
Definition coef (name : string) : M num := fun w =>
  (w, match alookup name (w_coef w) with Some x => Ok x | None => Err ETypeError end).
(** [setattr(self._values, name, p)] and the like (dice.py 140, 175-225) *)
Definition set_view_of (name : string) (v : nat) : M unit := fun w =>
  (mkWorld (w_in w) (w_out w) ((name, v) :: w_views w) (w_coef w) (w_time w) (w_timestep w) (w_count w) (w_junk w), Ok tt).
(** [v.b11 = ...] (dice.py 232-236) *)
Definition set_coef (name : string) (x : num) : M unit := fun w =>
  (mkWorld (w_in w) (w_out w) (w_views w) ((name, x) :: w_coef w) (w_time w) (w_timestep w) (w_count w) (w_junk w), Ok tt).
(** [self._timestep = ...] (dice.py 152, 228, 291) *)
Definition set_timestep (t : Z) : M unit := fun w =>
  (mkWorld (w_in w) (w_out w) (w_views w) (w_coef w) (w_time w) (Some t) (w_count w) (w_junk w), Ok tt).
(** [self._timestep] (dice.py 291) *)
Definition timestep : M Z := fun w =>
  (w, match w_timestep w with Some t => Ok t | None => Err EAttributeError end).
(** [self._timestep_count = ...] (dice.py 154-160) *)
Definition set_count (n : Z) : M unit := fun w =>
  (mkWorld (w_in w) (w_out w) (w_views w) (w_coef w) (w_time w) (w_timestep w) (Some n) (w_junk w), Ok tt).
(** [self._timestep_count] (dice.py 238-249, 270) *)
Definition count : M Z := fun w =>
  (w, match w_count w with Some t => Ok t | None => Err EAttributeError end).
(** [self._current_time = ...] (adapters/__init__.py 97; dice.py 292) *)
Definition set_time (t : Z) : M unit := fun w =>
  (mkWorld (w_in w) (w_out w) (w_views w) (w_coef w) t (w_timestep w) (w_count w) (w_junk w), Ok tt).
(** [self._current_time] (dice.py 292; adapters/__init__.py 116) *)
Definition current_time : M Z := fun w => (w, Ok (w_time w)).

(** [np.empty(n)] (dice.py 238-249) *)
Definition np_empty (n : Z) : M arr := fun w =>
  if (n <? 0)%Z then (w, Err EValueError)
  else let k := Z.to_nat n in
       (mkWorld (w_in w) (w_out w) (w_views w) (w_coef w) (w_time w) (w_timestep w) (w_count w)
          (fun i => w_junk w (k + i)%nat), Ok (mkArr false (map (w_junk w) (seq 0 k)))).

(** [v.name.value] of a scalar parameter, of a generic parameter (dice.py 232-252, 296-365) *)
Definition scalar (name : string) : M num :=
  v <- view_of name ;; r <- op_on In_ (OGetValue v) ;;
  match r with VNum x => ret x | _ => raise EInvalid end.
(** [v.name.value] of a generic parameter (dice.py 154-180, 296-343) *)
Definition generic (name : string) : M gval :=
  v <- view_of name ;; r <- op_on In_ (OGetGeneric v) ;;
  match r with VGen g => ret g | _ => raise EInvalid end.
(** A value that has to be a datetime (dice.py 154-160, 335-343) *)
Definition as_time (g : gval) : M dt64 := match g with GTime t => ret t | _ => raise ETypeError end.
(** A value that has to be a duration (dice.py 154-160, 292-343) *)
Definition as_delta (g : gval) : M dt64 := match g with GDelta t => ret t | _ => raise ETypeError end.
(** A generic parameter that is a datetime (dice.py 154-172, 335-343) *)
Definition time_of (name : string) : M dt64 := g <- generic name ;; as_time g.
(** A generic parameter that is a duration (dice.py 154-172, 292-343) *)
Definition delta_of (name : string) : M dt64 := g <- generic name ;; as_delta g.
(** Truth value of an object. (dice.py 178, 301) *)
Definition truthy (g : gval) : bool :=
  match g with
  | GNone => false
  | GBool b => b
  | GInt z => negb (z =? 0)%Z
  | GFloat (Some x) => if Req_EM_T x 0 then false else true
  | GFloat None => true
  | GStr s => negb (String.eqb s "")
  | GTime _ => true
  | GDelta d => negb (dt_ticks d =? 0)%Z
  end.

(** [v.name.values[i]], [v.name.values[i] = x], [v.name.values = a] (dice.py 296-365) *)
Definition item (sd : side) (name : string) (i : Z) : M num :=
  v <- view_of name ;; r <- op_on sd (OGetValues v) ;;
  match r with
  | VArr l =>
    match pyindex (length l) i with
    | Some j => match nth_error l j with Some x => ret x | None => raise EIndexError end
    | None => raise EIndexError
    end
  | _ => raise EInvalid
  end.
(** [v.name.values[i] = x] (dice.py 239-252, 296-365) *)
Definition set_item (name : string) (i : Z) (x : num) : M unit :=
  v <- view_of name ;; op_on Out_ (OSetItem v i x) ;;; ret tt.
(** [v.name.values = a] (dice.py 238-249) *)
Definition set_values (name : string) (a : arr) : M unit :=
  v <- view_of name ;; op_on Out_ (OSetValues v a) ;;; ret tt.
(** [v.name.lock()] (dice.py 263-268) *)
Definition lock (name : string) : M unit := v <- view_of name ;; op_on Out_ (OLock v) ;;; ret tt.
(** [v.name.unlock()] (dice.py 272-279) *)
Definition unlock (name : string) : M unit := v <- view_of name ;; op_on Out_ (OUnlock v) ;;; ret tt.

(** A request for a view (dice.py 128-140, 175-225) *)
Definition a_view (sd : side) (o : op) : M nat :=
  r <- op_on sd o ;; match r with VView v => ret v | _ => raise EInvalid end.

(** [p.empty] (dice.py 138) *)
Definition is_empty (v : nat) : M bool := fun w =>
  (w, match param_of_view (w_in w) v with Some q => Ok (param_empty q) | None => Err EInvalid end).

(** The default region (core/parameterset.py 138-140, 174-178, 230-232) *)
Definition World_ : hname := HSeq ["World"].

(** ** [_initialize_model] (104-146) *)

(** [set_parameter] (128-140) *)
Definition set_parameter (name : string) (full_name : list string) (value : default)
    (u : option string) : M unit :=
  p <- a_view In_ match u with
                  | None => OGeneric (HSeq full_name) World_
                  | Some u => OScalar (HSeq full_name) u World_
                  end ;;
  e <- is_empty p ;;
  (match value, e with
   | DNum x, true => op_on In_ (OSetValue p (Some x)) ;;; ret tt
   | DGen g, true => op_on In_ (OSetGeneric p g) ;;; ret tt
   | _, _ => ret tt
   end) ;;;
  set_view_of name p.

(** A loop (dice.py 142-146) *)
Fixpoint for_each {A} (l : list A) (f : A -> M unit) : M unit :=
  match l with
  | [] => ret tt
  | a :: l' => f a ;;; for_each l' f
  end.

(** 126: [self._values = namedtuple(...)] forgets earlier attributes. *)
Definition clear_values : M unit := fun w =>
  (mkWorld (w_in w) (w_out w) [] [] (w_time w) (w_timestep w) (w_count w) (w_junk w), Ok tt).

(** [_initialize_model] (dice.py 104-146) *)
Definition initialize_model : M unit :=
  clear_values ;;;
  for_each MODEL_PARAMETER_DEFAULTS (fun e =>
    let '(name, (default, unit)) := e in set_parameter name ["DICE"; name] default unit) ;;;
  for_each STANDARD_PARAMETER_DEFAULTS (fun e =>
    let '(name, (standard_name, default, unit)) := e in
    set_parameter name [standard_name] default unit).

(** ** [_initialize_model_input] (148-149) *)
Definition initialize_model_input : M unit := ret tt.

(** ** [_initialize_run_parameters] (151-225) *)

(** 154-160: [int(quotient) + 1]; a zero period gives an infinity or NaN, which [int] rejects *)
Definition timestep_count (start stop period : dt64) : res Z :=
  let d := dt_sub stop start in
  if (dt_ns period =? 0)%Z then Err (if (dt_ns d =? 0)%Z then EValueError else EOverflow)
  else Ok (Ztrunc (dt_quot d period) + 1)%Z.

(** An output series (dice.py 183-225) *)
Definition out_series (name : string) (full_name : list string) (u : string)
    (tp : list Z) (ty : string) : M unit :=
  v <- a_view Out_ (OTimeseries (HSeq full_name) u (mkTP 1 tp) World_ (AStr ty)
                      (AEnum ILINEAR) (AEnum XNONE)) ;;
  set_view_of name v.

(** [_initialize_run_parameters] (dice.py 151-225) *)
Definition initialize_run_parameters : M unit :=
  set_timestep 0 ;;;
  stop <- time_of "stop_time" ;;
  start <- time_of "start_time" ;;
  period <- delta_of "period_length" ;;
  n <- lift_res (timestep_count start stop period) ;;
  set_count n ;;;
  tp <- lift_res (create_time_points start period n (AEnum POINT_TIMESERIES)) ;;
  tpa <- lift_res (create_time_points start period n (AEnum AVERAGE_TIMESERIES)) ;;
  rounding <- generic "original_rounding" ;;
  v <- a_view In_ (OTimeseries (HSeq ["Emissions"; "CO2"])
         (if truthy rounding then "GtCO2/a" else "GtC/a") (mkTP 1 tpa) World_
         (AStr "average") (AEnum ILINEAR) (AEnum XNONE)) ;;
  set_view_of "E" v ;;;
  out_series "mat" ["Pool"; "CO2"; "Atmosphere"] "GtC" tp "point" ;;;
  out_series "ml" ["Pool"; "CO2"; "Ocean"; "lower"] "GtC" tp "point" ;;;
  out_series "mu" ["Pool"; "CO2"; "Ocean"; "shallow"] "GtC" tp "point" ;;;
  out_series "tatm" ["Surface Temperature"; "Increase"] "delta_degC" tp "point" ;;;
  out_series "tocean" ["Ocean Temperature"; "Increase"] "delta_degC" tp "point" ;;;
  out_series "forc" ["Radiative Forcing"; "CO2"] "W/m^2" tpa "average".

(** ** [_reset] (227-252) *)

(** A new array with its first element (dice.py 238-252) *)
Definition start_series (name : string) (initial : M num) : M unit :=
  n <- count ;; a <- np_empty n ;; set_values name a ;;;
  x <- initial ;; set_item name 0 x.

(** The first value of the forcing (dice.py 250-252) *)
Definition initial_forcing : M num :=
  f <- scalar "fco22x" ;; m <- scalar "mat0" ;; q <- scalar "mateq" ;;
  r <- lift_res (div_ m q) ;; l <- lift_res (log2 r) ;; e <- scalar "fex0" ;;
  ret (plus_ (times_ f l) e).

(** [_reset] (dice.py 227-252) *)
Definition reset_model : M unit :=
  set_timestep 0 ;;;
  b12 <- scalar "b12" ;;
  set_coef "b11" (minus_ (Some 1%R) b12) ;;;
  b12 <- scalar "b12" ;; mateq <- scalar "mateq" ;; mueq <- scalar "mueq" ;;
  b21 <- lift_res (div_ (times_ b12 mateq) mueq) ;;
  set_coef "b21" b21 ;;;
  b23 <- scalar "b23" ;;
  set_coef "b22" (minus_ (minus_ (Some 1%R) b21) b23) ;;;
  b23 <- scalar "b23" ;; mueq <- scalar "mueq" ;; mleq <- scalar "mleq" ;;
  b32 <- lift_res (div_ (times_ b23 mueq) mleq) ;;
  set_coef "b32" b32 ;;;
  set_coef "b33" (minus_ (Some 1%R) b32) ;;;
  start_series "mat" (scalar "mat0") ;;;
  start_series "ml" (scalar "ml0") ;;;
  start_series "mu" (scalar "mu0") ;;;
  start_series "tatm" (scalar "tatm0") ;;;
  start_series "tocean" (scalar "tocean0") ;;;
  start_series "forc" initial_forcing.

(** Line 97 of adapters/__init__.py *)
Definition start_time : M unit :=
  v <- a_view In_ (OGeneric (HStr "Start Time") World_) ;;
  r <- op_on In_ (OGetGeneric v) ;;
  match r with
  | VGen g => t <- as_time g ;; set_time (dt_ns t)
  | _ => raise EInvalid
  end.

(** ** [_calc_step] (287-365)

    An element that an expression uses several times is read once; [fex0] and [fex1] are
    read on both branches. *)

(** [float(v.period_length.value / YEAR)] (dice.py 296-303) *)
Definition in_years (period : dt64) : num := Some (dt_quot period YEAR).

(** 335-343.  [float * timedelta64] truncates to a whole number of ticks. *)
Definition exogenous_forcing (start period saturation : dt64) (t : Z) (fex0 fex1 : num) : res num :=
  if (dt_ns start + dt_ns period * t >=? dt_ns saturation)%Z then Ok fex1
  else
    let d := dt_sub saturation start in
    if (dt_ns d =? 0)%Z then Err EInfinite
    else Ok (plus_ fex0
           match minus_ fex1 fex0 with
           | Some x =>
             Some (dt_quot (mkDT (dt_unit period) (Ztrunc (x * IZR (dt_ticks period * t)))) d)
           | None => None
           end).

(** [_calc_step] (dice.py 287-365) *)
Definition calc_step : M unit :=
  t0 <- timestep ;;
  let t := (t0 + 1)%Z in
  set_timestep t ;;;
  now <- current_time ;; period <- delta_of "period_length" ;;
  set_time (now + dt_ns period) ;;;
  (* atmosphere *)
  lower <- scalar "mat_lower" ;;
  mat <- item Out_ "mat" (t - 1) ;; b11 <- coef "b11" ;;
  mu <- item Out_ "mu" (t - 1) ;; b21 <- coef "b21" ;;
  e <- item In_ "E" (t - 1) ;; period <- delta_of "period_length" ;;
  rounding <- generic "original_rounding" ;;
  set_item "mat" t (py_max lower
    (plus_ (plus_ (times_ mat b11) (times_ mu b21))
       (nop Rdiv (times_ e (in_years period))
          (Some (if truthy rounding then 3666 / 1000 else 1)%R)))) ;;;
  (* lower oceans *)
  lower <- scalar "ml_lower" ;;
  ml <- item Out_ "ml" (t - 1) ;; b33 <- coef "b33" ;;
  mu <- item Out_ "mu" (t - 1) ;; b23 <- scalar "b23" ;;
  set_item "ml" t (py_max lower (plus_ (times_ ml b33) (times_ mu b23))) ;;;
  (* shallow oceans *)
  lower <- scalar "mu_lower" ;;
  mat <- item Out_ "mat" (t - 1) ;; b12 <- scalar "b12" ;;
  mu <- item Out_ "mu" (t - 1) ;; b22 <- coef "b22" ;;
  ml <- item Out_ "ml" (t - 1) ;; b32 <- coef "b32" ;;
  set_item "mu" t (py_max lower (plus_ (plus_ (times_ mat b12) (times_ mu b22)) (times_ ml b32))) ;;;
  (* ocean temperature *)
  lower <- scalar "tocean_lower" ;; upper <- scalar "tocean_upper" ;;
  tocean <- item Out_ "tocean" (t - 1) ;; c4 <- scalar "c4" ;;
  tatm <- item Out_ "tatm" (t - 1) ;; tocean' <- item Out_ "tocean" (t - 1) ;;
  set_item "tocean" t (py_max lower (py_min upper
    (plus_ tocean (times_ c4 (minus_ tatm tocean'))))) ;;;
  (* other greenhouse gases *)
  start <- time_of "start_time" ;; period <- delta_of "period_length" ;;
  saturation <- time_of "forcoth_saturation_time" ;;
  fex0 <- scalar "fex0" ;; fex1 <- scalar "fex1" ;;
  forcoth <- lift_res (exogenous_forcing start period saturation t fex0 fex1) ;;
  (* radiative forcing *)
  fco22x <- scalar "fco22x" ;; mat <- item Out_ "mat" t ;; mateq <- scalar "mateq" ;;
  r <- lift_res (np_div mat mateq) ;; l <- lift_res (log2 r) ;;
  set_item "forc" t (plus_ (times_ fco22x l) forcoth) ;;;
  (* atmosphere temperature *)
  upper <- scalar "tatm_upper" ;;
  tatm <- item Out_ "tatm" (t - 1) ;; c1 <- scalar "c1" ;;
  forc <- item Out_ "forc" t ;; fco22x <- scalar "fco22x" ;; t2xco2 <- scalar "t2xco2" ;;
  lambda <- lift_res (div_ fco22x t2xco2) ;;
  c3 <- scalar "c3" ;; tocean <- item Out_ "tocean" (t - 1) ;;
  set_item "tatm" t (py_min upper
    (plus_ tatm (times_ c1
       (minus_ (minus_ forc (times_ lambda tatm)) (times_ c3 (minus_ tatm tocean)))))).

(** ** [_run] (257-279), [_step] (281-285) *)

(** A loop [for _ in range(n)] (dice.py 270-271) *)
Fixpoint repeat_m (n : nat) (m : M unit) : M unit :=
  match n with
  | O => ret tt
  | S n' => m ;;; repeat_m n' m
  end.

(** [_run] (dice.py 257-279) *)
Definition run_model : M unit :=
  lock "mat" ;;; lock "ml" ;;; lock "mu" ;;; lock "tatm" ;;; lock "tocean" ;;; lock "forc" ;;;
  n <- count ;;
  repeat_m (Z.to_nat (n - 1)) calc_step ;;;
  unlock "forc" ;;;
  unlock "mat" ;;; unlock "ml" ;;; unlock "mu" ;;; unlock "tatm" ;;; unlock "tocean" ;;; unlock "forc".

(** The class [DICE] (87-365). *)
Definition dice_hooks : hooks world :=
  mkHooks world initialize_model initialize_model_input initialize_run_parameters start_time
    reset_model run_model calc_step.

End Dice.
