(** Model of the parameter store: openscm/core/parameters.py, regions.py,
    parameterset.py and views.py.

    Objects are cells of three heaps (regions, parameters, views); cells are addressed by
    their index and never removed.  A call takes the state to a new state and a result;
    the new state is also given when the call raises, because Python keeps what was
    mutated before the exception.

    Simplifications: floats are reals, NaN is [None] (time conversion of an array that
    contains a NaN is taken to give NaN everywhere); infinities are not modelled.  numpy
    arrays are one-dimensional, with a flag for integer dtype.  Objects stored in generic
    parameters are immutable values. *)
From Coq Require Import String Ascii List ZArith Reals Bool Arith.
From Verif Require Import Base Units TimeModel.
Import ListNotations.
Local Open Scope list_scope.

(** A float; [None] is NaN. (the values of parameters.py 120, views.py 196-229) *)
Definition num := option R.

(** A numpy array of numbers: integer dtype?, elements. (views.py 28, 417-421) *)
Record arr := mkArr { a_int : bool; a_val : list num }.

(** Values of generic parameters. (views.py 480-506; adapters/dice.py 26-84 are those the code itself stores) *)
Inductive gval := GNone | GBool (b : bool) | GInt (z : Z) | GFloat (x : num)
                | GStr (s : string) | GTime (t : dt64) | GDelta (d : dt64).

(** [_Parameter.data] (parameters.py 120) *)
Inductive pdata := PScalar (x : num) | PArr (l : list num) | PGen (g : gval).

(** [_Parameter] (parameters.py 111-167). [p_data], [p_time] are [None] while the
    attribute has not been assigned. *)
Record param := mkParam {
  p_name : string;
  p_parent : option nat;
  p_region : nat;
  p_children : list (string * nat);
  p_read : bool;
  p_written : bool;
  p_type : option ptype;
  p_unit : option string;
  p_time : option timepoints;
  p_data : option pdata;
  p_version : nat }.

(** [_Region] (regions.py 13-49) *)
Record region := mkRegion {
  r_name : string;
  r_parent : option nat;
  r_children : list (string * nat);
  r_params : list (string * nat);
  r_aggregated : bool }.

(** The three classes of views (views.py 149, 245, 460) *)
Inductive vkind := KScalar | KTimeseries | KGeneric.

(** [ScalarView] (views.py 149-194), [TimeseriesView] (245-343), [GenericView] (460-478).
    [v_children] is [_child_data_views] ([None]: attribute not assigned), [v_data] is
    [_data], [v_version] is [_version] ([None]: attribute not assigned; note that
    [__init__] does not assign it).  [_timeseries] always wraps the array object [_data],
    so it needs no cell of its own.  [v_public]: the view was returned to the user (leaf
    views inside an aggregated view are not). *)
Record view := mkView {
  v_public : bool;
  v_kind : vkind;
  v_param : nat;
  v_unit : string;
  v_uconv : uconv;
  v_tconv : tconv;
  v_children : option (list nat);
  v_writable : bool;
  v_data : option arr;
  v_locked : bool;
  v_version : option nat }.

(** All objects of a [ParameterSet] (parameterset.py 20-37) *)
Record state := mkState {
  st_regions : list region;
  st_params : list param;
  st_views : list view }.

(** [ParameterSet.__init__] (parameterset.py 28-37); the root region is cell 0. *)
Definition init_state (name_root : string) : state :=
  mkState [mkRegion name_root None [] [] false] [] [].

(** Hierarchical names (parameters.py 25): a string or a sequence of components;
    [isinstance(name, str)] -> [name.split("|")]. *)
Inductive hname := HStr (s : string) | HSeq (l : list string).
(** The components of a name (parameterset.py 58-59, 125-126) *)
Definition hcomponents (n : hname) : list string :=
  match n with HStr s => split "|"%char s | HSeq l => l end.

(** ** Field updates *)
(** Assignment to attributes of a region (regions.py 72-79, 119-123) *)
Definition set_region (s : state) (i : nat) (r : region) : state :=
  mkState (upd (st_regions s) i r) (st_params s) (st_views s).
(** Assignment to attributes of a parameter (parameters.py 260-278) *)
Definition set_param (s : state) (i : nat) (p : param) : state :=
  mkState (st_regions s) (upd (st_params s) i p) (st_views s).
(** Assignment to attributes of a view (views.py 345-368) *)
Definition set_view (s : state) (i : nat) (v : view) : state :=
  mkState (st_regions s) (st_params s) (upd (st_views s) i v).

(** [self.children[name] = res] (parameters.py 199-201) *)
Definition p_add_child (p : param) (n : string) (c : nat) : param :=
  mkParam (p_name p) (p_parent p) (p_region p) (p_children p ++ [(n, c)]) (p_read p)
    (p_written p) (p_type p) (p_unit p) (p_time p) (p_data p) (p_version p).
(** [self.has_been_read_from = True] (parameters.py 278) *)
Definition p_set_read (p : param) : param :=
  mkParam (p_name p) (p_parent p) (p_region p) (p_children p) true
    (p_written p) (p_type p) (p_unit p) (p_time p) (p_data p) (p_version p).
(** [self.has_been_written_to = True] (parameters.py 306) *)
Definition p_set_written (p : param) : param :=
  mkParam (p_name p) (p_parent p) (p_region p) (p_children p) (p_read p)
    true (p_type p) (p_unit p) (p_time p) (p_data p) (p_version p).
(** [self.unit = unit; self.parameter_type = parameter_type] (parameters.py 260-261) *)
Definition p_set_type (p : param) (t : ptype) (u : option string) : param :=
  mkParam (p_name p) (p_parent p) (p_region p) (p_children p) (p_read p)
    (p_written p) (Some t) u (p_time p) (p_data p) (p_version p).
(** [self.data = ...] (parameters.py 262-276) *)
Definition p_set_data (p : param) (d : pdata) : param :=
  mkParam (p_name p) (p_parent p) (p_region p) (p_children p) (p_read p)
    (p_written p) (p_type p) (p_unit p) (p_time p) (Some d) (p_version p).
(** [self.time_points = ...] (parameters.py 277) *)
Definition p_set_time (p : param) (t : timepoints) : param :=
  mkParam (p_name p) (p_parent p) (p_region p) (p_children p) (p_read p)
    (p_written p) (p_type p) (p_unit p) (Some t) (p_data p) (p_version p).
(** data assignment followed by [version += 1] (views.py 228-229, 364-367, 505-506) *)
Definition p_store (p : param) (d : pdata) : param :=
  mkParam (p_name p) (p_parent p) (p_region p) (p_children p) (p_read p)
    (p_written p) (p_type p) (p_unit p) (p_time p) (Some d) (S (p_version p)).

(** [self._writable = True] (views.py 227, 360, 504) *)
Definition v_set_writable (v : view) : view :=
  mkView (v_public v) (v_kind v) (v_param v) (v_unit v) (v_uconv v) (v_tconv v) (v_children v)
    true (v_data v) (v_locked v) (v_version v).
(** [self._data = ...] (views.py 347, 350, 418, 421) *)
Definition v_set_data (v : view) (d : arr) : view :=
  mkView (v_public v) (v_kind v) (v_param v) (v_unit v) (v_uconv v) (v_tconv v) (v_children v)
    (v_writable v) (Some d) (v_locked v) (v_version v).
(** [self._version = ...] (views.py 348, 351, 368) *)
Definition v_set_version (v : view) (n : nat) : view :=
  mkView (v_public v) (v_kind v) (v_param v) (v_unit v) (v_uconv v) (v_tconv v) (v_children v)
    (v_writable v) (v_data v) (v_locked v) (Some n).
(** [self._locked = ...] (views.py 448, 456) *)
Definition v_set_locked (v : view) (b : bool) : view :=
  mkView (v_public v) (v_kind v) (v_param v) (v_unit v) (v_uconv v) (v_tconv v) (v_children v)
    (v_writable v) (v_data v) b (v_version v).
(** A view that is handed to the user (parameterset.py 172, 226-228, 264) *)
Definition v_set_public (v : view) : view :=
  mkView true (v_kind v) (v_param v) (v_unit v) (v_uconv v) (v_tconv v) (v_children v)
    (v_writable v) (v_data v) (v_locked v) (v_version v).

(** [if self.children] (parameters.py 265, 303; views.py 211, 371) *)
Definition has_children (p : param) : bool :=
  match p_children p with [] => false | _ => true end.

(** ** Regions *)

(** [_Region.__init__], as created by [get_or_create_subregion] (regions.py 72-79) *)
Definition new_region (name : string) (parent : nat) : region :=
  mkRegion name (Some parent) [] [] false.

(** [_Region.get_or_create_subregion] (regions.py 51-79) *)
Definition get_or_create_subregion (s : state) (r : nat) (name : string)
    : state * res nat :=
  match nth_error (st_regions s) r with
  | None => (s, Err EInvalid)
  | Some rg =>
    match alookup name (r_children rg) with
    | Some c => (s, Ok c)
    | None =>
      if r_aggregated rg then (s, Err ERegionAggregated)
      else
        let c := length (st_regions s) in
        let rg' := mkRegion (r_name rg) (r_parent rg) (r_children rg ++ [(name, c)])
                     (r_params rg) (r_aggregated rg) in
        (mkState (upd (st_regions s) r rg' ++ [new_region name r])
           (st_params s) (st_views s), Ok c)
    end
  end.

(** The recursion of [_get_or_create_region] on [name[:-1]] (parameterset.py 61-63)
    visits the components from the first to the last. *)
Fixpoint subregions (s : state) (r : nat) (names : list string) : state * res nat :=
  match names with
  | [] => (s, Ok r)
  | n :: names' =>
    match get_or_create_subregion s r n with
    | (s', Ok c) => subregions s' c names'
    | (s', Err e) => (s', Err e)
    end
  end.

(** [ParameterSet._get_or_create_region] (parameterset.py 39-78) *)
Definition get_or_create_region (s : state) (name : hname) : state * res nat :=
  match hcomponents name with
  | [] => (s, Err EValueError)
  | n :: rest =>
    match nth_error (st_regions s) 0 with
    | None => (s, Err EInvalid)
    | Some root =>
      if String.eqb n (r_name root) then subregions s 0 rest
      else (s, Err EValueError)
    end
  end.

(** [_Region.get_subregion] (regions.py 81-103) *)
Fixpoint get_subregion (s : state) (r : nat) (names : list string) : option nat :=
  match names with
  | [] => Some r
  | n :: names' =>
    match nth_error (st_regions s) r with
    | None => None
    | Some rg => match alookup n (r_children rg) with
                 | None => None
                 | Some c => get_subregion s c names'
                 end
    end
  end.

(** [ParameterSet._get_region] (parameterset.py 80-100); [name[0]] of an empty sequence
    raises IndexError. *)
Definition get_region (s : state) (name : hname) : res (option nat) :=
  match hcomponents name with
  | [] => Err EIndexError
  | n :: rest =>
    match nth_error (st_regions s) 0 with
    | None => Err EInvalid
    | Some root =>
      if String.eqb n (r_name root) then Ok (get_subregion s 0 rest) else Ok None
    end
  end.

(** ** Parameters *)

(** [_Parameter.__init__] (parameters.py 150-167) *)
Definition new_param (name : string) (parent : option nat) (region : nat) : param :=
  mkParam name parent region [] false false None None None None 0.

(** [_Region.get_or_create_parameter] (regions.py 105-123) *)
Definition get_or_create_root_parameter (s : state) (r : nat) (name : string)
    : state * res nat :=
  match nth_error (st_regions s) r with
  | None => (s, Err EInvalid)
  | Some rg =>
    match alookup name (r_params rg) with
    | Some p => (s, Ok p)
    | None =>
      let p := length (st_params s) in
      let rg' := mkRegion (r_name rg) (r_parent rg) (r_children rg)
                   (r_params rg ++ [(name, p)]) (r_aggregated rg) in
      (mkState (upd (st_regions s) r rg') (st_params s ++ [new_param name None r])
         (st_views s), Ok p)
    end
  end.

(** [_Parameter.get_or_create_child_parameter] (parameters.py 169-202) *)
Definition get_or_create_child_parameter (s : state) (p : nat) (name : string)
    : state * res nat :=
  match nth_error (st_params s) p with
  | None => (s, Err EInvalid)
  | Some q =>
    match alookup name (p_children q) with
    | Some c => (s, Ok c)
    | None =>
      if p_written q then (s, Err EParameterWritten)
      else if p_read q then (s, Err EParameterRead)
      else
        let c := length (st_params s) in
        (mkState (st_regions s)
           (upd (st_params s) p (p_add_child q name c)
              ++ [new_param name (Some p) (p_region q)])
           (st_views s), Ok c)
    end
  end.

(** The recursion on [name[:-1]] (parameterset.py 128-130), first component first. *)
Fixpoint subparameters (s : state) (p : nat) (names : list string) : state * res nat :=
  match names with
  | [] => (s, Ok p)
  | n :: names' =>
    match get_or_create_child_parameter s p n with
    | (s', Ok c) => subparameters s' c names'
    | (s', Err e) => (s', Err e)
    end
  end.

(** [ParameterSet._get_or_create_parameter] (parameterset.py 102-136) *)
Definition get_or_create_parameter (s : state) (name : hname) (r : nat)
    : state * res nat :=
  match hcomponents name with
  | [] => (s, Err EValueError)
  | n :: rest =>
    match get_or_create_root_parameter s r n with
    | (s', Ok p) => subparameters s' p rest
    | (s', Err e) => (s', Err e)
    end
  end.

(** [_Parameter.get_subparameter] (parameters.py 204-227) *)
Fixpoint get_subparameter (s : state) (p : nat) (names : list string) : option nat :=
  match names with
  | [] => Some p
  | n :: names' =>
    match nth_error (st_params s) p with
    | None => None
    | Some q => match alookup n (p_children q) with
                | None => None
                | Some c => get_subparameter s c names'
                end
    end
  end.

(** [not name] for a hierarchical name: empty string or empty sequence. (regions.py 146-147) *)
Definition hempty (n : hname) : bool :=
  match n with
  | HStr s => String.eqb s ""
  | HSeq l => match l with [] => true | _ => false end
  end.

(** [_Region.get_parameter] (regions.py 125-153) *)
Definition get_parameter (s : state) (r : nat) (name : hname) : res (option nat) :=
  if hempty name then Err EValueError
  else match hcomponents name with
       | [] => Err EValueError
       | n :: rest =>
         match nth_error (st_regions s) r with
         | None => Err EInvalid
         | Some rg =>
           match alookup n (r_params rg) with
           | None => Ok None
           | Some p => Ok (get_subparameter s p rest)
           end
         end
       end.

(** [ParameterSet.info] (parameterset.py 266-294) *)
Definition info (s : state) (name region : hname) : res (option nat) :=
  match get_region s region with
  | Err e => Err e
  | Ok None => Ok None
  | Ok (Some r) => get_parameter s r name
  end.

(** [_Parameter.full_name] (parameters.py 308-318) and [_Region.full_name]
    (regions.py 162-173): follow the parent links.  The fuel is proved sufficient. *)
Fixpoint param_full_name (fuel : nat) (s : state) (p : nat) : option (list string) :=
  match fuel with
  | O => None
  | S f =>
    match nth_error (st_params s) p with
    | None => None
    | Some q =>
      match p_parent q with
      | None => Some [p_name q]
      | Some p' => match param_full_name f s p' with
                   | Some l => Some (l ++ [p_name q])
                   | None => None
                   end
      end
    end
  end.
(** [_Region.full_name] (regions.py 162-173) *)
Fixpoint region_full_name (fuel : nat) (s : state) (r : nat) : option (list string) :=
  match fuel with
  | O => None
  | S f =>
    match nth_error (st_regions s) r with
    | None => None
    | Some q =>
      match r_parent q with
      | None => Some [r_name q]
      | Some r' => match region_full_name f s r' with
                   | Some l => Some (l ++ [r_name q])
                   | None => None
                   end
      end
    end
  end.
(** [ParameterInfo.name] (351-356), [ParameterInfo.region] (365-370) *)
Definition info_name (s : state) (p : nat) : option (list string) :=
  param_full_name (S (length (st_params s))) s p.
(** [ParameterInfo.region] (parameters.py 365-370) *)
Definition info_region (s : state) (p : nat) : option (list string) :=
  match nth_error (st_params s) p with
  | None => None
  | Some q => region_full_name (S (length (st_regions s))) s (p_region q)
  end.

(** [_Parameter.attempt_read] (parameters.py 229-278).  Unit and type are assigned before
    the checks that can still raise. *)
Definition attempt_read (p : param) (t : ptype) (u : option string)
    (tp : option timepoints) : param * res unit :=
  match p_type p with
  | Some t' =>
    if ptype_eqb t' t then (p_set_read p, Ok tt) else (p, Err EParameterType)
  | None =>
    let p1 := p_set_type p t u in
    match t with
    | SCALAR => (p_set_read (p_set_data p1 (PScalar None)), Ok tt)
    | GENERIC =>
      if has_children p then (p1, Err EParameterAggregation)
      else (p_set_read (p_set_data p1 (PGen GNone)), Ok tt)
    | AVERAGE_TIMESERIES | POINT_TIMESERIES =>
      match tp with
      | None => (p1, Err ETypeError)
      | Some tp =>
        let n := series_length t (length (tp_ticks tp)) in
        if (n <? 0)%Z then (p1, Err EValueError)
        else (p_set_read (p_set_time
                (p_set_data p1 (PArr (repeat None (Z.to_nat n)))) tp), Ok tt)
      end
    end
  end.

(** [_Parameter.attempt_write] (parameters.py 280-306) *)
Definition attempt_write (p : param) (t : ptype) (u : option string)
    (tp : option timepoints) : param * res unit :=
  if has_children p then (p, Err EParameterReadonly)
  else match attempt_read p t u tp with
       | (p', Ok _) => (p_set_written p', Ok tt)
       | (p', Err e) => (p', Err e)
       end.

(** Leaf descendants in [children] order: [get_data_views_for_children_or_parameter]
    (views.py 178-189 and 318-338).  The fuel is proved sufficient. *)
Fixpoint opt_concat {A} (l : list (option (list A))) : option (list A) :=
  match l with
  | [] => Some []
  | None :: _ => None
  | Some a :: l' => match opt_concat l' with None => None | Some b => Some (a ++ b) end
  end.
(** The leaf descendants of a parameter (views.py 178-189, 318-338) *)
Fixpoint leaves (fuel : nat) (ps : list param) (p : nat) : option (list nat) :=
  match fuel with
  | O => None
  | S f =>
    match nth_error ps p with
    | None => None
    | Some q =>
      match p_children q with
      | [] => Some [p]
      | cs => opt_concat (map (fun c => leaves f ps (snd c)) cs)
      end
    end
  end.
(** The same with fuel for any tree (views.py 178-189, 318-338) *)
Definition param_leaves (s : state) (p : nat) : option (list nat) :=
  leaves (S (length (st_params s))) (st_params s) p.

Section WithUnits.
Variable env : uenv.

(** Fills the place of the time converter in views that have none (views.py 163-194, 468-478) *)
Definition dummy_tconv : tconv := mkTconv [] [] SCALAR XNONE.
(** Fills the place of the unit converter in generic views (views.py 468-478) *)
Definition dummy_uconv : uconv := mkUconv 1 0.

(** ** View construction *)

(** A leaf [ScalarView] inside an aggregated one: no [_child_data_views]
    (views.py 174-194). *)
Definition scalar_leaf_view (s : state) (unit : string) (p : nat) : res view :=
  match nth_error (st_params s) p with
  | None => Err EInvalid
  | Some q =>
    match unit_converter env (p_unit q) (Some unit) with
    | Err e => Err e
    | Ok uc => Ok (mkView false KScalar p unit uc dummy_tconv None false None false None)
    end
  end.

(** A leaf [TimeseriesView] (views.py 304-343). [parameter.time_points] raises
    AttributeError when it was never assigned. *)
Definition ts_leaf_view (s : state) (unit : string) (target : list Z) (t : ptype)
    (ex : extrapolation) (p : nat) : res view :=
  match nth_error (st_params s) p with
  | None => Err EInvalid
  | Some q =>
    match unit_converter env (p_unit q) (Some unit) with
    | Err e => Err e
    | Ok uc =>
      match p_time q with
      | None => Err EAttributeError
      | Some tp =>
        match timeseries_converter (tp_ticks tp) target t ex with
        | Err e => Err e
        | Ok tc => Ok (mkView false KTimeseries p unit uc tc None false None false None)
        end
      end
    end
  end.

(** [self._child_data_views = ...] (views.py 191-194, 340-343) *)
Definition v_set_children (v : view) (cs : list nat) : view :=
  mkView (v_public v) (v_kind v) (v_param v) (v_unit v) (v_uconv v) (v_tconv v) (Some cs)
    (v_writable v) (v_data v) (v_locked v) (v_version v).

(** Common part of both constructors: build the view's own converters with [mk], then,
    if the parameter has children, a view for each leaf.  The new cells are appended,
    leaf views first; the created view is the last cell.  Constructing a view does not
    touch parameters. (views.py 174-194, 304-343) *)
Definition build_view (s : state) (mk : nat -> res view) (p : nat) : state * res nat :=
  match nth_error (st_params s) p with
  | None => (s, Err EInvalid)
  | Some q =>
    match mk p with
    | Err e => (s, Err e)
    | Ok v =>
      if has_children q then
        match param_leaves s p with
        | None => (s, Err EFuel)
        | Some ls =>
          match rmap mk ls with
          | Err e => (s, Err e)
          | Ok cvs =>
            let n := length (st_views s) in
            let ids := seq n (length cvs) in
            (mkState (st_regions s) (st_params s)
               (st_views s ++ cvs ++ [v_set_public (v_set_children v ids)]), Ok (n + length cvs)%nat)
          end
        end
      else
        (mkState (st_regions s) (st_params s) (st_views s ++ [v_set_public v]),
         Ok (length (st_views s)))
    end
  end.

(** Run a parameter-level function on cell [p].
    (the calls of [attempt_read], [attempt_write]: parameterset.py 171, 225, 263; views.py 224, 355, 503) *)
Definition on_param (s : state) (p : nat) (f : param -> param * res unit)
    : state * res unit :=
  match nth_error (st_params s) p with
  | None => (s, Err EInvalid)
  | Some q => let (q', r) := f q in (set_param s p q', r)
  end.

(** Lines 167-169, 221-223, 259-261 of parameterset.py. *)
Definition locate (s : state) (name region : hname) : state * res nat :=
  match get_or_create_region s region with
  | (s1, Err e) => (s1, Err e)
  | (s1, Ok r) => get_or_create_parameter s1 name r
  end.

(** [ParameterSet.scalar] (parameterset.py 138-172) *)
Definition ps_scalar (s : state) (name : hname) (unit : string) (region : hname)
    : state * res nat :=
  match locate s name region with
  | (s1, Err e) => (s1, Err e)
  | (s1, Ok p) =>
    match on_param s1 p (fun q => attempt_read q SCALAR (Some unit) None) with
    | (s2, Err e) => (s2, Err e)
    | (s2, Ok _) => build_view s2 (scalar_leaf_view s2 unit) p
    end
  end.

(** [ParameterSet.timeseries] (parameterset.py 174-228); the three enum arguments are
    checked before anything else. *)
Definition ps_timeseries (s : state) (name : hname) (unit : string) (tps : timepoints)
    (region : hname) (ty : enum_arg ptype) (ip : enum_arg interpolation)
    (ex : enum_arg extrapolation) : state * res nat :=
  match from_timeseries_type ty with
  | Err e => (s, Err e)
  | Ok t =>
  match from_interpolation_type ip with
  | Err e => (s, Err e)
  | Ok _ =>
  match from_extrapolation_type ex with
  | Err e => (s, Err e)
  | Ok x =>
  match locate s name region with
  | (s1, Err e) => (s1, Err e)
  | (s1, Ok p) =>
    match on_param s1 p (fun q => attempt_read q t (Some unit) (Some tps)) with
    | (s2, Err e) => (s2, Err e)
    | (s2, Ok _) => build_view s2 (ts_leaf_view s2 unit (tp_ticks tps) t x) p
    end
  end end end end.

(** [ParameterSet.generic] (parameterset.py 230-264) *)
Definition ps_generic (s : state) (name region : hname) : state * res nat :=
  match locate s name region with
  | (s1, Err e) => (s1, Err e)
  | (s1, Ok p) =>
    match on_param s1 p (fun q => attempt_read q GENERIC None None) with
    | (s2, Err e) => (s2, Err e)
    | (s2, Ok _) =>
      (mkState (st_regions s2) (st_params s2)
         (st_views s2 ++
            [mkView true KGeneric p "" dummy_uconv dummy_tconv None false None false None]),
       Ok (length (st_views s2)))
    end
  end.

(** ** Scalar views *)

(** Addition of floats; with NaN it is NaN (views.py 212, 371-374) *)
Definition nadd (a b : num) : num :=
  match a, b with Some x, Some y => Some (x + y)%R | _, _ => None end.

(** [ScalarView.value] getter for a parameter without children (views.py 213-216).
    [EMistyped]: the data is not a number (the code then returns a non-number). *)
Definition scalar_own (v : view) (q : param) : res num :=
  if p_written q then
    match p_data q with
    | Some (PScalar x) => Ok (option_map (uconvert_from (v_uconv v)) x)
    | _ => Err EMistyped
    end
  else Err EParameterEmpty.

(** The getter of a leaf view: it has no [_child_data_views]. (views.py 211-216) *)
Definition scalar_leaf_get (s : state) (c : nat) : res num :=
  match nth_error (st_views s) c with
  | None => Err EInvalid
  | Some v =>
    match nth_error (st_params s) (v_param v) with
    | None => Err EInvalid
    | Some q => if has_children q then Err EAttributeError else scalar_own v q
    end
  end.

(** [sum(...)] of floats (views.py 212) *)
Definition nsum (l : list num) : num := fold_left nadd l (Some 0%R).

(** [ScalarView.value] getter (views.py 196-216) *)
Definition scalar_get (s : state) (v : view) : res num :=
  match nth_error (st_params s) (v_param v) with
  | None => Err EInvalid
  | Some q =>
    if has_children q then
      match v_children v with
      | None => Err EAttributeError
      | Some cs =>
        match rmap (scalar_leaf_get s) cs with
        | Err e => Err e
        | Ok xs => Ok (nsum xs)
        end
      end
    else scalar_own v q
  end.

(** [if not self._writable: attempt_write(...); self._writable = True]
    (views.py 223-227, 353-360, 502-504) *)
Definition check_write (s : state) (vi : nat) (v : view) (t : ptype)
    (u : option string) (tp : option timepoints) : state * res unit :=
  if v_writable v then (s, Ok tt)
  else match on_param s (v_param v) (fun q => attempt_write q t u tp) with
       | (s1, Err e) => (s1, Err e)
       | (s1, Ok _) => (set_view s1 vi (v_set_writable v), Ok tt)
       end.

(** [self._parameter.data = d; self._parameter.version += 1] (views.py 228-229, 505-506) *)
Definition store (s : state) (p : nat) (d : pdata) : state :=
  match nth_error (st_params s) p with
  | None => s
  | Some q => set_param s p (p_store q d)
  end.

(** [ScalarView.value] setter (views.py 218-229) *)
Definition scalar_set (s : state) (vi : nat) (v : view) (x : num) : state * res unit :=
  match check_write s vi v SCALAR (Some (v_unit v)) None with
  | (s1, Err e) => (s1, Err e)
  | (s1, Ok _) =>
    (store s1 (v_param v) (PScalar (option_map (uconvert_to (v_uconv v)) x)), Ok tt)
  end.

(** ** Generic views *)

(** [GenericView.value] getter (views.py 480-495) *)
Definition generic_get (s : state) (v : view) : res gval :=
  match nth_error (st_params s) (v_param v) with
  | None => Err EInvalid
  | Some q =>
    if p_written q then
      match p_data q with Some (PGen g) => Ok g | _ => Err EMistyped end
    else Err EParameterEmpty
  end.

(** [GenericView.value] setter (views.py 497-506) *)
Definition generic_set (s : state) (vi : nat) (v : view) (g : gval) : state * res unit :=
  match check_write s vi v GENERIC None None with
  | (s1, Err e) => (s1, Err e)
  | (s1, Ok _) => (store s1 (v_param v) (PGen g), Ok tt)
  end.

(** ** Timeseries views *)

(** The numbers of an array without NaN (time.py 506-551) *)
Fixpoint all_some (l : list num) : option (list R) :=
  match l with
  | [] => Some []
  | None :: _ => None
  | Some x :: l' => match all_some l' with None => None | Some xs => Some (x :: xs) end
  end.

(** Time conversion of an array that may contain NaN: with a NaN the same checks are made
    and the result is NaN everywhere (simplification). (time.py 596-628) *)
Definition nconvert (f : list R -> res (list R)) (l : list num) : res (list num) :=
  match all_some l with
  | Some xs => match f xs with Ok ys => Ok (map Some ys) | Err e => Err e end
  | None =>
    match f (map (fun x : num => match x with Some r => r | None => 0%R end) l) with
    | Ok ys => Ok (map (fun _ => None) ys)
    | Err e => Err e
    end
  end.

(** Data of the parameter -> array of the view (views.py 378-385). *)
Definition from_param (v : view) (d : list num) : res (list num) :=
  nconvert (tconvert_from (v_tconv v)) (map (option_map (uconvert_from (v_uconv v))) d).
(** Array of the view -> data of the parameter (views.py 364-366). *)
Definition to_param (v : view) (d : list num) : res (list num) :=
  nconvert (tconvert_to (v_tconv v)) (map (option_map (uconvert_to (v_uconv v))) d).

(** [_get_values] without the aggregation branch (views.py 375-385) *)
Definition ts_own (v : view) (q : param) : res (list num) :=
  if p_written q then
    match p_data q with
    | Some (PArr d) => from_param v d
    | _ => Err EMistyped
    end
  else Err EParameterEmpty.

(** The caching part of [_read] (views.py 345-351): [get] is [_get_values].  A refresh goes
    through [np.copyto], which refuses to copy floats into an integer array. *)
Definition read_with (get : state -> view -> state * res (list num))
    (s : state) (vi : nat) : state * res (list num) :=
  match nth_error (st_views s) vi with
  | None => (s, Err EInvalid)
  | Some v =>
    match nth_error (st_params s) (v_param v) with
    | None => (s, Err EInvalid)
    | Some q =>
      match v_data v with
      | None =>
        match get s v with
        | (s1, Err e) => (s1, Err e)
        | (s1, Ok xs) =>
          (set_view s1 vi (v_set_version (v_set_data v (mkArr false xs)) (p_version q)),
           Ok xs)
        end
      | Some d =>
        match v_version v with
        | None => (s, Err EAttributeError)
        | Some k =>
          if (k =? p_version q)%nat then (s, Ok (a_val d))
          else
            match get s v with
            | (s1, Err e) => (s1, Err e)
            | (s1, Ok xs) =>
              if a_int d then (s1, Err ETypeError)
              else (set_view s1 vi
                      (v_set_version (v_set_data v (mkArr false xs)) (p_version q)),
                    Ok xs)
            end
        end
      end
    end
  end.

(** [_get_values] of a leaf view: it has no [_child_data_views]. (views.py 370-385) *)
Definition leaf_values (s : state) (v : view) : state * res (list num) :=
  match nth_error (st_params s) (v_param v) with
  | None => (s, Err EInvalid)
  | Some q => (s, if has_children q then Err EAttributeError else ts_own v q)
  end.

(** Element-wise addition; numpy raises ValueError for different lengths. (views.py 371-374) *)
Fixpoint arr_add (a b : list num) : res (list num) :=
  match a, b with
  | [], [] => Ok []
  | x :: a', y :: b' =>
    match arr_add a' b' with Ok r => Ok (nadd x y :: r) | Err e => Err e end
  | _, _ => Err EValueError
  end.

(** [sum((v.values for v in self._child_data_views))] (views.py 371-374): [0 + a1 + ...] *)
Fixpoint sum_children (s : state) (cs : list nat) (acc : option (list num))
    : state * res (list num) :=
  match cs with
  | [] => (s, match acc with Some a => Ok a | None => Err EMistyped end)
  | c :: cs' =>
    match read_with leaf_values s c with
    | (s1, Err e) => (s1, Err e)
    | (s1, Ok xs) =>
      match acc with
      | None => sum_children s1 cs' (Some (map (nadd (Some 0%R)) xs))
      | Some a => match arr_add a xs with
                  | Err e => (s1, Err e)
                  | Ok a' => sum_children s1 cs' (Some a')
                  end
      end
    end
  end.

(** [TimeseriesView._get_values] (views.py 370-385) *)
Definition get_values (s : state) (v : view) : state * res (list num) :=
  match nth_error (st_params s) (v_param v) with
  | None => (s, Err EInvalid)
  | Some q =>
    if has_children q then
      match v_children v with
      | None => (s, Err EAttributeError)
      | Some cs => sum_children s cs None
      end
    else (s, ts_own v q)
  end.

(** [TimeseriesView.values] getter = [_read] (views.py 387-407); the result is the content
    of the returned array. *)
Definition ts_get (s : state) (vi : nat) : state * res (list num) :=
  read_with get_values s vi.

(** [_write] (views.py 362-368). [_data] of [None] makes [convert_to] raise TypeError. *)
Definition ts_write (s : state) (vi : nat) : state * res unit :=
  match nth_error (st_views s) vi with
  | None => (s, Err EInvalid)
  | Some v =>
    if v_locked v then (s, Ok tt)
    else
      match v_data v with
      | None => (s, Err ETypeError)
      | Some d =>
        match nth_error (st_params s) (v_param v) with
        | None => (s, Err EInvalid)
        | Some q =>
          match to_param v (a_val d) with
          | Err e => (s, Err e)
          | Ok xs =>
            (set_view (set_param s (v_param v) (p_store q (PArr xs))) vi
               (v_set_version v (S (p_version q))), Ok tt)
          end
        end
      end
  end.

(** [TimeseriesView.values] setter (views.py 409-422): [_check_write] comes before the
    length check.  First assignment copies with dtype, later ones use [np.copyto]. *)
Definition ts_set (s : state) (vi : nat) (v : view) (a : arr) : state * res unit :=
  match check_write s vi v (tc_type (v_tconv v)) (Some (v_unit v))
          (Some (mkTP 1 (tc_target (v_tconv v)))) with
  | (s1, Err e) => (s1, Err e)
  | (s1, Ok _) =>
    if (Z.of_nat (length (a_val a)) =? target_length (v_tconv v))%Z then
      match nth_error (st_views s1) vi with
      | None => (s1, Err EInvalid)
      | Some v1 =>
        match v_data v1 with
        | None => ts_write (set_view s1 vi (v_set_data v1 a)) vi
        | Some d =>
          if a_int d && negb (a_int a) then (s1, Err ETypeError)
          else ts_write (set_view s1 vi (v_set_data v1 (mkArr (a_int d) (a_val a)))) vi
        end
      end
    else (s1, Err ETimeseriesMismatch)
  end.

(** Assigning a float to an element of an integer array truncates towards zero. (views.py 105-107) *)
Definition Rtrunc (x : R) : R :=
  if Rle_dec 0 x then IZR (Int_part x) else (- IZR (Int_part (- x)))%R.

(** What is stored in an array of integers or of floats (views.py 105-107); NaN is no integer *)
Definition cast_item (isint : bool) (x : num) : res num :=
  if isint then match x with Some r => Ok (Some (Rtrunc r)) | None => Err EValueError end
  else Ok x.

(** [_Timeseries.__setitem__] (views.py 105-107) through a handle: no [_read], no
    [_check_write]. *)
Definition handle_set (s : state) (vi : nat) (i : Z) (x : num) : state * res unit :=
  match nth_error (st_views s) vi with
  | None => (s, Err EInvalid)
  | Some v =>
    match v_data v with
    | None => (s, Err EInvalid)
    | Some d =>
      match pyindex (length (a_val d)) i with
      | None => (s, Err EIndexError)
      | Some j =>
        match cast_item (a_int d) x with
        | Err e => (s, Err e)
        | Ok y =>
          ts_write (set_view s vi (v_set_data v (mkArr (a_int d) (upd (a_val d) j y)))) vi
        end
      end
    end
  end.

(** [view.values[i] = x] (views.py 387-407, then 105-107) *)
Definition ts_setitem (s : state) (vi : nat) (i : Z) (x : num) : state * res unit :=
  match ts_get s vi with
  | (s1, Err e) => (s1, Err e)
  | (s1, Ok _) => handle_set s1 vi i x
  end.

(** [handle += x] ([NDArrayOperatorsMixin.__iadd__] -> [__array_ufunc__] with [out],
    views.py 30-48): reads the input, computes into [_ndarray], writes.  Adding a float
    into an integer array raises a TypeError. *)
Definition handle_iadd (s : state) (vi : nat) (x : R) : state * res unit :=
  match nth_error (st_views s) vi with
  | None => (s, Err EInvalid)
  | Some v0 =>
  match v_data v0 with
  | None => (s, Err EInvalid)
  | Some _ =>
  match ts_get s vi with
  | (s1, Err e) => (s1, Err e)
  | (s1, Ok _) =>
    match nth_error (st_views s1) vi with
    | None => (s1, Err EInvalid)
    | Some v =>
      match v_data v with
      | None => (s1, Err EInvalid)
      | Some d =>
        if a_int d then (s1, Err ETypeError)
        else ts_write (set_view s1 vi
               (v_set_data v (mkArr false (map (fun y => nadd y (Some x)) (a_val d))))) vi
      end
    end
  end end end.

(** [lock] (444-448), [unlock] (450-457) *)
Definition ts_lock (s : state) (vi : nat) (v : view) : state * res unit :=
  (set_view s vi (v_set_locked v true), Ok tt).
(** [unlock] (views.py 450-457) *)
Definition ts_unlock (s : state) (vi : nat) (v : view) : state * res unit :=
  ts_write (set_view s vi (v_set_locked v false)) vi.

(** ** The interface: one constructor per user-level operation *)

(** The operations (parameterset.py 138-294; views.py 196-229, 387-457, 480-506; 30-118 for handles) *)
Inductive op :=
| OScalar (name : hname) (unit : string) (region : hname)
| OTimeseries (name : hname) (unit : string) (tps : timepoints) (region : hname)
    (ty : enum_arg ptype) (ip : enum_arg interpolation) (ex : enum_arg extrapolation)
| OGeneric (name region : hname)
| OInfo (name region : hname)
| OGetValue (v : nat)             (* scalar: view.value *)
| OSetValue (v : nat) (x : num)   (* scalar: view.value = x *)
| OGetGeneric (v : nat)           (* generic: view.value *)
| OSetGeneric (v : nat) (g : gval)
| OGetValues (v : nat)            (* timeseries: view.values *)
| OSetValues (v : nat) (a : arr)  (* timeseries: view.values = a *)
| OSetItem (v : nat) (i : Z) (x : num)   (* view.values[i] = x *)
| OHandleGet (v : nat) (i : Z)    (* handle[i] *)
| OHandleArray (v : nat)          (* handle + 0, np.asarray(handle): no refresh *)
| OHandleSet (v : nat) (i : Z) (x : num) (* handle[i] = x *)
| OHandleIAdd (v : nat) (x : R)   (* handle += x *)
| OLock (v : nat)
| OUnlock (v : nat).

(** Results of operations. (the same lines) *)
Inductive val :=
| VUnit | VView (v : nat) | VInfo (p : option nat) | VNum (x : num)
| VGen (g : gval) | VArr (l : list num).

(** Operations can only be applied to views the user has, of the right class.
    (the classes of views.py 149, 245, 460) *)
Definition with_view (s : state) (vi : nat) (k : vkind)
    (f : view -> state * res val) : state * res val :=
  match nth_error (st_views s) vi with
  | None => (s, Err EInvalid)
  | Some v =>
    if v_public v then
      match v_kind v, k with
      | KScalar, KScalar | KTimeseries, KTimeseries | KGeneric, KGeneric => f v
      | _, _ => (s, Err EInvalid)
      end
    else (s, Err EInvalid)
  end.

(** Puts a result into [val] (the lines cited at [op]) *)
Definition lift {A} (g : A -> val) (x : state * res A) : state * res val :=
  match x with
  | (s, Ok a) => (s, Ok (g a))
  | (s, Err e) => (s, Err e)
  end.

(** One operation (parameterset.py 138-294; views.py 30-118, 196-229, 387-457, 480-506) *)
Definition step (o : op) (s : state) : state * res val :=
  match o with
  | OScalar n u r => lift VView (ps_scalar s n u r)
  | OTimeseries n u tp r ty ip ex => lift VView (ps_timeseries s n u tp r ty ip ex)
  | OGeneric n r => lift VView (ps_generic s n r)
  | OInfo n r => lift VInfo (s, info s n r)
  | OGetValue vi => with_view s vi KScalar (fun v => lift VNum (s, scalar_get s v))
  | OSetValue vi x =>
    with_view s vi KScalar (fun v => lift (fun _ => VUnit) (scalar_set s vi v x))
  | OGetGeneric vi => with_view s vi KGeneric (fun v => lift VGen (s, generic_get s v))
  | OSetGeneric vi g =>
    with_view s vi KGeneric (fun v => lift (fun _ => VUnit) (generic_set s vi v g))
  | OGetValues vi => with_view s vi KTimeseries (fun _ => lift VArr (ts_get s vi))
  | OSetValues vi a =>
    with_view s vi KTimeseries (fun v => lift (fun _ => VUnit) (ts_set s vi v a))
  | OSetItem vi i x =>
    with_view s vi KTimeseries (fun _ => lift (fun _ => VUnit) (ts_setitem s vi i x))
  | OHandleGet vi i =>
    with_view s vi KTimeseries (fun v =>
      match v_data v with
      | None => (s, Err EInvalid)
      | Some _ =>
        match ts_get s vi with
        | (s1, Err e) => (s1, Err e)
        | (s1, Ok xs) =>
          (s1, match pyindex (length xs) i with
               | None => Err EIndexError
               | Some j => match nth_error xs j with
                           | Some x => Ok (VNum x)
                           | None => Err EIndexError
                           end
               end)
        end
      end)
  | OHandleArray vi =>
    with_view s vi KTimeseries (fun v =>
      (s, match v_data v with None => Err EInvalid | Some d => Ok (VArr (a_val d)) end))
  | OHandleSet vi i x =>
    with_view s vi KTimeseries (fun _ => lift (fun _ => VUnit) (handle_set s vi i x))
  | OHandleIAdd vi x =>
    with_view s vi KTimeseries (fun _ => lift (fun _ => VUnit) (handle_iadd s vi x))
  | OLock vi =>
    with_view s vi KTimeseries (fun v => lift (fun _ => VUnit) (ts_lock s vi v))
  | OUnlock vi =>
    with_view s vi KTimeseries (fun v => lift (fun _ => VUnit) (ts_unlock s vi v))
  end.

(** A history of operations; results are dropped, the state after each operation (also a
    failing one) is kept. (a program that uses parameterset.py 138-294) *)
Definition run (s : state) (h : list op) : state :=
  fold_left (fun s o => fst (step o s)) h s.

End WithUnits.

(** Observations on a view (views.py / parameters.py [ParameterInfo]) (parameters.py 332-393) *)
Definition param_of_view (s : state) (vi : nat) : option param :=
  match nth_error (st_views s) vi with
  | None => None
  | Some v => nth_error (st_params s) (v_param v)
  end.
(** [ParameterInfo.empty] (parameters.py 379-384) *)
Definition param_empty (q : param) : bool := negb (p_written q).
