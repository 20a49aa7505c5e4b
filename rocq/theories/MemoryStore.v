(** [ParameterSet] with the arrays in memory: names, regions and units as in [Core.v], arrays as in
    [Memory.v] (C72).

    Modelled: [ParameterSet.timeseries] and [info] (parameterset.py 174-228, 266-294) and the methods of
    [TimeseriesView] (views.py 245-457), for callers that use timeseries only and that do not take the
    array behind [view.values] with [np.asarray].  Scalar and generic parameters are left out. *)
From Coq Require Import String List ZArith Reals Bool Arith.
From Verif Require Import Base Units TimeModel Core Memory.
Import ListNotations.
Local Open Scope list_scope.

(** What a program does with arrays and timeseries.  It names its arrays by numbers: those it makes and
    those it gets from computations, in this order. (parameterset.py 174-228, 266-294; views.py 387-457) *)
Inductive call :=
| CNew (c : cell)                                  (* makes an array *)
| CWrite (k : nat) (i : Z) (x : num)               (* a[i] = x *)
| CWriteTime (k : nat) (i z : Z)
| CLook (k : nat)                                  (* reads the whole array *)
| CTimeseries (name : hname) (unit : string) (time_points : nat) (region : hname)
    (ty : enum_arg ptype) (ip : enum_arg interpolation) (ex : enum_arg extrapolation)
| CInfo (name region : hname)
| CGet (v : nat)                                   (* view.values *)
| CSet (v k : nat)                                 (* view.values = a *)
| CSetItem (v : nat) (i : Z) (x : num)             (* view.values[i] = x *)
| CIAdd (v : nat) (x : R)                          (* view.values += x *)
| CLock (v : nat)
| CUnlock (v : nat)
| CCompute (v : nat) (f : list num -> list num).   (* a = f(view.values), a new array *)

(** What it gets. (the same lines) *)
Inductive answer := AUnit | AView (v : nat) | AInfo (p : option nat) | AValues (l : list num) | ACell (c : cell).

(** The regions and parameters with their names and units ([hs_names]; of its parameters only
    [p_name], [p_parent], [p_region], [p_children] and [p_unit] are used), and the memory. (parameterset.py 20-37) *)
Record hstate := mkH { hs_names : state; hs_mem : mem }.
(** [ParameterSet.__init__] (parameterset.py 28-37) *)
Definition hstart (root : string) : hstate := mkH (init_state root) (mstart 0).

(** The attributes of [_Parameter] (parameters.py 111-167) that finding and creating parameters
    depends on. *)
Definition with_flags (x : param * mparam) : param :=
  mkParam (p_name (fst x)) (p_parent (fst x)) (p_region (fst x)) (p_children (fst x))
    (mp_read (snd x)) (mp_written (snd x)) None (p_unit (fst x)) None None 0.
(** What the methods that find parameters see (parameterset.py 39-136) *)
Definition tree_of (n : state) (m : mem) : state :=
  mkState (st_regions n) (map with_flags (combine (st_params n) (m_params m))) [].
(** [_Parameter.__init__] (parameters.py 150-167) for the parameters that were created. *)
Definition grow (n : state) (m : mem) : mem :=
  mkMem (m_heap m)
    (m_params m ++ repeat (mkMP None None None false false 0) (length (st_params n) - length (m_params m)))
    (m_views m) (m_caller m).
(** [self.unit = unit] (parameters.py 260), if there is no type yet (259). *)
Definition name_unit (n : state) (m : mem) (p : nat) (unit : string) : state :=
  match nth_error (m_params m) p, nth_error (st_params n) p with
  | Some (mkMP None _ _ _ _ _), Some q =>
    set_param n p (mkParam (p_name q) (p_parent q) (p_region q) (p_children q) (p_read q) (p_written q)
      (p_type q) (Some unit) (p_time q) (p_data q) (p_version q))
  | _, _ => n
  end.
(** The leaf parameters below a parameter (views.py 318-338), none if it is a leaf. *)
Definition below (n : state) (p : nat) : list nat :=
  match nth_error (st_params n) p with
  | None => []
  | Some q =>
    if has_children q then match param_leaves n p with Some ls => ls | None => [] end else []
  end.
(** The unit converter of a view (views.py 305) *)
Definition unit_of (env : uenv) (n : state) (p : nat) (unit : string) : res uconv :=
  match nth_error (st_params n) p with
  | None => Err EInvalid
  | Some q => unit_converter env (p_unit q) (Some unit)
  end.

(** Results as the program sees them (the lines cited at [call]) *)
Definition answer_of (r : mval) : answer :=
  match r with
  | MUnit => AUnit | MView v => AView v | MRef _ => AUnit | MValues l => AValues l | MCell c => ACell c
  end.
(** A call of [Memory.v]. (views.py 387-457) *)
Definition mcall (env : uenv) (n : state) (o : mop) (m : mem) : hstate * res answer :=
  match mstep (below n) (unit_of env n) o m with
  | (m', Ok a) => (mkH n m', Ok (answer_of a))
  | (m', Err e) => (mkH n m', Err e)
  end.
(** The array with number [k]. (the arguments of parameterset.py 174-228, views.py 409-422) *)
Definition array (m : mem) (k : nat) : option nat := nth_error (rev (m_caller m)) k.
(** A call that is given this array (the same lines) *)
Definition with_array (h : hstate) (k : nat) (f : nat -> hstate * res answer) : hstate * res answer :=
  match array (hs_mem h) k with None => (h, Err EInvalid) | Some r => f r end.

(** [ParameterSet.timeseries] (parameterset.py 174-228) *)
Definition h_timeseries (env : uenv) (h : hstate) (name : hname) (unit : string) (r : nat) (region : hname)
    (ty : enum_arg ptype) (ip : enum_arg interpolation) (ex : enum_arg extrapolation) : hstate * res answer :=
  match from_timeseries_type ty with
  | Err e => (h, Err e)
  | Ok t =>
  match from_interpolation_type ip with
  | Err e => (h, Err e)
  | Ok _ =>
  match from_extrapolation_type ex with
  | Err e => (h, Err e)
  | Ok x =>
    match locate (tree_of (hs_names h) (hs_mem h)) name region with
    | (n, Err e) => (mkH n (grow n (hs_mem h)), Err e)
    | (n, Ok p) =>
      let m := grow n (hs_mem h) in
      mcall env (name_unit n m p unit) (MTimeseries p unit r t x) m
    end
  end end end.

(** One call (parameterset.py 174-228, 266-294; views.py 387-457) *)
Definition hstep (env : uenv) (o : call) (h : hstate) : hstate * res answer :=
  let n := hs_names h in
  let m := hs_mem h in
  match o with
  | CNew c => mcall env n (MNew c) m
  | CWrite k i x => with_array h k (fun r => mcall env n (MWrite r i x) m)
  | CWriteTime k i z => with_array h k (fun r => mcall env n (MWriteTime r i z) m)
  | CLook k => with_array h k (fun r => mcall env n (MLook r) m)
  | CTimeseries name unit k region ty ip ex =>
    with_array h k (fun r =>
      match nth_error (m_heap m) r with
      | Some (Times _) => h_timeseries env h name unit r region ty ip ex
      | _ => (h, Err EInvalid)
      end)
  | CInfo name region =>
    (h, match info (tree_of n m) name region with Ok p => Ok (AInfo p) | Err e => Err e end)
  | CGet v => mcall env n (MGetValues v) m
  | CSet v k => with_array h k (fun r => mcall env n (MSetValues v r) m)
  | CSetItem v i x => mcall env n (MSetItem v i x) m
  | CIAdd v x => mcall env n (MIAdd v x) m
  | CLock v => mcall env n (MLock v) m
  | CUnlock v => mcall env n (MUnlock v) m
  | CCompute v f => mcall env n (MCompute v f) m
  end.
