(** Where the arrays of timeseries parameters live: which numpy arrays are shared between the
    caller, the parameters and the views (C61).

    Modelled: the functions of views.py, parameters.py and time.py that create, copy, keep or
    modify arrays.  [Core.v] models the same functions with arrays as values.

    Simplifications: parameters are numbers instead of names in regions (names hold no arrays); the
    tree of parameters is given ([leaves p]: the leaf parameters below [p], none if [p] is a leaf);
    the unit conversion of each view is given ([units p u]); scalar parameters are left out (they
    hold no arrays).  All arrays are one-dimensional and own their memory: slices of
    [view.values] are not modelled.  [np.empty]-like allocation never reuses memory. *)
From Coq Require Import String List ZArith Reals Bool Arith.
From Verif Require Import Base Units TimeModel Core.
Import ListNotations.
Local Open Scope string_scope.
Local Open Scope list_scope.

(** A numpy array of numbers, or of times in ticks. (parameters.py 120, 141; views.py 28; time.py 419-420) *)
Inductive cell := Nums (a : arr) | Times (l : list Z).

(** [_Parameter] (parameters.py 111-167); [mp_data], [mp_time]: the arrays that [data] and
    [time_points] refer to. *)
Record mparam := mkMP {
  mp_type : option ptype;
  mp_time : option nat;
  mp_data : option nat;
  mp_read : bool;
  mp_written : bool;
  mp_version : nat }.

(** [TimeseriesView] (views.py 245-343) with its [TimeseriesConverter] (time.py 369-426: [_source],
    [_target]; [None] for generic views) and its handle [_timeseries], whose [_ndarray] is always the array of [_data]
    (views.py 87, 405-407, 418-419).  [mv_generic]: a [GenericView] (views.py 460-478) instead. *)
Record mview := mkMV {
  mv_public : bool;
  mv_generic : bool;
  mv_param : nat;
  mv_uconv : uconv;
  mv_type : ptype;
  mv_extra : extrapolation;
  mv_source : option nat;
  mv_target : option nat;
  mv_children : option (list nat);
  mv_writable : bool;
  mv_data : option nat;
  mv_locked : bool;
  mv_version : option nat }.

(** [m_caller]: the arrays the caller has.
    (the objects of parameters.py 111-167, views.py 245-343 and their arrays) *)
Record mem := mkMem {
  m_heap : list cell;
  m_params : list mparam;
  m_views : list mview;
  m_caller : list nat }.

(** A computation on the memory that returns or raises (any function cited below, e.g. views.py 345-368) *)
Definition MM (A : Type) := mem -> mem * res A.
(** [return] (e.g. views.py 407) *)
Definition mret {A} (a : A) : MM A := fun m => (m, Ok a).
(** [raise] (e.g. views.py 376, 416) *)
Definition mraise {A} (e : err) : MM A := fun m => (m, Err e).
(** A call that touches no memory (e.g. views.py 380-384) *)
Definition mlift {A} (r : res A) : MM A := fun m => (m, r).
(** One statement after the other (e.g. views.py 345-368) *)
Definition mbind {A B} (x : MM A) (f : A -> MM B) : MM B := fun m =>
  match x m with (m', Ok a) => f a m' | (m', Err e) => (m', Err e) end.
Local Notation "x <- a ;; b" := (mbind a (fun x => b)) (at level 61, a at next level, right associativity).
Local Notation "a ;;; b" := (mbind a (fun _ => b)) (at level 61, right associativity).

(** ** Python objects and numpy arrays *)

(** Access to attributes of objects. ([self._parameter], views.py 345-368) *)
Definition get_param (p : nat) : MM mparam := fun m =>
  (m, match nth_error (m_params m) p with Some q => Ok q | None => Err EInvalid end).
(** Assignment to attributes of a parameter (parameters.py 260-278; views.py 364-367) *)
Definition put_param (p : nat) (q : mparam) : MM unit := fun m =>
  (mkMem (m_heap m) (upd (m_params m) p q) (m_views m) (m_caller m), Ok tt).
(** [self], a view (views.py 345-368) *)
Definition get_view (v : nat) : MM mview := fun m =>
  (m, match nth_error (m_views m) v with Some w => Ok w | None => Err EInvalid end).
(** Assignment to attributes of a view (views.py 345-368) *)
Definition put_view (v : nat) (w : mview) : MM unit := fun m =>
  (mkMem (m_heap m) (m_params m) (upd (m_views m) v w) (m_caller m), Ok tt).
(** A new view (parameterset.py 226-228; views.py 322-338) *)
Definition add_view (w : mview) : MM nat := fun m =>
  (mkMem (m_heap m) (m_params m) (m_views m ++ [w]) (m_caller m), Ok (length (m_views m))).

(** An attribute that may not have been assigned (parameters.py 117-148) *)
Definition attribute {A} (a : option A) : MM A :=
  match a with Some x => mret x | None => mraise EAttributeError end.

(** A new array; the content of an array; [np.copyto] (overwrites in place).
    (parameters.py 269-277; views.py 347, 364-366, 418) *)
Definition new_array (c : cell) : MM nat := fun m =>
  (mkMem (m_heap m ++ [c]) (m_params m) (m_views m) (m_caller m), Ok (length (m_heap m))).
(** Its content (views.py 98-118) *)
Definition content (r : nat) : MM cell := fun m =>
  (m, match nth_error (m_heap m) r with Some c => Ok c | None => Err EInvalid end).
(** [np.copyto], assignment to items (views.py 350, 421, 106) *)
Definition overwrite (r : nat) (c : cell) : MM unit := fun m =>
  (mkMem (upd (m_heap m) r c) (m_params m) (m_views m) (m_caller m), Ok tt).
(** The content, if it is of numbers (times). (views.py 345-368) *)
Definition numbers (r : nat) : MM arr :=
  c <- content r ;; match c with Nums a => mret a | Times _ => mraise EInvalid end.
(** The same for time points (time.py 419-420) *)
Definition times (r : nat) : MM (list Z) :=
  c <- content r ;; match c with Times l => mret l | Nums _ => mraise EInvalid end.

(** The caller gets the array [r]; has it. (views.py 117-118, 480-495) *)
Definition give (r : nat) : MM unit := fun m =>
  (mkMem (m_heap m) (m_params m) (m_views m) (r :: m_caller m), Ok tt).
(** It can pass on only arrays it has (views.py 409-422; parameterset.py 174-228) *)
Definition has (r : nat) : MM unit := fun m =>
  (m, if existsb (Nat.eqb r) (m_caller m) then Ok tt else Err EInvalid).

Section WithTree.
Variable leaves : nat -> list nat.
Variable units : nat -> string -> res uconv.

(** [if self.children] (parameters.py 117, views.py 340, 371) *)
Definition kids (p : nat) : bool := match leaves p with [] => false | _ => true end.

(** ** [_Parameter] *)

(** [attempt_read] (parameters.py 229-278); 277: [np.array(time_points, copy=True)]. *)
Definition m_attempt_read (p : nat) (t : ptype) (time_points : option nat) : MM unit :=
  q <- get_param p ;;
  match mp_type q with
  | Some t' =>
    if ptype_eqb t' t then put_param p (mkMP (mp_type q) (mp_time q) (mp_data q) true (mp_written q) (mp_version q))
    else mraise EParameterType
  | None =>
    put_param p (mkMP (Some t) (mp_time q) (mp_data q) (mp_read q) (mp_written q) (mp_version q)) ;;;
    match t with
    | SCALAR => mraise EInvalid
    | GENERIC =>
      if kids p then mraise EParameterAggregation
      else put_param p (mkMP (Some t) (mp_time q) None true (mp_written q) (mp_version q))
    | AVERAGE_TIMESERIES | POINT_TIMESERIES =>
      match time_points with
      | None => mraise ETypeError
      | Some r =>
        l <- times r ;;
        let n := series_length t (length l) in
        if (n <? 0)%Z then mraise EValueError
        else
          data <- new_array (Nums (mkArr false (repeat None (Z.to_nat n)))) ;;
          time <- new_array (Times l) ;;
          put_param p (mkMP (Some t) (Some time) (Some data) true (mp_written q) (mp_version q))
      end
    end
  end.

(** [attempt_write] (280-306) *)
Definition m_attempt_write (p : nat) (t : ptype) (time_points : option nat) : MM unit :=
  if kids p then mraise EParameterReadonly
  else
    m_attempt_read p t time_points ;;;
    q <- get_param p ;;
    put_param p (mkMP (mp_type q) (mp_time q) (mp_data q) (mp_read q) true (mp_version q)).

(** ** [TimeseriesView] *)

(** Converters (time.py 390-426, 419-420: both arrays are copied) and the view itself (views.py 280-316). *)
Definition m_leaf_view (u : string) (target : nat) (t : ptype) (ex : extrapolation) (p : nat) : MM mview :=
  q <- get_param p ;;
  uc <- mlift (units p u) ;;
  match mp_time q with
  | None => mraise EAttributeError
  | Some r =>
    from <- times r ;;
    to <- times target ;;
    mlift (timeseries_converter from to t ex) ;;;
    source' <- new_array (Times from) ;;
    target' <- new_array (Times to) ;;
    mret (mkMV false false p uc t ex (Some source') (Some target') None false None false None)
  end.
(** The views of the leaf parameters, in order (views.py 318-338) *)
Fixpoint m_leaf_views (u : string) (target : nat) (t : ptype) (ex : extrapolation) (ps : list nat) : MM (list mview) :=
  match ps with
  | [] => mret []
  | p :: ps' =>
    w <- m_leaf_view u target t ex p ;;
    ws <- m_leaf_views u target t ex ps' ;;
    mret (w :: ws)
  end.
(** The views are numbered when all have been made (those of a failing request are lost). (views.py 318-343) *)
Fixpoint add_views (ws : list mview) : MM (list nat) :=
  match ws with
  | [] => mret []
  | w :: ws' => v <- add_view w ;; vs <- add_views ws' ;; mret (v :: vs)
  end.
(** [ParameterSet.timeseries] (parameterset.py 174-228), [TimeseriesView.__init__] (views.py 280-343):
    the views of leaf parameters get [_target] of the new view as their time points. *)
Definition m_timeseries (p : nat) (u : string) (time_points : nat) (t : ptype) (ex : extrapolation) : MM nat :=
  m_attempt_read p t (Some time_points) ;;;
  w <- m_leaf_view u time_points t ex p ;;
  (if kids p then
     target <- attribute (mv_target w) ;;
     ws <- m_leaf_views u target t ex (leaves p) ;;
     vs <- add_views ws ;;
     add_view (mkMV true false p (mv_uconv w) t ex (mv_source w) (mv_target w) (Some vs) false None false None)
   else add_view (mkMV true false p (mv_uconv w) t ex (mv_source w) (mv_target w) None false None false None)).

(** The converter of a view (time.py 369-426), with what its arrays contain now. *)
Definition converter (w : mview) : MM tconv :=
  source <- attribute (mv_source w) ;;
  from <- times source ;;
  target <- attribute (mv_target w) ;;
  to <- times target ;;
  mret (mkTconv from to (mv_type w) (mv_extra w)).

(** Assignments to the attributes of a view: [_data], [_version] (views.py 345-351), [_writable]
    (353-360), [_locked] (444-457). *)
Definition set_data (w : mview) (r : nat) : mview :=
  mkMV (mv_public w) (mv_generic w) (mv_param w) (mv_uconv w) (mv_type w) (mv_extra w) (mv_source w) (mv_target w)
    (mv_children w) (mv_writable w) (Some r) (mv_locked w) (mv_version w).
(** [self._version = ...] (views.py 348, 351, 368) *)
Definition set_version (w : mview) (k : nat) : mview :=
  mkMV (mv_public w) (mv_generic w) (mv_param w) (mv_uconv w) (mv_type w) (mv_extra w) (mv_source w) (mv_target w)
    (mv_children w) (mv_writable w) (mv_data w) (mv_locked w) (Some k).
(** [self._writable = True] (views.py 360, 504) *)
Definition set_writable (w : mview) : mview :=
  mkMV (mv_public w) (mv_generic w) (mv_param w) (mv_uconv w) (mv_type w) (mv_extra w) (mv_source w) (mv_target w)
    (mv_children w) true (mv_data w) (mv_locked w) (mv_version w).
(** [self._locked = ...] (views.py 448, 456) *)
Definition set_locked (w : mview) (b : bool) : mview :=
  mkMV (mv_public w) (mv_generic w) (mv_param w) (mv_uconv w) (mv_type w) (mv_extra w) (mv_source w) (mv_target w)
    (mv_children w) (mv_writable w) (mv_data w) b (mv_version w).

(** [_get_values] for a leaf (views.py 375-385): the conversions return new values. *)
Definition own_values (w : mview) : MM (list num) :=
  q <- get_param (mv_param w) ;;
  if mp_written q then
    match mp_data q with
    | None => mraise EMistyped
    | Some r =>
      d <- numbers r ;;
      c <- converter w ;;
      mlift (nconvert (tconvert_from c) (map (option_map (uconvert_from (mv_uconv w))) (a_val d)))
    end
  else mraise EParameterEmpty.

(** [_read] (views.py 345-351): the first time [_data] becomes the new array that [_get_values]
    returns, later it is overwritten in place. *)
Definition read_view (get : mview -> MM (list num)) (v : nat) : MM (list num) :=
  w <- get_view v ;;
  q <- get_param (mv_param w) ;;
  match mv_data w with
  | None =>
    xs <- get w ;;
    r <- new_array (Nums (mkArr false xs)) ;;
    put_view v (set_version (set_data w r) (mp_version q)) ;;;
    mret xs
  | Some r =>
    d <- numbers r ;;
    match mv_version w with
    | None => mraise EAttributeError
    | Some k =>
      if (k =? mp_version q)%nat then mret (a_val d)
      else
        xs <- get w ;;
        if a_int d then mraise ETypeError
        else
          overwrite r (Nums (mkArr false xs)) ;;;
          put_view v (set_version w (mp_version q)) ;;;
          mret xs
    end
  end.

(** [_get_values] (views.py 370-385): the sum of arrays is a new array. *)
Definition leaf_read (v : nat) : MM (list num) :=
  read_view (fun w => if kids (mv_param w) then mraise EAttributeError else own_values w) v.
(** [sum((v.values for v in ...))] (views.py 371-374) *)
Fixpoint sum_reads (cs : list nat) (acc : option (list num)) : MM (list num) :=
  match cs with
  | [] => match acc with Some a => mret a | None => mraise EMistyped end
  | c :: cs' =>
    xs <- leaf_read c ;;
    match acc with
    | None => sum_reads cs' (Some (map (nadd (Some 0%R)) xs))
    | Some a => a' <- mlift (arr_add a xs) ;; sum_reads cs' (Some a')
    end
  end.
(** [_get_values] (views.py 370-385) *)
Definition m_get_values (w : mview) : MM (list num) :=
  if kids (mv_param w) then
    match mv_children w with
    | None => mraise EAttributeError
    | Some cs => sum_reads cs None
    end
  else own_values w.
(** [values] getter (387-407) *)
Definition m_get (v : nat) : MM (list num) := read_view m_get_values v.

(** [_write] (362-368): [data] becomes the new array that the conversions return. *)
Definition m_write (v : nat) : MM unit :=
  w <- get_view v ;;
  if mv_locked w then mret tt
  else
    match mv_data w with
    | None => mraise ETypeError
    | Some r =>
      d <- numbers r ;;
      q <- get_param (mv_param w) ;;
      c <- converter w ;;
      xs <- mlift (nconvert (tconvert_to c) (map (option_map (uconvert_to (mv_uconv w))) (a_val d))) ;;
      r' <- new_array (Nums (mkArr false xs)) ;;
      put_param (mv_param w) (mkMP (mp_type q) (mp_time q) (Some r') (mp_read q) (mp_written q) (S (mp_version q))) ;;;
      put_view v (set_version w (S (mp_version q)))
    end.

(** [_check_write] (353-360): [_target] is passed as time points. *)
Definition m_check_write (v : nat) : MM unit :=
  w <- get_view v ;;
  if mv_writable w then mret tt
  else
    m_attempt_write (mv_param w) (mv_type w) (mv_target w) ;;;
    put_view v (set_writable w).

(** [values] setter (409-422): 418 [np.asarray(v).copy()], 421 [np.copyto]. *)
Definition m_set (v : nat) (r : nat) : MM unit :=
  a <- numbers r ;;
  m_check_write v ;;;
  w <- get_view v ;;
  c <- converter w ;;
  if (Z.of_nat (length (a_val a)) =? target_length c)%Z then
    match mv_data w with
    | None =>
      r' <- new_array (Nums a) ;;
      put_view v (set_data w r') ;;;
      m_write v
    | Some d =>
      old <- numbers d ;;
      if a_int old && negb (a_int a) then mraise ETypeError
      else
        overwrite d (Nums (mkArr (a_int old) (a_val a))) ;;;
        m_write v
    end
  else mraise ETimeseriesMismatch.

(** [view.values[i] = x] (387-407, 105-107) *)
Definition m_set_item (v : nat) (i : Z) (x : num) : MM unit :=
  m_get v ;;;
  w <- get_view v ;;
  match mv_data w with
  | None => mraise EInvalid
  | Some r =>
    d <- numbers r ;;
    match pyindex (length (a_val d)) i with
    | None => mraise EIndexError
    | Some j =>
      y <- mlift (cast_item (a_int d) x) ;;
      overwrite r (Nums (mkArr (a_int d) (upd (a_val d) j y))) ;;;
      m_write v
    end
  end.

(** [view.values += x]: [NDArrayOperatorsMixin.__iadd__] computes into the array of [_data]
    ([__array_ufunc__] 30-48) and writes; then the setter copies the array onto itself. *)
Definition m_iadd (v : nat) (x : R) : MM unit :=
  m_get v ;;;
  w <- get_view v ;;
  r <- attribute (mv_data w) ;;
  d <- numbers r ;;
  if a_int d then mraise ETypeError
  else
    overwrite r (Nums (mkArr false (map (fun y => nadd y (Some x)) (a_val d)))) ;;;
    m_write v ;;;
    m_set v r.

(** [lock] (444-448), [unlock] (450-457) *)
Definition m_lock (v : nat) : MM unit := w <- get_view v ;; put_view v (set_locked w true).
(** [unlock] (views.py 450-457) *)
Definition m_unlock (v : nat) : MM unit := w <- get_view v ;; put_view v (set_locked w false) ;;; m_write v.

(** [np.asarray(view.values)] (387-407, [__array__] 117-118): the array of [_data] itself. *)
Definition m_asarray (v : nat) : MM nat :=
  m_get v ;;;
  w <- get_view v ;;
  r <- attribute (mv_data w) ;;
  give r ;;; mret r.
(** A function of [view.values] that returns a new array: [view.values * 2], [np.array(view.values)],
    ... ([__array_ufunc__] 30-48 without [out], [arithmetic_method] 59-65) *)
Definition m_compute (v : nat) (f : list num -> list num) : MM nat :=
  xs <- m_get v ;;
  r <- new_array (Nums (mkArr false (f xs))) ;;
  give r ;;; mret r.

(** ** [GenericView] (views.py 460-506), for values that are arrays; the object itself is kept. *)
(** [ParameterSet.generic] (parameterset.py 230-264) *)
Definition m_generic (p : nat) : MM nat :=
  m_attempt_read p GENERIC None ;;;
  add_view (mkMV true true p (mkUconv 1 0) GENERIC XNONE None None None false None false None).
(** getter (views.py 480-495) *)
Definition m_get_generic (v : nat) : MM nat :=
  w <- get_view v ;;
  q <- get_param (mv_param w) ;;
  if mp_written q then
    match mp_data q with
    | None => mraise EMistyped
    | Some r => give r ;;; mret r
    end
  else mraise EParameterEmpty.
(** setter (views.py 497-506) *)
Definition m_set_generic (v : nat) (r : nat) : MM unit :=
  w <- get_view v ;;
  (if mv_writable w then mret tt
   else m_attempt_write (mv_param w) GENERIC None ;;; put_view v (set_writable w)) ;;;
  q <- get_param (mv_param w) ;;
  put_param (mv_param w) (mkMP (mp_type q) (mp_time q) (Some r) (mp_read q) (mp_written q) (S (mp_version q))).

(** ** What the caller can do *)
(** The operations (parameterset.py 174-264; views.py 30-118, 387-457, 480-506) *)
Inductive mop :=
| MNew (c : cell)                              (* makes an array *)
| MWrite (r : nat) (i : Z) (x : num)           (* r[i] = x *)
| MWriteTime (r : nat) (i : Z) (z : Z)
| MLook (r : nat)                              (* reads one of its arrays *)
| MTimeseries (p : nat) (u : string) (time_points : nat) (t : ptype) (ex : extrapolation)
| MGetValues (v : nat)
| MSetValues (v : nat) (r : nat)               (* view.values = r *)
| MSetItem (v : nat) (i : Z) (x : num)
| MIAdd (v : nat) (x : R)
| MLock (v : nat)
| MUnlock (v : nat)
| MAsArray (v : nat)
| MCompute (v : nat) (f : list num -> list num)
| MGeneric (p : nat)
| MGetGeneric (v : nat)
| MSetGeneric (v : nat) (r : nat).

(** What it gets from them (the same lines) *)
Inductive mval := MUnit | MView (v : nat) | MRef (r : nat) | MValues (l : list num) | MCell (c : cell).

(** A result put into [mval] (the lines cited at [mop]) *)
Definition as_val {A} (g : A -> mval) (x : MM A) : MM mval := a <- x ;; mret (g a).
(** A call without result (the lines cited at [mop]) *)
Definition nothing (x : MM unit) : MM mval := as_val (fun _ => MUnit) x.
(** Only the views the caller has, of the right class. (the classes of views.py 245, 460) *)
Definition on_view (v : nat) (generic : bool) (x : MM mval) : MM mval :=
  w <- get_view v ;;
  if mv_public w && Bool.eqb (mv_generic w) generic then x else mraise EInvalid.

(** Writing to an element of an array of the caller. (numpy; how the caller of views.py 117-118 can reach [_data]) *)
Definition m_write_item (r : nat) (i : Z) (x : num) : MM unit :=
  has r ;;;
  a <- numbers r ;;
  match pyindex (length (a_val a)) i with
  | None => mraise EIndexError
  | Some j => y <- mlift (cast_item (a_int a) x) ;; overwrite r (Nums (mkArr (a_int a) (upd (a_val a) j y)))
  end.
(** The same for an array of times (parameterset.py 174-228: its argument [time_points]) *)
Definition m_write_time (r : nat) (i z : Z) : MM unit :=
  has r ;;;
  l <- times r ;;
  match pyindex (length l) i with
  | None => mraise EIndexError
  | Some j => overwrite r (Times (upd l j z))
  end.

(** One call (parameterset.py 174-264; views.py 30-118, 387-457, 480-506) *)
Definition mstep (o : mop) : MM mval :=
  match o with
  | MNew c => r <- new_array c ;; give r ;;; mret (MRef r)
  | MWrite r i x => nothing (m_write_item r i x)
  | MWriteTime r i z => nothing (m_write_time r i z)
  | MLook r => has r ;;; as_val MCell (content r)
  | MTimeseries p u tp t ex => has tp ;;; as_val MView (m_timeseries p u tp t ex)
  | MGetValues v => on_view v false (as_val MValues (m_get v))
  | MSetValues v r => has r ;;; on_view v false (nothing (m_set v r))
  | MSetItem v i x => on_view v false (nothing (m_set_item v i x))
  | MIAdd v x => on_view v false (nothing (m_iadd v x))
  | MLock v => on_view v false (nothing (m_lock v))
  | MUnlock v => on_view v false (nothing (m_unlock v))
  | MAsArray v => on_view v false (as_val MRef (m_asarray v))
  | MCompute v f => on_view v false (as_val MRef (m_compute v f))
  | MGeneric p => as_val MView (m_generic p)
  | MGetGeneric v => on_view v true (as_val MRef (m_get_generic v))
  | MSetGeneric v r => has r ;;; on_view v true (nothing (m_set_generic v r))
  end.

(** Everything [n] parameters have before they are used; a history of calls.
    ([_Parameter.__init__], parameters.py 150-167) *)
Definition mstart (n : nat) : mem := mkMem [] (repeat (mkMP None None None false false 0) n) [] [].
(** A history of calls (of parameterset.py 174-264) *)
Definition mrun (m : mem) (h : list mop) : mem := fold_left (fun m o => fst (mstep o m)) h m.
End WithTree.
