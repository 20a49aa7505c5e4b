(** Vocabulary used to state the properties of the parameter store.

    Only the interface of the model is used: [step] (what a call does and answers), [run]
    (a history of calls) and the fields of parameter and view objects that the API reports
    ([ParameterInfo.name/region/parameter_type/unit/empty/version], parameters.py 333-393;
    views inherit from [ParameterInfo]). *)
From Coq Require Import String List ZArith Reals Bool.
From Verif Require Import Base Units TimeModel Core.
Import ListNotations.

Section Spec.
Variable env : uenv.

(** A state some history of calls (also failing ones) leads to. *)
Definition reachable (s : state) : Prop :=
  exists root h, s = run env (init_state root) h.

(** State after a call; what the call returns or raises. *)
Definition after (o : op) (s : state) : state := fst (step env o s).
Definition answer (o : op) (s : state) : res val := snd (step env o s).
Definition succeeds (o : op) (s : state) : Prop := exists x, answer o s = Ok x.

(** [ParameterSet.info(n, r)] finds the parameter object [q]. *)
Definition reports (s : state) (n r : hname) (q : param) : Prop :=
  exists p, answer (OInfo n r) s = Ok (VInfo (Some p)) /\ nth_error (st_params s) p = Some q.
(** [info] reports a parameter with a type. *)
Definition typed (s : state) (n r : hname) : Prop :=
  exists q, reports s n r q /\ p_type q <> None.

(** Component-wise equal names; a string stands for its "|"-separated components. *)
Definition same_name (a b : hname) : Prop := hcomponents a = hcomponents b.

(** The request [o] asks for a view of type [t] of the parameter [n] in region [r], with
    unit [u] and time points [tp]; its enum arguments are valid. *)
Definition requests (o : op) (n r : hname) (t : ptype) (u : option string)
    (tp : option timepoints) : Prop :=
  match o with
  | OScalar n' u' r' => n' = n /\ r' = r /\ t = SCALAR /\ u = Some u' /\ tp = None
  | OTimeseries n' u' tp' r' ty ip ex =>
    n' = n /\ r' = r /\ from_timeseries_type ty = Ok t /\ u = Some u' /\ tp = Some tp' /\
    (exists i, from_interpolation_type ip = Ok i) /\
    (exists x, from_extrapolation_type ex = Ok x)
  | OGeneric n' r' => n' = n /\ r' = r /\ t = GENERIC /\ u = None /\ tp = None
  | _ => False
  end.

(** The request [o] names parameter [n] in region [r]. *)
Definition asks (o : op) (n r : hname) : Prop :=
  match o with
  | OScalar n' _ r' | OTimeseries n' _ _ r' _ _ _ | OGeneric n' r' => n' = n /\ r' = r
  | _ => False
  end.

(** [view.name] and [view.region] (inherited from [ParameterInfo]). *)
Definition view_name (s : state) (vi : nat) : option (list string) :=
  match nth_error (st_views s) vi with None => None | Some v => info_name s (v_param v) end.
Definition view_region (s : state) (vi : nat) : option (list string) :=
  match nth_error (st_views s) vi with None => None | Some v => info_region s (v_param v) end.

(** View [vi] is a view, held by the user, of the parameter object in cell [p]. *)
Definition views (s : state) (vi p : nat) : Prop :=
  exists v, nth_error (st_views s) vi = Some v /\ v_public v = true /\ v_param v = p.
Definition scalar_view (s : state) (vi p : nat) (u : string) : Prop :=
  exists v, nth_error (st_views s) vi = Some v /\ v_public v = true /\ v_param v = p /\
            v_kind v = KScalar /\ v_unit v = u.
Definition generic_view (s : state) (vi p : nat) : Prop :=
  exists v, nth_error (st_views s) vi = Some v /\ v_public v = true /\ v_param v = p /\
            v_kind v = KGeneric.
Definition ts_view (s : state) (vi p : nat) : Prop :=
  exists v, nth_error (st_views s) vi = Some v /\ v_public v = true /\ v_param v = p /\
            v_kind v = KTimeseries.

(** The view an operation works on, for operations that can change data. *)
Definition write_target (o : op) : option nat :=
  match o with
  | OSetValue v _ | OSetGeneric v _ | OSetValues v _ | OSetItem v _ _
  | OHandleSet v _ _ | OHandleIAdd v _ | OUnlock v => Some v
  | _ => None
  end.
(** [o] is a write operation on a view of parameter cell [p]. *)
Definition writes_to (s : state) (o : op) (p : nat) : Prop :=
  exists vi, write_target o = Some vi /\ views s vi p.

(** The view an operation works on, reading or writing. *)
Definition works_on (o : op) : option nat :=
  match o with
  | OGetValue v | OSetValue v _ | OGetGeneric v | OSetGeneric v _ | OGetValues v | OSetValues v _
  | OSetItem v _ _ | OHandleGet v _ | OHandleArray v | OHandleSet v _ _ | OHandleIAdd v _
  | OLock v | OUnlock v => Some v
  | _ => None
  end.

(** Along the history [h] from [s] nothing is written to [p]. *)
Fixpoint no_writes (s : state) (h : list op) (p : nat) : Prop :=
  match h with
  | [] => True
  | o :: h' => ~ writes_to s o p /\ no_writes (after o s) h' p
  end.

(** The call is neither [lock] nor [unlock] nor the assignment of an integer array, and
    not a write failing for lack of data. *)
Definition tidy_call (s : state) (o : op) : Prop :=
  match o with
  | OLock _ | OUnlock _ => False
  | OSetValues _ a => a_int a = false /\ answer o s <> Err EInsufficientData
  | OSetItem _ _ _ | OHandleSet _ _ _ | OHandleIAdd _ _ => answer o s <> Err EInsufficientData
  | _ => True
  end.
(** All calls of the history on views of [p] are such. *)
Definition tidy (s : state) (o : op) (p : nat) : Prop :=
  forall vi, works_on o = Some vi -> views s vi p -> tidy_call s o.
Fixpoint tidy_run (s : state) (h : list op) (p : nat) : Prop :=
  match h with
  | [] => True
  | o :: h' => tidy s o p /\ tidy_run (after o s) h' p
  end.

(** What the data [d] of parameter [q] is in the unit and at the time points of view [v];
    and conversely what the values [d] of view [v] are for the parameter. *)
Definition shown_as (q : param) (v : view) (d : list num) (r : res (list num)) : Prop :=
  exists uc tp tc, unit_converter env (p_unit q) (Some (v_unit v)) = Ok uc /\ p_time q = Some tp /\
    timeseries_converter (tp_ticks tp) (tc_target (v_tconv v)) (tc_type (v_tconv v))
      (tc_extra (v_tconv v)) = Ok tc /\
    r = nconvert (tconvert_from tc) (map (option_map (uconvert_from uc)) d).
Definition kept_as (q : param) (v : view) (d : list num) (r : res (list num)) : Prop :=
  exists uc tp tc, unit_converter env (p_unit q) (Some (v_unit v)) = Ok uc /\ p_time q = Some tp /\
    timeseries_converter (tp_ticks tp) (tc_target (v_tconv v)) (tc_type (v_tconv v))
      (tc_extra (v_tconv v)) = Ok tc /\
    r = nconvert (tconvert_to tc) (map (option_map (uconvert_to uc)) d).

(** Does the call [o] made in [s] change the data of parameter cell [p]?  It must be a write
    operation on a view of [p] that does not raise; writes through a locked view are
    postponed until [unlock]. *)
Definition stores (s : state) (o : op) (p : nat) : bool :=
  match write_target o with
  | None => false
  | Some vi =>
    match nth_error (st_views s) vi with
    | None => false
    | Some v =>
      v_public v && Nat.eqb (v_param v) p &&
      match answer o s with
      | Err _ => false
      | Ok _ => match o with
                | OSetValue _ _ | OSetGeneric _ _ | OUnlock _ => true
                | _ => negb (v_locked v)
                end
      end
    end
  end.
(** Number of data-changing calls on [p] in the history [h] from [s]. *)
Fixpoint count_stores (s : state) (h : list op) (p : nat) : nat :=
  match h with
  | [] => 0
  | o :: h' => (if stores s o p then 1 else 0) + count_stores (after o s) h' p
  end.

(** The parameter tree: [c] is a direct sub-parameter of [p]; [i] is [p] or below it;
    [i] is a leaf of [p]. *)
Definition child_of (s : state) (p c : nat) : Prop :=
  exists q n, nth_error (st_params s) p = Some q /\ In (n, c) (p_children q).
Inductive below (s : state) (p : nat) : nat -> Prop :=
| below_self : below s p p
| below_child i c : below s p i -> child_of s i c -> below s p c.
Definition leaf_of (s : state) (p i : nat) : Prop :=
  below s p i /\ exists q, nth_error (st_params s) i = Some q /\ p_children q = [].

(** [x] in unit [u] and [y] in unit [w] are the same physical quantity. *)
Definition same_quantity (u : string) (x : R) (w : string) (y : R) : Prop :=
  exists a b, env u = Some a /\ env w = Some b /\
    (x * u_scale a + u_offset a = y * u_scale b + u_offset b)%R.
Definition same_num (u : string) (x : num) (w : string) (y : num) : Prop :=
  match x, y with
  | Some a, Some b => same_quantity u a w b
  | None, None => True
  | _, _ => False
  end.

(** Parameter cell [i] has been written and holds the number [x], in unit [w]. *)
Definition holds (s : state) (i : nat) (w : string) (x : num) : Prop :=
  exists q, nth_error (st_params s) i = Some q /\ p_written q = true /\ p_unit q = Some w /\
            p_data q = Some (PScalar x).
(** Sum of numbers; NaN if one of them is. *)
Definition total (l : list num) : num :=
  fold_right (fun a b : num => match a, b with Some x, Some y => Some (x + y)%R | _, _ => None end)
    (Some 0%R) l.

(** A unit registry whose units have non-zero size. *)
Definition good_env : Prop := forall u a, env u = Some a -> u_scale a <> 0%R.

End Spec.
