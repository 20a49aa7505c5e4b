(** Model of the objects that [TimeseriesView.values] returns ([_Timeseries], core/views.py 21-141) as
    far as indices other than single integers are concerned: slices, lists of positions and masks.
    Operations with one integer index, or on the whole array, are those of [Core]. *)
From Coq Require Import String List Arith ZArith Bool Reals.
From Verif Require Import Base Units TimeModel Core.
Import ListNotations.

(** What can stand in the brackets of [handle[...]] besides an integer: [a:b:c], a list (or array) of
    integers, a list (or array) of booleans. (views.py 98-107) *)
Inductive selection :=
| SSlice (a b c : option Z)
| SList (l : list Z)
| SMask (m : list bool).

(** A bound of a slice moved into the range [lo] .. [hi], negative ones counted from the end
    (CPython's [PySlice_AdjustIndices]; views.py 100, 106) *)
Definition adjust (n lo hi : Z) (x : Z) : Z :=
  let y := if (x <? 0)%Z then (x + n)%Z else x in Z.max lo (Z.min hi y).

(** Start, first excluded position and step of a slice of an array of length [n]
    (CPython's [PySlice_Unpack] and [PySlice_AdjustIndices]; views.py 100, 106) *)
Definition slice_bounds (n : nat) (a b c : option Z) : res (Z * Z * Z) :=
  let step := match c with Some c => c | None => 1%Z end in
  let n := Z.of_nat n in
  if (step =? 0)%Z then Err EValueError
  else if (0 <? step)%Z then
    Ok (match a with Some a => adjust n 0 n a | None => 0%Z end,
        match b with Some b => adjust n 0 n b | None => n end, step)
  else
    Ok (match a with Some a => adjust n (-1) (n - 1) a | None => (n - 1)%Z end,
        match b with Some b => adjust n (-1) (n - 1) b | None => (-1)%Z end, step).

(** How many positions a slice has (CPython's [PySlice_AdjustIndices]; views.py 100, 106) *)
Definition slice_length (start stop step : Z) : nat :=
  Z.to_nat (if (0 <? step)%Z
            then if (start <? stop)%Z then ((stop - start - 1) / step + 1)%Z else 0%Z
            else if (stop <? start)%Z then ((start - stop - 1) / (- step) + 1)%Z else 0%Z).

(** The positions of an array of length [n] that are selected, in order.  A position outside the array
    and a mask of another length raise an IndexError. (views.py 100, 106) *)
Definition positions (n : nat) (x : selection) : res (list nat) :=
  match x with
  | SSlice a b c =>
    match slice_bounds n a b c with
    | Err e => Err e
    | Ok (start, stop, step) =>
      Ok (map (fun i => Z.to_nat (start + Z.of_nat i * step)) (seq 0 (slice_length start stop step)))
    end
  | SList l => rmap (fun i => match pyindex n i with Some j => Ok j | None => Err EIndexError end) l
  | SMask m => if (length m =? n)%nat
               then Ok (map fst (filter snd (combine (seq 0 n) m)))
               else Err EIndexError
  end.

(** A [_Timeseries] (views.py 87-88): its view, and its [_ndarray].  numpy gives a slice of an array the
    memory of the array, so such an object consists of positions of the array [_data] of the view;
    that array object is never replaced (views.py 346-351, 417-421).  A selection by a list or a mask is
    an array of its own, of which we keep the kind of numbers and the content. *)
Inductive handle :=
| HShared (v : nat) (ps : list nat)
| HCopy (v : nat) (isint : bool) (xs : list num).

(** [_parameter_view] (views.py 88) *)
Definition h_view (h : handle) : nat := match h with HShared v _ => v | HCopy v _ _ => v end.

(** The elements of [d] at [ps]; all positions are in the array (views.py 100) *)
Definition pick (d : list num) (ps : list nat) : res (list num) :=
  rmap (fun j => match nth_error d j with Some x => Ok x | None => Err EInvalid end) ps.

(** The array [_data] of view [vi]; a handle exists only if it does (views.py 404-407) *)
Definition cache (s : state) (vi : nat) : res arr :=
  match nth_error (st_views s) vi with
  | None => Err EInvalid
  | Some v => match v_data v with None => Err EInvalid | Some d => Ok d end
  end.

(** [np.asarray(handle)] ([__array__], views.py 117-118): the content of [_ndarray], nothing is read *)
Definition h_array (s : state) (h : handle) : res (list num) :=
  match h with
  | HShared v ps => match cache s v with Err e => Err e | Ok d => pick (a_val d) ps end
  | HCopy _ _ xs => Ok xs
  end.

(** Whether [_ndarray] has integers ([dtype], views.py 123-128) *)
Definition h_int (s : state) (h : handle) : bool :=
  match h with
  | HShared v _ => match cache s v with Ok d => a_int d | Err _ => false end
  | HCopy _ b _ => b
  end.

(** [__read__] (views.py 90-92); the view of a handle has an array *)
Definition h_read (s : state) (h : handle) : state * res Datatypes.unit :=
  match cache s (h_view h) with
  | Err e => (s, Err e)
  | Ok _ => match ts_get s (h_view h) with
            | (s1, Ok _) => (s1, Ok tt)
            | (s1, Err e) => (s1, Err e)
            end
  end.

(** [view.values] (views.py 387-407) *)
Definition values (s : state) (vi : nat) : state * res handle :=
  match ts_get s vi with
  | (s1, Ok xs) => (s1, Ok (HShared vi (seq 0 (length xs))))
  | (s1, Err e) => (s1, Err e)
  end.

(** [list(handle)] ([__iter__], views.py 109-112) *)
Definition h_list (s : state) (h : handle) : state * res (list num) :=
  match h_read s h with
  | (s1, Err e) => (s1, Err e)
  | (s1, Ok _) => (s1, h_array s1 h)
  end.

(** [handle[i]] with an integer (views.py 98-103) *)
Definition h_item (s : state) (h : handle) (i : Z) : state * res num :=
  match h_list s h with
  | (s1, Err e) => (s1, Err e)
  | (s1, Ok xs) =>
    (s1, match pyindex (length xs) i with
         | None => Err EIndexError
         | Some j => match nth_error xs j with Some x => Ok x | None => Err EIndexError end
         end)
  end.

(** [handle[selection]] (views.py 98-103): a slice of a handle has the memory of the handle, other
    selections are copied.  Simplification: a slice of a copy, which has the memory of the copy, is
    copied too. *)
Definition h_select (s : state) (h : handle) (x : selection) : state * res handle :=
  match h_list s h with
  | (s1, Err e) => (s1, Err e)
  | (s1, Ok xs) =>
    (s1, match positions (length xs) x with
         | Err e => Err e
         | Ok ps =>
           match x, h with
           | SSlice _ _ _, HShared v qs => Ok (HShared v (map (fun j => nth j qs 0) ps))
           | _, _ => match pick xs ps with
                     | Ok ys => Ok (HCopy (h_view h) (h_int s1 h) ys)
                     | Err e => Err e
                     end
           end
         end)
  end.

(** What is assigned: one number or an array (views.py 105) *)
Inductive rhs := One (x : num) | Many (xs : list num).

(** The [n] numbers that numpy stores into an array of integers or floats (views.py 106): one number
    for all positions, an array of one element too.  Arrays with NaN assigned to integers are not
    modelled (numpy stores some integer). *)
Definition to_store (isint : bool) (n : nat) (y : rhs) : res (list num) :=
  match y with
  | One x => match cast_item isint x with Ok z => Ok (repeat z n) | Err e => Err e end
  | Many xs =>
    let zs := rmap (fun x => match cast_item isint x with Ok z => Ok z | Err _ => Err EInvalid end) xs in
    match zs with
    | Err e => Err e
    | Ok [z] => Ok (repeat z n)
    | Ok zs => if (length zs =? n)%nat then Ok zs else Err EValueError
    end
  end.

(** Stores numbers at positions, one after the other (views.py 106) *)
Fixpoint put_all (d : list num) (ps : list nat) (zs : list num) : list num :=
  match ps, zs with
  | j :: ps', z :: zs' => put_all (upd d j z) ps' zs'
  | _, _ => d
  end.

(** [handle[...] = y] at the positions [sel] of the handle, given its length (views.py 105-107).  The
    handle is returned with its new content. *)
Definition h_put (s : state) (h : handle) (sel : nat -> res (list nat)) (y : rhs)
    : state * handle * res Datatypes.unit :=
  match h with
  | HShared v ps =>
    match sel (length ps) with
    | Err e => (s, h, Err e)
    | Ok js =>
      match nth_error (st_views s) v with
      | None => (s, h, Err EInvalid)
      | Some w =>
        match v_data w with
        | None => (s, h, Err EInvalid)
        | Some d =>
          match to_store (a_int d) (length js) y with
          | Err e => (s, h, Err e)
          | Ok zs =>
            let d' := mkArr (a_int d) (put_all (a_val d) (map (fun j => nth j ps 0) js) zs) in
            let (s1, r) := ts_write (set_view s v (v_set_data w d')) v in (s1, h, r)
          end
        end
      end
    end
  | HCopy v b xs =>
    match sel (length xs) with
    | Err e => (s, h, Err e)
    | Ok js =>
      match to_store b (length js) y with
      | Err e => (s, h, Err e)
      | Ok zs => let (s1, r) := ts_write s v in (s1, HCopy v b (put_all xs js zs), r)
      end
    end
  end.

(** [handle[selection] = y] (views.py 105-107) *)
Definition h_assign (s : state) (h : handle) (x : selection) (y : rhs)
    : state * handle * res Datatypes.unit := h_put s h (fun n => positions n x) y.

(** [handle[i] = x] (views.py 105-107) *)
Definition h_set (s : state) (h : handle) (i : Z) (x : num) : state * handle * res Datatypes.unit :=
  h_put s h (fun n => match pyindex n i with Some j => Ok [j] | None => Err EIndexError end) (One x).

(** [handle += x] (views.py 30-48): reads, adds within [_ndarray], writes; adding a float to integers
    raises a TypeError. *)
Definition h_iadd (s : state) (h : handle) (x : R) : state * handle * res Datatypes.unit :=
  match h_list s h with
  | (s1, Err e) => (s1, h, Err e)
  | (s1, Ok xs) =>
    if h_int s1 h then (s1, h, Err ETypeError)
    else h_put s1 h (fun n => Ok (seq 0 n)) (Many (map (fun y => nadd y (Some x)) xs))
  end.
