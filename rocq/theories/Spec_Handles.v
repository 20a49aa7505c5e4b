(** Vocabulary of C86-C89: parts of [view.values]. *)
From Coq Require Import String List Arith ZArith Bool Reals Sorted.
From Verif Require Import Base Units Core Spec_Core Spec_Apart Handles.
Import ListNotations.

(** Python's indices: negative ones count from the end. *)
Definition from_end (n : nat) (i : Z) : Z := if (i <? 0)%Z then (i + Z.of_nat n)%Z else i.
Definition index (n : nat) (i : Z) (j : nat) : Prop := Z.of_nat j = from_end n i /\ j < n.

(** The step of the slice [a:b:c]. *)
Definition slice_step (c : option Z) : Z := match c with Some c => c | None => 1%Z end.

(** [js] are the positions of an array of length [n] that the slice [a:b:c] stands for.  Upwards: from
    [a], by default from the beginning, to before [b], by default to the end, each [c]-th.  Downwards:
    from [a], by default from the last, to after [b], by default to the first. *)
Definition first_up (n : nat) (a : option Z) : Z := match a with Some a => Z.max 0 (from_end n a) | None => 0%Z end.
Definition stop_up (n : nat) (b : option Z) : Z := match b with Some b => from_end n b | None => Z.of_nat n end.
Definition first_down (n : nat) (a : option Z) : Z :=
  match a with Some a => Z.min (Z.of_nat n - 1) (from_end n a) | None => (Z.of_nat n - 1)%Z end.
Definition stop_down (n : nat) (b : option Z) : Z := match b with Some b => from_end n b | None => (-1)%Z end.

Definition sliced (n : nat) (a b c : option Z) (js : list nat) : Prop :=
  let step := slice_step c in
  ((0 < step)%Z /\ StronglySorted lt js /\
   forall j, In j js <-> j < n /\ (first_up n a <= Z.of_nat j < stop_up n b)%Z /\
                         (step | Z.of_nat j - first_up n a)%Z) \/
  ((step < 0)%Z /\ StronglySorted gt js /\
   forall j, In j js <-> j < n /\ (stop_down n b < Z.of_nat j <= first_down n a)%Z /\
                         (step | first_down n a - Z.of_nat j)%Z).

(** The positions that a selection stands for. *)
Definition selected (n : nat) (x : selection) (js : list nat) : Prop :=
  match x with
  | SSlice a b c => sliced n a b c js
  | SList l => Forall2 (index n) l js
  | SMask m => length m = n /\ StronglySorted lt js /\ forall j, In j js <-> nth_error m j = Some true
  end.

(** What is stored at [n] positions: one number everywhere, or an array of that length. *)
Definition stored_at (n : nat) (y : rhs) (zs : list num) : Prop :=
  match y with
  | One x => zs = repeat x n
  | Many [x] => zs = repeat x n
  | Many xs => zs = xs /\ length xs = n
  end.

(** The outcome of a call on a handle in the form of the outcomes of calls on views. *)
Definition outcome {A} (f : A -> val) (r : res A) : res val := match r with Ok a => Ok (f a) | Err e => Err e end.

(** What users can do with a handle. *)
Inductive hop :=
| HList | HItem (i : Z) | HSelect (x : selection) | HAssign (x : selection) (y : rhs)
| HSet (i : Z) (x : num) | HIAdd (x : R).
(** The state and the handle afterwards. *)
Definition after_h (o : hop) (s : state) (h : handle) : state * handle :=
  match o with
  | HList => (fst (h_list s h), h)
  | HItem i => (fst (h_item s h i), h)
  | HSelect x => (fst (h_select s h x), h)
  | HAssign x y => fst (h_assign s h x y)
  | HSet i x => fst (h_set s h i x)
  | HIAdd x => fst (h_iadd s h x)
  end.

Section Spec.
Variable env : uenv.

(** [held s h v w]: in state [s] a user has the handle [h], which belongs to view [v].  If it is
    [view.values] or was obtained from it by slices, [w] gives the positions of [view.values] it stands
    for; if a selection by a list or a mask was among the steps, [w] is [None].  Between the steps users
    can do whatever they want. *)
Inductive held : state -> handle -> nat -> option (list nat) -> Prop :=
| held_values s v s1 h xs : reachable env s -> answer env (OGetValues v) s = Ok (VArr xs) ->
    values s v = (s1, Ok h) -> held s1 h v (Some (seq 0 (length xs)))
| held_more s h2 v2 w2 v s1 h xs : held s h2 v2 w2 -> answer env (OGetValues v) s = Ok (VArr xs) ->
    values s v = (s1, Ok h) -> held s1 h v (Some (seq 0 (length xs)))
| held_slice s h v ps a b c s1 h' js : held s h v (Some ps) -> h_select s h (SSlice a b c) = (s1, Ok h') ->
    sliced (length ps) a b c js -> held s1 h' v (Some (map (fun j => nth j ps 0) js))
| held_copy s h v w x s1 h' : held s h v w -> h_select s h x = (s1, Ok h') ->
    (w = None \/ forall a b c, x <> SSlice a b c) -> held s1 h' v None
| held_call s h v w o : held s h v w -> held (after env o s) h v w
| held_other s h v w h2 v2 w2 o : held s h v w -> held s h2 v2 w2 -> held (fst (after_h o s h2)) h v w
| held_self s h v w o : held s h v w -> held (fst (after_h o s h)) (snd (after_h o s h)) v w.

(** The assignments [handle[p] = z] to single positions of [view.values], one after the other. *)
Definition one_by_one (v : nat) (ps : list nat) (zs : list num) : list op :=
  map (fun c => OHandleSet v (Z.of_nat (fst c)) (snd c)) (combine ps zs).

(** No sequence of calls tells the two states apart. *)
Definition indistinguishable (s s' : state) : Prop := forall h, answers env h s = answers env h s'.
End Spec.
