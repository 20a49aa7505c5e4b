(** What C61 speaks about: which arrays belong to the caller alone. *)
From Coq Require Import String List ZArith Bool Arith.
From Verif Require Import Base Units TimeModel Core Memory.
Import ListNotations.
Local Open Scope list_scope.

(** What a history of calls answers, from memory [m]. *)
Fixpoint answers (leaves : nat -> list nat) (units : nat -> string -> res uconv) (m : mem) (h : list mop)
  : list (mop * res mval) :=
  match h with
  | [] => []
  | o :: h' => (o, snd (mstep leaves units o m)) :: answers leaves units (fst (mstep leaves units o m)) h'
  end.

(** The caller made the array [r] in the history [h], itself or as the result of a computation with
    [view.values]. *)
Definition made_by_caller leaves units (n : nat) (h : list mop) (r : nat) : Prop :=
  exists h1 o h2,
    h = h1 ++ o :: h2 /\
    ((exists c, o = MNew c) \/ (exists v f, o = MCompute v f)) /\
    snd (mstep leaves units o (mrun leaves units (mstart n) h1)) = Ok (MRef r).
(** It was never assigned to a generic parameter. *)
Definition never_generic (h : list mop) (r : nat) : Prop := forall v, ~ In (MSetGeneric v r) h.

(** A call uses the array [r], other than to write to one of its elements. *)
Definition takes (o : mop) (r : nat) : Prop :=
  match o with
  | MLook r' | MTimeseries _ _ r' _ _ | MSetValues _ r' | MSetGeneric _ r' => r = r'
  | _ => False
  end.
(** The array the caller writes to directly. *)
Definition writes_to (o : mop) : option nat :=
  match o with MWrite r _ _ | MWriteTime r _ _ => Some r | _ => None end.
(** The caller writes to one of the arrays [D] directly. *)
Definition writes_one_of (D : list nat) (o : mop) : bool :=
  match writes_to o with Some r => existsb (Nat.eqb r) D | None => false end.

(** The values and the times a timeseries parameter has. *)
Definition param_values (m : mem) (p : nat) : option cell :=
  match nth_error (m_params m) p with
  | Some q => match mp_data q with Some r => nth_error (m_heap m) r | None => None end
  | None => None
  end.
Definition param_times (m : mem) (p : nat) : option cell :=
  match nth_error (m_params m) p with
  | Some q => match mp_time q with Some r => nth_error (m_heap m) r | None => None end
  | None => None
  end.
Definition param_type (m : mem) (p : nat) : option ptype :=
  match nth_error (m_params m) p with Some q => mp_type q | None => None end.
