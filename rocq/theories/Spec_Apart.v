(** Vocabulary of C81: several users of one parameter set. *)
From Coq Require Import String List Arith Bool.
From Verif Require Import Base Units Core Spec_Core.
Import ListNotations.

Section Spec.
Variable env : uenv.

(** A schedule: the calls of all users in the order in which they are made, each with the number of
    its user. *)
Definition schedule := list (nat * op).

(** The calls of user [u], in their order. *)
Definition calls (u : nat) (h : schedule) : list op :=
  map snd (filter (fun c => fst c =? u) h).

(** What the calls return or raise, in their order, and the state after them. *)
Fixpoint answers (h : list op) (s : state) : list (res val) :=
  match h with
  | [] => []
  | o :: h' => answer env o s :: answers h' (after env o s)
  end.
Definition after_all (h : list op) (s : state) : state := fold_left (fun s o => after env o s) h s.

(** What user [u] gets when the calls are made in the order of the schedule. *)
Fixpoint answers_to (u : nat) (h : schedule) (s : state) : list (res val) :=
  match h with
  | [] => []
  | (w, o) :: h' => (if w =? u then [answer env o s] else []) ++ answers_to u h' (after env o s)
  end.

(** Two views are of unrelated parameters: in different regions, or neither name begins with the
    other. *)
Definition unrelated (s : state) (v w : nat) : Prop :=
  ~ (view_region s v = view_region s w /\
     exists n rest, (view_name s v = Some n /\ view_name s w = Some (n ++ rest)) \/
                    (view_name s w = Some n /\ view_name s v = Some (n ++ rest))).

(** All calls are made through views that exist already, and views of different users are
    unrelated. *)
Record apart (s : state) (h : schedule) : Prop := {
  ap_views : forall u o, In (u, o) h -> exists v, works_on o = Some v /\ v < length (st_views s);
  ap_unrelated : forall u u' o o' v v', In (u, o) h -> In (u', o') h -> u <> u' ->
    works_on o = Some v -> works_on o' = Some v' -> unrelated s v v' }.
End Spec.

(** Vocabulary of C82: a user who only looks. *)
Definition looks_through (o : op) (v : nat) : Prop :=
  o = OGetValue v \/ o = OGetGeneric v \/ o = OGetValues v \/ (exists i, o = OHandleGet v i) \/ o = OHandleArray v.

(** User [u] only looks, and through views that nobody else uses. *)
Definition observer (u : nat) (h : schedule) : Prop :=
  forall o, In (u, o) h -> exists v, looks_through o v /\
    forall u' o', In (u', o') h -> u' <> u -> works_on o' <> Some v.

(** The schedule without the calls of user [u]. *)
Definition without (u : nat) (h : schedule) : schedule := filter (fun c => negb (fst c =? u)) h.
