(** Vocabulary of C93: several users of one parameter set who also make requests. *)
From Coq Require Import String List Arith Bool.
From Verif Require Import Base Units TimeModel Core Spec_Core Spec_Apart.
Import ListNotations.

(** A user does not see cells but objects: the views the user has obtained are counted 0, 1, 2, ... in the order in which the
    user obtained them, and the calls of a user name views by these numbers. *)
Record shared := mkShared { sh_state : state; sh_views : nat -> list nat }.
Definition fresh_set (root : string) : shared := mkShared (init_state root) (fun _ => []).

(** The call [o], but through view [v]. *)
Definition via (o : op) (v : nat) : op :=
  match o with
  | OGetValue _ => OGetValue v
  | OSetValue _ x => OSetValue v x
  | OGetGeneric _ => OGetGeneric v
  | OSetGeneric _ g => OSetGeneric v g
  | OGetValues _ => OGetValues v
  | OSetValues _ a => OSetValues v a
  | OSetItem _ i x => OSetItem v i x
  | OHandleGet _ i => OHandleGet v i
  | OHandleArray _ => OHandleArray v
  | OHandleSet _ i x => OHandleSet v i x
  | OHandleIAdd _ x => OHandleIAdd v x
  | OLock _ => OLock v
  | OUnlock _ => OUnlock v
  | _ => o
  end.

(** What a user sees: an exception, the user's next view, a number, an object, an array, nothing, or what a [ParameterInfo] shows (its
    name, region, type, unit and whether it is empty). *)
Inductive reply :=
| RRaised (e : err) | RView (k : nat) | RDone | RNumber (x : num) | RObject (g : gval) | RArray (l : list num) | RNothing
| RInfo (name region : option (list string)) (type : option ptype) (unit : option string) (empty : bool).
Definition tell (s : state) (k : nat) (x : res val) : reply :=
  match x with
  | Err e => RRaised e
  | Ok (VView _) => RView k
  | Ok VUnit => RDone
  | Ok (VNum x) => RNumber x
  | Ok (VGen g) => RObject g
  | Ok (VArr l) => RArray l
  | Ok (VInfo None) => RNothing
  | Ok (VInfo (Some p)) =>
    match nth_error (st_params s) p with
    | None => RNothing
    | Some q => RInfo (info_name s p) (info_region s p) (p_type q) (p_unit q) (param_empty q)
    end
  end.

Section Spec.
Variable env : uenv.
(** User [u] makes the call [o]. *)
Definition call (u : nat) (o : op) (w : shared) : shared * reply :=
  match match works_on o with None => Some o | Some k => option_map (via o) (nth_error (sh_views w u) k) end with
  | None => (w, RRaised EInvalid)
  | Some o' =>
    let s' := after env o' (sh_state w) in
    let x := answer env o' (sh_state w) in
    (mkShared s' (match x with
                  | Ok (VView i) => fun u' => if u' =? u then sh_views w u' ++ [i] else sh_views w u'
                  | _ => sh_views w
                  end),
     tell s' (length (sh_views w u)) x)
  end.

(** The replies to the calls of a schedule, with the users who get them. *)
Fixpoint replies (h : schedule) (w : shared) : list (nat * reply) :=
  match h with
  | [] => []
  | (u, o) :: h' => (u, snd (call u o w)) :: replies h' (fst (call u o w))
  end.
End Spec.

(** Those of user [u]; the calls of user [u]. *)
Definition of_user {A} (u : nat) (l : list (nat * A)) : list (nat * A) := filter (fun c => fst c =? u) l.

(** Names (lists of components) of which one is the other or lies below it. *)
Definition overlap (m m' : list string) : Prop := exists rest, m' = m ++ rest \/ m = m' ++ rest.

(** User [u] requests, or asks for information on, the parameter with the name [ps] in the region [rs] somewhere in [h]. *)
Definition uses (h : schedule) (u : nat) (rs ps : list string) : Prop :=
  exists o name region, In (u, o) h /\ (asks o name region \/ o = OInfo name region) /\
    hcomponents region = rs /\ hcomponents name = ps /\ ps <> [].

(** No two users use the same parameter, or parameters of one region of which one lies below the other; and nobody calls [info] without a name. *)
Record separate (h : schedule) : Prop := {
  se_users : forall u u' rs m m', u <> u' -> uses h u rs m -> uses h u' rs m' -> ~ overlap m m';
  se_info : forall u name region, In (u, OInfo name region) h -> hempty name = false }.
