(** What C72 compares with: the same programs, with arrays as values.  The program keeps its own list of
    arrays and nobody else ever sees these; the calls of timeseries are those of [Core.v], which get and
    return lists of numbers. *)
From Coq Require Import String List ZArith Reals Bool Arith.
From Verif Require Import Base Units TimeModel Core Memory MemoryStore.
Import ListNotations.
Local Open Scope list_scope.

Record vstate := mkV { vs_store : state; vs_arrays : list cell }.
Definition vstart (root : string) : vstate := mkV (init_state root) [].

Section Values.
Variable env : uenv.

Definition result_of (r : val) : answer :=
  match r with VView v => AView v | VInfo p => AInfo p | VArr l => AValues l | _ => AUnit end.
(** A call of the store; the arrays of the program do not change. *)
Definition store_call (o : op) (w : vstate) : vstate * res answer :=
  match step env o (vs_store w) with
  | (s, Ok a) => (mkV s (vs_arrays w), Ok (result_of a))
  | (s, Err e) => (mkV s (vs_arrays w), Err e)
  end.

Definition vstep (o : call) (w : vstate) : vstate * res answer :=
  match o with
  | CNew c => (mkV (vs_store w) (vs_arrays w ++ [c]), Ok AUnit)
  | CWrite k i x =>
    match nth_error (vs_arrays w) k with
    | Some (Nums a) =>
      match pyindex (length (a_val a)) i with
      | None => (w, Err EIndexError)
      | Some j =>
        match cast_item (a_int a) x with
        | Err e => (w, Err e)
        | Ok y => (mkV (vs_store w) (upd (vs_arrays w) k (Nums (mkArr (a_int a) (upd (a_val a) j y)))), Ok AUnit)
        end
      end
    | _ => (w, Err EInvalid)
    end
  | CWriteTime k i z =>
    match nth_error (vs_arrays w) k with
    | Some (Times l) =>
      match pyindex (length l) i with
      | None => (w, Err EIndexError)
      | Some j => (mkV (vs_store w) (upd (vs_arrays w) k (Times (upd l j z))), Ok AUnit)
      end
    | _ => (w, Err EInvalid)
    end
  | CLook k => (w, match nth_error (vs_arrays w) k with Some c => Ok (ACell c) | None => Err EInvalid end)
  | CTimeseries name unit k region ty ip ex =>
    match nth_error (vs_arrays w) k with
    | Some (Times l) => store_call (OTimeseries name unit (mkTP 1 l) region ty ip ex) w
    | _ => (w, Err EInvalid)
    end
  | CInfo name region => store_call (OInfo name region) w
  | CGet v => store_call (OGetValues v) w
  | CSet v k =>
    match nth_error (vs_arrays w) k with
    | Some (Nums a) => store_call (OSetValues v a) w
    | _ => (w, Err EInvalid)
    end
  | CSetItem v i x => store_call (OSetItem v i x) w
  (* [view.values += x]: get [view.values], add to it in place, assign its content *)
  | CIAdd v x =>
    match store_call (OGetValues v) w with
    | (w1, Err e) => (w1, Err e)
    | (w1, Ok _) =>
      match store_call (OHandleIAdd v x) w1 with
      | (w2, Err e) => (w2, Err e)
      | (w2, Ok _) =>
        match store_call (OHandleArray v) w2 with
        | (w3, Ok (AValues l)) => store_call (OSetValues v (mkArr false l)) w3
        | (w3, r) => (w3, r)
        end
      end
    end
  | CLock v => store_call (OLock v) w
  | CUnlock v => store_call (OUnlock v) w
  | CCompute v f =>
    match store_call (OGetValues v) w with
    | (w1, Ok (AValues l)) => (mkV (vs_store w1) (vs_arrays w1 ++ [Nums (mkArr false (f l))]), Ok AUnit)
    | (w1, r) => (w1, r)
    end
  end.
End Values.

(** What a program gets, call by call. *)
Fixpoint results {S} (step : call -> S -> S * res answer) (s : S) (h : list call) : list (res answer) :=
  match h with
  | [] => []
  | o :: h' => snd (step o s) :: results step (fst (step o s)) h'
  end.
