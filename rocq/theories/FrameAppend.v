(** Model of openscm/scmdataframe/base.py: [timeseries] (543-574) and [df_append] (1437-1567).

    Simplifications: the set of metadata columns has no order, the model uses the one of the result;
    the timeseries of the result are in the order of their first occurrence (pandas sorts them);
    frames without timeseries or times and repeated times in one frame are not modelled
    ([EInvalid]).  Warnings are not modelled. *)
From Coq Require Import String Ascii List ZArith QArith Qcanon Reals Bool.
From Verif Require Import Base Core Filters Frame.
Import ListNotations.
Local Open Scope string_scope.
Local Open Scope list_scope.

(** [timeseries] (543-574): the rows, metadata and values by position. *)
Definition wide (f : frame) : res (list (list mval * list num)) :=
  if meta_dup f then Err EValueError
  else Ok (map (fun p => (snd (snd p), snd (fst p))) (combine (fr_data f) (fr_meta f))).

(** [na_fill_value] (1495) *)
Definition fill : mval := MNum (Q2Qc (inject_Z (-999))).
(** [.replace(to_replace=np.nan, value=na_fill_value)] (1508-1510) *)
Definition filled (v : mval) : mval := match v with MNaN | MNone => fill | _ => v end.
(** [.replace(to_replace=na_fill_value, value=np.nan)] (1534) *)
Definition unfilled (v : mval) : mval := if mval_same v fill then MNaN else v.

(** The value of a row in a column of the joint frame (1496-1499, 1508-1510). *)
Definition joint_cell (cols : list string) (row : list mval) (c : string) : mval :=
  if mem c cols then filled (cell cols row c) else fill.

(** One row of the joint data: metadata, and values by time. (1503-1511) *)
Definition jrow := (list mval * list (Z * num))%type.
(** [joint_meta_set] (1488-1492), in the order of 1536 *)
Definition joint_cols (fs : list frame) : list string := sorted_cols (nodup string_dec (flat_map fr_cols fs)).
(** The rows of one frame (1496-1510); [set_meta] refuses an empty name (901-905) *)
Definition joint_rows (cols : list string) (f : frame) : res (list jrow) :=
  if existsb (fun c => String.eqb c "" && negb (mem c (fr_cols f))) cols then Err EValueError else
  rbind (wide f) (fun ts =>
  Ok (map (fun r => (map (joint_cell (fr_cols f) (fst r)) cols, combine (fr_times f) (snd r))) ts)).

(** Inserts into sorted times (1527) *)
Fixpoint insert_time (t : Z) (l : list Z) : list Z :=
  match l with [] => [t] | x :: l' => if Z.leb t x then t :: l else x :: insert_time t l' end.
(** [sort_index] (1527) *)
Fixpoint sort_times (l : list Z) : list Z := match l with [] => [] | t :: l' => insert_time t (sort_times l') end.
(** The times of all frames ([pd.concat], 1503-1505; sorted in 1527) *)
Definition joint_times (fs : list frame) : list Z := sort_times (nodup Z.eq_dec (flat_map fr_times fs)).

(** The value of a row at a time, NaN if it has none (1503-1505) *)
Fixpoint value_at (t : Z) (s : list (Z * num)) : num :=
  match s with [] => None | (t', v) :: s' => if Z.eqb t t' then v else value_at t s' end.

(** [mean] leaves out NaN; without values it is NaN. (1517, 1547) *)
Fixpoint present (l : list num) : list R := match l with [] => [] | Some x :: l' => x :: present l' | None :: l' => present l' end.
(** The sum of the values (1517) *)
Definition total (l : list R) : R := fold_right Rplus 0%R l.
(** [mean] (1517) *)
Definition mean_num (l : list num) : num :=
  match present l with [] => None | xs => Some (total xs / INR (length xs))%R end.

(** [data.groupby(data.index.names)] (1517, 1547) *)
Fixpoint distinct_keys (rows : list (list mval)) : list (list mval) :=
  match rows with [] => [] | k :: rows' => k :: filter (fun k' => negb (row_same k k')) (distinct_keys rows') end.
(** The rows of a group (1517, 1547) *)
Definition group (rows : list jrow) (k : list mval) : list jrow := filter (fun r => row_same k (fst r)) rows.

(** [_handle_potential_duplicates_in_append] (1544-1567) *)
Definition contributions (times : list Z) (rows : list jrow) : bool :=
  existsb (fun k => existsb (fun t => Nat.ltb 1 (length (present (map (fun r => value_at t (snd r)) (group rows k))))) times)
          (distinct_keys (map fst rows)).

(** The argument [duplicate_msg] (1437-1482) *)
Inductive dupmsg := DWarn | DReturn | DFalse | DOther.
(** A frame, or the table to look at (1512-1515, 1538-1541) *)
Inductive appended := Joined (f : frame) | Inspect (rows : list jrow).

(** Repeated times, which the model leaves out (1503-1505) *)
Definition has_time_dup (l : list Z) : bool := negb (Nat.eqb (length (nodup Z.eq_dec l)) (length l)).
(** What the model covers (1484-1511) *)
Definition appendable (f : frame) : bool :=
  negb (has_time_dup (fr_times f)) && negb (Nat.eqb (length (fr_times f)) 0) && negb (Nat.eqb (length (fr_meta f)) 0).

(** [df_append] (1437-1541) *)
Definition df_append (msg : dupmsg) (fs : list frame) : res appended :=
  match fs with
  | [] => Err EValueError
  | _ =>
  if forallb appendable fs then
    let cols := joint_cols fs in
    let times := joint_times fs in
    rbind (rmap (joint_rows cols) fs) (fun rows =>
    let rows := concat rows in
    let joined :=
      let keys := distinct_keys (map fst rows) in
      let labels := map Z.of_nat (seq 0 (length keys)) in
      Joined (mkFrame times
        (combine labels (map (fun k => map (fun t => mean_num (map (fun r => value_at t (snd r)) (group rows k))) times) keys))
        cols
        (combine labels (map (map unfilled) keys))) in
    let dup := has_dup (map fst rows) && contributions times rows in
    match msg with
    | DFalse => Ok joined
    | DWarn => Ok joined
    | DReturn => Ok (if dup then Inspect rows else joined)
    | DOther => if dup then Err EValueError else Ok joined
    end)
  else Err EInvalid
  end.
(** [append] (1318-1359) *)
Definition fr_append (msg : dupmsg) (f other : frame) : res appended := df_append msg [f; other].
