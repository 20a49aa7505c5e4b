(** Model of openscm/scmdataframe/base.py: [process_over] (1169-1214) and
    [relative_to_ref_period_mean] (1274-1316).

    Both return wide-format [pd.DataFrame]s (timeseries in rows, metadata in the index).  They are
    modelled as frames without the required columns; the order of rows and of metadata columns is not
    modelled. *)
From Coq Require Import String Ascii List ZArith QArith Qcanon Reals Bool DecimalString.
From Verif Require Import Base Civil Core Filters Frame FrameAppend.
Import ListNotations.
Local Open Scope string_scope.
Local Open Scope list_scope.

(** A missing key (1205) *)
Definition is_missing (v : mval) : bool := match v with MNaN | MNone => true | _ => false end.

(** ** [process_over] *)
(** The argument [operation] (1169-1200, 1207-1214) *)
Inductive operation := Median | Mean | Quantile (q : R) | Other.

(** Statistics leave out NaN; of nothing they are NaN.  [median] and [quantile] sort; [quantile]
    interpolates linearly. (1207-1212) *)
Fixpoint insert_R (x : R) (l : list R) : list R :=
  match l with [] => [x] | y :: l' => if Rle_dec x y then x :: l else y :: insert_R x l' end.
(** All of them (1207-1212) *)
Fixpoint sort_R (l : list R) : list R := match l with [] => [] | x :: l' => insert_R x (sort_R l') end.
(** [median] (1207-1208) *)
Definition median_of (xs : list R) : R :=
  let ys := sort_R xs in let n := length ys in
  ((nth (Nat.div (n - 1) 2) ys 0 + nth (Nat.div n 2) ys 0) / 2)%R.
(** [quantile] (1211-1212) *)
Definition quantile_of (q : R) (xs : list R) : R :=
  let ys := sort_R xs in
  let h := (INR (length ys - 1) * q)%R in
  let i := Int_part h in
  let y := nth (Z.to_nat i) ys 0%R in
  (y + (nth (Z.to_nat (i + 1)) ys y - y) * (h - IZR i))%R.
(** The statistic that was asked for (1207-1212) *)
Definition statistic (op : operation) (xs : list R) : R :=
  match op with
  | Median => median_of xs
  | Quantile q => quantile_of q xs
  | _ => (total xs / INR (length xs))%R
  end.
(** The same of values with NaN (1207-1212) *)
Definition stat_num (op : operation) (l : list num) : num :=
  match present l with [] => None | xs => Some (statistic op xs) end.

(** The statistics of the timeseries with one key, time by time. (1205-1212) *)
Definition grouped (op : operation) (n : nat) (rows : list (list mval * list num)) (k : list mval) : list num :=
  map (fun i => stat_num op (map (fun r => nth i (snd r) None) (filter (fun r => row_same k (fst r)) rows))) (seq 0 n).

(** [groupby] refuses an empty list of keys and leaves out rows with a missing key. (1169-1214) *)
Definition process_over (cols : list string) (op : operation) (f : frame) : res frame :=
  rbind (wide f) (fun ts =>
  let group_cols := filter (fun c => negb (mem c cols)) (fr_cols f) in
  match group_cols with
  | [] => Err EValueError
  | _ =>
    let rows := map (fun r => (map (cell (fr_cols f) (fst r)) group_cols, snd r)) ts in
    let rows := filter (fun r => negb (existsb is_missing (fst r))) rows in
    let keys := distinct_keys (map fst rows) in
    let labels := map Z.of_nat (seq 0 (length keys)) in
    let result := mkFrame (fr_times f) (combine labels (map (grouped op (length (fr_times f)) rows) keys))
      group_cols (combine labels keys) in
    match op with
    | Other => Err EValueError
    | Quantile q => if Rle_dec 0 q then if Rle_dec q 1 then Ok result else Err EValueError else Err EValueError
    | _ => Ok result
    end
  end).

(** ** [relative_to_ref_period_mean] *)

(** A number with leading zeros ([str] of a datetime, 1308-1311) *)
Definition padded (width : nat) (z : Z) : string :=
  let s := NilZero.string_of_int (Z.to_int z) in
  (string_of_list_ascii (repeat "0"%char (width - String.length s)) ++ s)%string.
(** [str] of a [datetime.datetime] of whole seconds, which has a year from 1 to 9999 (1308-1311) *)
Definition date_text (t : Z) : res string :=
  if (1 <=? year_of t)%Z && (year_of t <=? 9999)%Z then
    Ok (padded 4 (year_of t) ++ "-" ++ padded 2 (month_of t) ++ "-" ++ padded 2 (day_of t) ++ " " ++
        padded 2 (hour_of t) ++ ":" ++ padded 2 (second_of_day t / 60 mod 60) ++ ":" ++ padded 2 (second_of_day t mod 60))%string
  else Err EInvalid.
(** [v[0]] and [v[-1]] as text (1308-1311).  Floats are not modelled. *)
Definition text (v : pyval) : res string :=
  match v with
  | PStr s => Ok s
  | PInt z => Ok (NilZero.string_of_int (Z.to_int z))
  | PDate t => date_text t
  | PNaN => Ok "nan"
  | PNone => Ok "None"
  | PNum _ => Err EInvalid
  end.
(** [v[0]] and [v[-1]] (1308-1311) *)
Definition first_last (a : parg) : res (string * string) :=
  match a with
  | Many [] => Err EIndexError
  | Many (v :: vs) => rbind (text v) (fun x => rbind (text (last vs v)) (fun y => Ok (x, y)))
  | One (PStr EmptyString) => Err EIndexError
  | One (PStr (String c s)) => Ok (String c "", String (last (list_ascii_of_string s) c) "")
  | One (PInt _ | PNum _ | PNaN | PNone) => Err ETypeError
  | One (PDate _) => Err ETypeError
  end.
(** The text appended by default (1308-1312) *)
Definition default_append (filters : list (string * parg)) : res string :=
  rbind (rmap (fun c => rbind (first_last (snd c)) (fun p => Ok (fst c ++ ": " ++ fst p ++ " - " ++ snd p)%string)) filters) (fun l =>
  Ok ("(ref. period " ++ join ";" l ++ ")")%string).

(** Subtraction; with NaN it is NaN (1305) *)
Definition num_sub (a b : num) : num := match a, b with Some x, Some y => Some (x - y)%R | _, _ => None end.
(** [ts.sub(ref_period_mean, axis="rows")] (1305) matches metadata; missing metadata and an empty
    reference period are not modelled. *)
Definition ref_mean (ref : list (list mval * list num)) (k : list mval) : num :=
  match find (fun r => row_same k (fst r)) ref with Some r => mean_num (snd r) | None => None end.
(** [relative_to_ref_period_mean] (1274-1316) *)
Definition relative_to_ref_period_mean (append : option string) (keep rx hn : bool) (filters : list (string * parg)) (f : frame) : res frame :=
  rbind (wide f) (fun ts =>
  rbind (fr_filter keep rx hn filters f) (fun a =>
  rbind (wide a) (fun ref =>
  if existsb (fun r => existsb is_missing (fst r)) ts then Err EInvalid else
  match ref with
  | [] => Err EInvalid
  | _ =>
    rbind (match append with Some s => Ok s | None => default_append filters end) (fun s =>
    rbind (rmap (fun r => match cell (fr_cols f) (snd r) "variable" with
                          | MStr v => Ok (fst r, map_cell (fr_cols f) "variable" (fun _ => MStr (v ++ " " ++ s)%string) (snd r))
                          | _ => Err EInvalid
                          end) (fr_meta f)) (fun meta =>
    Ok (mkFrame (fr_times f)
      (combine (map fst (fr_meta f)) (map (fun r => map (fun v => num_sub v (ref_mean ref (fst r))) (snd r)) ts))
      (fr_cols f) meta)))
  end))).
