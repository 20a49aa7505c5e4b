(** Conversion of time series computed exactly, with rational numbers and without integrals:
    a reference for what scipy's interpolation and numerical integration approximate.
    Nothing here uses the model. *)
From Coq Require Import List ZArith QArith Qreduction.
Import ListNotations.
Local Open Scope Q_scope.

(** The height at [x] of the straight line through [p] and [q]. *)
Definition along (p q : Q * Q) (x : Q) : Q :=
  Qred (snd p + (snd q - snd p) / (fst q - fst p) * (x - fst p)).
(** The height at [x] of the polyline through [p] and [rest], whose first and last pieces
    continue straight to both sides. *)
Fixpoint height (p : Q * Q) (rest : list (Q * Q)) (x : Q) : Q :=
  match rest with
  | [] => snd p
  | [q] => along p q x
  | q :: rest' => if Qle_bool x (fst q) then along p q x else height q rest' x
  end.

(** The area between [a] and [b] under a straight line: a trapezoid. *)
Definition trapezoid (p q : Q * Q) (a b : Q) : Q := Qred ((b - a) * (along p q a + along p q b) / 2).
(** The area between [a] and [b] under the polyline: one trapezoid for every piece. *)
Fixpoint area (p : Q * Q) (rest : list (Q * Q)) (a b : Q) : Q :=
  match rest with
  | [] => Qred ((b - a) * snd p)
  | [q] => trapezoid p q a b
  | q :: rest' =>
    if Qle_bool b (fst q) then trapezoid p q a b
    else if Qle_bool (fst q) a then area q rest' a b
    else Qred (trapezoid p q a (fst q) + area q rest' (fst q) b)
  end.

(** For averages: the heights where periods meet are the means of the two values, ... *)
Fixpoint joints (v : list Q) : list Q :=
  match v with
  | x :: ((y :: _) as v') => Qred ((x + y) / 2) :: joints v'
  | _ => []
  end.
(** ... at the two ends the first and last piece are continued ... *)
Definition heights (v : list Q) : list Q :=
  match v with
  | x :: y :: _ => Qred (x + (x - y) / 2) :: joints v ++ [Qred (last v 0 + (last v 0 - last (removelast v) 0) / 2)]
  | _ => []
  end.
(** ... and in the middle of a period the height is such that the area is as given. *)
Fixpoint corners (t v e : list Q) : list (Q * Q) :=
  match t, v, e with
  | a :: ((b :: _) as t'), x :: v', c :: ((d :: _) as e') =>
    (a, c) :: (Qred ((a + b) / 2), Qred (2 * x - (c + d) / 2)) :: corners t' v' e'
  | a :: _, _, c :: _ => [(a, c)]
  | _, _, _ => []
  end.

(** [x] moved into the interval from [lo] to [hi] *)
Definition smaller (x y : Q) : Q := if Qle_bool x y then x else y.
Definition larger (x y : Q) : Q := if Qle_bool x y then y else x.

(** A polyline, and the values it has left and right of its ends if it is to be constant there. *)
Record curve := mkCurve { c_first : Q * Q; c_rest : list (Q * Q); c_held : option (Q * Q) }.
Definition c_lo (c : curve) : Q := fst (c_first c).
Definition c_hi (c : curve) : Q := fst (last (c_rest c) (c_first c)).
Definition value_at (c : curve) (x : Q) : Q :=
  match c_held c with
  | None => height (c_first c) (c_rest c) x
  | Some (l, r) =>
    if Qle_bool (c_lo c) x
    then if Qle_bool x (c_hi c) then height (c_first c) (c_rest c) x else r
    else l
  end.
Definition area_under (c : curve) (a b : Q) : Q :=
  match c_held c with
  | None => area (c_first c) (c_rest c) a b
  | Some (l, r) =>
    let lo := c_lo c in let hi := c_hi c in
    let into x := larger lo (smaller x hi) in
    Qred (l * (smaller b lo - smaller a lo) +
          area (c_first c) (c_rest c) (into a) (into b) +
          r * (larger b hi - larger a hi))
  end.
Fixpoint averages (c : curve) (t : list Q) : list Q :=
  match t with
  | a :: ((b :: _) as t') => Qred (area_under c a b / (b - a)) :: averages c t'
  | _ => []
  end.

(** The curve of values at times, and of averages over periods; [hold] tells whether it is
    constant outside the times. *)
Definition curve_of (hold : bool) (v : list Q) (ps : list (Q * Q)) : curve :=
  mkCurve (hd (0, 0) ps) (tl ps) (if hold then Some (hd 0 v, last v 0) else None).
Definition of_points (hold : bool) (t : list Z) (v : list Q) : curve :=
  curve_of hold v (combine (map inject_Z t) v).
Definition of_averages (hold : bool) (t : list Z) (v : list Q) : curve :=
  curve_of hold v (corners (map inject_Z t) v (heights v)).
