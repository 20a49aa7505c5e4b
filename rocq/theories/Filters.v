(** Model of openscm/scmdataframe/filters.py: matching of metadata and of times. *)
From Coq Require Import String Ascii List ZArith QArith Qcanon Bool.
From Verif Require Import Base Regex.
Import ListNotations.
Local Open Scope string_scope.
Local Open Scope list_scope.

(** A metadata value: a string, a number (floats are exact rationals), NaN or [None].  Other
    objects are not modelled. (filters.py 107-206) *)
Inductive mval := MStr (s : string) | MNum (q : Qc) | MNaN | MNone.

(** ** Python string operations *)

(** [s.replace(c, w)] for a one-character string [c]. (filters.py 99, 172-181) *)
Fixpoint replace_char (c : ascii) (w s : string) : string :=
  match s with
  | EmptyString => EmptyString
  | String x s' => if Ascii.eqb x c then w ++ replace_char c w s' else String x (replace_char c w s')
  end%string.

(** [s.replace(old, "")]: occurrences are removed from left to right; the empty string occurs
    everywhere and removing it changes nothing. (filters.py 102) *)
Fixpoint strip_prefix (old s : string) : option string :=
  match old, s with
  | EmptyString, _ => Some s
  | String a old', String b s' => if Ascii.eqb a b then strip_prefix old' s' else None
  | _, EmptyString => None
  end.
(** The loop over the text (filters.py 102) *)
Fixpoint remove_from (fuel : nat) (old s : string) : string :=
  match fuel with
  | O => s
  | S fuel' =>
    match strip_prefix old s with
    | Some s' => remove_from fuel' old s'
    | None => match s with
              | EmptyString => EmptyString
              | String c s' => String c (remove_from fuel' old s')
              end
    end
  end.
(** [s.replace(old, "")] (filters.py 102) *)
Definition remove_all (old s : string) : string :=
  match old with EmptyString => s | _ => remove_from (S (String.length s)) old s end.

(** [len(re.compile(re.escape(sep)).findall(s))] for a one-character separator. (filters.py 98-102) *)
Fixpoint count_char (c : ascii) (s : string) : Z :=
  match s with
  | EmptyString => 0
  | String x s' => (if Ascii.eqb x c then 1 else 0) + count_char c s'
  end%Z.

(** [int(s)] for ASCII digits with an optional sign; surrounding blanks and underscores, which
    Python also accepts, are not modelled. (filters.py 82-89) *)
Fixpoint digits_value (acc : Z) (s : string) : option Z :=
  match s with
  | EmptyString => Some acc
  | String c s' => match digit c with
                   | Some d => digits_value (10 * acc + Z.of_nat d)%Z s'
                   | None => None
                   end
  end.
(** [int(s)] (filters.py 82-89) *)
Definition int_of_string (s : string) : res Z :=
  let value s := match s with
                 | EmptyString => Err EValueError
                 | _ => match digits_value 0 s with Some z => Ok z | None => Err EValueError end
                 end in
  match s with
  | String "-" s' => rbind (value s') (fun z => Ok (- z)%Z)
  | String "+" s' => value s'
  | _ => value s
  end%char.

(** The last character and what comes before. (filters.py 82-89) *)
Fixpoint split_last (s : string) : option (string * ascii) :=
  match s with
  | EmptyString => None
  | String c s' => match split_last s' with
                   | None => Some (EmptyString, c)
                   | Some (i, l) => Some (String c i, l)
                   end
  end.

(** ** [find_depth] (filters.py 40-104) *)

(** The argument [level] (filters.py 40-60) *)
Inductive level := LInt (z : Z) | LStr (s : string).

(** The test chosen in lines 77-95. *)
Definition level_test (l : level) : res (Z -> bool) :=
  match l with
  | LInt z => Ok (fun x => (z =? x)%Z)
  | LStr s =>
    match split_last s with
    | None => Err EIndexError
    | Some (i, c) =>
      if Ascii.eqb c "-" then rbind (int_of_string i) (fun z => Ok (fun x => (x <=? z)%Z))
      else if Ascii.eqb c "+" then rbind (int_of_string i) (fun z => Ok (fun x => (z <=? x)%Z))
      else Err EValueError
    end
  end.

(** Lines 98-104; the separator is one character. *)
Definition find_depth (col : list string) (s : string) (l : level) (separator : ascii) : res (list bool) :=
  rbind (level_test l) (fun test =>
  let regexp := replace_char "*" "" s in
  Ok (map (fun val => test (count_char separator (remove_all regexp val))) col)).

(** ** [pattern_match] (filters.py 107-206) *)

(** The pattern compiled for a filter string (lines 172-182). *)
Definition pseudo_regexp (s : string) : string :=
  (replace_char "$" "\$"
  (replace_char ")" "\)"
  (replace_char "(" "\("
  (replace_char "+" "\+"
  (replace_char "*" ".*"
  (replace_char "." "\."
  (replace_char "|" "\|" s)))))) ++ "$")%string.

(** Lines 164-168: with [has_nan] NaN becomes the empty string; [np.isnan(None)] is a
    TypeError. *)
Definition replace_nan (has_nan : bool) (col : list mval) : res (list mval) :=
  if has_nan then
    rmap (fun m => match m with MNaN => Ok (MStr "") | MNone => Err ETypeError | _ => Ok m end) col
  else Ok col.

(** [pattern.match(m)] is a TypeError unless [m] is a string (184-195). *)
Definition str_of (m : mval) : res string := match m with MStr s => Ok s | _ => Err ETypeError end.

(** Comparison with a value that is no text (filters.py 203-204) *)
Definition same_number (m v : mval) : bool :=
  match m, v with MNum a, MNum b => if Qc_eq_dec a b then true else false | _, _ => false end.

(** [matches |= ...] (filters.py 202-204) *)
Fixpoint orb_list (a b : list bool) : list bool :=
  match a, b with x :: a', y :: b' => (x || y) :: orb_list a' b' | _, _ => [] end.
(** [... & ...] of boolean arrays (filters.py 202) *)
Fixpoint andb_list (a b : list bool) : list bool :=
  match a, b with x :: a', y :: b' => (x && y) :: andb_list a' b' | _, _ => [] end.

(** One value of the loop 170-204.  Patterns that [re] rejects or that use syntax outside
    [Regex.v] give [EInvalid].  ([isin(subset)] selects the values that are equal to a value that
    matches, i.e. the values that match.) *)
Definition match_value (col _col : list mval) (v : mval) (l : option level) (regexp : bool)
    (separator : ascii) : res (list bool) :=
  match v with
  | MStr s =>
    match re_compile (if regexp then s else pseudo_regexp s) with
    | None => Err EInvalid
    | Some r =>
      rbind (rmap str_of _col) (fun strs =>
      let matching := map (re_match r) strs in
      match l with
      | None => Ok matching
      | Some l => rbind (find_depth strs s l separator) (fun depth => Ok (andb_list matching depth))
      end)
    end
  | _ => Ok (map (same_number v) col)
  end.

(** [values]: the list of values; a single value is a list of length one (155-159). *)
Fixpoint match_values (col _col : list mval) (values : list mval) (l : option level) (regexp : bool)
    (separator : ascii) (matches : list bool) : res (list bool) :=
  match values with
  | [] => Ok matches
  | v :: values' =>
    rbind (match_value col _col v l regexp separator) (fun m =>
    match_values col _col values' l regexp separator (orb_list matches m))
  end.
(** [pattern_match] (filters.py 107-206) *)
Definition pattern_match (col : list mval) (values : list mval) (l : option level) (regexp has_nan : bool)
    (separator : ascii) : res (list bool) :=
  rbind (replace_nan has_nan col) (fun _col =>
  match_values col _col values l regexp separator (map (fun _ => false) col)).

(** ** Times *)

(** What a time filter is given: integers, strings, datetimes (seconds since 1970), floats (exact
    rationals), or NaN or [None] (which behave in the same way here), alone or in a list.
    (filters.py 209-425) *)
Inductive tval := TInt (z : Z) | TStr (s : string) | TDate (t : Z) | TNum (q : Qc) | TNone.
(** Values alone or in a list (filters.py 209-425) *)
Inductive targ := TOne (v : tval) | TList (vs : list tval).

(** Equality, for [in] (filters.py 37) *)
Definition tval_eqb (a b : tval) : bool :=
  match a, b with
  | TInt x, TInt y => (x =? y)%Z
  | TDate x, TDate y => (x =? y)%Z
  | TStr x, TStr y => String.eqb x y
  | TNum x, TNum y => Qc_eq_bool x y
  | TInt x, TNum y | TNum y, TInt x => Qc_eq_bool (Q2Qc (inject_Z x)) y
  | _, _ => false
  end.
(** [is_in] (filters.py 18-37) *)
Definition is_in (vals items : list tval) : list bool := map (fun v => existsb (tval_eqb v) items) vals.

(** [isinstance(v, int)] (filters.py 231-235, 422) *)
Definition is_int (v : tval) : bool := match v with TInt _ => true | _ => false end.

(** [years_match] (209-241).  A single value that is neither an integer nor iterable is a
    TypeError as well; so is a string: its characters are not integers, and [v in ""] is a
    TypeError for integers. *)
Definition years_match (data : list tval) (years : targ) : res (list bool) :=
  match years with
  | TOne (TInt y) => Ok (is_in data [TInt y])
  | TOne (TStr "") => match data with [] => Ok [] | _ => Err ETypeError end
  | TOne _ => Err ETypeError
  | TList ys => if forallb is_int ys then Ok (is_in data ys) else Err ETypeError
  end.

(** [hour_match] (286-304).  [v in] a string, a datetime, a float or [None] is a TypeError for
    integers [v]. *)
Definition hour_match (data : list tval) (hours : targ) : res (list bool) :=
  match hours with
  | TOne (TInt h) => Ok (is_in data [TInt h])
  | TOne _ => match data with [] => Ok [] | _ => Err ETypeError end
  | TList hs => Ok (is_in data hs)
  end.

(** [datetime_match] (397-425).  Floats and [None] cannot be iterated over.  (A string is iterated over; time points are in no string: numpy
    datetimes are compared with its characters, which is not modelled.) *)
Definition datetime_match (data : list tval) (dts : targ) : res (list bool) :=
  match dts with
  | TOne (TDate d) => Ok (is_in data [TDate d])
  | TOne (TStr _) => Err EInvalid
  | TOne _ => Err ETypeError
  | TList ds => if existsb is_int ds then Err ETypeError else Ok (is_in data ds)
  end.

(** [time.strptime(t, code)] with the codes %b, %B (tm_mon) and %a, %A (tm_wday), in the C
    locale; names are matched irrespective of case. (filters.py 351-368) *)
Fixpoint index_of (s : string) (names : list string) (i : Z) : option Z :=
  match names with
  | [] => None
  | n :: names' => if String.eqb s n then Some i else index_of s names' (i + 1)%Z
  end.
(** [strptime] (filters.py 351-368) *)
Definition strptime (names : list string) (first : Z) (t : string) : res Z :=
  match index_of (lower t) names first with Some i => Ok i | None => Err EValueError end.

(** %b (filters.py 263) *)
Definition month_abbr := ["jan"; "feb"; "mar"; "apr"; "may"; "jun"; "jul"; "aug"; "sep"; "oct"; "nov"; "dec"].
(** %B (filters.py 263) *)
Definition month_name := ["january"; "february"; "march"; "april"; "may"; "june"; "july"; "august";
  "september"; "october"; "november"; "december"].
(** %a (filters.py 283) *)
Definition day_abbr := ["mon"; "tue"; "wed"; "thu"; "fri"; "sat"; "sun"].
(** %A (filters.py 283) *)
Definition day_name := ["monday"; "tuesday"; "wednesday"; "thursday"; "friday"; "saturday"; "sunday"].

(** [conv_strs] (351-368): the first code with which all strings can be read.  Elements that
    are not strings make [strptime] raise TypeError. *)
Definition conv_one (names : list string) (first : Z) (v : tval) : res Z :=
  match v with TStr s => strptime names first s | _ => Err ETypeError end.
(** [conv_strs] (filters.py 351-368) *)
Fixpoint conv_strs (codes : list (list string)) (first : Z) (strs : list tval) : res (list Z) :=
  match codes with
  | [] => Err EValueError
  | names :: codes' =>
    match rmap (conv_one names first) strs with
    | Ok l => Ok l
    | Err EValueError => conv_strs codes' first strs
    | Err e => Err e
    end
  end.

(** [range(a, b + 1)] (filters.py 370-386) *)
Definition int_range (a b : Z) : list Z := map (fun i => (a + Z.of_nat i)%Z) (seq 0 (Z.to_nat (b + 1 - a))).

(** Lines 373-386: the positions of the ranges and the integers they stand for.
    ["-" in timeset] is a TypeError for all but strings; [ints[1]] exists because the
    string contains a hyphen. *)
Definition has_char (c : ascii) (s : string) : bool := (0 <? count_char c s)%Z.
(** The loop over the values (filters.py 370-386) *)
Fixpoint find_ranges (codes : list (list string)) (first : Z) (i : nat) (times : list tval) : res (list nat * list Z) :=
  match times with
  | [] => Ok ([], [])
  | TStr s :: times' =>
    if has_char "-" s then
      rbind (conv_strs codes first (map TStr (split "-" s))) (fun ints =>
      let a := nth 0 ints 0%Z in
      let b := nth 1 ints 0%Z in
      if (b <? a)%Z then Err EValueError else
      rbind (find_ranges codes first (S i) times') (fun p =>
      Ok (i :: fst p, int_range a b ++ snd p)))
    else find_ranges codes first (S i) times'
  | _ :: _ => Err ETypeError
  end.

(** Lines 388-389: [del times_list[i]] for the positions found, one after the other, in the
    list that gets shorter.  This changes the caller's list, also if it fails. *)
Fixpoint delete_at {A} (i : nat) (l : list A) : option (list A) :=
  match l, i with
  | [], _ => None
  | _ :: l', O => Some l'
  | x :: l', S i' => match delete_at i' l' with Some l'' => Some (x :: l'') | None => None end
  end.
(** The loop over the positions (filters.py 388-389) *)
Fixpoint delete_all {A} (is : list nat) (l : list A) : list A * res unit :=
  match is with
  | [] => (l, Ok tt)
  | i :: is' => match delete_at i l with
                | Some l' => delete_all is' l'
                | None => (l, Err EIndexError)
                end
  end.

(** [time_match] (307-394): the result and the caller's list afterwards. *)
Definition time_match (data : list tval) (times : targ) (codes : list (list string)) (first : Z)
    : targ * res (list bool) :=
  let times_list := match times with TOne v => [v] | TList vs => vs end in
  let back l := match times with TOne v => TOne v | TList _ => TList l end in
  match times, times_list with
  | TOne (TDate _ | TNum _ | TNone), _ => (times, Err ETypeError)
  | _, [] => (times, Err EIndexError)
  | _, TStr _ :: _ =>
    match find_ranges codes first 0 times_list with
    | Err e => (times, Err e)
    | Ok (to_delete, to_append) =>
      let (l, r) := delete_all to_delete times_list in
      (back l, match r with
               | Err e => Err e
               | Ok _ => match conv_strs codes first l with
                         | Err e => Err e
                         | Ok ints => Ok (is_in data (map TInt (ints ++ to_append)))
                         end
               end)
    end
  | _, _ => (times, Ok (is_in data times_list))
  end.

(** [month_match] (244-263), [day_match] (266-283) *)
Definition month_match (data : list tval) (months : targ) := time_match data months [month_abbr; month_name] 1.
(** [day_match] (filters.py 266-283) *)
Definition day_match (data : list tval) (days : targ) := time_match data days [day_abbr; day_name] 0.
