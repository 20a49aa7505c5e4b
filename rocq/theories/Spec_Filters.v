(** Specification of the filters, independent of the functions of [Filters.v] and [Regex.v]. *)
From Coq Require Import String Ascii List ZArith Bool DecimalString.
From Verif Require Import Base Filters.
Import ListNotations.
Local Open Scope string_scope.
Local Open Scope list_scope.

(** [v] is obtained from the pattern [p] by replacing each * by some text for which [text]
    holds. *)
Inductive wild (text : string -> Prop) : string -> string -> Prop :=
| wild_end : wild text "" ""
| wild_char c p v : c <> "*"%char -> wild text p v -> wild text (String c p) (String c v)
| wild_star p u v : text u -> wild text p v -> wild text (String "*" p) (u ++ v).

Definition any_text (u : string) : Prop := True.
Definition newline : ascii := "010".
Definition occurs (c : ascii) (s : string) : Prop := In c (list_ascii_of_string s).
Definition one_line (u : string) : Prop := ~ occurs newline u.

(** Matching of patterns against lines: a * stands for text without newline, and one newline at
    the end of the value is ignored. *)
Definition line_end (p v : string) : Prop :=
  wild one_line p v \/ exists v', v = (v' ++ String newline "")%string /\ wild one_line p v'.

(** The texts of a metadata column of strings; missing values count as empty text. *)
Definition text_of (m : mval) : option string := match m with MStr s => Some s | MNaN => Some "" | _ => None end.
Definition strs (col : list mval) (ss : list string) : Prop := map text_of col = map Some ss.

(** Characters that are special in regular expressions and are not escaped by the code. *)
Definition unescaped : list ascii := ["["; "?"; "^"; "{"; "\"]%char.
Definition plain (p : string) : Prop := forall c, In c unescaped -> ~ occurs c p.

(** The number of occurrences of a separator. *)
Definition separators (c : ascii) (s : string) : nat := count_occ ascii_dec (list_ascii_of_string s) c.
(** [w] is found somewhere in [s]. *)
Definition contains (s w : string) : Prop := exists a b, s = (a ++ w ++ b)%string.

Definition decimal (n : nat) : string := NilZero.string_of_uint (Nat.to_uint n).

(** The levels that can be asked for: exactly, at most and at least [n]. *)
Inductive level_says : level -> (nat -> Prop) -> Prop :=
| says_exact n : level_says (LInt (Z.of_nat n)) (fun k => k = n)
| says_most n : level_says (LStr (decimal n ++ "-")) (fun k => k <= n)%nat
| says_least n : level_says (LStr (decimal n ++ "+")) (fun k => n <= k)%nat.

(** Names of months and weekdays with their numbers. *)
Definition months : list (Z * (string * string)) :=
  [(1, ("jan", "january")); (2, ("feb", "february")); (3, ("mar", "march")); (4, ("apr", "april"));
   (5, ("may", "may")); (6, ("jun", "june")); (7, ("jul", "july")); (8, ("aug", "august"));
   (9, ("sep", "september")); (10, ("oct", "october")); (11, ("nov", "november")); (12, ("dec", "december"))]%Z.
Definition weekdays : list (Z * (string * string)) :=
  [(0, ("mon", "monday")); (1, ("tue", "tuesday")); (2, ("wed", "wednesday")); (3, ("thu", "thursday"));
   (4, ("fri", "friday")); (5, ("sat", "saturday")); (6, ("sun", "sunday"))]%Z.

(** [s] is the short (or full) name of number [i], in upper or lower case. *)
Definition names (calendar : list (Z * (string * string))) (short : bool) (s : string) (i : Z) : Prop :=
  exists ab full, In (i, (ab, full)) calendar /\ lower s = if short then ab else full.

(** One item of a list of months or weekdays: a name (short or full), or a range of two short or
    two full names, with the numbers it stands for. *)
Inductive item (calendar : list (Z * (string * string))) (short : bool) : string -> (Z -> Prop) -> Prop :=
| item_name s i : names calendar short s i -> item calendar short s (fun j => j = i)
| item_range short' s1 s2 i1 i2 : names calendar short' s1 i1 -> names calendar short' s2 i2 -> (i1 <= i2)%Z ->
    item calendar short (s1 ++ "-" ++ s2) (fun j => (i1 <= j <= i2)%Z).
Definition is_range (s : string) : bool := existsb (Ascii.eqb "-") (list_ascii_of_string s).
