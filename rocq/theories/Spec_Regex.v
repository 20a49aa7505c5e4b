(** Specification vocabulary for regular expressions (C106): what a text has to look like for an expression
    to match it, without any search.  The syntax trees are those of [Regex.v]. *)
From Coq Require Import String Ascii List Arith.
From Verif Require Import Regex.
Import ListNotations.
Local Open Scope string_scope.

(** The character is in one of the ranges. *)
Definition member (c : ascii) (rs : list (ascii * ascii)) : Prop :=
  exists lo hi, In (lo, hi) rs /\ nat_of_ascii lo <= nat_of_ascii c <= nat_of_ascii hi.

(** [matches r b w a]: the expression [r] matches the text [w] where [b] is before and [a] after it. *)
Inductive matches : re -> string -> string -> string -> Prop :=
| m_eps b a : matches REps b "" a
| m_any c b a : c <> "010"%char -> matches RAny b (String c "") a
| m_in c rs b a : member c rs -> matches (RSet false rs) b (String c "") a
| m_not c rs b a : ~ member c rs -> matches (RSet true rs) b (String c "") a
| m_start a : matches RBol "" "" a
| m_end b : matches REol b "" ""
| m_end_line b : matches REol b "" (String "010" "")
| m_seq x y b v w a : matches x b v (w ++ a) -> matches y (b ++ v) w a -> matches (RSeq x y) b (v ++ w) a
| m_left x y b w a : matches x b w a -> matches (RAlt x y) b w a
| m_right x y b w a : matches y b w a -> matches (RAlt x y) b w a
| m_never x b a : matches (RStar x) b "" a
| m_again x b v w a : matches x b v (w ++ a) -> matches (RStar x) (b ++ v) w a -> matches (RStar x) b (v ++ w) a.
