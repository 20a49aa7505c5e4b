(** C106: regular expressions match by their meaning.  Vocabulary: [Spec_Regex.v], [Spec_Filters.v]. *)
From Coq Require Import String Ascii List Arith Lia.
From Verif Require Import Base Regex Spec_Regex RegexProps Filters Spec_Filters RegexFilter.
Import ListNotations.
Local Open Scope string_scope.

(** The search for a match succeeds if and only if some beginning of the text matches. *)
Theorem C106_match r s : re_match r s = true <-> exists w a, s = w ++ a /\ matches r "" w a.
Proof. exact (match_ok r s). Qed.
Print Assumptions C106_match.

(** Everywhere in a text, it finds all ends of matches and nothing else. *)
Theorem C106_ends r b s a : In a (rests r (String.length (b ++ s)) s) <-> exists w, s = w ++ a /\ matches r b w a.
Proof. exact (search_ok r b s a). Qed.
Print Assumptions C106_ends.

(** With regexp=True a filter that is understood selects the values of which some beginning matches one of
    the expressions. *)
Theorem C106_filter col ss ps sep bs : strs col ss -> pattern_match col (map MStr ps) None true true sep = Ok bs ->
  length bs = length col /\ forall i v, nth_error ss i = Some v ->
    (nth_error bs i = Some true <-> exists p r w a, In p ps /\ re_compile p = Some r /\ v = w ++ a /\ matches r "" w a).
Proof. exact (regexp_filter col ss ps sep bs). Qed.
Print Assumptions C106_filter.

(** Repetitions of classes, for example, that do not contain some characters. *)
Example C106_case : strs [MStr "dxxx"; MStr "axx"] ["dxxx"; "axx"] /\
  pattern_match [MStr "dxxx"; MStr "axx"] [MStr "[^a-c]x*$"] None true true "|" = Ok [true; false] /\
  exists r, re_compile "[^a-c]x*$" = Some r /\ matches r "" "dxxx" "".
Proof.
  split; [reflexivity|]. split; [vm_compute; reflexivity|]. eexists. split; [vm_compute; reflexivity|].
  assert (X : forall b a, matches (RStar (RSet false [("x", "x")]%char)) b "xxx" a).
  { intros b a. assert (M : forall b a, matches (RSet false [("x", "x")]%char) b "x" a) by (intros; constructor; exists "x"%char, "x"%char; split; [now left|lia]).
    apply (m_again _ b "x" "xx"); [apply M|]. apply (m_again _ _ "x" "x"); [apply M|]. apply (m_again _ _ "x" ""); [apply M|constructor]. }
  assert (D : forall b a, matches (RSet true [("a", "c")]%char) b "d" a).
  { intros b a. constructor. intros (lo & hi & I & _ & Le). destruct I as [I|[]]. injection I as <- <-. cbn in Le. lia. }
  apply (m_seq _ _ _ "d" "xxx"); [apply D|]. apply (m_seq _ _ _ "xxx" ""); [apply (m_seq _ _ _ "" "xxx"); [constructor|apply X]|].
  apply (m_seq _ _ _ "" ""); constructor.
Qed.
