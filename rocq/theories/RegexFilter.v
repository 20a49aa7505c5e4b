(** Filters with regular expressions (C106). *)
From Coq Require Import String Ascii List Arith Lia Bool ZArith.
From Verif Require Import Base Regex Spec_Regex RegexProps Filters Spec_Filters FiltersProps.
Import ListNotations.
Local Open Scope string_scope.
Local Open Scope list_scope.

Definition test (p v : string) : bool := match re_compile p with Some r => re_match r v | None => false end.
Lemma values_eq col ss ps sep : forall f bs, match_values col (map MStr ss) (map MStr ps) None true sep (map f ss) = Ok bs ->
  bs = map (fun v => f v || existsb (fun p => test p v) ps) ss.
Proof.
  induction ps as [|p ps IH]; intros f bs; cbn [map match_values].
  - intros [= <-]. apply map_ext. intros. cbn. now rewrite orb_false_r.
  - unfold match_value. destruct (re_compile p) as [r|] eqn:C; [|discriminate]. rewrite rmap_str. cbn [rbind]. rewrite orb_map. intros H.
    apply IH in H as ->. apply map_ext. intros v. cbn [existsb]. unfold test at 2. rewrite C. now rewrite orb_assoc.
Qed.
Lemma regexp_filter col ss ps sep bs : strs col ss -> pattern_match col (map MStr ps) None true true sep = Ok bs ->
  length bs = length col /\ forall i v, nth_error ss i = Some v ->
    (nth_error bs i = Some true <-> exists p r w a, In p ps /\ re_compile p = Some r /\ v = (w ++ a)%string /\ matches r "" w a).
Proof.
  intros S H. unfold pattern_match in H. rewrite (strs_nan _ _ S) in H. cbn [rbind] in H. pose proof (strs_len _ _ S) as L.
  replace (map (fun _ => false) col) with (map (fun _ : string => false) ss) in H.
  2:{ clear - L. revert ss L. induction col; intros [|s ss] L; try discriminate; cbn; auto. f_equal. apply IHcol. now injection L. }
  apply values_eq in H as ->. split; [now rewrite map_length|]. intros i v V.
  rewrite (map_nth_error _ i ss V). cbn [orb]. split.
  - intros [= E]. apply existsb_exists in E as (p & P & T). unfold test in T. destruct (re_compile p) as [r|] eqn:C; [|discriminate].
    apply match_ok in T as (w & a & W & M). exists p, r, w, a. auto.
  - intros (p & r & w & a & P & C & W & M). f_equal. apply existsb_exists. exists p. split; [exact P|]. unfold test. rewrite C. apply match_ok. eauto.
Qed.
