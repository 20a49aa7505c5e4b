(** Proofs that the search finds exactly the matches of regular expressions (C106). *)
From Coq Require Import String Ascii List Arith Lia Bool.
From Verif Require Import Base Regex Spec_Regex.
Import ListNotations.
Local Open Scope string_scope.
Local Open Scope list_scope.

Lemma app_len (a b : string) : String.length (a ++ b) = String.length a + String.length b.
Proof. induction a; cbn; auto. Qed.
Lemma app_assoc' (a b c : string) : ((a ++ b) ++ c)%string = (a ++ (b ++ c))%string.
Proof. induction a; cbn; [reflexivity|now f_equal]. Qed.
Lemma app_empty (a : string) : (a ++ "")%string = a.
Proof. induction a; cbn; [reflexivity|now f_equal]. Qed.
Lemma in_set_member c rs : in_set c rs = true <-> member c rs.
Proof.
  unfold in_set, member. rewrite existsb_exists. split.
  - intros ([lo hi] & I & R). unfold in_range in R. cbn in R. apply andb_true_iff in R as [A B]. apply Nat.leb_le in A, B. eauto.
  - intros (lo & hi & I & A & B). exists (lo, hi). split; [exact I|]. unfold in_range. cbn. apply andb_true_iff. split; now apply Nat.leb_le.
Qed.

(** The loop of [rests] for repetitions. *)
Fixpoint loop (a : re) (n fuel : nat) (s : string) : list string :=
  s :: match fuel with
       | O => []
       | Datatypes.S fuel' => flat_map (fun s' => if (String.length s' <? String.length s)%nat then loop a n fuel' s' else []) (rests a n s)
       end.
Lemma rests_star a n s : rests (RStar a) n s = loop a n (String.length s) s.
Proof.
  cbn [rests]. generalize (String.length s) as k. intros k. revert s. induction k as [|k IH]; intros s; cbn [loop]; [reflexivity|]. f_equal.
  apply flat_map_ext. intros s'. destruct (String.length s' <? String.length s)%nat; [apply IH|reflexivity].
Qed.

Lemma sound r : forall b s a, In a (rests r (String.length (b ++ s)) s) -> exists w, s = (w ++ a)%string /\ matches r b w a.
Proof.
  induction r as [| | |neg rs| | |x IHx y IHy|x IHx y IHy|x IHx]; intros b s a H.
  - destruct H as [<-|[]]. exists "". split; [reflexivity|constructor].
  - destruct H.
  - cbn in H. destruct s as [|c s]; [destruct H|]. destruct (Ascii.eqb_spec c newline) as [|N]; [destruct H|]. destruct H as [<-|[]].
    exists (String c ""). split; [reflexivity|now constructor].
  - cbn in H. destruct s as [|c s]; [destruct H|]. pose proof (in_set_member c rs) as M. destruct (in_set c rs), neg; cbn in H; try destruct H as [<-|[]]; try destruct H;
      (exists (String c ""); split; [reflexivity|constructor]).
    + now apply M.
    + intros K. apply M in K. discriminate.
  - cbn in H. destruct (String.length s =? String.length (b ++ s))%nat eqn:E; [|destruct H]. destruct H as [<-|[]]. apply Nat.eqb_eq in E. rewrite app_len in E.
    exists "". split; [reflexivity|]. destruct b; [constructor|cbn in E; lia].
  - cbn in H. destruct (String.eqb_spec s ""); [|destruct (String.eqb_spec s (String newline ""))]; cbn in H; try destruct H as [<-|[]]; try destruct H; subst;
      (exists ""; split; [reflexivity|constructor]).
  - cbn in H. apply in_flat_map in H as (m & A & B). destruct (IHx _ _ _ A) as (v & -> & V).
    rewrite <- app_assoc' in B. destruct (IHy _ _ _ B) as (w & -> & W). exists (v ++ w)%string. split; [now rewrite app_assoc'|].
    now constructor.
  - cbn in H. apply in_app_iff in H as [H|H]; [destruct (IHx _ _ _ H) as (w & -> & W)|destruct (IHy _ _ _ H) as (w & -> & W)];
      exists w; (split; [reflexivity|]); [now apply m_left|now apply m_right].
  - rewrite rests_star in H. revert b H. generalize (String.length s) as k. intros k. revert s. induction k as [|k IH]; intros s b H.
    + destruct H as [<-|[]]. exists "". split; [reflexivity|constructor].
    + cbn [loop] in H. destruct H as [<-|H]; [exists ""; split; [reflexivity|constructor]|].
      apply in_flat_map in H as (m & A & B). destruct (IHx _ _ _ A) as (v & -> & V). destruct (String.length m <? String.length (v ++ m))%nat; [|destruct B].
      rewrite <- app_assoc' in B. destruct (IH _ _ B) as (w & -> & W). exists (v ++ w)%string. split; [now rewrite app_assoc'|].
      now constructor.
Qed.

Lemma loop_more x n : forall k k' s a, (k <= k')%nat -> In a (loop x n k s) -> In a (loop x n k' s).
Proof.
  induction k as [|k IH]; intros k' s a L H.
  - destruct H as [<-|[]]. destruct k'; left; reflexivity.
  - destruct k' as [|k']; [lia|]. cbn [loop] in *. destruct H as [H|H]; [now left|right].
    apply in_flat_map in H as (m & A & B). apply in_flat_map. exists m. split; [exact A|].
    destruct (String.length m <? String.length s)%nat; [apply (IH k'); [lia|exact B]|destruct B].
Qed.
Lemma complete r b w a : matches r b w a -> In a (rests r (String.length (b ++ w ++ a)) (w ++ a)).
Proof.
  intros H. induction H as [b a|c b a N|c rs b a M|c rs b a M|a|b|b|x y b v w a _ IH1 _ IH2|x y b w a _ IH|x y b w a _ IH|x b a|x b v w a _ IH1 _ IH2].
  - now left.
  - cbn. destruct (Ascii.eqb_spec c newline) as [E|_]; [destruct (N E)|now left].
  - cbn. rewrite (proj2 (in_set_member c rs) M). now left.
  - cbn. destruct (in_set c rs) eqn:E; [apply in_set_member in E; contradiction|now left].
  - cbn. rewrite Nat.eqb_refl. now left.
  - now left.
  - now left.
  - cbn [rests]. rewrite app_assoc' in *. apply in_flat_map. exists (w ++ a)%string. split; assumption.
  - cbn [rests]. apply in_or_app. now left.
  - cbn [rests]. apply in_or_app. now right.
  - rewrite rests_star. cbn. destruct (String.length a); now left.
  - rewrite rests_star in *. rewrite !app_assoc' in *. destruct v as [|c v]; [exact IH2|].
    assert (L : (String.length (w ++ a) < String.length (String c v ++ w ++ a))%nat) by (rewrite (app_len (String c v)); cbn; lia).
    destruct (String.length (String c v ++ w ++ a)) as [|k] eqn:E; [lia|]. cbn [loop]. right. apply in_flat_map. exists (w ++ a)%string.
    split; [exact IH1|]. rewrite E. rewrite (proj2 (Nat.ltb_lt _ _) L). apply (loop_more _ _ (String.length (w ++ a))); [lia|exact IH2].
Qed.
Lemma search_ok r b s a : In a (rests r (String.length (b ++ s)) s) <-> exists w, s = (w ++ a)%string /\ matches r b w a.
Proof. split; [apply sound|]. intros (w & -> & H). exact (complete r b w a H). Qed.
Lemma match_ok r s : re_match r s = true <-> exists w a, s = (w ++ a)%string /\ matches r "" w a.
Proof.
  unfold re_match. pose proof (search_ok r "" s) as H. cbn [append] in H. split.
  - destruct (rests r (String.length s) s) as [|a l] eqn:E; [discriminate|]. intros _. destruct (proj1 (H a)) as (w & W); [now left|eauto].
  - intros (w & a & W). assert (I : In a (rests r (String.length s) s)) by (apply H; eauto). now destruct (rests r (String.length s) s).
Qed.
