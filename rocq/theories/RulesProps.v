(** Proofs about rules of the calendar (C104). *)
From Coq Require Import String Ascii List ZArith Lia Bool.
From Verif Require Import Base Regex Civil Offsets Spec_Offsets Spec_Combined CombinedProps Spec_Rules.
Import ListNotations.
Local Open Scope string_scope.
Local Open Scope list_scope.
Local Open Scope Z_scope.

Lemma calendar_head n t o : calendar n t o -> no_digit t /\ exists c s, t = String c s /\ c <> "-"%char /\ c <> "+"%char.
Proof.
  intros H; destruct H; repeat match goal with I : In _ [_; _] |- _ => destruct I as [<-|[<-|[]]] end;
    (split; [reflexivity|do 2 eexists; split; [reflexivity|split; discriminate]]).
Qed.
Lemma unsigned_counts s n t : counts s n -> no_digit t -> t <> "" -> unsigned (s ++ t) = (n, t).
Proof.
  intros [|ds D] N E.
  - destruct t as [|c t]; [congruence|]. cbn in *. now rewrite N.
  - now apply unsigned_numeral.
Qed.
Lemma counts_head s n t c t' : counts s n -> t = String c t' -> c <> "-"%char -> c <> "+"%char ->
  exists c' r, (s ++ t)%string = String c' r /\ c' <> "-"%char /\ c' <> "+"%char.
Proof.
  intros [|ds D] -> A B; [cbn; eauto|]. destruct (numeral_head ds (String c t') D) as (c' & d & r & E & G). exists c', r. split; [exact E|].
  split; intros ->; discriminate.
Qed.
Lemma named_calendar n t o : calendar n t o ->
  match split "-" t with [name] => named n name None | [name; suffix] => named n name (Some suffix) | _ => Err EInvalid end = Ok o.
Proof.
  intros H. destruct H as [|w d I| | | |w m I| |w m I|y J|y w m J I|y J|y w m J I]; try reflexivity;
    repeat match goal with J : In _ [_; _] |- _ => destruct J as [<-|[<-|[]]] end; try reflexivity;
    cbn [weekdays months In] in I; repeat (destruct I as [[= <- <-]|I]; [reflexivity|]); destruct I.
Qed.
Lemma rule_of rule n t o : count_of rule = (n, t) -> calendar n t o -> to_offset rule = Ok o.
Proof.
  intros C H. unfold to_offset. rewrite C. pose proof (named_calendar n t o H) as N.
  destruct (split "-" t) as [|a [|b [|? ?]]]; try discriminate; [|exact N]. rewrite N. reflexivity.
Qed.
Lemma rules_ok c n t o : counts_signed c n -> calendar n t o -> to_offset (c ++ t) = Ok o.
Proof.
  intros C H. destruct (calendar_head n t o H) as (D & x & r & E & A & B). assert (Ne : t <> "") by (rewrite E; discriminate).
  apply (rule_of _ n t); [|exact H]. destruct C as [s n C|s n C|s n C].
  - destruct (counts_head s n t x r C E A B) as (x' & r' & E' & A' & B'). destruct (CombinedProps.count_plain _ x' r' E' A' B') as [-> _].
    now apply unsigned_counts.
  - cbn [append count_of]. now apply unsigned_counts.
  - cbn [append count_of]. now rewrite (unsigned_counts s n t C D Ne).
Qed.

(** The converse. *)
Lemma unsigned_counts_inv s n r : unsigned s = (n, r) -> exists c, counts c n /\ s = (c ++ r)%string.
Proof.
  intros H. destruct (unsigned_inv _ _ _ H) as [(-> & -> & _)|(ds & D & -> & -> & _)].
  - exists "". split; [constructor|reflexivity].
  - exists (numeral ds). split; [now constructor|reflexivity].
Qed.
Lemma count_inv rule n r : count_of rule = (n, r) -> exists c, counts_signed c n /\ rule = (c ++ r)%string.
Proof.
  destruct rule as [|x s]; [cbn; intros [= <- <-]; exists ""; split; [do 2 constructor|reflexivity]|].
  destruct (Ascii.eqb_spec x "-") as [->|N1]; [|destruct (Ascii.eqb_spec x "+") as [->|N2]].
  - cbn [count_of]. destruct (unsigned s) as [m r'] eqn:U. intros [= <- <-]. destruct (unsigned_counts_inv _ _ _ U) as (c & C & ->).
    exists (String "-" c). split; [now constructor|reflexivity].
  - cbn [count_of]. intros U. destruct (unsigned_counts_inv _ _ _ U) as (c & C & ->).
    exists (String "+" c). split; [now constructor|reflexivity].
  - destruct (CombinedProps.count_plain _ x s eq_refl N1 N2) as [-> _]. intros U. destruct (unsigned_counts_inv _ _ _ U) as (c & C & E).
    exists c. split; [now constructor|exact E].
Qed.
Lemma alookup_pair k (l : list (string * Z)) v : alookup k l = Some v -> In (k, v) l.
Proof.
  induction l as [|[k' v'] l IH]; cbn; [discriminate|]. destruct (String.eqb_spec k k') as [->|]; [intros [= ->]; auto|auto].
Qed.
Lemma named_calendar_inv n name suffix o : named n name suffix = Ok o -> ~ is_tick o ->
  calendar n (match suffix with None => name | Some x => (name ++ "-" ++ x)%string end) o.
Proof.
  intros H T. unfold named in H. cbn [existsb] in H. rewrite !orb_false_r in H.
  repeat match type of H with context [String.eqb name ?x] => destruct (String.eqb_spec name x) as [->|]; cbn [orb] in H end;
    destruct suffix as [x|]; try discriminate H; try (injection H as <-; cbn in T; tauto);
    try (injection H as <-; constructor; cbn; tauto).
  all: try (destruct (alookup x weekday_codes) eqn:E; [|discriminate H]; injection H as <-; apply alookup_pair in E; now constructor).
  all: try (destruct (alookup x month_codes) eqn:E; [|discriminate H]; injection H as <-; apply alookup_pair in E;
    first [now apply cal_quarter_end_in|now apply cal_quarter_start_in
          |apply (cal_year_end_in n "A-" x); cbn; tauto|apply (cal_year_end_in n "Y-" x); cbn; tauto
          |apply (cal_year_start_in n "AS-" x); cbn; tauto|apply (cal_year_start_in n "YS-" x); cbn; tauto]).
  all: exfalso; destruct name as [|[[] [] [] [] [] [] [] []] ?]; try discriminate H;
    match type of H with context [if ?b then _ else _] => destruct b; discriminate H end.
Qed.
Lemma split_two s : forall a b, split "-" s = [a; b] -> s = (a ++ "-" ++ b)%string.
Proof.
  induction s as [|c s IH]; intros a b; cbn; [discriminate|].
  destruct (Ascii.eqb_spec c "-") as [->|N].
  - intros [= <- E]. apply split_one in E as ->. reflexivity.
  - destruct (split "-" s) as [|w [|w' [|? ?]]] eqn:E; try discriminate. intros [= <- <-]. cbn. f_equal. now apply IH.
Qed.
Lemma combined_tick rule o : combined rule = Ok o -> is_tick o.
Proof.
  unfold combined. intros H.
  repeat match type of H with context [match ?x with _ => _ end] => destruct x; try discriminate end; injection H as <-; exact I.
Qed.
Lemma rules_inv rule o : to_offset rule = Ok o -> ~ is_tick o -> exists c n t, counts_signed c n /\ calendar n t o /\ rule = (c ++ t)%string.
Proof.
  unfold to_offset. destruct (count_of rule) as [n r] eqn:C. intros H T. destruct (count_inv _ _ _ C) as (c & Cc & E).
  exists c, n, r. split; [exact Cc|]. split; [|exact E]. clear C E Cc.
  destruct (split "-" r) as [|a [|b [|? ?]]] eqn:S; try discriminate.
  - apply split_one in S as ->. destruct (named n a None) as [o'|e] eqn:N.
    + injection H as ->. exact (named_calendar_inv n a None o N T).
    + destruct e; try discriminate. now apply combined_tick in H.
  - apply split_two in S as ->. exact (named_calendar_inv n a (Some b) o H T).
Qed.
