(** Proofs about rules that combine ticks (C101). *)
From Coq Require Import String Ascii List ZArith Lia Bool.
From Verif Require Import Base Regex Civil Offsets Spec_Combined.
Import ListNotations.
Local Open Scope string_scope.
Local Open Scope list_scope.
Local Open Scope Z_scope.

Lemma digit_of d : (d < 10)%nat -> digit (ascii_of_nat (48 + d)) = Some d.
Proof. intros H. do 10 (destruct d as [|d]; [reflexivity|]). lia. Qed.
Lemma digit_inv c d : digit c = Some d -> (d < 10)%nat /\ c = ascii_of_nat (48 + d).
Proof.
  unfold digit. destruct ((48 <=? nat_of_ascii c)%nat && (nat_of_ascii c <=? 57)%nat) eqn:E; [|discriminate]. intros [= <-].
  apply andb_true_iff in E as [E1 E2]. apply Nat.leb_le in E1, E2. split; [lia|].
  replace (48 + (nat_of_ascii c - 48))%nat with (nat_of_ascii c) by lia. symmetry. apply ascii_nat_embedding.
Qed.

Definition no_digit (s : string) : Prop := match s with String c _ => digit c = None | EmptyString => True end.
Definition no_letter (s : string) : Prop := match s with String c _ => letter c = false | EmptyString => True end.
Notation val := (fold_left (fun z d => 10 * z + Z.of_nat d)).

Lemma take_numeral ds acc s : Forall (fun d => d < 10)%nat ds -> no_digit s -> take_digits acc (numeral ds ++ s) = (val ds acc, s).
Proof.
  intros F N. revert acc. induction F as [|d ds D F IH]; intros acc.
  - cbn. destruct s as [|c s]; [reflexivity|]. cbn in *. now rewrite N.
  - change (numeral (d :: ds) ++ s)%string with (String (ascii_of_nat (48 + d)) (numeral ds ++ s)%string).
    cbn [take_digits]. rewrite (digit_of d D). cbn [fold_left]. apply IH.
Qed.
Lemma take_inv s acc z r : take_digits acc s = (z, r) ->
  exists ds, Forall (fun d => d < 10)%nat ds /\ s = (numeral ds ++ r)%string /\ z = val ds acc /\ no_digit r.
Proof.
  revert acc. induction s as [|c s IH]; intros acc; cbn [take_digits].
  - intros [= <- <-]. exists []. repeat split; constructor.
  - destruct (digit c) as [d|] eqn:D.
    + intros H. destruct (IH _ H) as (ds & F & -> & V & N). destruct (digit_inv c d D) as [L ->].
      exists (d :: ds). repeat split; auto.
    + intros [= <- <-]. exists []. repeat split; auto.
Qed.

Lemma unit_iff name len : unit_of name len <-> tick_length name = Some len.
Proof.
  split; [intros []; reflexivity|]. unfold tick_length. cbn [alookup].
  repeat match goal with |- context [String.eqb name ?x] => destruct (String.eqb_spec name x) as [->|] end;
    intros [= <-]; constructor.
Qed.
Lemma letters_unit name len r : unit_of name len -> no_letter r -> take_letters (name ++ r) = (name, r).
Proof.
  intros U N. assert (E : take_letters r = (EmptyString, r)).
  { destruct r as [|c r]; [reflexivity|]. cbn in *. now rewrite N. }
  destruct U; cbn [append take_letters letter]; rewrite E; reflexivity.
Qed.
Lemma letters_inv s w r : take_letters s = (w, r) -> s = (w ++ r)%string /\ no_letter r.
Proof.
  revert w r. induction s as [|c s IH]; intros w r; cbn [take_letters].
  - intros [= <- <-]. split; [reflexivity|exact I].
  - destruct (letter c) eqn:L.
    + destruct (take_letters s) as [w' r']. intros [= <- <-]. destruct (IH _ _ eq_refl) as [-> N]. auto.
    + intros [= <- <-]. cbn. auto.
Qed.

Lemma numeral_head ds s : decimal ds -> exists c d s', (numeral ds ++ s)%string = String c s' /\ digit c = Some d.
Proof.
  intros [N F]. destruct F as [|d ds D F]; [congruence|].
  exists (ascii_of_nat (48 + d)), d, (numeral ds ++ s)%string. split; [reflexivity|now apply digit_of].
Qed.
Lemma numeral_ne ds s : decimal ds -> (numeral ds ++ s)%string <> ""%string.
Proof. intros D. destruct (numeral_head ds s D) as (c & d & s' & -> & _). discriminate. Qed.
Lemma says_head s z : says s z -> exists c d s', s = String c s' /\ digit c = Some d.
Proof. intros [ds name len D _|ds name len s' z' D _ _]; now apply numeral_head. Qed.
Lemma digit_not_letter c d : digit c = Some d -> letter c = false.
Proof. intros H. apply digit_inv in H as [L ->]. do 10 (destruct d as [|d]; [reflexivity|]). lia. Qed.
Lemma says_no_letter s z : says s z -> no_letter s.
Proof. intros H. destruct (says_head s z H) as (c & d & s' & -> & D). cbn. now apply (digit_not_letter c d). Qed.

Lemma unsigned_numeral ds s : decimal ds -> no_digit s -> unsigned (numeral ds ++ s) = (number ds, s).
Proof.
  intros D N. pose proof (take_numeral ds 0 s (proj2 D) N) as T.
  destruct (numeral_head ds s D) as (c & d & s' & E & Dg). rewrite E in *. cbn [unsigned]. now rewrite Dg.
Qed.
Lemma unit_no_digit name len s : unit_of name len -> no_digit (name ++ s).
Proof. intros []; reflexivity. Qed.
Lemma length_app a b : String.length (a ++ b) = (String.length a + String.length b)%nat.
Proof. induction a; cbn; auto. Qed.
Lemma unit_length name len : unit_of name len -> (1 <= String.length name)%nat.
Proof. intros []; cbn; lia. Qed.
Lemma app_nil s : (s ++ "")%string = s.
Proof. induction s as [|c s IH]; cbn; [reflexivity|now rewrite IH]. Qed.
Lemma app_assoc' a b c : ((a ++ b) ++ c)%string = (a ++ b ++ c)%string.
Proof. induction a as [|x a IH]; cbn; [reflexivity|now rewrite IH]. Qed.

(** One step of the sum. *)
Lemma sum_step fuel s n name len rest : s <> "" -> unsigned s = (n, (name ++ rest)%string) -> unit_of name len -> no_letter rest ->
  ticks_sum (Datatypes.S fuel) s = match ticks_sum fuel rest with Some z => Some (n * len + z) | None => None end.
Proof.
  intros Ne U Un N. destruct s as [|c s]; [congruence|]. cbn [ticks_sum]. rewrite U, (letters_unit name len rest Un N).
  apply unit_iff in Un. now rewrite Un.
Qed.
Lemma sum_nil fuel : ticks_sum fuel "" = Some 0.
Proof. destruct fuel; reflexivity. Qed.

Lemma sum_says s z : says s z -> forall fuel, (String.length s <= fuel)%nat -> ticks_sum fuel s = Some z.
Proof.
  induction 1 as [ds name len D U|ds name len s z D U H IH]; intros fuel L.
  - pose proof (unit_length name len U). rewrite length_app in L. destruct fuel as [|fuel]; [lia|].
    assert (E : unsigned (numeral ds ++ name) = (number ds, (name ++ "")%string)).
    { rewrite app_nil. apply unsigned_numeral; [exact D|]. rewrite <- (app_nil name). now apply (unit_no_digit name len). }
    rewrite (sum_step fuel _ _ _ len _ (numeral_ne ds name D) E U I), sum_nil.
    f_equal. lia.
  - pose proof (unit_length name len U). rewrite !length_app in L. destruct fuel as [|fuel]; [lia|].
    assert (E : unsigned (numeral ds ++ name ++ s) = (number ds, (name ++ s)%string)).
    { apply unsigned_numeral; [exact D|]. now apply (unit_no_digit name len). }
    rewrite (sum_step fuel _ _ _ len _ (numeral_ne ds _ D) E U (says_no_letter s z H)).
    rewrite IH by lia. reflexivity.
Qed.
Lemma unit_head name len : unit_of name len -> exists c s, name = String c s /\ digit c = None /\ c <> "-"%char /\ c <> "+"%char.
Proof. intros []; repeat eexists; discriminate. Qed.
Lemma sum_bare s z : says_bare s z -> ticks_sum (String.length s) s = Some z.
Proof.
  intros [s' z' H|name len U|name len s' z' U H].
  - now apply sum_says.
  - destruct U; reflexivity.
  - rewrite length_app.
    assert (E : unsigned (name ++ s') = (1, (name ++ s')%string)) by (destruct U; reflexivity).
    assert (Ne : (name ++ s')%string <> ""%string) by (destruct U; discriminate).
    pose proof (unit_length name len U). destruct (String.length name) as [|k] eqn:K; [lia|]. cbn [Nat.add].
    rewrite (sum_step _ _ _ _ len _ Ne E U (says_no_letter s' z' H)).
    rewrite (sum_says s' z' H) by lia. f_equal. lia.
Qed.

(** No signs in the text. *)
Definition plain_text (s : string) : Prop := existsb (Ascii.eqb "-") (list_ascii_of_string s) = false.
Lemma plain_app a b : plain_text a -> plain_text b -> plain_text (a ++ b).
Proof.
  unfold plain_text. intros A B. induction a as [|c a IH]; cbn in *; [exact B|].
  apply orb_false_iff in A as [A1 A2]. now rewrite A1, IH.
Qed.
Lemma plain_numeral ds : Forall (fun d => d < 10)%nat ds -> plain_text (numeral ds).
Proof.
  induction 1 as [|d ds D F IH]; [reflexivity|]. change (numeral (d :: ds)) with (String (ascii_of_nat (48 + d)) (numeral ds)).
  unfold plain_text in *. cbn [list_ascii_of_string existsb]. rewrite IH, orb_false_r.
  clear - D. do 10 (destruct d as [|d]; [reflexivity|]). lia.
Qed.
Lemma plain_unit name len : unit_of name len -> plain_text name.
Proof. intros []; reflexivity. Qed.
Lemma plain_says s z : says s z -> plain_text s.
Proof. induction 1 as [ds name len [_ D] U|ds name len s z [_ D] U H IH]; eauto using plain_app, plain_numeral, plain_unit. Qed.
Lemma split_plain_text s : plain_text s -> split "-" s = [s].
Proof.
  unfold plain_text. induction s as [|c s IH]; [reflexivity|]. cbn [split list_ascii_of_string existsb]. intros H. apply orb_false_iff in H as [H1 H2].
  rewrite Ascii.eqb_sym in H1. rewrite H1, (IH H2). reflexivity.
Qed.

Lemma named_unit n name len : unit_of name len -> named n name None = Ok (OTick (n * len)).
Proof. intros []; cbn; rewrite ?Z.mul_1_r; reflexivity. Qed.
Lemma named_more n name len s z : unit_of name len -> says s z -> named n (name ++ s) None = Err EInvalid.
Proof.
  intros U H. destruct (says_head s z H) as (c & d & s' & -> & D). apply digit_inv in D as [L ->].
  destruct U; do 10 (destruct d as [|d]; [reflexivity|]); lia.
Qed.

(** What is left after the first number. *)
Lemma bare_start s z : says_bare s z -> exists n name len, unit_of name len /\
  ((unsigned s = (n, name) /\ z = n * len) \/ (exists s' z', unsigned s = (n, (name ++ s')%string) /\ says s' z' /\ z = n * len + z')).
Proof.
  assert (Full : forall s z, says s z -> exists n name len, unit_of name len /\
  ((unsigned s = (n, name) /\ z = n * len) \/ (exists s' z', unsigned s = (n, (name ++ s')%string) /\ says s' z' /\ z = n * len + z'))).
  { clear. intros s z [ds name len D U|ds name len s' z' D U H]; exists (number ds), name, len; (split; [exact U|]).
    - left. split; [|reflexivity]. apply unsigned_numeral; [exact D|]. rewrite <- (app_nil name). now apply (unit_no_digit name len).
    - right. exists s', z'. split; [|auto]. apply unsigned_numeral; [exact D|]. now apply (unit_no_digit name len). }
  intros [s' z' H|name len U|name len s' z' U H].
  - now apply Full.
  - exists 1, name, len. split; [exact U|]. left. split; [destruct U; reflexivity|lia].
  - exists 1, name, len. split; [exact U|]. right. exists s', z'. split; [destruct U; reflexivity|]. split; [exact H|lia].
Qed.
Lemma bare_head s z : says_bare s z -> exists c s', s = String c s' /\ c <> "-"%char /\ c <> "+"%char.
Proof.
  intros [s' z' H|name len U|name len s' z' U H].
  - destruct (says_head s' z' H) as (c & d & s'' & -> & D). exists c, s''. split; [reflexivity|]. split; intros ->; discriminate.
  - destruct U; repeat eexists; discriminate.
  - destruct U; repeat eexists; discriminate.
Qed.

Definition sign_of (s : string) (sg : Z) : Prop := sg = 1 \/ sg = -1.
Lemma sum_ok sg s z rule : says_bare s z -> count_of rule = (let (n, r) := unsigned s in (sg * n, r)) ->
  combined rule = match ticks_sum (String.length s) s with Some z => Ok (OTick (sg * z)) | None => Err EInvalid end ->
  to_offset rule = Ok (OTick (sg * z)).
Proof.
  intros B C M. unfold to_offset. rewrite C. rewrite (sum_bare s z B) in M.
  destruct (bare_start s z B) as (n & name & len & U & [[E ->]|(s' & z' & E & H & ->)]); rewrite E.
  - rewrite (split_plain_text name (plain_unit name len U)), (named_unit _ name len U). do 2 f_equal. lia.
  - rewrite (split_plain_text _ (plain_app _ _ (plain_unit name len U) (plain_says s' z' H))), (named_more _ name len s' z' U H). exact M.
Qed.

Lemma count_plain s c s' : s = String c s' -> c <> "-"%char -> c <> "+"%char ->
  count_of s = unsigned s /\ combined s = match ticks_sum (String.length s) s with Some z => Ok (OTick (1 * z)) | None => Err EInvalid end.
Proof.
  intros -> A B. destruct c as [[] [] [] [] [] [] [] []]; try (split; reflexivity); exfalso; now (apply A || apply B).
Qed.
Lemma signed_ok s z : says_signed s z -> to_offset s = Ok (OTick z).
Proof.
  intros [s' z' H|s' z' H|s' z' H].
  - destruct (bare_head s' z' H) as (c & t & E & A & B). destruct (count_plain s' c t E A B) as [C M].
    rewrite (sum_ok 1 s' z' s' H); [repeat f_equal; lia| |exact M]. rewrite C. destruct (unsigned s') as [n r]. f_equal. lia.
  - rewrite (sum_ok 1 s' z' _ H); [f_equal; f_equal; lia| |reflexivity].
    cbn [count_of]. destruct (unsigned s') as [n r]. f_equal. lia.
  - rewrite (sum_ok (-1) s' z' _ H); [f_equal; f_equal; lia| |reflexivity].
    cbn [count_of]. destruct (unsigned s') as [n r]. f_equal; lia.
Qed.

(** The converse. *)
Lemma unsigned_inv s n r : unsigned s = (n, r) -> (n = 1 /\ s = r /\ no_digit r) \/ exists ds, decimal ds /\ s = (numeral ds ++ r)%string /\ n = number ds /\ no_digit r.
Proof.
  destruct s as [|c s]; cbn [unsigned]; [intros [= <- <-]; left; cbn; auto|].
  destruct (digit c) as [d|] eqn:D; [|intros [= <- <-]; left; cbn; auto].
  intros H. right. destruct (take_inv _ _ _ _ H) as (ds & F & E & V & N). exists ds. repeat split; auto.
  intros ->. cbn in E. subst r. cbn in N. congruence.
Qed.
Lemma sum_inv fuel s z : ticks_sum fuel s = Some z -> (s = "" /\ z = 0) \/ says_bare s z.
Proof.
  revert s z. induction fuel as [|fuel IH]; intros s z H.
  - destruct s; [left; injection H as <-; auto|discriminate].
  - destruct s as [|c s]; [left; injection H as <-; auto|]. right. cbn [ticks_sum] in H. remember (String c s) as t eqn:Et. clear Et c s.
    destruct (unsigned t) as [n r] eqn:U. destruct (take_letters r) as [name rest] eqn:T.
    destruct (tick_length name) as [len|] eqn:L; [|discriminate]. destruct (ticks_sum fuel rest) as [z'|] eqn:S; [|discriminate].
    injection H as <-. apply unit_iff in L. apply letters_inv in T as [-> NL].
    assert (R : (rest = "" /\ z' = 0) \/ says rest z').
    { destruct (IH rest z' S) as [R|R]; [now left|]. right. destruct R as [s' z'' R|nm ln R|nm ln s' z'' R _]; [exact R| |]; destruct R; discriminate. }
    clear S IH. destruct (unsigned_inv _ _ _ U) as [(-> & -> & _)|(ds & D & -> & -> & _)].
    + destruct R as [[-> ->]|R].
      * rewrite app_nil. replace (1 * len + 0) with len by lia. now apply bare_one.
      * replace (1 * len) with len by lia. now apply bare_more.
    + apply bare_full. destruct R as [[-> ->]|R].
      * rewrite app_nil. replace (number ds * len + 0) with (number ds * len) by lia. now apply says_one.
      * now apply says_more.
Qed.
Lemma combined_inv rule z : combined rule = Ok (OTick z) -> rule = "" \/ rule = "+" \/ rule = "-" \/ says_signed rule z.
Proof.
  assert (P : forall sg s, match ticks_sum (String.length s) s with Some z => Ok (OTick (sg * z)) | None => Err EInvalid end = Ok (OTick z) ->
    s = "" \/ exists z', z = sg * z' /\ says_bare s z').
  { intros sg s H. destruct (ticks_sum (String.length s) s) as [z'|] eqn:S; [|discriminate]. injection H as <-.
    destruct (sum_inv _ _ _ S) as [[-> _]|B]; eauto. }
  destruct rule as [|c s]; [now left|].
  destruct (Ascii.eqb_spec c "-") as [->|N1]; [|destruct (Ascii.eqb_spec c "+") as [->|N2]].
  - cbn [combined]. intros H. destruct (P (-1) s H) as [->|(z' & -> & B)]; [auto|]. right. right. right.
    replace (-1 * z') with (- z') by lia. now apply signed_minus.
  - cbn [combined]. intros H. destruct (P 1 s H) as [->|(z' & -> & B)]; [auto|]. right. right. right.
    replace (1 * z') with z' by lia. now apply signed_plus.
  - destruct (count_plain _ c s eq_refl N1 N2) as [_ ->]. intros H. destruct (P 1 _ H) as [E|(z' & -> & B)]; [discriminate|].
    right. right. right. replace (1 * z') with z' by lia. now apply signed_none.
Qed.

Lemma named_inv n name z suffix : named n name suffix = Ok (OTick z) -> suffix = None /\ exists len, unit_of name len /\ z = n * len.
Proof.
  unfold named. cbn [existsb]. rewrite !orb_false_r.
  repeat match goal with
    | |- context [String.eqb name ?x] => destruct (String.eqb_spec name x) as [->|]; cbn [orb]
    end; destruct suffix as [x|]; try discriminate;
    try (intros [= <-]; split; [reflexivity|]; eexists; split; [constructor|lia]);
    try (destruct (alookup x _); discriminate).
  all: destruct name as [|[[] [] [] [] [] [] [] []] ?]; try discriminate;
    match goal with |- context [if ?b then _ else _] => destruct b; discriminate end.
Qed.
Lemma split_one s w : split "-" s = [w] -> s = w.
Proof.
  revert w. induction s as [|c s IH]; intros w; cbn; [intros [= <-]; reflexivity|].
  destruct (Ascii.eqb c "-").
  - destruct s as [|c' s]; cbn; [discriminate|]. destruct (Ascii.eqb c' "-"); [discriminate|]. destruct (split "-" s); discriminate.
  - destruct (split "-" s) as [|w' [|? ?]] eqn:E; [| |discriminate].
    + destruct s as [|c' s]; [discriminate|]. cbn in E. destruct (Ascii.eqb c' "-"); [discriminate|]. destruct (split "-" s); discriminate.
    + intros [= <-]. f_equal. now apply IH.
Qed.
Lemma bare_of_count s n name len : unsigned s = (n, name) -> unit_of name len -> says_bare s (n * len).
Proof.
  intros U Un. destruct (unsigned_inv _ _ _ U) as [(-> & -> & _)|(ds & D & -> & -> & _)].
  - replace (1 * len) with len by lia. now apply bare_one.
  - apply bare_full. now apply says_one.
Qed.
Lemma to_offset_inv rule z : to_offset rule = Ok (OTick z) -> says_signed rule z.
Proof.
  unfold to_offset. destruct (count_of rule) as [n r] eqn:C.
  destruct (split "-" r) as [|a [|b [|? ?]]] eqn:S; try discriminate.
  2: { intros H. apply named_inv in H as [H _]. discriminate. }
  apply split_one in S as ->. intros H.
  assert (K : (exists len, unit_of a len /\ z = n * len) \/ (named n a None = Err EInvalid /\ combined rule = Ok (OTick z))).
  { destruct (named n a None) as [o|e] eqn:N.
    - left. injection H as ->. now apply named_inv in N as [_ N].
    - destruct e; try discriminate. right. auto. }
  destruct K as [(len & U & ->)|[N M]].
  - destruct rule as [|c s]; [cbn in C; injection C as <- <-; inversion U|].
    destruct (Ascii.eqb_spec c "-") as [->|N1]; [|destruct (Ascii.eqb_spec c "+") as [->|N2]].
    + cbn [count_of] in C. destruct (unsigned s) as [m r] eqn:Us. injection C as <- <-.
      replace (- m * len) with (- (m * len)) by lia. apply signed_minus. now apply (bare_of_count s m r).
    + cbn [count_of] in C. apply signed_plus. now apply (bare_of_count s n a).
    + destruct (count_plain _ c s eq_refl N1 N2) as [E _]. rewrite E in C. apply signed_none. now apply (bare_of_count _ n a).
  - destruct (combined_inv rule z M) as [->|[->|[->|B]]]; [| | |exact B];
      cbn in C; injection C as <- <-; discriminate.
Qed.

Lemma says_app s t z u : says s z -> says t u -> says (s ++ t) (z + u).
Proof.
  intros H T. induction H as [ds name len D U|ds name len s z D U H IH].
  - rewrite app_assoc'. now apply says_more.
  - rewrite !app_assoc'. replace (number ds * len + z + u) with (number ds * len + (z + u)) by lia. now apply says_more.
Qed.
Lemma order_ok s t z u : says s z -> says t u -> to_offset (s ++ t) = to_offset (t ++ s) /\ to_offset (s ++ t) = Ok (OTick (z + u)).
Proof.
  intros S T. rewrite (signed_ok _ _ (signed_none _ _ (bare_full _ _ (says_app s t z u S T)))),
    (signed_ok _ _ (signed_none _ _ (bare_full _ _ (says_app t s u z T S)))). split; [|reflexivity]. do 2 f_equal. lia.
Qed.
