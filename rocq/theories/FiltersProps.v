(** Proofs about [Filters.v] and [Regex.v]. *)
From Coq Require Import String Ascii List ZArith Bool Lia Arith Permutation DecimalString DecimalNat.
From Verif Require Import Base Regex Filters Spec_Filters.
Import ListNotations.
Local Open Scope string_scope.
Local Open Scope list_scope.

(** ** Strings *)
Lemma sapp_nil s : (s ++ "")%string = s.
Proof. induction s; cbn; congruence. Qed.
Lemma sapp_assoc a b c : ((a ++ b) ++ c)%string = (a ++ b ++ c)%string.
Proof. induction a; cbn; congruence. Qed.
Lemma slen_app a b : String.length (a ++ b) = String.length a + String.length b.
Proof. induction a; cbn; congruence. Qed.
Lemma lst_app a b : list_ascii_of_string (a ++ b) = list_ascii_of_string a ++ list_ascii_of_string b.
Proof. induction a; cbn; congruence. Qed.

(** ** The pattern *)
Definition esc1 (c : ascii) : string :=
  match c with
  | "|"%char => "\|" | "."%char => "\." | "*"%char => ".*" | "+"%char => "\+" | "("%char => "\("
  | ")"%char => "\)" | "$"%char => "\$"
  | _ => String c ""
  end.
Fixpoint escs (s : string) : string := match s with "" => "" | String c s' => (esc1 c ++ escs s')%string end.

Lemma replace_app c w a b : replace_char c w (a ++ b) = (replace_char c w a ++ replace_char c w b)%string.
Proof. induction a as [|x a IH]; cbn; auto. destruct (Ascii.eqb x c); rewrite IH; auto. now rewrite sapp_assoc. Qed.

Lemma pseudo_eq s : pseudo_regexp s = (escs s ++ "$")%string.
Proof.
  unfold pseudo_regexp. f_equal. induction s as [|c s IH]; auto.
  change (String c s) with (String c "" ++ s)%string at 1. rewrite !replace_app. rewrite IH. cbn [escs]. f_equal.
  clear. destruct c as [[] [] [] [] [] [] [] []]; reflexivity.
Qed.

Fixpoint tr (s : string) : re :=
  match s with
  | "" => RSeq REol REps
  | String c s' => RSeq (if Ascii.eqb c "*" then repeat_re RAny 0 None else RChr c) (tr s')
  end.

Lemma plain_cons c p : plain (String c p) -> ~ In c unescaped /\ plain p.
Proof.
  intros P. split.
  - intros H. apply (P c H). unfold occurs. cbn. auto.
  - intros x H O. apply (P x H). unfold occurs in *. cbn. auto.
Qed.

Lemma quant_none s rest : plain s -> quantifier (escs s ++ String "$" rest) = None.
Proof.
  destruct s as [|c s]; [reflexivity|]. intros P. apply plain_cons in P as [P _]. cbn [escs].
  destruct c as [[] [] [] [] [] [] [] []]; try reflexivity; exfalso; apply P; cbn; tauto.
Qed.

Lemma no_lazy rest : quantifier rest = None -> match rest with String "?" x => x | _ => rest end = rest.
Proof.
  destruct rest as [|c r]; auto. destruct c as [[] [] [] [] [] [] [] []]; auto; discriminate.
Qed.

Lemma parse_step f c rest : ~ In c unescaped -> quantifier rest = None ->
  parse_seq (S f) (esc1 c ++ rest) =
  match parse_seq f rest with
  | Some (r, x) => Some (RSeq (if Ascii.eqb c "*" then repeat_re RAny 0 None else RChr c) r, x)
  | None => None
  end.
Proof.
  intros P Q. pose proof (no_lazy rest Q) as L.
  destruct c as [[] [] [] [] [] [] [] []]; try (exfalso; apply P; cbn; tauto);
    cbn [esc1 String.append parse_seq class_escape is_alnum in_set existsb quantifier];
    try (rewrite ?L, Q; reflexivity).
Qed.

Lemma parse_tr s : plain s -> forall f, (String.length s + 2 <= f)%nat ->
  parse_seq f (escs s ++ "$") = Some (tr s, "").
Proof.
  induction s as [|c s IH]; intros P f F.
  - destruct f as [|[|f]]; cbn in F; try lia. reflexivity.
  - destruct f as [|f]; [lia|]. cbn [escs]. rewrite sapp_assoc.
    apply plain_cons in P as [P1 P2]. rewrite parse_step; auto.
    + rewrite IH; auto. cbn in F. lia.
    + now apply quant_none.
Qed.

Lemma escs_len s : (String.length s <= String.length (escs s))%nat.
Proof.
  induction s as [|c s IH]; cbn; auto. rewrite slen_app.
  enough (1 <= String.length (esc1 c))%nat by lia. destruct c as [[] [] [] [] [] [] [] []]; cbn; lia.
Qed.

Lemma compile_plain s : plain s -> re_compile (pseudo_regexp s) = Some (tr s).
Proof.
  intros P. unfold re_compile. rewrite pseudo_eq. cbn [parse_alt].
  rewrite parse_tr; auto. rewrite slen_app. cbn. pose proof (escs_len s). lia.
Qed.

(** ** Matching *)
Definition nonl (u : string) : Prop := one_line u.

Lemma nonl_cons c u : nonl (String c u) <-> c <> newline /\ nonl u.
Proof.
  unfold nonl, one_line, occurs. cbn. split.
  - intros H. split; [intros ->; tauto|tauto].
  - intros [H1 H2] [E|E]; [congruence|tauto].
Qed.

Lemma any_star n : forall f s, (String.length s <= f)%nat ->
  forall x, In x ((fix star (fuel : nat) (s : string) : list string :=
       s :: match fuel with
            | O => []
            | S fuel' =>
              flat_map (fun s' => if (String.length s' <? String.length s)%nat then star fuel' s' else [])
                       (rests RAny n s)
            end) f s) <-> exists u, s = (u ++ x)%string /\ nonl u.
Proof.
  induction f as [|f IH]; intros s L x.
  - destruct s; [|cbn in L; lia]. cbn. split.
    + intros [<-|[]]. exists "". split; auto. now intros [].
    + intros ([|] & E & _); [auto|discriminate].
  - cbn [In]. destruct s as [|c s].
    + cbn. split.
      * intros [<-|[]]. exists "". split; auto. now intros [].
      * intros ([|] & E & _); [auto|discriminate].
    + cbn [rests]. change Regex.newline with newline. destruct (Ascii.eqb_spec c newline).
      * subst c. cbn [flat_map In]. split.
        -- intros [<-|[]]. exists "". split; auto. now intros [].
        -- intros ([|d u] & E & H); [auto|]. cbn in E. injection E as <- _. apply nonl_cons in H as [H _]. congruence.
      * cbn [flat_map]. rewrite app_nil_r.
        replace (String.length s <? String.length (String c s))%nat with true
          by (symmetry; apply Nat.ltb_lt; cbn; lia).
        rewrite IH by (cbn in L; lia). split.
        -- intros [<-|(u & E & H)].
           ++ exists "". split; auto. now intros [].
           ++ exists (String c u). subst s. split; auto. apply nonl_cons. auto.
        -- intros ([|d u] & E & H); [left; auto|]. right. cbn in E. injection E as <- E. exists u. split; auto.
           now apply nonl_cons in H.
Qed.

Lemma rests_any_star n s x : In x (rests (repeat_re RAny 0 None) n s) <-> exists u, s = (u ++ x)%string /\ nonl u.
Proof.
  unfold repeat_re. cbn [times rests]. cbn [flat_map]. rewrite app_nil_r. exact (any_star n _ _ (le_n _) x).
Qed.

Lemma in_chr c x : in_set x [(c, c)] = Ascii.eqb x c.
Proof.
  unfold in_set. cbn. rewrite orb_false_r. unfold in_range. cbn [fst snd].
  destruct (Ascii.eqb_spec x c) as [->|N].
  - apply andb_true_intro. split; apply Nat.leb_refl.
  - apply not_true_is_false. intros H. apply andb_prop in H as [H1 H2].
    apply Nat.leb_le in H1, H2. apply N.
    rewrite <- (ascii_nat_embedding x), <- (ascii_nat_embedding c). f_equal. lia.
Qed.

Lemma wild_cons_inv text c p v : c <> "*"%char -> wild text (String c p) v <->
  exists v', v = String c v' /\ wild text p v'.
Proof.
  intros N. split.
  - inversion 1; subst; [eauto|congruence].
  - intros (v' & -> & W). now constructor.
Qed.
Lemma wild_star_inv text p v : wild text (String "*" p) v <-> exists u v', v = (u ++ v')%string /\ text u /\ wild text p v'.
Proof.
  split.
  - inversion 1; subst; [congruence|]. eauto.
  - intros (u & v' & -> & T & W). now constructor.
Qed.
Lemma wild_nil_inv text v : wild text "" v <-> v = "".
Proof. split; [now inversion 1|intros ->; constructor]. Qed.


Lemma rests_tr n p : forall v, (exists x, In x (rests (tr p) n v)) <-> line_end p v.
Proof.
  induction p as [|c p IH]; intros v.
  - unfold line_end. cbn [tr rests]. change Regex.newline with newline.
    destruct (String.eqb_spec v ""); [|destruct (String.eqb_spec v (String newline ""))]; cbn [orb flat_map app].
    + subst. split; [left; constructor|]. intros _. exists "". now left.
    + subst. split; [right; exists ""; split; auto; constructor|]. intros _. eexists. now left.
    + split; [intros [x []]|]. intros [H|(v' & E & H)]; apply wild_nil_inv in H; subst; contradiction.
  - cbn [tr]. cbn [rests]. destruct (Ascii.eqb_spec c "*").
    + subst c. unfold line_end. split.
      * intros (x & H). apply in_flat_map in H as (w & H1 & H2). apply rests_any_star in H1 as (u & -> & U).
        destruct (proj1 (IH w)) as [W|(v' & -> & W)]; [eauto| |].
        -- left. now constructor.
        -- right. exists (u ++ v')%string. rewrite sapp_assoc. split; auto. now constructor.
      * intros [W|(v' & -> & W)]; apply wild_star_inv in W as (u & w & -> & U & W).
        -- destruct (proj2 (IH w)) as (x & X); [now left|]. exists x. apply in_flat_map. exists w. split; auto.
           apply rests_any_star. eauto.
        -- destruct (proj2 (IH (w ++ String newline "")%string)) as (x & X); [right; eauto|].
           exists x. apply in_flat_map. exists (w ++ String newline "")%string. split; auto.
           apply rests_any_star. exists u. now rewrite sapp_assoc.
    + unfold line_end. destruct v as [|d v].
      * split; [intros (x & [])|]. intros [W|(v' & E & W)].
        -- apply wild_cons_inv in W as (? & ? & _); auto; discriminate.
        -- destruct v'; discriminate.
      * unfold RChr. cbn [rests xorb]. rewrite in_chr. destruct (Ascii.eqb_spec d c).
        -- subst d. cbn [flat_map]. rewrite app_nil_r. rewrite IH. unfold line_end. split.
           ++ intros [W|(v' & -> & W)]; [left; now constructor|].
              right. exists (String c v'). split; auto. now constructor.
           ++ intros [W|(v' & E & W)]; apply wild_cons_inv in W as (w & E2 & W); auto.
              ** injection E2 as ->. auto.
              ** subst v'. cbn in E. injection E as ->. right. eauto.
        -- split; [intros (x & [])|]. intros [W|(v' & E & W)]; apply wild_cons_inv in W as (w & E2 & W); auto.
           ++ congruence.
           ++ subst v'. cbn in E. congruence.
Qed.

Lemma match_tr p v : re_match (tr p) v = true <-> line_end p v.
Proof.
  unfold re_match. rewrite <- (rests_tr (String.length v)).
  destruct (rests (tr p) (String.length v) v) as [|x l]; split; intros H; auto; try discriminate.
  - destruct H as (? & []).
  - exists x. now left.
Qed.

Lemma occ_app c a b : occurs c (a ++ b) <-> occurs c a \/ occurs c b.
Proof. unfold occurs. rewrite lst_app. apply in_app_iff. Qed.

Lemma wild_weaken (P Q : string -> Prop) p v : (forall u, P u -> Q u) -> wild P p v -> wild Q p v.
Proof. intros H. induction 1; constructor; auto. Qed.
Lemma wild_one_line p v : one_line v -> wild any_text p v -> wild one_line p v.
Proof.
  intros L. induction 1; constructor; auto.
  - apply IHwild. intros O. apply L. unfold occurs in *. cbn. auto.
  - intros O. apply L. apply occ_app. auto.
  - apply IHwild. intros O. apply L. apply occ_app. auto.
Qed.

Lemma line_end_one_line p v : one_line v -> line_end p v <-> wild any_text p v.
Proof.
  intros L. split.
  - intros [W|(v' & -> & W)]; [eapply wild_weaken; [|exact W]; now intros|].
    exfalso. apply L. apply occ_app. right. cbn. now left.
  - intros W. left. now apply wild_one_line.
Qed.

(** ** Columns *)

Lemma rmap_map {A B} (f : A -> res B) (g : A -> B) l : (forall x, In x l -> f x = Ok (g x)) -> rmap f l = Ok (map g l).
Proof.
  induction l as [|a l IH]; intros H; cbn; auto. rewrite H by now left. rewrite IH; auto. intros; apply H; now right.
Qed.

Lemma strs_nan col ss : strs col ss -> replace_nan true col = Ok (map MStr ss).
Proof.
  revert ss. induction col as [|m col IH]; intros [|s ss] H; try discriminate; auto.
  injection H as H1 H2. specialize (IH ss H2). cbn in *.
  destruct m; try discriminate; injection H1 as <-; rewrite IH; auto.
Qed.
Lemma strs_len col ss : strs col ss -> length ss = length col.
Proof. intros H. apply (f_equal (@length _)) in H. now rewrite !map_length in H. Qed.
Lemma rmap_str ss : rmap str_of (map MStr ss) = Ok ss.
Proof. induction ss; cbn; auto. now rewrite IHss. Qed.

Lemma orb_map {A} (f g : A -> bool) l : orb_list (map f l) (map g l) = map (fun x => f x || g x) l.
Proof. induction l; cbn; congruence. Qed.
Lemma andb_map {A} (f g : A -> bool) l : andb_list (map f l) (map g l) = map (fun x => f x && g x) l.
Proof. induction l; cbn; congruence. Qed.

(** The test of one pattern with a level. *)
Definition depth_of (sep : ascii) (p v : string) : Z := count_char sep (remove_all (replace_char "*" "" p) v).
Definition test_of (l : option level) (sep : ascii) (p v : string) : bool :=
  match l with
  | None => true
  | Some l => match level_test l with Ok t => t (depth_of sep p v) | Err _ => true end
  end.
Definition level_ok (l : option level) : Prop := match l with None => True | Some l => exists t, level_test l = Ok t end.

Lemma match_values_eq col ss ps l sep : length ss = length col -> (forall p, In p ps -> plain p) -> level_ok l -> forall f,
  match_values col (map MStr ss) (map MStr ps) l false sep (map f ss) =
  Ok (map (fun v => f v || existsb (fun p => re_match (tr p) v && test_of l sep p v) ps) ss).
Proof.
  intros L P LO. induction ps as [|p ps IH]; intros f; cbn [map match_values].
  - f_equal. apply map_ext. intros. cbn. now rewrite orb_false_r.
  - unfold match_value. rewrite compile_plain by (apply P; now left). rewrite rmap_str. cbn [rbind].
    assert (E : match l with
                | None => Ok (map (re_match (tr p)) ss)
                | Some l0 => rbind (find_depth ss p l0 sep) (fun depth => Ok (andb_list (map (re_match (tr p)) ss) depth))
                end = Ok (map (fun v => re_match (tr p) v && test_of l sep p v) ss)).
    { destruct l as [l|]; cbn.
      - destruct LO as (t & T). unfold find_depth. rewrite T. cbn. rewrite andb_map. reflexivity.
      - f_equal. apply map_ext. intros. now rewrite andb_true_r. }
    rewrite E. cbn [rbind]. rewrite orb_map, IH.
    + f_equal. apply map_ext. intros v. cbn. now rewrite orb_assoc.
    + intros. apply P. now right.
Qed.

Lemma pattern_match_eq col ss ps l sep : strs col ss -> (forall p, In p ps -> plain p) -> level_ok l ->
  pattern_match col (map MStr ps) l false true sep =
  Ok (map (fun v => existsb (fun p => re_match (tr p) v && test_of l sep p v) ps) ss).
Proof.
  intros S P LO. unfold pattern_match. rewrite (strs_nan _ _ S). cbn [rbind].
  replace (map (fun _ => false) col) with (map (fun _ : string => false) ss).
  - rewrite match_values_eq; auto. now apply strs_len.
  - pose proof (strs_len _ _ S) as L. clear - L. revert ss L. induction col; intros [|s ss] L; try discriminate; cbn; auto.
    f_equal. apply IHcol. now injection L.
Qed.

(** C55 *)
Lemma C55_proof col ss ps sep : strs col ss -> (forall p, In p ps -> plain p) ->
  exists bs, pattern_match col (map MStr ps) None false true sep = Ok bs /\ length bs = length col /\
    forall i v, nth_error ss i = Some v ->
      (nth_error bs i = Some true <-> exists p, In p ps /\ line_end p v).
Proof.
  intros S P. rewrite (pattern_match_eq col ss ps None sep S P I). eexists. split; [reflexivity|].
  split; [rewrite map_length; now apply strs_len|]. intros i v Hi.
  rewrite (map_nth_error _ _ _ Hi). split.
  - intros E. injection E as E. apply existsb_exists in E as (p & Hp & E). exists p. split; auto.
    cbn in E. rewrite andb_true_r in E. now apply match_tr.
  - intros (p & Hp & E). f_equal. apply existsb_exists. exists p. split; auto. cbn. rewrite andb_true_r. now apply match_tr.
Qed.

(** ** C56 *)
Lemma count_eq c s : count_char c s = Z.of_nat (separators c s).
Proof.
  unfold separators. induction s as [|x s IH]; auto. cbn [count_char list_ascii_of_string count_occ]. rewrite IH.
  destruct (Ascii.eqb_spec x c), (ascii_dec x c); subst; try contradiction; lia.
Qed.

Lemma strip_prefix_spec a s r : strip_prefix a s = Some r <-> s = (a ++ r)%string.
Proof.
  revert s. induction a as [|c a IH]; intros s; cbn.
  - split; congruence.
  - destruct s as [|d s]; [split; discriminate|]. destruct (Ascii.eqb_spec c d).
    + subst. rewrite IH. split; congruence.
    + split; [discriminate|]. intros E. injection E as -> _. contradiction.
Qed.

Lemma remove_from_absent f old s : ~ contains s old -> remove_from f old s = s.
Proof.
  revert s. induction f as [|f IH]; intros s H; cbn; auto.
  destruct (strip_prefix old s) eqn:E.
  - apply strip_prefix_spec in E. exfalso. apply H. exists "", s0. auto.
  - destruct s as [|c s]; auto. rewrite IH; auto. intros (a & b & ->). apply H. exists (String c a), b. reflexivity.
Qed.
Lemma remove_prefix old rest : old <> "" -> ~ contains rest old -> remove_all old (old ++ rest) = rest.
Proof.
  intros N H. unfold remove_all. destruct old as [|c old]; [congruence|].
  cbn [remove_from]. rewrite (proj2 (strip_prefix_spec _ _ rest)) by auto. now apply remove_from_absent.
Qed.

Lemma replace_star_absent s : ~ occurs "*" s -> replace_char "*" "" s = s.
Proof.
  induction s as [|c s IH]; intros H; cbn; auto. unfold occurs in H. cbn in H.
  destruct (Ascii.eqb_spec c "*"); [tauto|]. now rewrite IH by tauto.
Qed.

Lemma depth_prefix sep p rest : ~ occurs "*" p -> (p <> "" -> ~ contains rest p) ->
  depth_of sep (p ++ "*") (p ++ rest) = Z.of_nat (separators sep rest).
Proof.
  intros H C. unfold depth_of. rewrite replace_app, replace_star_absent by auto. cbn. rewrite sapp_nil.
  rewrite <- count_eq. f_equal. destruct p as [|c p]; auto. apply remove_prefix; [discriminate|]. apply C. discriminate.
Qed.

Lemma depth_exact sep p : ~ occurs "*" p -> depth_of sep p p = Z.of_nat (if String.eqb p "" then 0 else separators sep "").
Proof.
  intros H. unfold depth_of. rewrite replace_star_absent by auto.
  destruct p as [|c p]; [reflexivity|]. cbn [String.eqb].
  rewrite <- (sapp_nil (String c p)) at 2. rewrite remove_prefix; auto; [discriminate|].
  intros (a & b & E). apply (f_equal String.length) in E. rewrite !slen_app in E. cbn in E. lia.
Qed.

Lemma wild_prefix p v : ~ occurs "*" p -> wild any_text (p ++ "*") v <-> exists rest, v = (p ++ rest)%string.
Proof.
  revert v. induction p as [|c p IH]; intros v H; cbn [String.append].
  - rewrite wild_star_inv. split.
    + intros (u & v' & -> & _ & _). eexists. reflexivity.
    + intros (rest & ->). exists rest, "". cbn. rewrite sapp_nil. repeat split. constructor.
  - unfold occurs in H. cbn in H. rewrite wild_cons_inv by tauto. split.
    + intros (v' & -> & W). apply IH in W as (rest & ->); [|tauto]. now exists rest.
    + intros (rest & ->). exists (p ++ rest)%string. split; auto. apply IH; [tauto|]. now exists rest.
Qed.

Lemma tail_mul_spec' n : Nat.tail_mul 10 n = (10 * n)%nat.
Proof. rewrite Nat.tail_mul_spec. reflexivity. Qed.

Lemma digits_uint d : forall acc, digits_value (Z.of_nat acc) (NilEmpty.string_of_uint d) = Some (Z.of_nat (Nat.of_uint_acc d acc)).
Proof.
  induction d; intros acc; cbn [NilEmpty.string_of_uint digits_value Nat.of_uint_acc]; auto;
    match goal with |- context [digit ?c] => let v := eval vm_compute in (digit c) in change (digit c) with v end;
    cbv iota beta; rewrite <- IHd; f_equal; rewrite ?tail_mul_spec'; lia.
Qed.

Lemma decimal_int n : int_of_string (decimal n) = Ok (Z.of_nat n).
Proof.
  assert (E : digits_value 0 (decimal n) = Some (Z.of_nat n)).
  { unfold decimal, NilZero.string_of_uint. pose proof (DecimalNat.Unsigned.of_to n) as E. unfold Nat.of_uint in E.
    change 0%Z with (Z.of_nat 0).
    destruct (Nat.to_uint n) eqn:U; [cbn in E; subst n; discriminate U|..]; rewrite digits_uint, E; reflexivity. }
  unfold int_of_string. destruct (decimal n) as [|c s] eqn:D.
  - exfalso. unfold decimal, NilZero.string_of_uint in D. destruct (Nat.to_uint n); discriminate.
  - destruct c as [[] [] [] [] [] [] [] []]; try (rewrite E; reflexivity); discriminate E.
Qed.
Lemma split_last_app s c : split_last (s ++ String c "") = Some (s, c).
Proof. induction s as [|x s IH]; cbn; auto. now rewrite IH. Qed.

Lemma level_minus n : level_test (LStr (decimal n ++ "-")) = Ok (fun x => (x <=? Z.of_nat n)%Z).
Proof. unfold level_test. rewrite split_last_app. cbn. now rewrite decimal_int. Qed.
Lemma level_plus n : level_test (LStr (decimal n ++ "+")) = Ok (fun x => (Z.of_nat n <=? x)%Z).
Proof. unfold level_test. rewrite split_last_app. cbn. now rewrite decimal_int. Qed.

Lemma says_test l P : level_says l P -> exists t, level_test l = Ok t /\ forall k, t (Z.of_nat k) = true <-> P k.
Proof.
  intros [n|n|n].
  - eexists. split; [reflexivity|]. intros k. rewrite Z.eqb_eq. lia.
  - rewrite level_minus. eexists. split; [reflexivity|]. intros k. cbn. rewrite Z.leb_le. lia.
  - rewrite level_plus. eexists. split; [reflexivity|]. intros k. cbn. rewrite Z.leb_le. lia.
Qed.

Lemma plain_app_star p : plain p -> plain (p ++ "*").
Proof.
  intros P c H O. apply occ_app in O as [O|O]; [now apply (P c)|].
  unfold occurs in O. cbn in O, H. destruct O as [<-|[]]. repeat destruct H as [H|H]; try discriminate. destruct H.
Qed.

Lemma C56_proof col ss p l P sep : strs col ss -> plain p -> ~ occurs "*" p -> level_says l P ->
  (forall v, In v ss -> one_line v) -> (forall rest, p <> "" -> In (p ++ rest)%string ss -> ~ contains rest p) ->
  exists bs, pattern_match col [MStr (p ++ "*")] (Some l) false true sep = Ok bs /\ length bs = length col /\
    forall i v, nth_error ss i = Some v ->
      (nth_error bs i = Some true <-> exists rest, v = (p ++ rest)%string /\ P (separators sep rest)).
Proof.
  intros S PL NS LS OL C. destruct (says_test _ _ LS) as (t & T & TP).
  assert (PS : forall q, In q [(p ++ "*")%string] -> plain q) by (intros q [<-|[]]; now apply plain_app_star).
  change [MStr (p ++ "*")] with (map MStr [(p ++ "*")%string]).
  rewrite (pattern_match_eq col ss _ (Some l) sep S PS) by (cbn; eauto).
  eexists. split; [reflexivity|].
  split; [rewrite map_length; now apply strs_len|]. intros i v Hi.
  rewrite (map_nth_error _ _ _ Hi). cbn [existsb test_of]. rewrite T, orb_false_r.
  pose proof (nth_error_In _ _ Hi) as Hv.
  assert (W : re_match (tr (p ++ "*")) v = true <-> exists rest, v = (p ++ rest)%string)
    by (rewrite match_tr, line_end_one_line by auto; now apply wild_prefix).
  split.
  - intros E. injection E as E. apply andb_prop in E as [E1 E2]. apply W in E1 as (rest & ->).
    exists rest. split; auto. rewrite depth_prefix in E2 by (auto; intros N; now apply (C rest N)). now apply TP.
  - intros (rest & -> & HP). f_equal. apply andb_true_intro. split; [apply W; eauto|].
    rewrite depth_prefix by (auto; intros N; now apply (C rest N)). now apply TP.
Qed.
