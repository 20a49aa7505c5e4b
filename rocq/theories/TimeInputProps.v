(** Lemmas on the ways of writing time points (C71). *)
From Coq Require Import String Ascii List ZArith Reals Bool Lia Lra.
From Flocq Require Import Core.
From Verif Require Import Base Calendar CalendarFacts Civil CivilFacts TimeInput Spec_TimeInput Spec_Offsets OffsetsProps Spec_Time TimeProps.
Import ListNotations.
Local Open Scope string_scope.
Local Open Scope list_scope.
Local Open Scope Z_scope.

(** ** Digits *)
Lemma digit_ok c d : digit_char c d -> digit c = Some d /\ 0 <= d <= 9.
Proof. destruct 1; cbn; split; auto; lia. Qed.
Lemma digits_from_snoc s c : forall acc, digits_from acc (s ++ String c "")%string = match digits_from acc s with Some n => match digit c with Some d => Some (10 * n + d) | None => None end | None => None end.
Proof. induction s as [|a s IH]; intros acc; cbn [append digits_from]; [destruct (digit c); auto|]. destruct (digit a); auto. Qed.
Lemma decimal_from s n : decimal s n -> digits_from 0 s = Some n.
Proof.
  induction 1 as [c d H|s n c d _ IH H]; [|rewrite digits_from_snoc, IH]; apply digit_ok in H as (H & _); cbn [digits_from]; rewrite H; auto.
Qed.
Lemma snoc_not_empty s c : (s ++ String c "")%string <> "".
Proof. destruct s; discriminate. Qed.
Lemma decimal_digits s n : decimal s n -> digits s = Some n.
Proof. intros H. pose proof (decimal_from s n H) as E. unfold digits. destruct s; auto. exfalso. inversion H as [|s' ? c]; subst. now apply (snoc_not_empty s' c). Qed.
Lemma decimal_pos s n : decimal s n -> 0 <= n.
Proof. induction 1 as [c d H|s n c d _ IH H]; apply digit_ok in H as (_ & H); lia. Qed.

(** The characters of decimal numbers are digits. *)
Definition no_char (c : ascii) (s : string) : Prop := ~ In c (list_ascii_of_string s).
Lemma list_app a b : list_ascii_of_string (a ++ b)%string = list_ascii_of_string a ++ list_ascii_of_string b.
Proof. induction a; cbn; auto. now f_equal. Qed.
Lemma decimal_no c s n : digit c = None -> decimal s n -> no_char c s.
Proof.
  intros N. unfold no_char. induction 1 as [a d H|s n a d _ IH H]; [|rewrite list_app, in_app_iff]; cbn; apply digit_ok in H as (H & _); intuition congruence.
Qed.
Lemma split_none sep s : no_char sep s -> split sep s = [s].
Proof. unfold no_char. induction s as [|a s IH]; cbn; auto. intros N. destruct (Ascii.eqb_spec a sep); [tauto|]. rewrite IH; auto. Qed.
Lemma split_app sep a s : no_char sep a -> split sep (a ++ String sep s)%string = a :: split sep s.
Proof.
  unfold no_char. induction a as [|x a IH]; cbn; [now rewrite Ascii.eqb_refl|]. intros N. destruct (Ascii.eqb_spec x sep); [tauto|]. rewrite IH; auto.
Qed.
Lemma fixed_ok n s v : places n s v -> fixed_digits n s = Some v.
Proof. intros (D & L). unfold fixed_digits. rewrite L, Nat.eqb_refl. now apply decimal_digits. Qed.

Lemma digits_bad a c s : digit c = None -> digits (a ++ String c s)%string = None.
Proof.
  intros N. assert (G : forall acc, digits_from acc (a ++ String c s)%string = None).
  { induction a as [|x a IH]; intros acc; cbn; [now rewrite N|]. destruct (digit x); auto. }
  unfold digits. rewrite G. now destruct (a ++ String c s)%string.
Qed.
Lemma number_decimal s n : decimal s n -> number_of s = Some (TNumber n 0).
Proof. intros H. unfold number_of. now rewrite (decimal_digits s n H). Qed.
Lemma number_point a b n k : decimal a n -> decimal b k ->
  number_of (a ++ "." ++ b)%string = Some (TNumber (n * 10 ^ Z.of_nat (String.length b) + k) (Z.of_nat (String.length b))).
Proof.
  intros A B. unfold number_of. cbn [append]. rewrite digits_bad by reflexivity. rewrite split_app by (now apply (decimal_no _ _ n)). rewrite split_none by (now apply (decimal_no _ _ k)).
  now rewrite (decimal_digits a n A), (decimal_digits b k B).
Qed.

(** ** Dates *)
Lemma substring_full s : forall n, String.length s = n -> substring 0 n s = s.
Proof. induction s as [|c s IH]; intros n <-; cbn; auto. f_equal. auto. Qed.
Lemma substring_app a : forall b, substring 0 (String.length a) (a ++ b)%string = a.
Proof. induction a as [|c a IH]; intros b; cbn; [now destruct b|]. f_equal. auto. Qed.
Lemma substring_rest a : forall b, substring (String.length a) (String.length (a ++ b)%string - String.length a) (a ++ b)%string = b.
Proof. induction a as [|c a IH]; intros b; cbn; [rewrite Nat.sub_0_r; now apply substring_full|]. apply IH. Qed.
Lemma length_app a b : String.length (a ++ b)%string = (String.length a + String.length b)%nat.
Proof. induction a; cbn; auto. Qed.

Lemma valid_ok y m d : 1 <= y <= 9999 -> (exists n, month_has y m n /\ 1 <= d <= n) -> valid_date y m d = true.
Proof.
  intros Y (n & M & D). apply month_has_iff in M as (M & ->). unfold valid_date.
  repeat (apply andb_true_intro; split); try apply Z.leb_le; lia.
Qed.
Lemma date_part_ok a b c y m d : places 4 a y -> places 2 b m -> places 2 c d -> valid_date y m d = true ->
  date_part (a ++ "-" ++ b ++ "-" ++ c)%string = Some (y, m, d).
Proof.
  intros A B C V. unfold date_part. cbn [append]. rewrite split_app by (eapply decimal_no; [|apply A]; reflexivity). rewrite split_app by (eapply decimal_no; [|apply B]; reflexivity). rewrite split_none by (eapply decimal_no; [|apply C]; reflexivity).
  rewrite (fixed_ok 4 a y A), (fixed_ok 2 b m B), (fixed_ok 2 c d C). now rewrite V.
Qed.
Lemma time_part_ok e f g h m s : places 2 e h -> places 2 f m -> places 2 g s -> h < 24 -> m < 60 -> s < 60 ->
  time_part (e ++ ":" ++ f ++ ":" ++ g)%string = Some (3600 * h + 60 * m + s).
Proof.
  intros A B C H M S. unfold time_part. cbn [append]. rewrite split_app by (eapply decimal_no; [|apply A]; reflexivity). rewrite split_app by (eapply decimal_no; [|apply B]; reflexivity). rewrite split_none by (eapply decimal_no; [|apply C]; reflexivity).
  rewrite (fixed_ok 2 e h A), (fixed_ok 2 f m B), (fixed_ok 2 g s C). apply Z.ltb_lt in H, M, S. now rewrite H, M, S.
Qed.
Lemma app_assoc_s (a b c : string) : ((a ++ b) ++ c)%string = (a ++ (b ++ c))%string.
Proof. induction a; cbn; auto. now f_equal. Qed.

Lemma date_kind t y m d s : date_text t (y, m, d, s) -> exists_in_calendar (y, m, d, s) -> kind_of t = Some (TDateText y m d s).
Proof.
  intros (a & b & c & A & B & C & T) (Y & M & S). assert (V := valid_ok y m d Y M). unfold kind_of.
  set (dp := (a ++ "-" ++ b ++ "-" ++ c)%string).
  assert (LD : String.length dp = 10%nat) by (unfold dp; rewrite !length_app; destruct A as (_ & ->), B as (_ & ->), C as (_ & ->); reflexivity).
  assert (R : exists r, t = (dp ++ r)%string /\ (r = "" /\ s = 0 \/ exists sep e f g h min sec, (sep = " " \/ sep = "T") /\ places 2 e h /\ places 2 f min /\ places 2 g sec /\ h < 24 /\ min < 60 /\ sec < 60 /\ s = 3600 * h + 60 * min + sec /\ r = (sep ++ e ++ ":" ++ f ++ ":" ++ g)%string)).
  { destruct T as [(-> & ->)|(sep & e & f & g & h & min & sec & H1 & H2 & H3 & H4 & H5 & H6 & H7 & H8 & ->)].
    - exists "". split; [unfold dp; rewrite !app_assoc_s; cbn; f_equal; f_equal; f_equal; f_equal; clear; induction c; cbn; congruence|auto].
    - exists (sep ++ e ++ ":" ++ f ++ ":" ++ g)%string. split; [unfold dp; now rewrite !app_assoc_s|]. right. exists sep, e, f, g, h, min, sec. auto 12. }
  clear T. destruct R as (r & -> & R).
  assert (N : number_of (dp ++ r)%string = None).
  { unfold number_of. assert (E : (dp ++ r)%string = (a ++ String "-" (b ++ "-" ++ c ++ r))%string) by (unfold dp; rewrite !app_assoc_s; reflexivity). rewrite E, digits_bad by reflexivity. rewrite <- E.
    destruct (split "." (dp ++ r)%string) as [|x [|x' [|]]] eqn:SP; auto.
    assert (X : digits x = None); [|now rewrite X].
    assert (XA : exists z, x = (a ++ String "-" z)%string).
    { rewrite E in SP. assert (NA : no_char "." a) by (eapply decimal_no; [|apply A]; reflexivity). clear - SP NA. revert x SP NA. unfold no_char. induction a as [|q a IH]; intros x SP NA.
      - cbn in SP. destruct (split "." (b ++ String "-" (c ++ r))) as [|w ws] eqn:W; [discriminate|]. injection SP as <- _. now exists w.
      - cbn in SP, NA. destruct (Ascii.eqb_spec q "."); [tauto|]. destruct (split "." (a ++ String "-" (b ++ String "-" (c ++ r)))) as [|w ws] eqn:W; [discriminate|]. injection SP as <- ->. destruct (IH w) as (z & ->); auto. now exists z. }
    destruct XA as (z & ->). now apply digits_bad. }
  rewrite N. unfold date_of_text. rewrite <- LD at 1. rewrite substring_app. unfold dp at 1. rewrite (date_part_ok a b c y m d) by auto. rewrite <- LD. rewrite substring_rest.
  destruct R as [(-> & ->)|(sep & e & f & g & h & min & sec & H1 & H2 & H3 & H4 & H5 & H6 & H7 & -> & ->)]; auto.
  destruct H1 as [->| ->]; cbn [append]; cbn [Ascii.eqb Bool.eqb orb]; change (option_map (TDateText y m d) (time_part (e ++ ":" ++ f ++ ":" ++ g)%string) = Some (TDateText y m d (3600 * h + 60 * min + sec))); rewrite (time_part_ok e f g h min sec) by auto; reflexivity.
Qed.

Lemma rmap_Forall2 {A B} (g : A -> res B) l m : Forall2 (fun a b => g a = Ok b) l m -> rmap g l = Ok m.
Proof. induction 1 as [|a b l m E _ IH]; cbn; auto. rewrite E. cbn. now rewrite IH. Qed.
Lemma rmap_map_ok {A B} (g : A -> res B) (h : A -> B) l : (forall a, In a l -> g a = Ok (h a)) -> rmap g l = Ok (map h l).
Proof. intros H. induction l as [|a l IH]; cbn; auto. rewrite H by (now left). cbn. rewrite IH; auto. intros x I. apply H. now right. Qed.

(** ** Years *)
Lemma whole_year cal y : calendar cal -> 1 <= y <= 9998 -> float_year_to_datetime (IZR y) = Ok (cal y).
Proof.
  intros C Y. assert (D : double (IZR y)) by (apply FLT_format_generic; [reflexivity|apply b64_int; lia]). assert (B : (1 <= IZR y < 9999)%R) by (split; [apply IZR_le|apply IZR_lt]; lia).
  destruct (float_year cal (IZR y) C D B) as (Y' & sec & (L1 & L2) & F & _ & W). apply le_IZR in L1. apply lt_IZR in L2. assert (Y' = y) as -> by lia. rewrite F. f_equal. auto.
Qed.
Lemma text_float_year y : 0 <= y <= 9999 -> text_float (TNumber y 0) = Ok (IZR y).
Proof. intros Y. cbn [text_float]. change (10 ^ 0) with 1. replace (IZR y / 1)%R with (IZR y) by field. f_equal. apply b64_id_int. lia. Qed.

Lemma years_ok cal today ys i : calendar cal -> Forall (fun y => 1 <= y <= 9998) ys -> says_years ys i -> format_datetime today i = Ok (map cal ys).
Proof.
  intros C F W. rewrite Forall_forall in F. destruct i as [u vs|vs|vs|ss|vs]; cbn [says_years] in W; try contradiction.
  - destruct u; try contradiction. subst vs. cbn [format_datetime]. rewrite map_map. f_equal. apply map_ext. intros y. cbn [to_seconds]. replace (1970 + (y - 1970)) with y by lia.
    pose proof (int_years cal [y] C) as E. cbn in E. now injection E.
  - subst vs. cbn [format_datetime]. unfold format_float_years. induction ys as [|y ys IH]; cbn; auto. rewrite (whole_year cal y C) by (apply F; now left). cbn. rewrite IH; auto. intros x I. apply F. now right.
  - subst vs. cbn [format_datetime]. f_equal. now apply int_years.
  - cbn [format_datetime].
    assert (K : rmap (fun s => match kind_of s with Some k => Ok k | None => Err EInvalid end) ss = Ok (map (fun y => TNumber y 0) ys)).
    { apply rmap_Forall2. clear F. induction W as [|s y ss ys D _ IH]; constructor; auto. unfold kind_of. now rewrite (number_decimal s y D). }
    rewrite K. cbn [rbind]. unfold parse_datetime.
    assert (T : rmap text_float (map (fun y => TNumber y 0) ys) = Ok (map IZR ys)).
    { clear K W. induction ys as [|y ys IH]; cbn [map rmap]; auto. rewrite text_float_year by (specialize (F y (or_introl eq_refl)); lia). cbn [rbind]. rewrite IH; auto. intros x I. apply F. now right. }
    rewrite T. cbn [rbind]. assert (G : rmap float_year_to_datetime (map IZR ys) = Ok (map cal ys)).
    { clear K T W. induction ys as [|y ys IH]; cbn; auto. rewrite (whole_year cal y C) by (apply F; now left). cbn. rewrite IH; auto. intros x I. apply F. now right. }
    now rewrite G.
Qed.

(** Decimal fractions are the nearest floats. *)
Lemma fractions_ok today (ps : list (string * string * Z * Z)) : 
  Forall (fun p => let '(a, b, n, k) := p in decimal a n /\ decimal b k) ps ->
  forall ts, format_datetime today (InFloats (map (fun p => let '(a, b, n, k) := p in b64 (IZR (n * 10 ^ Z.of_nat (String.length b) + k) / IZR (10 ^ Z.of_nat (String.length b)))) ps)) = Ok ts ->
  format_datetime today (InTexts (map (fun p => let '(a, b, n, k) := p in a ++ "." ++ b)%string ps)) = Ok ts.
Proof.
  intros F ts H. cbn [format_datetime] in *. unfold format_float_years in H.
  set (kind := fun p : string * string * Z * Z => let '(a, b, n, k) := p in TNumber (n * 10 ^ Z.of_nat (String.length b) + k) (Z.of_nat (String.length b))).
  assert (K : rmap (fun s => match kind_of s with Some k => Ok k | None => Err EInvalid end) (map (fun p : string * string * Z * Z => let '(a, b, n, k) := p in (a ++ "." ++ b)%string) ps) = Ok (map kind ps)).
  { clear H. induction F as [|[[[a b] n] k] ps (A & B) _ IH]; auto. cbn [map rmap]. unfold kind_of at 1. rewrite (number_point a b n k A B). cbn [rbind]. rewrite IH. reflexivity. }
  rewrite K. cbn [rbind]. unfold parse_datetime.
  assert (T : rmap text_float (map kind ps) = Ok (map (fun p : string * string * Z * Z => let '(a, b, n, k) := p in b64 (IZR (n * 10 ^ Z.of_nat (String.length b) + k) / IZR (10 ^ Z.of_nat (String.length b)))) ps)).
  { clear. induction ps as [|[[[a b] n] k] ps IH]; auto. cbn [map rmap kind text_float]. cbn [rbind]. rewrite IH. reflexivity. }
  rewrite T. cbn [rbind]. now rewrite H.
Qed.

(** ** Instants *)
Lemma instants_ok D today xs i : gregorian D -> Forall exists_in_calendar xs -> says D xs i -> format_datetime today i = Ok (map (seconds D) xs).
Proof.
  intros G F W. assert (GO := g_ord D G). destruct i as [u vs|vs|vs|ss|vs]; cbn [says] in W; try contradiction; cbn [format_datetime].
  - f_equal. revert F. induction W as [|v x vs xs U _ IH]; intros F; auto. inversion F as [|? ? X F']; subst. cbn [map]. f_equal; auto. clear IH F F'. destruct x as [[[y m] d] s]. destruct X as (Y & (n & M & DN) & S). apply month_has_iff in M as (M & ->).
    cbn [unit_value] in U. cbn [seconds]. assert (DM : D y m d = ymd2ord y m d - epoch_ord) by (now apply GO).
    assert (NY : forall y', np_year_seconds y' = 86400 * (days_before_year y' - 719162)) by (intros y'; unfold np_year_seconds; now rewrite np_year_days_eq).
    destruct u; cbn [to_seconds]; try lia.
    + destruct U as (-> & -> & -> & ->). replace (1970 + (y - 1970)) with y by lia. rewrite NY, DM. unfold ymd2ord, epoch_ord, days_before_month. change (days_before 1) with 0. change (2 <? 1) with false. cbn [andb]. lia.
    + destruct U as (-> & -> & ->). assert (Q : (12 * (y - 1970) + (m - 1)) / 12 = y - 1970) by (symmetry; apply (Z.div_unique _ _ _ (m - 1)); lia). assert (R : (12 * (y - 1970) + (m - 1)) mod 12 = m - 1) by (symmetry; apply (Z.mod_unique _ _ (y - 1970)); lia).
      rewrite Q, R. replace (1970 + (y - 1970)) with y by lia. replace (m - 1 + 1) with m by lia. rewrite NY, DM. unfold ymd2ord, epoch_ord. lia.
    + symmetry. apply (Z.div_unique _ _ _ (v - 1000 * (86400 * D y m d + s))); lia.
    + symmetry. apply (Z.div_unique _ _ _ (v - 1000000 * (86400 * D y m d + s))); lia.
    + symmetry. apply (Z.div_unique _ _ _ (v - 1000000000 * (86400 * D y m d + s))); lia.
  - destruct W as (NE & W).
    assert (K : rmap (fun s => match kind_of s with Some k => Ok k | None => Err EInvalid end) ss = Ok (map (fun x : stamp => let '(y, m, d, s) := x in TDateText y m d s) xs)).
    { apply rmap_Forall2. clear NE. revert F. induction W as [|t x ss xs T _ IH]; intros F; constructor; inversion F; subst; auto. destruct x as [[[y m] d] s]. now rewrite (date_kind t y m d s). }
    rewrite K. cbn [rbind]. unfold parse_datetime.
    assert (E : exists e, rmap text_float (map (fun x : stamp => let '(y, m, d, s) := x in TDateText y m d s) xs) = Err e) by (destruct xs as [|[[[y0 m0] d0] s0] xs]; [contradiction|cbn; eauto]).
    destruct E as (e & ->). cbn [rbind]. clear K W NE. induction F as [|x l X _ IH]; [reflexivity|]. cbn [map rmap].
    destruct x as [[[y m] d] s]. destruct X as (Y & (n & M & DN) & S). apply month_has_iff in M as (M & ->). cbn [dateutil rbind seconds]. rewrite IH. cbn [rbind]. f_equal. f_equal. rewrite GO by auto. reflexivity.
  - f_equal. clear F. induction W as [|v x vs xs E _ IH]; cbn; auto. f_equal; auto.
Qed.

(** ** Mixed texts *)
Definition entry_kind (e : entry) : text_kind := match e with EYear _ y => TNumber y 0 | EDate _ (y, m, d, s) => TDateText y m d s end.
Lemma mixed_ok D today es : gregorian D -> 1 <= fst today <= 12 -> Forall entry_ok es -> (exists s x, In (EDate s x) es) ->
  exists ts, format_datetime today (InTexts (map entry_text es)) = Ok ts /\
    Forall2 (fun e t => match e with
                        | EDate _ x => t = seconds D x
                        | EYear _ y => exists n d, month_has y (fst today) n /\ d = Z.min (snd today) n /\ t = 86400 * D y (fst today) d
                        end) es ts.
Proof.
  intros G TM F EX. cbn [format_datetime].
  assert (K : rmap (fun s => match kind_of s with Some k => Ok k | None => Err EInvalid end) (map entry_text es) = Ok (map entry_kind es)).
  { clear EX. induction F as [|e es E _ IH]; auto. cbn [map rmap]. destruct e as [s y|s x].
    - destruct E as (DC & Y). unfold kind_of at 1. cbn [entry_text]. rewrite (number_decimal s y DC). cbn [rbind]. rewrite IH. reflexivity.
    - destruct E as (DC & X). destruct x as [[[y m] d] t]. cbn [entry_text]. rewrite (date_kind s y m d t DC X). cbn [rbind]. rewrite IH. reflexivity. }
  rewrite K. cbn [rbind]. unfold parse_datetime.
  assert (T : exists e, rmap text_float (map entry_kind es) = Err e).
  { destruct EX as (s & x & I). clear K F. induction es as [|e es IH]; [contradiction|]. cbn [map rmap]. destruct I as [->|I].
    - destruct x as [[[y m] d] t]. cbn. eauto.
    - destruct (IH I) as (er & ->). destruct (text_float (entry_kind e)); cbn; eauto. }
  destruct T as (e & ->). cbn [rbind]. clear K EX. induction F as [|e0 es E _ IH]; [exists []; split; [reflexivity|constructor]|]. destruct IH as (ts & IH & W). cbn [map rmap].
  destruct e0 as [s y|s x].
  - destruct E as (_ & Y). cbn [entry_kind dateutil]. destruct (Z.leb_spec 1000 y); [|lia]. destruct (Z.leb_spec y 9999); [|lia]. change (0 =? 0) with true. cbn [andb rbind]. rewrite IH. cbn [rbind]. eexists. split; [reflexivity|]. constructor; auto.
    exists (days_in_month y (fst today)), (Z.min (snd today) (days_in_month y (fst today))). split; [now apply month_has_iff|]. split; auto. rewrite (g_ord D G) by auto. unfold time_of. lia.
  - destruct E as (_ & X). destruct x as [[[y m] d] t]. cbn [entry_kind dateutil rbind]. rewrite IH. cbn [rbind]. eexists. split; [reflexivity|]. constructor; auto. destruct X as (_ & (n & M & _) & _). apply month_has_iff in M as (M & _). cbn [seconds]. rewrite (g_ord D G) by auto. reflexivity.
Qed.
