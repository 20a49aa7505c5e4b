(** C71: time points mean the same however they are written.  Vocabulary: [Spec_TimeInput.v];
    [calendar] and [double] ([Spec_Time.v]), [gregorian] ([Spec_Offsets.v]).
    [format_datetime today i]: the time points of the array [i], in seconds since 1970, if the program
    runs on the day [today] (month, day). *)
From Coq Require Import String Ascii List ZArith Reals Bool Lia Lra.
From Verif Require Import Base Calendar Civil TimeInput Spec_TimeInput Spec_Offsets OffsetsProps Spec_Time TimeProps TimeInputProps.
Import ListNotations.
Local Open Scope string_scope.
Local Open Scope list_scope.
Local Open Scope Z_scope.

(** Years as integers, floats, texts (an array of years only) or [datetime64[Y]] are the starts of the
    years, on every day. *)
Theorem C71_years_partial cal today ys i : calendar cal -> Forall (fun y => 1 <= y <= 9998) ys -> says_years ys i ->
  format_datetime today i = Ok (map cal ys).
Proof. exact (years_ok cal today ys i). Qed.
Print Assumptions C71_years_partial.

(** Texts with a decimal point are read as the nearest float. *)
Theorem C71_fractions today (ps : list (string * string * Z * Z)) :
  Forall (fun p => let '(a, b, n, k) := p in decimal a n /\ decimal b k) ps ->
  forall ts, format_datetime today (InFloats (map (fun p => let '(a, b, n, k) := p in
      b64 (IZR (n * 10 ^ Z.of_nat (String.length b) + k) / IZR (10 ^ Z.of_nat (String.length b)))) ps)) = Ok ts ->
  format_datetime today (InTexts (map (fun p => let '(a, b, n, k) := p in a ++ "." ++ b)%string ps)) = Ok ts.
Proof. exact (fractions_ok today ps). Qed.
Print Assumptions C71_fractions.

(** Dates as texts (an array of dates only), [datetime64] of any unit or datetimes are the same instants,
    on every day; parts of seconds are cut off. *)
Theorem C71_instants D today xs i : gregorian D -> Forall exists_in_calendar xs -> says D xs i ->
  format_datetime today i = Ok (map (seconds D) xs).
Proof. exact (instants_ok D today xs i). Qed.
Print Assumptions C71_instants.

(** What comes out is what it was, if it is used again. *)
Theorem C71_again today i ts : format_datetime today i = Ok ts -> format_datetime today (InDates USecond ts) = Ok ts.
Proof. intros _. cbn. now rewrite map_id. Qed.
Print Assumptions C71_again.

(** In an array of texts with at least one date, a year means the day of this year on which the program
    runs. *)
Theorem C71_mixed D today es : gregorian D -> 1 <= fst today <= 12 -> Forall entry_ok es -> (exists s x, In (EDate s x) es) ->
  exists ts, format_datetime today (InTexts (map entry_text es)) = Ok ts /\
    Forall2 (fun e t => match e with
                        | EDate _ x => t = seconds D x
                        | EYear _ y => exists n d, month_has y (fst today) n /\ d = Z.min (snd today) n /\ t = 86400 * D y (fst today) d
                        end) es ts.
Proof. exact (mixed_ok D today es). Qed.
Print Assumptions C71_mixed.

Lemma written_2010 : decimal "2010" 2010.
Proof. exact (more_digits "201" 201 "0" 0 (more_digits "20" 20 "1" 1 (more_digits "2" 2 "0" 0 (one_digit "2" 2 d2) d0) d1) d0). Qed.
Lemma written_date : date_text "2011-06-01" (2011, 6, 1, 0).
Proof.
  exists "2011", "06", "01". split; [split; [|reflexivity]; exact (more_digits "201" 201 "1" 1 (more_digits "20" 20 "1" 1 (more_digits "2" 2 "0" 0 (one_digit "2" 2 d2) d0) d1) d1)|].
  split; [split; [|reflexivity]; exact (more_digits "0" 0 "6" 6 (one_digit "0" 0 d0) d6)|]. split; [split; [|reflexivity]; exact (more_digits "0" 0 "1" 1 (one_digit "0" 0 d0) d1)|]. left. now split.
Qed.
Lemma date_exists : exists_in_calendar (2011, 6, 1, 0).
Proof. split; [lia|]. split; [exists 30; split; [apply has_30; cbn; tauto|lia]|lia]. Qed.
Lemma refuted_texts today : 1 <= fst today <= 12 -> format_datetime today (InTexts ["2010"; "2011-06-01"]) =
  Ok [time_of 2010 (fst today) (Z.min (snd today) (days_in_month 2010 (fst today))) 0; 1306886400].
Proof. intros T. reflexivity. Qed.

(** The cases of the theorems above *)
Example C71_case : calendar np_year_seconds /\ (exists D, gregorian D) /\
  says_years [2010] (InInts [2010]) /\ says_years [2010] (InFloats [2010%R]) /\ says_years [2010] (InTexts ["2010"]) /\ says_years [2010] (InDates UYear [40]) /\
  format_datetime (7, 4) (InTexts ["2010"]) = Ok [1262304000] /\
  (forall D, gregorian D -> says D [(2011, 6, 1, 0)] (InTexts ["2011-06-01"])) /\ exists_in_calendar (2011, 6, 1, 0) /\
  format_datetime (7, 4) (InTexts ["2011-06-01"]) = Ok [1306886400] /\ format_datetime (7, 4) (InDates UMonth [497]) = Ok [1306886400] /\
  format_datetime (7, 4) (InTexts ["2011-06-01T00:00:30"]) = Ok [1306886430] /\ format_datetime (7, 4) (InDates UNano [-1]) = Ok [-1].
Proof.
  assert (W : says_years [2010] (InTexts ["2010"])) by (constructor; [exact written_2010|constructor]).
  split; [exact calendar_np|]. split; [exists (fun y m d => ymd2ord y m d - epoch_ord); exact gregorian_exists|]. split; [reflexivity|]. split; [reflexivity|]. split; [exact W|]. split; [reflexivity|].
  split; [exact (C71_years_partial np_year_seconds (7, 4) [2010] _ calendar_np (Forall_cons _ (conj (Zle_bool_imp_le 1 2010 eq_refl) (Zle_bool_imp_le 2010 9998 eq_refl)) (Forall_nil _)) W)|].
  split; [intros D _; split; [discriminate|]; constructor; [exact written_date|constructor]|]. split; [exact date_exists|]. repeat split; reflexivity.
Qed.

(** The property is false: on 1 January and on 4 July the same array of texts means different times, and
    the first text not what it means alone; *)
Theorem C71_texts_refuted : exists a b t1 t2 t3 u, decimal a 2010 /\ date_text b (2011, 6, 1, 0) /\
  format_datetime (1, 1) (InTexts [a; b]) = Ok [t1; u] /\ format_datetime (7, 4) (InTexts [a; b]) = Ok [t2; u] /\ t1 <> t2 /\
  format_datetime (7, 4) (InTexts [a]) = Ok [t3] /\ t3 <> t2.
Proof.
  exists "2010", "2011-06-01". do 4 eexists. split; [exact written_2010|]. split; [exact written_date|]. split; [apply refuted_texts; cbn; lia|]. split; [apply refuted_texts; cbn; lia|]. split; [discriminate|]. split; [apply C71_case|discriminate].
Qed.
Print Assumptions C71_texts_refuted.

(** and the year 9999, which is fine as an integer, is refused as a float, and as a text means the day on
    which the program runs. *)
Theorem C71_last_year_refuted : exists s, decimal s 9999 /\
  format_datetime (7, 4) (InInts [9999]) = Ok [np_year_seconds 9999] /\ format_datetime (7, 4) (InFloats [9999%R]) = Err EValueError /\
  exists t, format_datetime (7, 4) (InTexts [s]) = Ok [t] /\ t <> np_year_seconds 9999.
Proof.
  exists "9999". split; [exact (more_digits "999" 999 "9" 9 (more_digits "99" 99 "9" 9 (more_digits "9" 9 "9" 9 (one_digit "9" 9 d9) d9) d9) d9)|]. split; [reflexivity|].
  assert (E : rmap float_year_to_datetime [9999%R] = Err EValueError) by (cbn [rmap]; rewrite (proj2 year_9999); reflexivity). split; [exact E|].
  exists (time_of 9999 7 4 0). split; [|discriminate]. cbn [format_datetime rmap]. change (kind_of "9999") with (Some (TNumber 9999 0)). cbn [rbind rmap]. unfold parse_datetime. cbn [rmap]. rewrite text_float_year by lia. cbn [rbind]. rewrite E. reflexivity.
Qed.
Print Assumptions C71_last_year_refuted.
