(** C70: reading and assigning items of a data frame, [df[key]] and [df[key] = value].
    Vocabulary: [Spec_Items.v], [Spec_Frame.v].  [opened f] is a frame as it is made;
    [set_items (map written l) (opened f)] is the frame after the assignments [l]. *)
From Coq Require Import String Ascii List ZArith QArith Qcanon Reals Bool Lia.
From Verif Require Import Base Core Filters Civil Frame Spec_Frame FrameItems Spec_Items Spec_Offsets OffsetsProps ItemsProps Prop_Frame Prop_Format.
Import ListNotations.
Local Open Scope string_scope.
Local Open Scope list_scope.

(** ** Reading *)

(** A metadata column has the values of the timeseries, in the order of the data. *)
Theorem C70_column f c vs : aligned f -> c <> "time" -> c <> "year" ->
  (get_item (KOne c) (opened f) = Ok (IColumn vs) <-> In c (fr_cols f) /\ Forall2 (fun d v => meta_of f (fst d) c v) (fr_data f) vs).
Proof. exact (get_column f c vs). Qed.
Print Assumptions C70_column.
Theorem C70_unknown x c : c <> "time" -> c <> "year" -> ~ In c (fr_cols (it_frame x)) -> get_item (KOne c) x = Err EKeyError.
Proof. exact (get_unknown x c). Qed.
Print Assumptions C70_unknown.
(** A list of names gives these columns. *)
Theorem C70_table x cs l : ~ In "time" cs -> ~ In "year" cs ->
  (get_item (KMany cs) x = Ok (ITable l) <-> map fst l = cs /\ forall c vs, In (c, vs) l -> get_item (KOne c) x = Ok (IColumn vs)).
Proof. exact (get_table x cs l). Qed.
Print Assumptions C70_table.
(** "year" gives the calendar years of the times that "time" gives. *)
Theorem C70_years D x ts : gregorian D -> get_item (KOne "time") x = Ok (ITimes ts) -> ts <> [] ->
  exists ys, get_item (KOne "year") x = Ok (IYears ys) /\ Forall2 (fun t y => exists m d s, falls D t y m d s) ts ys.
Proof. exact (read_years D x ts). Qed.
Print Assumptions C70_years.

(** ** Assigning *)

(** After any assignments a column has the values of the last assignment to it that was accepted
    (one value for all timeseries, or one for each). *)
Theorem C70_read_back_partial before a after c f : aligned f -> fr_data f <> [] -> Forall proper (before ++ SetMeta c a :: after) -> c <> "" -> c <> "year" ->
  fits (length (fr_data f)) a -> (forall a', In (SetMeta c a') after -> ~ fits (length (fr_data f)) a') ->
  exists vs, get_item (KOne c) (set_items (map written (before ++ SetMeta c a :: after)) (opened f)) = Ok (IColumn vs) /\ shows (length (fr_data f)) a vs.
Proof. exact (read_back before a after c f). Qed.
Print Assumptions C70_read_back_partial.
(** A column to which nothing is assigned, or nothing that is accepted, reads as before. *)
Theorem C70_others_kept l c f : aligned f -> fr_data f <> [] -> Forall proper l -> c <> "time" -> c <> "year" ->
  (forall a, In (SetMeta c a) l -> c = "" \/ ~ fits (length (fr_data f)) a) ->
  get_item (KOne c) (set_items (map written l) (opened f)) = get_item (KOne c) (opened f).
Proof. exact (read_kept l c f). Qed.
Print Assumptions C70_others_kept.
(** Values, number and order of the timeseries never change, and data and metadata fit together. *)
Theorem C70_data_kept l f : aligned f -> fr_data f <> [] -> Forall proper l ->
  let g := it_frame (set_items (map written l) (opened f)) in
  fr_data g = fr_data f /\ aligned g /\ fr_len (set_items (map written l) (opened f)) = length (fr_data f).
Proof. exact (data_kept l f). Qed.
Print Assumptions C70_data_kept.
(** Which assignments are accepted; the others are a [ValueError].  A refused assignment of metadata
    has no effect, one of times leaves the frame (data, its times, metadata) as it is. *)
Theorem C70_accepted_partial l s f : aligned f -> fr_data f <> [] -> Forall proper (l ++ [s]) ->
  let x := set_items (map written l) (opened f) in
  let r := set_item (fst (written s)) (snd (written s)) x in
  let accepted := match s with SetTime ts => length ts = length (fr_times f) | SetMeta c a => c <> "" /\ fits (length (fr_data f)) a end in
  (accepted -> snd r = Ok tt) /\
  (~ accepted -> snd r = Err EValueError /\ match s with SetTime _ => it_frame (fst r) = it_frame x | SetMeta _ _ => fst r = x end).
Proof. exact (answer_ok l s f). Qed.
Print Assumptions C70_accepted_partial.

(** ** Times *)

(** "time" gives what was last assigned to it, whether that was accepted or not; *)
Theorem C70_time before ts after f : Forall proper (before ++ SetTime ts :: after) -> (forall ts', ~ In (SetTime ts') after) ->
  get_item (KOne "time") (set_items (map written (before ++ SetTime ts :: after)) (opened f)) = Ok (ITimes ts).
Proof. exact (read_time before ts after f). Qed.
Print Assumptions C70_time.
Theorem C70_time_kept l f : Forall proper l -> (forall ts, ~ In (SetTime ts) l) ->
  get_item (KOne "time") (set_items (map written l) (opened f)) = Ok (ITimes (fr_times f)).
Proof. exact (read_time_kept l f). Qed.
Print Assumptions C70_time_kept.
(** the data have the times that were last accepted. *)
Theorem C70_data_times before ts after f : aligned f -> fr_data f <> [] -> Forall proper (before ++ SetTime ts :: after) -> length ts = length (fr_times f) ->
  (forall ts', In (SetTime ts') after -> length ts' <> length (fr_times f)) ->
  fr_times (it_frame (set_items (map written (before ++ SetTime ts :: after)) (opened f))) = ts.
Proof. exact (data_times before ts after f). Qed.
Print Assumptions C70_data_times.

(** ** Cases *)
Definition three_steps : list assignment :=
  [SetMeta "note" (Many [PStr "x"; PInt 1]); SetTime [5; 15]%Z; SetMeta "note" (Many [PStr "y"]); SetMeta "unit" (One (PStr "W"))].
Example C70_case : aligned two_frame /\ fr_data two_frame <> [] /\ Forall proper three_steps /\
  get_item (KOne "note") (set_items (map written three_steps) (opened two_frame)) = Ok (IColumn [MStr "x"; MNum (Q2Qc 1)]) /\
  get_item (KOne "unit") (set_items (map written three_steps) (opened two_frame)) = Ok (IColumn [MStr "W"; MStr "W"]) /\
  get_item (KMany ["variable"]) (set_items (map written three_steps) (opened two_frame)) = Ok (ITable [("variable", [MStr "b"; MStr "a"])]) /\
  get_item (KOne "time") (set_items (map written three_steps) (opened two_frame)) = Ok (ITimes [5; 15]%Z) /\
  get_item (KOne "year") (set_items (map written three_steps) (opened two_frame)) = Ok (IYears [1970; 1970]%Z) /\
  get_item (KOne "none") (set_items (map written three_steps) (opened two_frame)) = Err EKeyError.
Proof.
  split; [eapply C66_aligned; [|apply C66_case]; discriminate|]. split; [discriminate|]. split; [|vm_compute; repeat split; reflexivity].
  unfold three_steps, not_date. repeat (constructor; cbn [proper]); try discriminate; repeat constructor; intros ?; discriminate.
Qed.

(** The property is false for refused times: they are read back although the data keep theirs; *)
Theorem C70_time_refuted : exists f ts, aligned f /\ fr_data f <> [] /\
  let x := fst (set_item "time" (Many (map PDate ts)) (opened f)) in
  snd (set_item "time" (Many (map PDate ts)) (opened f)) = Err EValueError /\
  get_item (KOne "time") x = Ok (ITimes ts) /\ time_points x = ts /\ ts <> fr_times (it_frame x) /\ it_frame x = f.
Proof.
  exists two_frame, [5]%Z. split; [apply C70_case|]. split; [discriminate|]. vm_compute. repeat split; auto. discriminate.
Qed.
Print Assumptions C70_time_refuted.
(** and for metadata called "year", which is accepted but cannot be read back. *)
Theorem C70_year_refuted : exists f a, aligned f /\ fr_data f <> [] /\
  let x := fst (set_item "year" a (opened f)) in
  snd (set_item "year" a (opened f)) = Ok tt /\ get_item (KOne "year") x = get_item (KOne "year") (opened f) /\
  get_item (KMany ["year"]) x = Ok (ITable [("year", [MNum (Q2Qc 2); MNum (Q2Qc 2)])]).
Proof.
  exists two_frame, (One (PInt 2)). split; [apply C70_case|]. split; [discriminate|]. vm_compute. repeat split; auto.
Qed.
Print Assumptions C70_year_refuted.
