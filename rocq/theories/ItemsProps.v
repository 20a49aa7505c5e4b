(** Lemmas on reading and assigning items of a data frame (C70). *)
From Coq Require Import String Ascii List ZArith QArith Qcanon Reals Bool Lia.
From Verif Require Import Base Core Filters Civil CivilFacts Frame Spec_Frame FrameFilter FrameSelect FrameEdit FrameItems Spec_Items Spec_Offsets OffsetsProps AlignProps.
Import ListNotations.
Local Open Scope string_scope.
Local Open Scope list_scope.

(** ** Columns *)
Lemma column_length f c : length (column f c) = length (fr_meta f).
Proof. apply map_length. Qed.
Lemma combine_function (cs : list string) (r : list mval) c x y : NoDup cs -> In (c, x) (combine cs r) -> In (c, y) (combine cs r) -> x = y.
Proof.
  revert r. induction cs as [|a cs IH]; intros [|b r] N; cbn; try tauto. inversion N as [|? ? NI N']; subst.
  intros [E|I] [E'|J]; [congruence| | |eauto]; [injection E as -> ->|injection E' as -> ->]; [apply in_combine_l in J|apply in_combine_l in I]; contradiction.
Qed.
Lemma column_meta f c vs : aligned f -> In c (fr_cols f) -> (column f c = vs <-> Forall2 (fun d v => meta_of f (fst d) c v) (fr_data f) vs).
Proof.
  intros AL IC.
  assert (U : forall l row v, In (l, row) (fr_meta f) -> (meta_of f l c v <-> v = cell (fr_cols f) row c)).
  { intros l row v I. assert (LR := row_length f l row AL I). assert (J := cell_in (fr_cols f) row c (al_cols _ AL) IC LR). split; [|intros ->; exists row; auto].
    intros (row' & I' & J'). rewrite (meta_unique f l row' row AL I' I) in J'. exact (combine_function (fr_cols f) row c _ _ (al_cols _ AL) J' J). }
  assert (L := al_labels _ AL). unfold column.
  assert (G : forall ds ms vs, map fst ds = map fst ms -> incl ms (fr_meta f) -> (map (fun r => cell (fr_cols f) (snd r) c) ms = vs <-> Forall2 (fun (d : BinNums.Z * list num) v => meta_of f (fst d) c v) ds vs)).
  { clear L vs. induction ds as [|d ds IH]; intros [|[l row] ms] vs L I; try discriminate.
    - cbn. split; [intros <-; constructor|inversion 1; auto].
    - injection L as E L. cbn [map snd]. assert (IM : incl ms (fr_meta f)) by (intros x X; apply I; now right). assert (I0 : In (l, row) (fr_meta f)) by (apply I; now left). cbn in E. split.
      + intros <-. constructor; [rewrite E; now apply (U l row)|]. now apply (IH ms _ L IM).
      + inversion 1 as [|? v ? vs' M F]; subst. f_equal; [symmetry; now apply (U (fst d) row)|]. now apply (IH ms _ L IM). }
  apply G; auto. apply incl_refl.
Qed.

Lemma get_column f c vs : aligned f -> c <> "time" -> c <> "year" ->
  (get_item (KOne c) (opened f) = Ok (IColumn vs) <-> In c (fr_cols f) /\ Forall2 (fun d v => meta_of f (fst d) c v) (fr_data f) vs).
Proof.
  intros AL NT NY. unfold get_item. cbn [opened it_frame]. destruct (String.eqb_spec c "time"); [contradiction|]. destruct (String.eqb_spec c "year"); [contradiction|].
  destruct (mem c (fr_cols f)) eqn:M.
  - apply mem_in in M. rewrite <- (column_meta f c vs AL M). split; [intros [= <-]; auto|intros (_ & ->); auto].
  - split; [discriminate|]. intros (I & _). apply mem_in in I. congruence.
Qed.
Lemma get_unknown x c : c <> "time" -> c <> "year" -> ~ In c (fr_cols (it_frame x)) -> get_item (KOne c) x = Err EKeyError.
Proof.
  intros NT NY NI. unfold get_item. destruct (String.eqb_spec c "time"); [contradiction|]. destruct (String.eqb_spec c "year"); [contradiction|].
  destruct (mem c _) eqn:M; auto. apply mem_in in M. contradiction.
Qed.
Lemma get_table x cs l : ~ In "time" cs -> ~ In "year" cs ->
  (get_item (KMany cs) x = Ok (ITable l) <-> map fst l = cs /\ forall c vs, In (c, vs) l -> get_item (KOne c) x = Ok (IColumn vs)).
Proof.
  intros NT NY. unfold get_item at 1.
  assert (G : forall c, In c cs -> forall vs, get_item (KOne c) x = Ok (IColumn vs) <-> mem c (fr_cols (it_frame x)) = true /\ vs = column (it_frame x) c).
  { intros c I vs. unfold get_item. destruct (String.eqb_spec c "time") as [->|]; [contradiction|]. destruct (String.eqb_spec c "year") as [->|]; [contradiction|].
    destruct (mem c _); [|split; [discriminate|intros ([=] & _)]]. split; [intros [= <-]; auto|intros (_ & ->); auto]. }
  split.
  - destruct (forallb _ cs) eqn:F; [|discriminate]. intros [= <-]. rewrite map_map. cbn [fst]. split; [apply map_id|]. intros c vs I. apply in_map_iff in I as (c' & [= <- <-] & I). apply G; auto. split; auto.
    rewrite forallb_forall in F. auto.
  - intros (<- & H). assert (F : forallb (fun c => mem c (fr_cols (it_frame x))) (map fst l) = true).
    { apply forallb_forall. intros c I. pose proof I as J. apply in_map_iff in I as ([c' vs] & E & I). cbn in E. subst c'. apply (G c J vs). auto. }
    rewrite F. do 2 f_equal. rewrite map_map. rewrite <- (map_id l) at 2. apply map_ext_in. intros [c vs] I. cbn [fst]. f_equal. symmetry. apply (G c); [now apply (in_map fst) in I|]. auto.
Qed.

(** ** Single assignments *)
Lemma dates_read ts : rmap instant_of (map PDate ts) = Ok ts.
Proof. induction ts as [|t ts IH]; cbn; auto. now rewrite IH. Qed.
Lemma no_dates a : match a with One v => not_date v | Many vs => Forall not_date vs end -> has_date a = false.
Proof.
  destruct a as [v|vs]; cbn; [intros N; destruct v; auto; now destruct (N t)|]. induction 1 as [|v vs N _ IH]; cbn; auto. rewrite IH, orb_false_r. destruct v; auto. now destruct (N t).
Qed.

(** What is kept of a frame by assignments *)
Record kept (f g : frame) : Prop := { kept_data : fr_data g = fr_data f; kept_labels : map fst (fr_meta g) = map fst (fr_meta f); kept_aligned : aligned g; kept_length : length (fr_times g) = length (fr_times f) }.
Lemma kept_refl f : aligned f -> kept f f.
Proof. intros A. split; auto. Qed.
Lemma kept_trans f g h : kept f g -> kept g h -> kept f h.
Proof. intros [A1 A2 A3 A4] [B1 B2 B3 B4]. split; congruence. Qed.

Lemma set_time_is ts x : set_item "time" (Many (map PDate ts)) x =
  if Nat.eqb (length ts) (length (fr_times (it_frame x)))
  then (mkItems ts (mkFrame ts (fr_data (it_frame x)) (fr_cols (it_frame x)) (fr_meta (it_frame x))), Ok tt)
  else (mkItems ts (it_frame x), Err EValueError).
Proof. unfold set_item. cbn [String.eqb Ascii.eqb eqb instants_of]. rewrite dates_read. unfold set_index. now destruct (Nat.eqb _ _). Qed.

Lemma combine_snd_map {A B C} (g : B -> C) : forall (vs : list A) (l : list B), length vs = length l -> map (fun p => g (snd p)) (combine vs l) = map g l.
Proof. induction vs as [|v vs IH]; intros [|x l] L; try discriminate; cbn; auto. f_equal. apply IH. now injection L. Qed.
Lemma put_column name vs f c : aligned f -> length vs = length (fr_meta f) ->
  column (put_meta name vs f) c = if String.eqb c name then vs else column f c.
Proof.
  intros AL L. unfold put_meta, column. cbn [fr_cols fr_meta]. rewrite map_map.
  assert (R : forall l row, In (l, row) (fr_meta f) -> length row = length (fr_cols f)) by (intros l row; now apply row_length).
  assert (CM : forall cols c g row, length row = length cols -> In c cols -> NoDup cols -> forall c', cell cols (map_cell cols c g row) c' = if String.eqb c' c then g (cell cols row c') else cell cols row c').
  { clear. intros cols c g. induction cols as [|a cols IH]; intros [|b row] LR IC N c'; try discriminate; [destruct IC|]. injection LR as LR. inversion N as [|? ? NI N']; subst. cbn.
    unfold map_cell in *. cbn. destruct (String.eqb_spec c' a) as [->|NA].
    - destruct (String.eqb_spec c a) as [->|NC]; [now rewrite String.eqb_refl|]. destruct (String.eqb_spec a c); [congruence|auto].
    - destruct (in_dec string_dec c cols) as [I|I].
      + apply IH; auto.
      + destruct IC as [->|IC]; [|contradiction]. destruct (String.eqb_spec c' c); [congruence|]. clear - I LR. revert row LR. induction cols as [|a' cols IH']; intros [|b' row] LR; auto; try discriminate. cbn. injection LR as LR. destruct (String.eqb_spec c a'); [subst; exfalso; apply I; now left|]. cbn in I.
        destruct (String.eqb c' a'); auto. }
  assert (CA : forall cols row v c', length row = length cols -> ~ In name cols -> cell (cols ++ [name]) (row ++ [v]) c' = if String.eqb c' name then v else cell cols row c').
  { clear. induction cols as [|a cols IH]; intros [|b row] v c' LR NI; try discriminate; cbn [app cell].
    - destruct (String.eqb c' name); auto.
    - destruct (String.eqb_spec c' a) as [->|NA].
      + destruct (String.eqb_spec a name) as [->|]; [exfalso; apply NI; now left|auto].
      + apply IH; [now injection LR|]. intros I. apply NI. now right. }
  destruct (mem name (fr_cols f)) eqn:M.
  - apply mem_in in M. destruct (String.eqb_spec c name) as [->|N].
    + rewrite <- (map_id vs) at 2. revert L R. generalize (fr_meta f). clear - M CM AL. induction vs as [|v vs IH]; intros [|[l row] ms] L R; try discriminate; cbn; auto. f_equal; [|apply IH; [now injection L|]; intros; apply (R l0); now right].
      rewrite CM; [now rewrite String.eqb_refl|apply (R l); now left|auto|apply AL].
    + revert L R. generalize (fr_meta f). clear - M CM AL N. induction vs as [|v vs IH]; intros [|[l row] ms] L R; try discriminate; cbn; auto. f_equal; [|apply IH; [now injection L|]; intros; apply (R l0); now right].
      rewrite CM; [|apply (R l); now left|auto|apply AL]. destruct (String.eqb_spec c name); congruence.
  - assert (NI : ~ In name (fr_cols f)) by (intros I; apply mem_in in I; congruence). destruct (String.eqb_spec c name) as [->|N].
    + rewrite <- (map_id vs) at 2. revert L R. generalize (fr_meta f). clear - NI CA. induction vs as [|v vs IH]; intros [|[l row] ms] L R; try discriminate; cbn; auto. f_equal; [|apply IH; [now injection L|]; intros; apply (R l0); now right].
      rewrite CA; [now rewrite String.eqb_refl|apply (R l); now left|auto].
    + revert L R. generalize (fr_meta f). clear - NI CA N. induction vs as [|v vs IH]; intros [|[l row] ms] L R; try discriminate; cbn; auto. f_equal; [|apply IH; [now injection L|]; intros; apply (R l0); now right].
      rewrite CA; [|apply (R l); now left|auto]. destruct (String.eqb_spec c name); congruence.
Qed.

Lemma set_meta_is c a f : aligned f -> fr_data f <> [] -> c <> "" ->
  (fits (length (fr_data f)) a -> exists g vs, set_meta c a f = Ok g /\ shows (length (fr_data f)) a vs /\ kept f g /\ fr_times g = fr_times f /\
     In c (fr_cols g) /\ column g c = vs /\ forall c', c' <> c -> column g c' = column f c' /\ mem c' (fr_cols g) = mem c' (fr_cols f)) /\
  (~ fits (length (fr_data f)) a -> set_meta c a f = Err EValueError).
Proof.
  intros AL ND NC. assert (LM : length (fr_data f) = length (fr_meta f)) by (rewrite <- (map_length fst (fr_data f)), (al_labels _ AL); apply map_length).
  assert (NM : fr_meta f <> []) by (intros E; rewrite E in LM; destruct (fr_data f); [contradiction|discriminate]).
  assert (OK : forall vs, length vs = length (fr_meta f) -> set_meta c a f = Ok (put_meta c vs f) -> shows (length (fr_data f)) a vs -> exists g vs, set_meta c a f = Ok g /\ shows (length (fr_data f)) a vs /\ kept f g /\ fr_times g = fr_times f /\
     In c (fr_cols g) /\ column g c = vs /\ forall c', c' <> c -> column g c' = column f c' /\ mem c' (fr_cols g) = mem c' (fr_cols f)).
  { intros vs L E SH. destruct (set_meta_ok c a f _ AL (or_introl ND) E) as (AG & TG & DG & CG & _). exists (put_meta c vs f), vs. split; [exact E|]. split; [exact SH|]. split.
    - split; auto. rewrite <- (al_labels _ AG), <- (al_labels _ AL). now rewrite DG.
    - split; [exact TG|]. split; [apply CG; now right|]. split; [rewrite put_column by auto; now rewrite String.eqb_refl|]. intros c' N. rewrite put_column by auto. destruct (String.eqb_spec c' c); [contradiction|]. split; auto.
      destruct (mem c' (fr_cols f)) eqn:M; [apply mem_in; apply CG; left; now apply mem_in|]. destruct (mem c' (fr_cols (put_meta c vs f))) eqn:M'; auto. apply mem_in, CG in M' as [M'|M']; [apply mem_in in M'; congruence|contradiction]. }
  assert (E0 : String.eqb c "" = false) by (now destruct (String.eqb_spec c "")).
  destruct a as [v|ws]; cbn [fits].
  - split; [|tauto]. intros _. apply (OK (map (fun _ => mval_of v) (fr_meta f))); [apply map_length|unfold set_meta; now rewrite E0|]. cbn. rewrite map_length. split; auto. intros w I. apply in_map_iff in I as (? & <- & _). auto.
  - unfold set_meta in *. rewrite E0 in *. destruct (fr_meta f) as [|m ms] eqn:EM; [contradiction|]. rewrite LM. destruct (Nat.eqb_spec (length ws) (length (m :: ms))) as [E|E].
    + split; [|contradiction]. intros _. rewrite <- LM. apply (OK (map mval_of ws)); auto; [now rewrite map_length|]. reflexivity.
    + split; [contradiction|auto].
Qed.

Lemma set_meta_item c a x : c <> "time" -> has_date a = false ->
  set_item c a x = match set_meta c a (it_frame x) with Ok f => (mkItems (it_points x) f, Ok tt) | Err e => (x, Err e) end.
Proof. intros N D. unfold set_item. destruct (String.eqb_spec c "time"); [contradiction|]. now rewrite D. Qed.

(** ** Sequences of assignments *)
Definition assigned (l : list assignment) (x : items) : items := set_items (map written l) x.
Lemma assigned_app l l' x : assigned (l ++ l') x = assigned l' (assigned l x).
Proof. unfold assigned. revert x. induction l as [|s l IH]; intros x; cbn; auto. destruct (written s) as (c, a). apply IH. Qed.
Lemma assigned_cons s l x : assigned (s :: l) x = assigned l (assigned [s] x).
Proof. exact (assigned_app [s] l x). Qed.

(** One assignment *)
Lemma assign_one s x : proper s -> aligned (it_frame x) -> fr_data (it_frame x) <> [] ->
  kept (it_frame x) (it_frame (assigned [s] x)) /\
  match s with
  | SetTime ts => it_points (assigned [s] x) = ts /\ fr_cols (it_frame (assigned [s] x)) = fr_cols (it_frame x) /\ fr_meta (it_frame (assigned [s] x)) = fr_meta (it_frame x) /\
      fr_times (it_frame (assigned [s] x)) = (if Nat.eqb (length ts) (length (fr_times (it_frame x))) then ts else fr_times (it_frame x))
  | SetMeta c a => it_points (assigned [s] x) = it_points x /\ fr_times (it_frame (assigned [s] x)) = fr_times (it_frame x) /\
      (c <> "" -> fits (length (fr_data (it_frame x))) a -> In c (fr_cols (it_frame (assigned [s] x))) /\ shows (length (fr_data (it_frame x))) a (column (it_frame (assigned [s] x)) c)) /\
      (c = "" \/ ~ fits (length (fr_data (it_frame x))) a -> assigned [s] x = x) /\
      forall c', c' <> c -> column (it_frame (assigned [s] x)) c' = column (it_frame x) c' /\ mem c' (fr_cols (it_frame (assigned [s] x))) = mem c' (fr_cols (it_frame x))
  end.
Proof.
  intros P AL ND. destruct s as [ts|c a]; unfold assigned; cbn [map written set_items].
  - rewrite set_time_is. destruct (Nat.eqb_spec (length ts) (length (fr_times (it_frame x)))) as [E|E]; cbn [fst it_points it_frame fr_cols fr_meta fr_times].
    + split; auto. split; cbn; auto. apply (set_index_aligned ts (it_frame x)); auto. unfold set_index. rewrite E. now rewrite Nat.eqb_refl.
    + split; auto. now apply kept_refl.
  - destruct P as (NT & NDT). rewrite set_meta_item by (auto; now apply no_dates).
    destruct (string_dec c "") as [->|NC].
    { cbn [set_meta String.eqb fst]. split; [now apply kept_refl|]. split; auto. split; auto. split; [tauto|]. auto. }
    destruct (set_meta_is c a (it_frame x) AL ND NC) as (H1 & H2).
    assert (DEC : fits (length (fr_data (it_frame x))) a \/ ~ fits (length (fr_data (it_frame x))) a) by (destruct a; cbn; [auto|lia]).
    destruct DEC as [F|F].
    + destruct (H1 F) as (g & vs & -> & SH & K & T & IC & CV & O). cbn [fst it_points it_frame]. split; auto. split; auto. split; auto. split; [intros _ _; split; auto; now rewrite CV|]. split; [intros [X|X]; contradiction|]. exact O.
    + rewrite (H2 F). cbn [fst]. split; [now apply kept_refl|]. split; auto. split; auto. split; [contradiction|]. auto.
Qed.

Lemma assigned_kept l : forall x, Forall proper l -> aligned (it_frame x) -> fr_data (it_frame x) <> [] -> kept (it_frame x) (it_frame (assigned l x)).
Proof.
  induction l as [|s l IH]; intros x P AL ND; [now apply kept_refl|]. inversion P as [|? ? Ps Pl]; subst. rewrite assigned_cons. destruct (assign_one s x Ps AL ND) as (K & _).
  apply (kept_trans _ _ _ K). apply IH; auto; [apply K|]. now rewrite (kept_data _ _ K).
Qed.

Lemma kept_column l c : forall x, Forall proper l -> aligned (it_frame x) -> fr_data (it_frame x) <> [] ->
  (forall a, In (SetMeta c a) l -> c = "" \/ ~ fits (length (fr_data (it_frame x))) a) ->
  column (it_frame (assigned l x)) c = column (it_frame x) c /\ mem c (fr_cols (it_frame (assigned l x))) = mem c (fr_cols (it_frame x)).
Proof.
  induction l as [|s l IH]; intros x P AL ND H; auto. inversion P as [|? ? Ps Pl]; subst. rewrite assigned_cons. destruct (assign_one s x Ps AL ND) as (K & O).
  destruct (IH (assigned [s] x)) as (E1 & E2); auto; [apply K|now rewrite (kept_data _ _ K)|rewrite (kept_data _ _ K); intros a I; apply H; now right|]. rewrite E1, E2. clear E1 E2 IH.
  destruct s as [ts|c' a].
  - destruct O as (_ & OC & OM & _). unfold column. now rewrite OC, OM.
  - destruct O as (_ & _ & _ & O1 & O2). destruct (string_dec c c') as [<-|N]; [|now apply O2]. rewrite O1; auto. apply H. now left.
Qed.

Lemma read_back before a after c f : aligned f -> fr_data f <> [] -> Forall proper (before ++ SetMeta c a :: after) -> c <> "" -> c <> "year" ->
  fits (length (fr_data f)) a -> (forall a', In (SetMeta c a') after -> ~ fits (length (fr_data f)) a') ->
  exists vs, get_item (KOne c) (set_items (map written (before ++ SetMeta c a :: after)) (opened f)) = Ok (IColumn vs) /\ shows (length (fr_data f)) a vs.
Proof.
  intros AL ND P NC NY F LA. fold (assigned (before ++ SetMeta c a :: after) (opened f)). apply Forall_app in P as (P1 & P2). inversion P2 as [|? ? Ps P3]; subst. assert (NT : c <> "time") by apply Ps.
  rewrite assigned_app, assigned_cons. set (x := assigned before (opened f)). assert (K : kept f (it_frame x)) by (apply (assigned_kept before (opened f)); auto).
  assert (ND' : fr_data (it_frame x) <> []) by (now rewrite (kept_data _ _ K)).
  destruct (assign_one (SetMeta c a) x Ps (kept_aligned _ _ K) ND') as (K2 & _ & _ & O & _ & _). set (y := assigned [SetMeta c a] x) in *. rewrite (kept_data _ _ K) in O. destruct (O NC F) as (IC & SH).
  assert (K3 : kept f (it_frame y)) by (eapply kept_trans; eauto).
  destruct (kept_column after c y P3 (kept_aligned _ _ K3)) as (E1 & E2); [now rewrite (kept_data _ _ K3)|rewrite (kept_data _ _ K3); intros a' I; right; now apply LA|].
  exists (column (it_frame y) c). split; auto. unfold get_item. destruct (String.eqb_spec c "time"); [contradiction|]. destruct (String.eqb_spec c "year"); [contradiction|]. rewrite E2. apply mem_in in IC. rewrite IC. now rewrite E1.
Qed.
Lemma read_kept l c f : aligned f -> fr_data f <> [] -> Forall proper l -> c <> "time" -> c <> "year" ->
  (forall a, In (SetMeta c a) l -> c = "" \/ ~ fits (length (fr_data f)) a) -> get_item (KOne c) (set_items (map written l) (opened f)) = get_item (KOne c) (opened f).
Proof.
  intros AL ND P NT NY H. fold (assigned l (opened f)). destruct (kept_column l c (opened f) P AL ND H) as (E1 & E2). unfold get_item. destruct (String.eqb_spec c "time"); [contradiction|]. destruct (String.eqb_spec c "year"); [contradiction|]. rewrite E1, E2. auto.
Qed.

(** ** Times *)
Lemma points_kept l : forall x, (forall ts, ~ In (SetTime ts) l) -> Forall proper l -> it_points (assigned l x) = it_points x /\ fr_times (it_frame (assigned l x)) = fr_times (it_frame x).
Proof.
  induction l as [|s l IH]; intros x H P; auto. inversion P as [|? ? Ps Pl]; subst. rewrite assigned_cons. destruct (IH (assigned [s] x)) as (-> & ->); auto; [intros ts I; apply (H ts); now right|].
  destruct s as [ts|c a]; [exfalso; apply (H ts); now left|]. unfold assigned. cbn [map written set_items]. destruct Ps as (NT & NDT). rewrite set_meta_item by (auto; now apply no_dates).
  unfold set_meta. destruct (String.eqb c ""); auto. destruct a; auto. destruct (fr_meta (it_frame x)); auto. destruct (Nat.eqb _ _); auto.
Qed.
Lemma read_time before ts after f : Forall proper (before ++ SetTime ts :: after) -> (forall ts', ~ In (SetTime ts') after) ->
  get_item (KOne "time") (set_items (map written (before ++ SetTime ts :: after)) (opened f)) = Ok (ITimes ts).
Proof.
  intros P H. fold (assigned (before ++ SetTime ts :: after) (opened f)). apply Forall_app in P as (P1 & P2). inversion P2 as [|? ? Ps P3]; subst. rewrite assigned_app, assigned_cons. cbn [get_item String.eqb Ascii.eqb eqb].
  destruct (points_kept after (assigned [SetTime ts] (assigned before (opened f))) H P3) as (-> & _). unfold assigned. cbn [map written set_items]. rewrite set_time_is. now destruct (Nat.eqb _ _).
Qed.
Lemma read_time_kept l f : Forall proper l -> (forall ts, ~ In (SetTime ts) l) -> get_item (KOne "time") (set_items (map written l) (opened f)) = Ok (ITimes (fr_times f)).
Proof. intros P H. fold (assigned l (opened f)). cbn [get_item String.eqb Ascii.eqb eqb]. destruct (points_kept l (opened f) H P) as (-> & _). auto. Qed.

Lemma times_kept l : forall x, Forall proper l -> aligned (it_frame x) -> fr_data (it_frame x) <> [] -> (forall ts, In (SetTime ts) l -> length ts <> length (fr_times (it_frame x))) ->
  fr_times (it_frame (assigned l x)) = fr_times (it_frame x).
Proof.
  induction l as [|s l IH]; intros x P AL ND H; auto. inversion P as [|? ? Ps Pl]; subst. rewrite assigned_cons. destruct (assign_one s x Ps AL ND) as (K & O).
  assert (E : fr_times (it_frame (assigned [s] x)) = fr_times (it_frame x)).
  { destruct s as [ts|c a]; [|apply O]. destruct O as (_ & _ & _ & ->). destruct (Nat.eqb_spec (length ts) (length (fr_times (it_frame x)))) as [E|]; auto. exfalso. apply (H ts); auto. now left. }
  rewrite IH; auto; [apply K|now rewrite (kept_data _ _ K)|rewrite E; intros ts I; apply H; now right].
Qed.
Lemma data_times before ts after f : aligned f -> fr_data f <> [] -> Forall proper (before ++ SetTime ts :: after) -> length ts = length (fr_times f) ->
  (forall ts', In (SetTime ts') after -> length ts' <> length (fr_times f)) ->
  fr_times (it_frame (set_items (map written (before ++ SetTime ts :: after)) (opened f))) = ts.
Proof.
  intros AL ND P L H. fold (assigned (before ++ SetTime ts :: after) (opened f)). apply Forall_app in P as (P1 & P2). inversion P2 as [|? ? Ps P3]; subst. rewrite assigned_app, assigned_cons. set (x := assigned before (opened f)).
  assert (K : kept f (it_frame x)) by (apply (assigned_kept before (opened f)); auto). assert (ND' : fr_data (it_frame x) <> []) by (now rewrite (kept_data _ _ K)).
  destruct (assign_one (SetTime ts) x Ps (kept_aligned _ _ K) ND') as (K2 & O). destruct O as (_ & _ & _ & O). rewrite (kept_length _ _ K), L, Nat.eqb_refl in O. assert (K3 := kept_trans _ _ _ K K2).
  rewrite times_kept; auto; [apply K3|now rewrite (kept_data _ _ K3)|]. rewrite O, L. exact H.
Qed.

(** ** Answers *)
Lemma answers s f l : aligned f -> fr_data f <> [] -> Forall proper (l ++ [s]) ->
  let x := set_items (map written l) (opened f) in
  let (c, a) := written s in
  snd (set_item c a x) = match s with
                         | SetTime ts => if Nat.eqb (length ts) (length (fr_times f)) then Ok tt else Err EValueError
                         | SetMeta c a => if (negb (String.eqb c "") && match a with One _ => true | Many vs => Nat.eqb (length vs) (length (fr_data f)) end)%bool then Ok tt else Err EValueError
                         end.
Proof.
  intros AL ND P. apply Forall_app in P as (P1 & P2). inversion P2 as [|? ? Ps _]; subst. cbv zeta. fold (assigned l (opened f)). set (x := assigned l (opened f)).
  assert (K : kept f (it_frame x)) by (apply (assigned_kept l (opened f)); auto). destruct s as [ts|c a]; cbn [written].
  - rewrite set_time_is, (kept_length _ _ K). now destruct (Nat.eqb _ _).
  - destruct Ps as (NT & NDT). rewrite set_meta_item by (auto; now apply no_dates). destruct (String.eqb_spec c "") as [->|NC]; [reflexivity|]. cbn [negb andb].
    destruct (set_meta_is c a (it_frame x) (kept_aligned _ _ K)) as (H1 & H2); [now rewrite (kept_data _ _ K)|auto|]. rewrite (kept_data _ _ K) in *. destruct a as [v|vs].
    + destruct (H1 I) as (g & ? & -> & _). auto.
    + destruct (Nat.eqb_spec (length vs) (length (fr_data f))) as [E|E]; [destruct (H1 E) as (g & ? & -> & _); auto|now rewrite (H2 E)].
Qed.

Lemma read_years D x ts : gregorian D -> get_item (KOne "time") x = Ok (ITimes ts) -> ts <> [] ->
  exists ys, get_item (KOne "year") x = Ok (IYears ys) /\ Forall2 (fun t y => exists m d s, falls D t y m d s) ts ys.
Proof.
  intros G. cbn [get_item String.eqb Ascii.eqb eqb]. intros [= E] N. exists (map year_of ts). rewrite E. split; [unfold years, vectorized; destruct ts; [contradiction|reflexivity]|].
  clear E N. induction ts as [|t ts IH]; constructor; auto. exists (month_of t), (day_of t), (second_of_day t). apply falls_iff; auto.
Qed.

Lemma data_kept l f : aligned f -> fr_data f <> [] -> Forall proper l ->
  let g := it_frame (set_items (map written l) (opened f)) in fr_data g = fr_data f /\ aligned g /\ fr_len (set_items (map written l) (opened f)) = length (fr_data f).
Proof.
  intros AL ND P. cbv zeta. fold (assigned l (opened f)). destruct (assigned_kept l (opened f) P AL ND) as [K1 K2 K3 _]. split; [exact K1|]. split; [exact K3|]. unfold fr_len.
  rewrite <- (map_length fst (fr_meta _)), K2. cbn [opened it_frame]. rewrite <- (al_labels _ AL). apply map_length.
Qed.
Lemma answer_ok l s f : aligned f -> fr_data f <> [] -> Forall proper (l ++ [s]) ->
  let x := set_items (map written l) (opened f) in
  let r := set_item (fst (written s)) (snd (written s)) x in
  let accepted := match s with SetTime ts => length ts = length (fr_times f) | SetMeta c a => c <> "" /\ fits (length (fr_data f)) a end in
  (accepted -> snd r = Ok tt) /\ (~ accepted -> snd r = Err EValueError /\ match s with SetTime _ => it_frame (fst r) = it_frame x | SetMeta _ _ => fst r = x end).
Proof.
  intros AL ND P. pose proof (answers s f l AL ND P) as A. cbv zeta in *. apply Forall_app in P as (P1 & P2). inversion P2 as [|? ? Ps _]; subst. set (x := set_items (map written l) (opened f)) in *. destruct s as [ts|c a]; cbn [written fst snd] in *.
  - rewrite A. split; [intros ->; now rewrite Nat.eqb_refl|]. intros N. destruct (Nat.eqb_spec (length ts) (length (fr_times f))); [contradiction|]. split; auto. rewrite set_time_is in *. destruct (Nat.eqb _ _); auto. discriminate.
  - rewrite A. split.
    + intros (NC & F). destruct (String.eqb_spec c ""); [contradiction|]. cbn. destruct a as [v|vs]; auto. cbn in F. now rewrite F, Nat.eqb_refl.
    + intros N. assert (E : (negb (String.eqb c "") && match a with One _ => true | Many vs => Nat.eqb (length vs) (length (fr_data f)) end)%bool = false).
      { destruct (String.eqb_spec c "") as [|NC]; auto. cbn. destruct a as [v|vs]; [exfalso; apply N; split; auto; exact I|]. apply Nat.eqb_neq. intros E. apply N. now split. }
      rewrite E in A. rewrite E. split; auto. destruct Ps as (NT & NDT). rewrite set_meta_item in * by (auto; now apply no_dates). destruct (set_meta _ _ _); auto. discriminate.
Qed.
