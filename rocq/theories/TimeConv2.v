(** Conversions: what they return in general, linearity, extrapolation, rescaling of time. *)
From Coq Require Import List Arith Lia Bool ZArith Reals Lra Sorted.
From Coquelicot Require Import Coquelicot.
From Verif Require Import Base ListFacts TimeModel TimeFacts TimeLin TimeConv.
Import ListNotations.
Local Open Scope R_scope.

(** ** Integrability, also with jumps at the ends of the range *)
Lemma ip_ex_RInt f : incr (map fst (ip_knots f)) -> ip_lo f <= ip_hi f -> forall a b, ex_RInt (ip_val f) a b.
Proof.
  intros I L.
  assert (P : forall a b, ex_RInt (pl_eval (ip_knots f)) a b) by (intros; apply pl_ex_RInt; auto).
  destruct (ip_extra f) eqn:X.
  1,3: intros a b; apply ex_RInt_ext with (pl_eval (ip_knots f)); auto; intros; unfold ip_val; rewrite X; auto.
  assert (Y : forall y, ex_RInt (ip_val f) (ip_lo f) y).
  { intros y. destruct (Rlt_dec y (ip_lo f)) as [C|C].
    - apply ex_RInt_swap. apply ex_RInt_ext with (fun _ => fst (ip_fill f)); [|apply ex_RInt_const].
      intros x. rewrite Rmin_left, Rmax_right by lra. intros B. unfold ip_val. rewrite X.
      destruct (Rlt_dec x (ip_lo f)); auto. lra.
    - destruct (Rlt_dec (ip_hi f) y) as [D|D].
      + apply (ex_RInt_Chasles (V := R_NormedModule)) with (ip_hi f).
        * apply ex_RInt_ext with (pl_eval (ip_knots f)); auto.
          intros x. rewrite Rmin_left, Rmax_right by lra. intros B. symmetry. apply ip_inside. lra.
        * apply ex_RInt_ext with (fun _ => snd (ip_fill f)); [|apply ex_RInt_const].
          intros x. rewrite Rmin_left, Rmax_right by lra. intros B. unfold ip_val. rewrite X.
          destruct (Rlt_dec x (ip_lo f)); [lra|]. destruct (Rlt_dec (ip_hi f) x); auto. lra.
      + apply ex_RInt_ext with (pl_eval (ip_knots f)); auto.
        intros x. rewrite Rmin_left, Rmax_right by lra. intros B. symmetry. apply ip_inside. lra. }
  intros a b. apply (ex_RInt_Chasles (V := R_NormedModule)) with (ip_lo f); auto.
  apply ex_RInt_swap. auto.
Qed.

(** ** General description of a conversion *)
Definition pt_ok (f : interp) (x : R) : Prop :=
  ip_extra f = XNONE -> ip_lo f <= x <= ip_hi f.
Lemma ip_ok_iff f l u : ip_ok f l u = true <-> (ip_extra f = XNONE -> ip_lo f <= l /\ u <= ip_hi f).
Proof.
  unfold ip_ok. destruct (ip_extra f); try (split; [intros; discriminate|auto]).
  destruct (Rle_dec (ip_lo f) l), (Rle_dec u (ip_hi f)); split; auto; try discriminate; intros H;
    destruct (H eq_refl); lra.
Qed.
Lemma rmap_ok f t : (forall x, In x t -> pt_ok f x) -> rmap (ip_eval f) t = Ok (map (ip_val f) t).
Proof.
  induction t as [|x t IH]; intros B; auto. simpl.
  assert (E : ip_ok f x x = true). { apply ip_ok_iff. intros N. pose proof (B x (or_introl eq_refl) N). lra. }
  unfold ip_eval at 1. rewrite E. simpl. rewrite IH; auto. intros; apply B; right; auto.
Qed.
Lemma rmap_bad f t x : In x t -> ~ pt_ok f x -> rmap (ip_eval f) t = Err EValueError.
Proof.
  induction t as [|y t IH]; intros J B; [destruct J|]. simpl.
  unfold ip_eval at 1. destruct (ip_ok f y y) eqn:E; simpl; auto.
  destruct J as [->|J].
  - exfalso. apply B. intros N. apply ip_ok_iff in E; auto.
  - rewrite IH; auto.
Qed.
Lemma ia_ok f t : incr t -> (forall x, In x t -> pt_ok f x) -> interval_averages f t = Ok (avgs (ip_val f) t).
Proof.
  induction t as [|l [|u t] IH]; intros I B; auto.
  assert (E : ip_ok f l u = true).
  { apply ip_ok_iff. intros N. pose proof (B l (or_introl eq_refl) N). pose proof (B u (or_intror (or_introl eq_refl)) N). lra. }
  rewrite interval_averages_cons, E, IH; auto.
  - apply incr_tl in I; auto.
  - intros; apply B; right; auto.
Qed.
Lemma ia_bad f t x : incr t -> (2 <= length t)%nat -> In x t -> ~ pt_ok f x -> interval_averages f t = Err EValueError.
Proof.
  induction t as [|l [|u t] IH]; intros I L J B; try (simpl in L; lia).
  rewrite interval_averages_cons. destruct (ip_ok f l u) eqn:E; auto.
  rewrite ip_ok_iff in E. apply incr_cons in I. destruct I as [Lt I].
  destruct J as [->|J].
  - exfalso. apply B. intros N. destruct (E N). lra.
  - destruct t as [|u' t].
    + destruct J as [->|[]]. exfalso. apply B. intros N. destruct (E N). lra.
    + rewrite IH; auto. simpl; lia.
Qed.

(** Values at single times for points, averages over periods for averages. *)
Definition sample (ty : ptype) (g : R -> R) (t : list R) : list R :=
  match ty with AVERAGE_TIMESERIES => avgs g t | _ => map g t end.
Definition ts_type (ty : ptype) : Prop := ty = AVERAGE_TIMESERIES \/ ty = POINT_TIMESERIES.
(** The number of values belonging to time points. *)
Definition fits (ty : ptype) (s v : list R) : Prop :=
  match ty with AVERAGE_TIMESERIES => length s = S (length v) | _ => length s = length v end.

Definition rep_of (ty : ptype) (ex : extrapolation) (s v : list R) : interp :=
  mkInterp (match ty with AVERAGE_TIMESERIES => combine (linearization_points s) (linearization_values v)
            | _ => combine s v end) ex (fill_of v).

Lemma rep_spec ty ex s v : ts_type ty -> fits ty s v -> (3 <= length v)%nat -> incr s ->
  let f := rep_of ty ex s v in
  continuous_representation ty ex s v = Ok f /\ incr (map fst (ip_knots f)) /\
  ip_lo f = hd 0 s /\ ip_hi f = last s 0 /\ ip_lo f <= ip_hi f.
Proof.
  intros T F L I f. destruct s as [|s0 s].
  { destruct T as [-> | ->]; simpl in F; lia. }
  assert (E : exists g, continuous_representation ty ex (s0 :: s) v = Ok g /\
    incr (map fst (ip_knots g)) /\ ip_lo g = s0 /\ ip_hi g = last (s0 :: s) 0).
  { destruct T as [-> | ->].
    - destruct (average_rep ex s0 s v) as (g & ? & ? & ? & ? & ? & ? & ?); auto; [lia|]. eauto 8.
    - destruct (point_rep ex s0 s v) as (g & ? & ? & ? & ? & ? & ? & ?); auto. eauto 8. }
  destruct E as (g & Eg & Ig & Lo & Hi).
  assert (g = f).
  { unfold f, rep_of. destruct T as [-> | ->]; unfold continuous_representation in Eg;
      match type of Eg with (if ?b then _ else _) = _ => destruct b end; inversion Eg; auto. }
  subst g. rewrite Lo, Hi. split; auto. split; auto. split; auto. split; auto. apply incr_last; auto.
Qed.

Lemma convert_ok ty ex s t v : ts_type ty -> fits ty s v -> (3 <= length v)%nat -> incr s -> incr t ->
  (ex = XNONE -> forall x, In x t -> hd 0 s <= x <= last s 0) ->
  convert_R ty ex v s t = Ok (sample ty (ip_val (rep_of ty ex s v)) t).
Proof.
  intros T F L I J B. destruct (rep_spec ty ex s v T F L I) as (E & Ik & Lo & Hi & _).
  unfold convert_R, convert_unsafe. destruct (Nat.ltb_spec (length v) 3); [lia|].
  assert (P : forall x, In x t -> pt_ok (rep_of ty ex s v) x).
  { intros x X N. rewrite Lo, Hi. auto. }
  destruct T as [-> | ->]; rewrite E; simpl rbind; cbn [sample].
  - rewrite ia_ok; auto.
  - rewrite rmap_ok; auto.
Qed.
Lemma convert_bad ty ex s t v x : ts_type ty -> fits ty s v -> (3 <= length v)%nat -> incr s -> incr t ->
  (2 <= length t)%nat -> ex = XNONE -> In x t -> ~ (hd 0 s <= x <= last s 0) ->
  convert_R ty ex v s t = Err EInsufficientData.
Proof.
  intros T F L I J M X Hx B. destruct (rep_spec ty ex s v T F L I) as (E & Ik & Lo & Hi & _).
  unfold convert_R, convert_unsafe. destruct (Nat.ltb_spec (length v) 3); [lia|].
  assert (P : ~ pt_ok (rep_of ty ex s v) x).
  { intros Q. apply B. rewrite <- Lo, <- Hi. apply Q. auto. }
  destruct T as [-> | ->]; rewrite E; simpl rbind.
  - rewrite (ia_bad _ t x); auto.
  - rewrite (rmap_bad _ t x); auto.
Qed.

(** A successful conversion has the shape above. *)
Lemma rmap_len {A B} (f : A -> res B) l : forall r, rmap f l = Ok r -> length r = length l.
Proof.
  induction l as [|a l IH]; intros r H; simpl in H.
  - inversion H; auto.
  - destruct (f a); simpl in H; try discriminate. destruct (rmap f l) as [r'|]; simpl in H; try discriminate.
    inversion H; subst. simpl. rewrite (IH r'); auto.
Qed.
Lemma ia_len f t : forall r, interval_averages f t = Ok r -> length r = pred (length t).
Proof.
  induction t as [|l [|u t] IH]; intros r H.
  - inversion H; auto.
  - inversion H; auto.
  - rewrite interval_averages_cons in H. destruct (ip_ok f l u); try discriminate.
    destruct (interval_averages f (u :: t)) as [r'|e] eqn:E; try discriminate. inversion H; subst.
    simpl. rewrite (IH r'); auto.
Qed.
Lemma convert_len ty ex v s t w : convert_R ty ex v s t = Ok w ->
  (ty = AVERAGE_TIMESERIES /\ length w = pred (length t)) \/ (ty = POINT_TIMESERIES /\ length w = length t).
Proof.
  unfold convert_R, convert_unsafe. destruct (length v <? 3)%nat; try discriminate. intros H.
  destruct ty; try discriminate.
  - left. split; auto. destruct (continuous_representation AVERAGE_TIMESERIES ex s v) as [f|e]; simpl in H;
      [|destruct e; discriminate].
    destruct (interval_averages f t) eqn:E; [|destruct e; discriminate].
    inversion H; subst. eapply ia_len; eauto.
  - right. split; auto. destruct (continuous_representation POINT_TIMESERIES ex s v) as [f|e]; simpl in H;
      [|destruct e; discriminate].
    destruct (rmap (ip_eval f) t) eqn:E; [|destruct e; discriminate].
    inversion H; subst. eapply rmap_len; eauto.
Qed.

(** ** Linearity *)
Section LC.
Variables a b : R.
Inductive LC : list R -> list R -> list R -> Prop :=
| LC_nil : LC [] [] []
| LC_cons x y z l m n : z = a * x + b * y -> LC l m n -> LC (x :: l) (y :: m) (z :: n).

Lemma LC_len l m n : LC l m n -> length m = length l /\ length n = length l.
Proof. induction 1; simpl; lia. Qed.
Lemma LC_app l m n l' m' n' : LC l m n -> LC l' m' n' -> LC (l ++ l') (m ++ m') (n ++ n').
Proof. intros H K. induction H; simpl; auto. constructor; auto. Qed.
Lemma LC_edges l m n : LC l m n -> LC (edge_values l) (edge_values m) (edge_values n).
Proof.
  intros H. induction H as [|x y z l m n E H IH]; [constructor|].
  destruct H as [|x' y' z' l m n E' H]; [constructor|]. cbn [edge_values]. constructor; [lra|]. exact IH.
Qed.
Lemma LC_middles l m n : LC l m n -> forall e f g, LC e f g ->
  LC (middle_values l e) (middle_values m f) (middle_values n g).
Proof.
  intros H. induction H as [|x y z l m n E H IH]; intros e f g K.
  - simpl. constructor.
  - destruct K as [|x1 y1 z1 e f g E1 K]; [constructor|].
    destruct K as [|x2 y2 z2 e f g E2 K]; [constructor|].
    cbn [middle_values]. constructor; [lra|]. apply IH. constructor; auto.
Qed.
Lemma LC_interleave l m n : LC l m n -> forall e f g, LC e f g ->
  LC (interleave l e) (interleave m f) (interleave n g).
Proof.
  intros H. induction H as [|x y z l m n E H IH]; intros e f g K.
  - destruct K; simpl; constructor; auto.
  - destruct K as [|x1 y1 z1 e f g E1 K].
    + cbn [interleave]. constructor; auto.
    + cbn [interleave]. constructor; auto. constructor; auto.
Qed.
Lemma LC_removelast l m n : LC l m n -> LC (removelast l) (removelast m) (removelast n).
Proof.
  intros H. induction H as [|x y z l m n E H IH]; [constructor|].
  destruct H as [|x' y' z' l m n E' H]; [constructor|]. 
  change (LC (x :: removelast (x' :: l)) (y :: removelast (y' :: m)) (z :: removelast (z' :: n))).
  constructor; auto.
Qed.
Lemma LC_tl l m n : LC l m n -> LC (tl l) (tl m) (tl n).
Proof. intros H. destruct H; simpl; auto. constructor. Qed.
Lemma LC_hd l m n : LC l m n -> hd 0 n = a * hd 0 l + b * hd 0 m.
Proof. intros H. destruct H; simpl; auto. lra. Qed.
Lemma LC_last l m n : LC l m n -> last n 0 = a * last l 0 + b * last m 0.
Proof.
  intros H. induction H as [|x y z l m n E H IH]; [simpl; lra|].
  destruct H as [|x' y' z' l m n E' H]; [simpl; auto|]. exact IH.
Qed.
Lemma LC_linearization l m n : LC l m n -> LC (linearization_values l) (linearization_values m) (linearization_values n).
Proof.
  intros H. unfold linearization_values, first_val, last_val.
  pose proof (LC_edges _ _ _ H) as E. pose proof (LC_hd _ _ _ H). pose proof (LC_last _ _ _ H).
  pose proof (LC_hd _ _ _ E). pose proof (LC_last _ _ _ E).
  apply LC_app.
  - apply LC_interleave.
    + constructor; auto. lra.
    + constructor; auto. apply LC_app.
      * apply LC_middles; auto. apply LC_removelast. apply LC_tl; auto.
      * constructor; auto. constructor.
  - constructor; [lra|constructor].
Qed.

Lemma LC_seg x l m n : LC l m n -> forall x0 y1 y2 y3 ts, y3 = a * y1 + b * y2 ->
  seg_eval x0 y3 (combine ts n) x = a * seg_eval x0 y1 (combine ts l) x + b * seg_eval x0 y2 (combine ts m) x.
Proof.
  intros H. induction H as [|p q r l m n E H IH]; intros x0 y1 y2 y3 ts Y.
  - destruct ts; simpl; auto.
  - destruct ts as [|t0 ts]; [simpl; auto|]. cbn [combine seg_eval].
    specialize (IH t0 p q r ts E).
    destruct ts as [|t1 ts].
    { simpl. unfold lin. subst. unfold Rdiv. ring. }
    destruct H as [|p' q' r' l m n E' H].
    + simpl. unfold lin. subst. unfold Rdiv. ring.
    + cbn [combine] in *. destruct (Rle_dec x t0); auto. unfold lin. subst y3 r. unfold Rdiv. ring.
Qed.
Lemma LC_pl x l m n ts : LC l m n ->
  pl_eval (combine ts n) x = a * pl_eval (combine ts l) x + b * pl_eval (combine ts m) x.
Proof.
  intros H. destruct H as [|p q r l m n E H].
  - destruct ts; simpl; lra.
  - destruct ts as [|t ts]; [simpl; lra|]. simpl. apply LC_seg; auto.
Qed.
Lemma combine_last_fst (ts : list R) : forall l m (d : R), length l = length m ->
  fst (last (combine ts l) (d, 0)) = fst (last (combine ts m) (d, 0)).
Proof.
  induction ts as [|t ts IH]; intros [|p l] [|q m] d H; simpl in H; try discriminate; auto.
  destruct ts as [|t' ts]; [reflexivity|].
  destruct l as [|p' l], m as [|q' m]; simpl in H; try discriminate; auto.
  specialize (IH (p' :: l) (q' :: m) d). simpl in IH. simpl. apply IH. lia.
Qed.
Lemma combine_lo (ts : list R) l m ex e g : length l = length m ->
  ip_lo (mkInterp (combine ts l) ex e) = ip_lo (mkInterp (combine ts m) ex g).
Proof. intros H. unfold ip_lo. cbn [ip_knots]. destruct ts, l, m; simpl in *; try discriminate; auto. Qed.
Lemma combine_hi (ts : list R) l m ex e g : length l = length m ->
  ip_hi (mkInterp (combine ts l) ex e) = ip_hi (mkInterp (combine ts m) ex g).
Proof.
  intros H. unfold ip_hi. cbn [ip_knots]. pose proof (combine_last_fst ts l m 0 H) as K.
  destruct (last _ _), (last _ _); auto.
Qed.
Lemma LC_ip x ty ex s l m n : LC l m n ->
  ip_val (rep_of ty ex s n) x = a * ip_val (rep_of ty ex s l) x + b * ip_val (rep_of ty ex s m) x.
Proof.
  intros H.
  assert (K : exists ts l' m' n', LC l' m' n' /\ rep_of ty ex s l = mkInterp (combine ts l') ex (fill_of l) /\
    rep_of ty ex s m = mkInterp (combine ts m') ex (fill_of m) /\ rep_of ty ex s n = mkInterp (combine ts n') ex (fill_of n)).
  { unfold rep_of. destruct ty; do 4 eexists; (split; [|split; [|split]; reflexivity]); auto.
    apply LC_linearization; auto. }
  destruct K as (ts & l' & m' & n' & K & -> & -> & ->).
  unfold ip_val. cbn [ip_extra ip_fill ip_knots].
  destruct (LC_len _ _ _ K).
  rewrite (combine_lo ts m' l' ex (fill_of m) (fill_of l)), (combine_hi ts m' l' ex (fill_of m) (fill_of l)) by auto.
  rewrite (combine_lo ts n' l' ex (fill_of n) (fill_of l)), (combine_hi ts n' l' ex (fill_of n) (fill_of l)) by auto.
  pose proof (LC_hd _ _ _ H). pose proof (LC_last _ _ _ H). pose proof (LC_pl x _ _ _ ts K).
  destruct ex; auto. destruct (Rlt_dec x _); auto. destruct (Rlt_dec _ x); auto.
Qed.
Lemma LC_avgs (f g h : R -> R) t : (forall x y, ex_RInt f x y) -> (forall x y, ex_RInt g x y) ->
  (forall x, h x = a * f x + b * g x) -> LC (avgs f t) (avgs g t) (avgs h t).
Proof.
  intros F G H. induction t as [|l [|u t] IH]; try constructor; auto.
  rewrite (RInt_ext _ (fun x => plus (scal a (f x)) (scal b (g x)))).
  2: { intros; rewrite H; reflexivity. }
  rewrite (RInt_plus (V := R_CompleteNormedModule)).
  2, 3: apply (ex_RInt_scal (V := R_CompleteNormedModule)); auto.
  rewrite !(RInt_scal (V := R_CompleteNormedModule)) by auto.
  unfold plus, scal. simpl. unfold mult. simpl. unfold Rdiv.
  generalize (RInt f l u : R) (RInt g l u : R). intros p q.
  change ((a * p + b * q) * / (u - l) = a * (p * / (u - l)) + b * (q * / (u - l))). ring.
Qed.
Lemma LC_map (f g h : R -> R) t : (forall x, h x = a * f x + b * g x) -> LC (map f t) (map g t) (map h t).
Proof. intros H. induction t; simpl; constructor; auto. Qed.
End LC.

Lemma fits_len ty s v w : length v = length w -> fits ty s v -> fits ty s w.
Proof. unfold fits. destruct ty; intros; lia. Qed.

Definition lcomb (a b : R) (x y : list R) : list R := map (fun p => a * fst p + b * snd p) (combine x y).
Lemma LC_lcomb a b x : forall y, length x = length y -> LC a b x y (lcomb a b x y).
Proof.
  induction x as [|p x IH]; intros [|q y] H; simpl in H; try discriminate; constructor; auto.
  apply IH. lia.
Qed.
Lemma LC_unique a b x y z : LC a b x y z -> z = lcomb a b x y.
Proof. induction 1; simpl; auto. unfold lcomb in *. simpl. congruence. Qed.

Lemma sample_LC a b ty ex s t x y : ts_type ty -> fits ty s x -> length x = length y -> (3 <= length x)%nat -> incr s ->
  sample ty (ip_val (rep_of ty ex s (lcomb a b x y))) t =
  lcomb a b (sample ty (ip_val (rep_of ty ex s x)) t) (sample ty (ip_val (rep_of ty ex s y)) t).
Proof.
  intros T F L M I. apply LC_unique.
  pose proof (fits_len ty s x y L F) as F'.
  destruct (rep_spec ty ex s x T F M I) as (_ & I1 & _ & _ & L1).
  destruct (rep_spec ty ex s y T F' ltac:(lia) I) as (_ & I2 & _ & _ & L2).
  destruct T as [-> | ->]; cbn [sample].
  - apply LC_avgs; try (intros; apply ip_ex_RInt; auto).
    intros; apply LC_ip; auto. apply LC_lcomb; auto.
  - apply LC_map. intros; apply LC_ip; auto. apply LC_lcomb; auto.
Qed.

(** Whether a conversion succeeds does not depend on the values. *)
Lemma Rle_dec_in lo hi t : (forall x, In x t -> lo <= x <= hi) \/ (exists x, In x t /\ ~ (lo <= x <= hi)).
Proof.
  induction t as [|x t IH]; [left; intros ? []|].
  destruct (Rle_dec lo x), (Rle_dec x hi).
  2-4: right; exists x; split; [left; auto|lra].
  destruct IH as [IH|(y & Y & B)].
  - left. intros z [<-|Z]; auto.
  - right. exists y. split; [right; auto|auto].
Qed.
Lemma convert_general ty ex s t v : ts_type ty -> fits ty s v -> (3 <= length v)%nat -> incr s -> incr t ->
  (2 <= length t)%nat ->
  (ex = XNONE /\ (exists x, In x t /\ ~ (hd 0 s <= x <= last s 0)) /\ forall v, fits ty s v -> (3 <= length v)%nat ->
    convert_R ty ex v s t = Err EInsufficientData) \/
  ((ex = XNONE -> forall x, In x t -> hd 0 s <= x <= last s 0) /\ forall v, fits ty s v -> (3 <= length v)%nat ->
    convert_R ty ex v s t = Ok (sample ty (ip_val (rep_of ty ex s v)) t)).
Proof.
  intros T F L I J M.
  assert (D : ex = XNONE \/ ex <> XNONE) by (destruct ex; auto; right; discriminate).
  destruct (Rle_dec_in (hd 0 s) (last s 0) t) as [B|(x & X & B)].
  - right. split; auto. intros; apply convert_ok; auto.
  - destruct D as [N|N].
    + left. split; auto. split; eauto. intros; eapply convert_bad; eauto.
    + right. split; [tauto|]. intros; apply convert_ok; tauto.
Qed.

Lemma convert_linear a b ty ex s t x y : ts_type ty -> fits ty s x -> length x = length y -> (3 <= length x)%nat ->
  incr s -> incr t -> (2 <= length t)%nat ->
  convert_R ty ex (lcomb a b x y) s t =
  match convert_R ty ex x s t, convert_R ty ex y s t with
  | Ok p, Ok q => Ok (lcomb a b p q)
  | Err e, _ => Err e
  | _, Err e => Err e
  end.
Proof.
  intros T F L M I J K.
  assert (Ll : length (lcomb a b x y) = length x).
  { pose proof (LC_lcomb a b x y L) as Q. apply LC_len in Q. tauto. }
  assert (Fy : fits ty s y) by (eapply fits_len; eauto).
  assert (Fl : fits ty s (lcomb a b x y)) by (eapply fits_len; [|exact F]; auto).
  destruct (convert_general ty ex s t x T F M I J K) as [(N & _ & C)|(_ & C)].
  - rewrite !C by (auto; lia). auto.
  - rewrite !C by (auto; lia). f_equal. apply sample_LC; auto.
Qed.

(** Constants. *)
Lemma combine_repeat_pl (ts : list R) c : forall n x, ts <> [] -> (0 < n)%nat -> pl_eval (combine ts (repeat c n)) x = c.
Proof.
  intros n x T N. destruct ts as [|t ts]; [congruence|]. destruct n as [|n]; [lia|]. simpl. clear.
  revert t n. induction ts as [|t1 ts IH]; intros t n; [auto|]. destruct n as [|n]; [auto|].
  cbn [repeat combine seg_eval]. specialize (IH t1 n).
  assert (E : forall p q, lin p c q c x = c) by (intros; unfold lin, Rdiv; ring).
  destruct (combine ts (repeat c n)); auto. destruct (Rle_dec x t1); auto.
Qed.
Lemma LC_ones n : forall c, LC c 0 (repeat 1 n) (repeat 1 n) (repeat c n).
Proof. intros c. induction n; simpl; constructor; auto. lra. Qed.
Lemma edges_repeat c n : edge_values (repeat c (S n)) = repeat c n.
Proof. induction n; auto. change (edge_values (repeat c (S (S n)))) with ((c + c) / 2 :: edge_values (repeat c (S n))).
  rewrite IHn. simpl. f_equal. lra. Qed.
Lemma middle_repeat c n : forall m, (n < m)%nat -> middle_values (repeat c n) (repeat c m) = repeat c n.
Proof.
  induction n; intros m H; auto. destruct m as [|[|m]]; try lia.
  change (middle_values (repeat c (S n)) (repeat c (S (S m))))
    with ((4 * c - c - c) / 2 :: middle_values (repeat c n) (repeat c (S m))).
  rewrite IHn by lia. simpl. f_equal. lra.
Qed.
Lemma interleave_repeat (c : R) n : forall m, interleave (repeat c n) (repeat c m) = repeat c (n + m).
Proof.
  induction n; intros m; destruct m; auto.
  - simpl. rewrite Nat.add_0_r. auto.
  - simpl. rewrite IHn. f_equal. replace (n + S m)%nat with (S (n + m))%nat by lia. auto.
Qed.
Lemma removelast_repeat (c : R) n : removelast (repeat c n) = repeat c (pred n).
Proof. induction n as [|[|n] IH]; auto. change (removelast (repeat c (S (S n)))) with (c :: removelast (repeat c (S n))).
  rewrite IH. auto. Qed.
Lemma last_repeat (c : R) n : last (repeat c (S n)) 0 = c.
Proof. induction n; auto. Qed.
Lemma linearization_repeat c n : (2 <= n)%nat -> exists k, (0 < k)%nat /\ linearization_values (repeat c n) = repeat c k.
Proof.
  intros H. destruct n as [|[|n]]; try lia. unfold linearization_values.
  rewrite edges_repeat. unfold first_val, last_val. rewrite !last_repeat.
  change (tl (repeat c (S (S n)))) with (repeat c (S n)). rewrite removelast_repeat. cbn [pred].
  rewrite middle_repeat by lia. change (hd 0 (repeat c (S n))) with c. change (hd 0 (repeat c (S (S n)))) with c.
  replace (2 * c - c) with c by lra.
  change (c :: repeat c (S n)) with (repeat c (S (S n))).
  change [c] with (repeat c 1). rewrite <- repeat_app.
  change (c :: repeat c (n + 1)) with (repeat c (S (n + 1))). rewrite interleave_repeat, <- repeat_app.
  eexists. split; [|reflexivity]. lia.
Qed.
Lemma rep_const ty ex s c n x : ts_type ty -> s <> [] -> (2 <= n)%nat -> ip_val (rep_of ty ex s (repeat c n)) x = c.
Proof.
  intros T S N.
  assert (P : pl_eval (ip_knots (rep_of ty ex s (repeat c n))) x = c).
  { destruct T as [-> | ->]; cbn [rep_of ip_knots].
    - destruct (linearization_repeat c n N) as (k & K & ->). apply combine_repeat_pl; auto.
      unfold linearization_points. destruct s as [|a [|b s]]; [congruence|simpl; discriminate|simpl; discriminate].
    - apply combine_repeat_pl; auto. lia. }
  unfold ip_val. rewrite P. cbn [rep_of ip_extra ip_fill fill_of fst snd].
  assert (E : first_val (repeat c n) = c /\ last_val (repeat c n) = c).
  { destruct n; [lia|]. unfold first_val, last_val. split; auto. apply last_repeat. }
  destruct E as [-> ->]. destruct ex; auto. destruct (Rlt_dec x _); auto. destruct (Rlt_dec _ x); auto.
Qed.
Lemma avgs_const c (g : R -> R) t : incr t -> (forall x, g x = c) -> avgs g t = repeat c (pred (length t)).
Proof.
  intros I G. induction t as [|l [|u t] IH]; auto. apply incr_cons in I. destruct I as [L I].
  change (RInt g l u / (u - l) :: avgs g (u :: t) = c :: repeat c (pred (length (u :: t)))).
  rewrite IH; auto. f_equal. rewrite (RInt_ext _ (fun _ => c)) by auto. rewrite RInt_const.
  unfold scal. simpl. unfold mult. simpl. field. lra.
Qed.
Lemma map_const (c : R) g (t : list R) : (forall x, g x = c) -> map g t = repeat c (length t).
Proof. intros G. induction t; simpl; congruence. Qed.
Lemma convert_const ty ex s t c n : ts_type ty -> fits ty s (repeat c n) -> (3 <= n)%nat -> incr s -> incr t ->
  (ex = XNONE -> forall x, In x t -> hd 0 s <= x <= last s 0) ->
  convert_R ty ex (repeat c n) s t =
  Ok (repeat c (match ty with AVERAGE_TIMESERIES => pred (length t) | _ => length t end)).
Proof.
  intros T F N I J B. rewrite convert_ok; auto. 2: rewrite repeat_length; auto.
  assert (S : s <> []). { intros ->. unfold fits in F. rewrite repeat_length in F. destruct T as [-> | ->]; simpl in F; lia. }
  f_equal. destruct T as [-> | ->]; cbn [sample].
  - apply avgs_const; auto. intros; apply rep_const; auto. left; auto. lia.
  - apply map_const. intros; apply rep_const; auto. right; auto. lia.
Qed.
