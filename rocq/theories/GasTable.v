(** Proofs of C37: the units of the standard gas table. *)
From Coq Require Import String Ascii List ZArith QArith Qpower Qreals Reals Bool Lia Field.
From Verif Require Import Base Units Gases GasesFacts Spec_Core Spec_Units UnitsProps CoreP2.
Import ListNotations.
Local Open Scope string_scope.
Local Open Scope list_scope.

(** ** The standard table *)

Fixpoint ratio_of (gs : list (string * gas)) (fu : nat) (s : string) : option (string * Q) :=
  match fu with
  | O => None
  | S fu' =>
    match alookup s gs with
    | None => None
    | Some (GBase b) => Some (b, 1)
    | Some (GDerived k r _) =>
      match ratio_of gs fu' r with Some (b, q) => Some (b, k * q) | None => None end
    end
  end.

Lemma ratio_of_sound gs fu s b k : ratio_of gs fu s = Some (b, k) -> mass_ratio gs s b k.
Proof.
  revert s b k. induction fu as [|fu IH]; simpl; intros s b k; [congruence|].
  destruct (alookup s gs) as [[b'|c r al]|] eqn:L; [| |congruence].
  - intros E. apply some_inj in E. injection E as <- <-. apply alookup_In in L. now constructor.
  - destruct (ratio_of gs fu r) as [[b' q]|] eqn:R; [|congruence].
    intros E. apply some_inj in E. apply pair_equal_spec in E. destruct E as [<- <-].
    apply alookup_In in L. econstructor; eauto.
Qed.

Definition check_unit (u : string) (d : dim) (k : Q) : bool :=
  match parse_unit u with
  | None => false
  | Some e =>
    match resolve std_registry e with
    | None => false
    | Some (q, d') => Qeq_bool q k && dim_eqb d' d
    end
  end.

Lemma check_unit_sound u d k : check_unit u d k = true -> unit_is std_env u d k.
Proof.
  unfold check_unit, unit_is, std_env, registry_env.
  destruct (parse_unit u); [|congruence].
  destruct (resolve std_registry u0) as [[q d']|]; [|congruence].
  intros H. apply andb_prop in H. destruct H as [A B].
  apply Qeq_bool_iff in A. apply dim_eqb_true in B.
  eexists. split; [reflexivity|]. simpl. repeat split; auto. now apply Qeq_eqR.
Qed.

Definition check_prefixed (u : string) (d : dim) (k : Q) : bool :=
  check_unit u d k && forallb (fun p => check_unit (fst p ++ u) d (snd p * k)) prefixes.

Definition check_entry (e : string * gas) : bool :=
  match ratio_of standard_gases 10 (fst e) with
  | None => false
  | Some (b, k) =>
    forallb (fun n => check_prefixed n [(b, 1%Z)] k) (gas_names e) &&
    forallb (fun n => check_prefixed ("g" ++ n) (mass_of b) k &&
                      check_prefixed ("t" ++ n) (mass_of b) (1000000 * k)) (joinable e)
  end.

Definition is_sulfurous (s : string) : bool :=
  String.eqb s "S" || String.eqb s "SO2" || String.eqb s "SOx".

Lemma is_sulfurous_spec s : is_sulfurous s = true <-> sulfurous s.
Proof.
  unfold is_sulfurous, sulfurous. rewrite !orb_true_iff, !String.eqb_eq. tauto.
Qed.

Lemma table_checked :
  forallb (fun e => is_sulfurous (fst e) || check_entry e) standard_gases = true.
Proof. vm_cast_no_check (eq_refl true). Qed.

Lemma check_prefixed_sound u d k : check_prefixed u d k = true ->
  unit_is std_env u d k /\ forall p f, In (p, f) prefixes -> unit_is std_env (p ++ u) d (f * k).
Proof.
  unfold check_prefixed. intros H. apply andb_prop in H. destruct H as [A B].
  split; [now apply check_unit_sound|]. intros p f I.
  rewrite forallb_forall in B. apply B in I. now apply check_unit_sound in I.
Qed.

(** What is claimed of the names of one gas with base gas [b] and ratio [k]. *)
Lemma C37_names_proof s g : In (s, g) standard_gases -> ~ sulfurous s ->
  exists b k, mass_ratio standard_gases s b k /\
    (forall n, In n (gas_names (s, g)) ->
      unit_is std_env n [(b, 1%Z)] k /\
      forall p f, In (p, f) prefixes -> unit_is std_env (p ++ n) [(b, 1%Z)] (f * k)) /\
    (forall n, In n (joinable (s, g)) ->
      unit_is std_env ("g" ++ n) (mass_of b) k /\
      unit_is std_env ("t" ++ n) (mass_of b) (1000000 * k) /\
      forall p f, In (p, f) prefixes ->
        unit_is std_env (p ++ "g" ++ n) (mass_of b) (f * k) /\
        unit_is std_env (p ++ "t" ++ n) (mass_of b) (f * (1000000 * k))).
Proof.
  intros I N. pose proof table_checked as T. rewrite forallb_forall in T. apply T in I.
  apply orb_prop in I. destruct I as [I|I]; [apply is_sulfurous_spec in I; contradiction|].
  unfold check_entry in I. change (fst (s, g)) with s in I.
  destruct (ratio_of standard_gases 10 s) as [[b k]|] eqn:R; [|discriminate].
  apply ratio_of_sound in R. exists b, k. split; [exact R|].
  apply andb_prop in I. destruct I as [A B]. rewrite forallb_forall in A, B. split.
  - intros n In_. apply A in In_. now apply check_prefixed_sound.
  - intros n In_. apply B in In_. apply andb_prop in In_. destruct In_ as [C D].
    apply check_prefixed_sound in C. apply check_prefixed_sound in D.
    destruct C as [C1 C2], D as [D1 D2]. repeat split; auto.
Qed.

(** ** One table entry per symbol *)

Fixpoint nodupb (l : list string) : bool :=
  match l with [] => true | a :: l' => negb (existsb (String.eqb a) l') && nodupb l' end.
Lemma nodupb_sound l : nodupb l = true -> NoDup l.
Proof.
  induction l as [|a l IH]; simpl; intros H; [constructor|].
  apply andb_prop in H. destruct H as [A B]. constructor; auto.
  intros I. rewrite <- not_true_iff_false in A || idtac. apply negb_true_iff in A.
  assert (existsb (String.eqb a) l = true) by (apply existsb_exists; exists a; split; auto; apply String.eqb_refl).
  congruence.
Qed.

Lemma NoDup_key {A} (l : list (string * A)) s x y :
  NoDup (map fst l) -> In (s, x) l -> In (s, y) l -> x = y.
Proof.
  induction l as [|[k v] l IH]; simpl; [contradiction|].
  intros N [E|I] [F|J]; inversion N; subst.
  - congruence.
  - exfalso. injection E as -> ->. apply H1. apply in_map_iff. exists (s, y). auto.
  - exfalso. injection F as -> ->. apply H1. apply in_map_iff. exists (s, x). auto.
  - auto.
Qed.

Lemma std_keys : NoDup (map fst standard_gases).
Proof. apply nodupb_sound. vm_compute. reflexivity. Qed.

Lemma mass_ratio_fun gs s b k b' k' : NoDup (map fst gs) ->
  mass_ratio gs s b k -> mass_ratio gs s b' k' -> b = b' /\ k == k'.
Proof.
  intros N H. revert b' k'. induction H as [s b I|s k r al b q I H IH]; intros b' k' H'.
  - inversion H' as [? ? I'|? c r al ? q I' H2]; subst.
    + pose proof (NoDup_key _ _ _ _ N I I') as E. injection E as ->. split; reflexivity.
    + pose proof (NoDup_key _ _ _ _ N I I') as E. discriminate.
  - inversion H' as [? ? I'|? c r' al' ? q' I' H2]; subst.
    + pose proof (NoDup_key _ _ _ _ N I I') as E. discriminate.
    + pose proof (NoDup_key _ _ _ _ N I I') as E.
      assert (k = c /\ r = r') as [-> ->] by (split; congruence).
      destruct (IH _ _ H2) as [-> E2]. split; auto. now rewrite E2.
Qed.

Lemma std_env_good : good_env std_env.
Proof.
  intros u a H. apply registry_env_good in H; [|apply std_good]. destruct H as [H _].
  intros Z. rewrite Z in H. now apply Rlt_irrefl in H.
Qed.

(** ** Conversion between units of known size *)

Lemma units_convert u w d k1 k2 : unit_is std_env u d k1 -> unit_is std_env w d k2 ->
  exists c, unit_converter std_env (Some u) (Some w) = Ok c /\
    forall x, uconvert_from c x = (x * Q2R (k1 / k2))%R.
Proof.
  intros (a & A & Ad & As & Ao) (b & B & Bd & Bs & Bo).
  destruct (C36_converter_proof std_env u w) as ((_ & H) & _).
  destruct H as (c & C); [exists a, b; repeat split; auto; congruence|].
  exists c. split; auto. intros x.
  destruct (uconv_exact _ _ _ _ std_env_good C) as (ua & ub & A' & B' & _ & Na & Nb & S & O).
  rewrite A in A'. rewrite B in B'. apply some_inj in A', B'. subst ua ub.
  unfold uconvert_from. rewrite S, O, As, Bs, Ao, Bo. rewrite Bs in Nb.
  rewrite Q2R_div.
  - field. exact Nb.
  - intros Z. apply Nb. rewrite (Qeq_eqR _ _ Z). apply RMicromega.Q2R_0.
Qed.

Lemma units_differ u w d1 d2 k1 k2 : unit_is std_env u d1 k1 -> unit_is std_env w d2 k2 -> d1 <> d2 ->
  unit_converter std_env (Some u) (Some w) = Err EDimensionality.
Proof.
  intros (a & A & Ad & _) (b & B & Bd & _) N.
  apply C36_converter_proof. exists a, b. repeat split; auto. congruence.
Qed.

Lemma unit_is_eq u d k k' : k == k' -> unit_is std_env u d k -> unit_is std_env u d k'.
Proof.
  intros E (a & A & B & C & D). exists a. repeat split; auto. rewrite C. now apply Qeq_eqR.
Qed.

(** The names of a gas whose ratio is known. *)
Lemma names_known s g b k : In (s, g) standard_gases -> ~ sulfurous s ->
  mass_ratio standard_gases s b k ->
  (forall n, In n (gas_names (s, g)) -> unit_is std_env n [(b, 1%Z)] k) /\
  (forall n, In n (joinable (s, g)) ->
    unit_is std_env ("g" ++ n) (mass_of b) k /\ unit_is std_env ("t" ++ n) (mass_of b) (1000000 * k)).
Proof.
  intros I N M. destruct (C37_names_proof s g I N) as (b' & k' & M' & A & B).
  destruct (mass_ratio_fun _ _ _ _ _ _ std_keys M M') as [<- E]. symmetry in E.
  split.
  - intros n In_. destruct (A n In_) as [H _]. eapply unit_is_eq; eauto.
  - intros n In_. destruct (B n In_) as (H1 & H2 & _). split; eapply unit_is_eq; eauto.
    now rewrite E.
Qed.

Lemma mass_of_inj a b : mass_of a = mass_of b -> a = b.
Proof.
  unfold mass_of. destruct (String.ltb a "mass"), (String.ltb b "mass"); intros H; try congruence.
  all: injection H as H1 H2; congruence.
Qed.

Lemma C37_convert_proof s1 g1 s2 g2 b1 b2 k1 k2 :
  In (s1, g1) standard_gases -> In (s2, g2) standard_gases -> ~ sulfurous s1 -> ~ sulfurous s2 ->
  mass_ratio standard_gases s1 b1 k1 -> mass_ratio standard_gases s2 b2 k2 ->
  (b1 = b2 ->
    (forall n1 n2, In n1 (gas_names (s1, g1)) -> In n2 (gas_names (s2, g2)) ->
      exists c, unit_converter std_env (Some n1) (Some n2) = Ok c /\
        forall x, uconvert_from c x = (x * Q2R (k1 / k2))%R) /\
    (forall m n1 n2, m = "g" \/ m = "t" -> In n1 (joinable (s1, g1)) -> In n2 (joinable (s2, g2)) ->
      exists c, unit_converter std_env (Some (m ++ n1)%string) (Some (m ++ n2)%string) = Ok c /\
        forall x, uconvert_from c x = (x * Q2R (k1 / k2))%R)) /\
  (b1 <> b2 ->
    (forall n1 n2, In n1 (gas_names (s1, g1)) -> In n2 (gas_names (s2, g2)) ->
      unit_converter std_env (Some n1) (Some n2) = Err EDimensionality) /\
    (forall m n1 n2, m = "g" \/ m = "t" -> In n1 (joinable (s1, g1)) -> In n2 (joinable (s2, g2)) ->
      unit_converter std_env (Some (m ++ n1)%string) (Some (m ++ n2)%string) = Err EDimensionality)).
Proof.
  intros I1 I2 N1 N2 M1 M2.
  destruct (names_known _ _ _ _ I1 N1 M1) as [A1 B1].
  destruct (names_known _ _ _ _ I2 N2 M2) as [A2 B2].
  split.
  - intros <-. split.
    + intros n1 n2 J1 J2. eapply units_convert; eauto.
    + intros m n1 n2 [-> | ->] J1 J2; destruct (B1 _ J1) as [X1 Y1], (B2 _ J2) as [X2 Y2].
      * eapply units_convert; eauto.
      * destruct (units_convert _ _ _ _ _ Y1 Y2) as (c & C & E). exists c. split; auto.
        intros x. rewrite E. f_equal. apply Qeq_eqR.
        unfold Qdiv. rewrite Qinv_mult_distr. field.
        destruct Y2 as (a & Ha & _ & Hs & _). intros Z.
        apply (std_env_good _ _ Ha). rewrite Hs. rewrite <- RMicromega.Q2R_0. apply Qeq_eqR.
        rewrite Z. reflexivity.
  - intros Ne. split.
    + intros n1 n2 J1 J2. eapply units_differ; eauto. congruence.
    + intros m n1 n2 [-> | ->] J1 J2; destruct (B1 _ J1) as [X1 Y1], (B2 _ J2) as [X2 Y2];
        (eapply units_differ; eauto; intros E; apply Ne; now apply mass_of_inj).
Qed.

(** ** The gases that are not usable *)

Definition check_undefined (u : string) : bool :=
  match std_env u with None => true | Some _ => false end.

Lemma C37_sulfur_proof s g : In (s, g) standard_gases -> sulfurous s ->
  (forall n, In n (gas_names (s, g)) -> unknown std_env n) /\
  (forall m n, m = "g" \/ m = "t" -> In n (joinable (s, g)) -> unknown std_env (m ++ n)).
Proof.
  assert (T : forallb (fun e => negb (is_sulfurous (fst e)) ||
    (forallb (fun n => match parse_unit n with Some e => match resolve std_registry e with None => true | _ => false end | None => true end)
      (gas_names e ++ map (append "g") (joinable e) ++ map (append "t") (joinable e)))) standard_gases = true).
  { vm_cast_no_check (eq_refl true). }
  intros I S. rewrite forallb_forall in T. apply T in I.
  apply is_sulfurous_spec in S. change (fst (s, g)) with s in I. rewrite S in I. simpl negb in I.
  cbn [orb] in I. rewrite forallb_forall in I.
  assert (K : forall n, In n (gas_names (s, g) ++ map (append "g") (joinable (s, g)) ++ map (append "t") (joinable (s, g))) ->
    unknown std_env n).
  { intros n J. apply I in J. unfold unknown, std_env, registry_env.
    destruct (parse_unit n) as [e|]; auto. destruct (resolve std_registry e); [discriminate|auto]. }
  split.
  - intros n J. apply K. apply in_or_app. auto.
  - intros m n [-> | ->] J; apply K; apply in_or_app; right; apply in_or_app; [left|right];
      apply in_map_iff; eauto.
Qed.
