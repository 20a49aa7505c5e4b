(** C37 for arbitrary gas tables. *)
From Coq Require Import String Ascii List ZArith QArith Qpower Bool Lia.
From Verif Require Import Base Units Gases GasesFacts Spec_Units.
Import ListNotations.
Local Open Scope string_scope.
Local Open Scope list_scope.

(** The definitions made for one entry, in order. *)
Definition alias_of (s n : string) : string * unit_def := (n, UDeriv 1 [(s, 1%Z)]).
Definition joint_of (m s : string) : string * unit_def := ((m ++ s)%string, UDeriv 1 [(m, 1%Z); (s, 1%Z)]).
Definition entry_defs (entry : string * gas) : list (string * unit_def) :=
  let (s, g) := entry in
  (match g with
   | GBase v => (s, UBase v) :: (if String.eqb v s then [] else [alias_of s v])
   | GDerived k r al => (s, UDeriv k [(r, 1%Z)]) :: map (alias_of s) al
   end) ++
  joint_of "g" s :: joint_of "t" s ::
  (if String.eqb (upper s) s then []
   else [alias_of s (upper s); joint_of "g" (upper s); joint_of "t" (upper s)]).

Lemma entry_defs_names e : map fst (entry_defs e) = defined_names e.
Proof.
  destruct e as [s [v|k r al]]; unfold entry_defs, defined_names; rewrite map_app; f_equal.
  - simpl. now destruct (String.eqb v s).
  - simpl. now destruct (String.eqb (upper s) s).
  - simpl. f_equal. rewrite map_map. simpl. now rewrite map_id.
  - simpl. now destruct (String.eqb (upper s) s).
Qed.

Lemma aliases_rev s al reg :
  fold_left (fun r a => add_alias r a s) al reg = rev (map (alias_of s) al) ++ reg.
Proof.
  revert reg. induction al as [|a al IH]; intros reg; simpl; [reflexivity|].
  rewrite IH. now rewrite <- app_assoc.
Qed.

Lemma add_gas_defs reg e : add_gas reg e = rev (entry_defs e) ++ reg.
Proof.
  destruct e as [s [v|k r al]]; unfold add_gas, entry_defs.
  - destruct (String.eqb v s), (String.eqb (upper s) s); reflexivity.
  - rewrite aliases_rev, rev_app_distr. simpl rev.
    destruct (String.eqb (upper s) s); simpl; rewrite <- ?app_assoc; reflexivity.
Qed.

Lemma alookup_app_l {A} n (a b : list (string * A)) :
  alookup n a <> None -> alookup n (a ++ b) = alookup n a.
Proof.
  induction a as [|[m v] a IH]; simpl; [congruence|]. destruct (String.eqb n m); auto.
Qed.
Lemma alookup_app_r {A} n (a b : list (string * A)) :
  ~ In n (map fst a) -> alookup n (a ++ b) = alookup n b.
Proof.
  induction a as [|[m v] a IH]; simpl; auto. intros H.
  destruct (String.eqb_spec n m) as [->|]; [exfalso; auto|auto].
Qed.
Lemma alookup_NoDup {A} n (v : A) l : NoDup (map fst l) -> In (n, v) l -> alookup n l = Some v.
Proof.
  induction l as [|[m w] l IH]; simpl; [contradiction|].
  intros N [E|I]; inversion N; subst.
  - injection E as -> ->. now rewrite String.eqb_refl.
  - destruct (String.eqb_spec n m) as [->|]; auto.
    exfalso. apply H1. apply in_map_iff. exists (m, v). auto.
Qed.
Lemma NoDup_rev' {A} (l : list A) : NoDup l -> NoDup (rev l).
Proof. apply NoDup_rev. Qed.

(** An entry's definitions are those found at the end, unless a later entry takes one of
    its names. *)
Lemma lookup_final gs2 : forall reg n v,
  (forall e, In e gs2 -> ~ In n (defined_names e)) ->
  alookup n reg = Some v -> alookup n (add_gases reg gs2) = Some v.
Proof.
  induction gs2 as [|e gs IH]; intros reg n v H L; simpl; auto.
  apply IH; [intros e' I; apply H; now right|].
  rewrite add_gas_defs, alookup_app_r; auto.
  rewrite map_rev, <- in_rev, entry_defs_names. apply H. now left.
Qed.

Lemma lookup_entry reg gs1 e gs2 n v :
  NoDup (defined_names e) ->
  (forall e', In e' gs2 -> forall m, In m (defined_names e) -> ~ In m (defined_names e')) ->
  In (n, v) (entry_defs e) -> alookup n (add_gases reg (gs1 ++ e :: gs2)) = Some v.
Proof.
  intros N H I. unfold add_gases. rewrite fold_left_app. simpl.
  assert (In n (defined_names e)).
  { rewrite <- entry_defs_names. apply in_map_iff. exists (n, v). auto. }
  apply lookup_final; [intros e' J; now apply H|].
  rewrite add_gas_defs.
  assert (L : alookup n (rev (entry_defs e)) = Some v).
  { apply alookup_NoDup; [|now apply -> in_rev].
    rewrite map_rev, entry_defs_names. now apply NoDup_rev. }
  rewrite alookup_app_l; congruence.
Qed.

(** ** Resolution *)

Lemma resolve_with_mono f f' e r :
  (forall n x, f n = Some x -> f' n = Some x) -> resolve_with f e = Some r -> resolve_with f' e = Some r.
Proof.
  intros H. revert r. induction e as [|[n k] e IH]; simpl; intros r; auto.
  destruct (f n) eqn:F; [|congruence]. rewrite (H _ _ F).
  destruct (resolve_with f e); [|congruence]. now rewrite (IH _ eq_refl).
Qed.

Lemma resolve_name_S reg fu n r : resolve_name reg fu n = Some r -> resolve_name reg (S fu) n = Some r.
Proof.
  revert n r. induction fu as [|fu IH]; intros n r H; [discriminate|].
  cbn [resolve_name] in H. change (resolve_name reg (S (S fu)) n) with
    (match parse_name reg n with
     | None => None
     | Some (k, stem) =>
       match alookup stem reg with
       | None => None
       | Some (UBase d) => Some (Qred k, [(d, 1%Z)])
       | Some (UDeriv c refs) =>
         match resolve_with (resolve_name reg (S fu)) refs with
         | None => None
         | Some (q, d) => Some (Qred (k * c * q), d)
         end
       end
     end).
  destruct (parse_name reg n) as [[k s]|]; [|exact H].
  destruct (alookup s reg) as [[d|c refs]|]; auto.
  destruct (resolve_with (resolve_name reg fu) refs) as [[q d]|] eqn:W; [|congruence].
  rewrite (resolve_with_mono _ _ _ _ IH W). exact H.
Qed.

Lemma resolve_name_le reg fu fu' n r : (fu <= fu')%nat ->
  resolve_name reg fu n = Some r -> resolve_name reg fu' n = Some r.
Proof. induction 1; auto. intros. apply resolve_name_S. auto. Qed.

Lemma means_base reg n d : alookup n reg = Some (UBase d) -> means reg n 1 [(d, 1%Z)].
Proof.
  intros L. exists 1%nat, 1%Q. split; [|reflexivity]. cbn [resolve_name].
  unfold parse_name. rewrite L, L. reflexivity.
Qed.

Lemma means_deriv reg n k r q d :
  alookup n reg = Some (UDeriv k [(r, 1%Z)]) -> means reg r q d -> canon d -> means reg n (k * q) d.
Proof.
  intros L (fu & q' & R & E) C. exists (S fu). eexists. split.
  - cbn [resolve_name]. unfold parse_name. rewrite L, L. cbn [resolve_with]. rewrite R.
    cbn [root_mul fst snd root_one].
    assert (dim_mul 1 d [] = d) as ->.
    { apply canon_ext; auto using canon_mul. - apply canon_mul. exact I.
      - intros m. rewrite coef_mul. cbn [coef]. lia. }
    reflexivity.
  - rewrite !Qred_correct. change (q' ^ 1) with q'. rewrite E. ring.
Qed.

Lemma means_joint reg n a b qa da qb db :
  alookup n reg = Some (UDeriv 1 [(a, 1%Z); (b, 1%Z)]) -> means reg a qa da -> means reg b qb db ->
  canon da -> canon db -> means reg n (qa * qb) (dim_mul 1 da db).
Proof.
  intros L (fa & q1 & Ra & Ea) (fb & q2 & Rb & Eb) Ca Cb.
  exists (S (Nat.max fa fb)). eexists. split.
  - cbn [resolve_name]. unfold parse_name. rewrite L, L. cbn [resolve_with].
    rewrite (resolve_name_le _ _ _ _ _ (Nat.le_max_l fa fb) Ra).
    rewrite (resolve_name_le _ _ _ _ _ (Nat.le_max_r fa fb) Rb).
    cbn [root_mul fst snd root_one].
    assert (dim_mul 1 db [] = db) as ->.
    { apply canon_ext; auto using canon_mul. - apply canon_mul. exact I.
      - intros m. rewrite coef_mul. cbn [coef]. lia. }
    reflexivity.
  - rewrite !Qred_correct. change (q1 ^ 1) with q1. change (q2 ^ 1) with q2. rewrite Ea, Eb. ring.
Qed.

Lemma means_canon reg n q d : good_registry reg -> means reg n q d -> canon d.
Proof. intros G (fu & q' & R & _). apply (good_name reg G) in R. apply R. Qed.

(** Factors of the table are positive. *)
Definition good_gas (e : string * gas) : Prop :=
  match snd e with GBase _ => True | GDerived k _ _ => 0 < k end.

Lemma good_add_gases gs : forall reg, good_registry reg -> Forall good_gas gs -> good_registry (add_gases reg gs).
Proof.
  induction gs as [|e gs IH]; intros reg G F; simpl; auto.
  inversion F; subst. apply IH; auto. rewrite add_gas_defs. unfold good_registry in *.
  apply Forall_app. split; auto. apply Forall_rev.
  destruct e as [s [v|k r al]]; unfold entry_defs; apply Forall_app; split.
  - constructor; [exact I|]. destruct (String.eqb v s); repeat constructor.
  - destruct (String.eqb (upper s) s); repeat constructor.
  - constructor; [exact H1|]. apply Forall_forall. intros x I. apply in_map_iff in I.
    destruct I as (a & <- & _). reflexivity.
  - destruct (String.eqb (upper s) s); repeat constructor.
Qed.

Lemma C37_any_proof reg gs1 s g gs2 :
  let reg' := add_gases reg (gs1 ++ (s, g) :: gs2) in
  good_registry reg' ->
  NoDup (defined_names (s, g)) ->
  (forall e, In e gs2 -> forall n, In n (defined_names (s, g)) -> ~ In n (defined_names e)) ->
  (forall v, g = GBase v -> means reg' s 1 [(v, 1%Z)]) /\
  (forall k r al q d, g = GDerived k r al -> means reg' r q d -> means reg' s (k * q) d) /\
  (forall n q d, In n (gas_names (s, g)) -> means reg' s q d -> means reg' n q d) /\
  (forall m n qm dm q d, m = "g" \/ m = "t" -> In n (joinable (s, g)) ->
     means reg' m qm dm -> means reg' s q d -> means reg' (m ++ n) (qm * q) (dim_mul 1 dm d)).
Proof.
  intros reg' G N H.
  assert (L : forall n v, In (n, v) (entry_defs (s, g)) -> alookup n reg' = Some v).
  { intros n v I. unfold reg'. now apply lookup_entry. }
  assert (Alias : forall n q d, In (alias_of s n) (entry_defs (s, g)) -> means reg' s q d -> means reg' n q d).
  { intros n q d I M. apply L in I. pose proof (means_canon _ _ _ _ G M).
    destruct (means_deriv _ _ _ _ _ _ I M H0) as (fu & q' & R & E). exists fu, q'. split; auto.
    rewrite E. ring. }
  assert (Names : forall n q d, In n (gas_names (s, g)) -> means reg' s q d -> means reg' n q d).
  { intros n q d I M. unfold gas_names in I. simpl in I. destruct I as [<-|[<-|I]]; auto.
    - destruct (String.eqb_spec (upper s) s) as [->|Ne]; auto. apply Alias; auto.
      unfold entry_defs. apply in_or_app. right. right. right.
      destruct (String.eqb_spec (upper s) s); [contradiction|now left].
    - destruct g as [v|k r al].
      + destruct I as [<-|[]]. destruct (String.eqb_spec v s) as [->|Ne]; auto.
        apply Alias; auto. unfold entry_defs. apply in_or_app. left. right.
        destruct (String.eqb_spec v s); [contradiction|now left].
      + apply Alias; auto. unfold entry_defs. apply in_or_app. left. right. now apply in_map. }
  repeat split; auto.
  - intros v ->. apply means_base. apply L. unfold entry_defs. now left.
  - intros k r al q d -> M. eapply means_deriv; eauto; [|eapply means_canon; eauto].
    apply L. unfold entry_defs. now left.
  - intros m n qm dm q d Hm I Mm M.
    assert (Mn : means reg' n q d).
    { apply Names; auto. unfold joinable, gas_names in *. simpl in *. tauto. }
    eapply means_joint; eauto using means_canon.
    apply L. unfold joinable in I. simpl in I.
    assert (J : In (joint_of m s) (entry_defs (s, g))).
    { unfold entry_defs. apply in_or_app. right. destruct Hm; subst; [now left|right; now left]. }
    destruct I as [<-|[<-|[]]]; auto.
    destruct (String.eqb_spec (upper s) s) as [E|Ne]; [now rewrite E|].
    unfold entry_defs. apply in_or_app. right. right. right.
    destruct (String.eqb_spec (upper s) s); [contradiction|]. destruct Hm; subst; simpl; auto.
Qed.
